(** PortElts.v -- C49, C50: what the ports, switchPorts, mappings and rules of a composition
    become in the cache. *)
From Verif Require Import BuildOps ParserFrame.
From Verif Require Export PortFrame PortUniq PortSpec.
Open Scope string_scope.
Open Scope list_scope.

Definition nodeAs (s : pst) (y : xml) (m : nid) : Prop := exists e, p_cache s !! m = Some e /\ el_tag e = x_tag y /\ x_tag y <> "descriptor" /\ forall k, attr e k = aget k (x_attrs y).
Lemma nodeAs_lf X s s' y m : cinv s -> lf X s s' -> nodeAs s y m -> nodeAs s' y m.
Proof.
  intros C L (e & He & Ht & Hd & Ha). destruct (lf_ident _ _ _ _ _ L He) as (e' & He' & Hi); [apply (C _ _ He)|].
  exists e'. split; [done|]. split; [by rewrite (ident_tag _ _ Hi)|]. split; [done|]. intros k. rewrite (ident_attr _ _ _ Hi); [done|by rewrite Ht].
Qed.
(** ** Elements without children that are added to their parent. *)
Definition hookTags : list string := ["port"; "mapping"; "bindRule"; "defaultComponent"].
Definition hookOk (x : string * syn) : bool := forallb (fun t => negb (mem t hookTags)) (sy_parents (snd x)).
Lemma hookOk_all : forallb hookOk syntax = true. Proof. vm_compute. reflexivity. Qed.
Lemma hook_kids collect up x s sy attrs s' : checked collect up x s sy attrs s' -> mem (x_tag x) hookTags = true -> x_kids x = [].
Proof.
  intros C Hl. destruct (x_kids x) as [|y l] eqn:E; [done|]. pose proof (ck_kids _ _ _ _ _ _ _ C y) as H. rewrite E in H. specialize (H ltac:(left)). unfold possibleChild, synOf in H. destruct (look (x_tag y) syntax) as [sy'|] eqn:Es; [|done].
  apply look_some in Es. pose proof (forall_elem _ _ _ hookOk_all Es) as F. unfold hookOk in F. cbn [snd] in F. apply mem_spec in H. pose proof (forall_elem _ _ _ F H) as F'. cbv beta in F'. rewrite Hl in F'. done.
Qed.
Definition isRuleTag (y : xml) : bool := String.eqb (x_tag y) "bindRule" || String.eqb (x_tag y) "defaultComponent".
(** How the parent changes. *)
Inductive hooked (y : xml) (m : nid) (ue : elt) : elt -> Prop :=
| Hk_port l i : x_tag y = "port" -> el_ports ue = Some l -> aget "id" (x_attrs y) = Some i -> hooked y m ue (el_set_ports (l ++ [i]) ue)
| Hk_map l : x_tag y = "mapping" -> el_maps ue = Some l -> hooked y m ue (el_set_maps (l ++ [m]) ue)
| Hk_rule l : isRuleTag y = true -> el_rules ue = Some l -> hooked y m ue (el_set_rules (l ++ [(m, None)]) ue).
Lemma hook_ok E k u t x s ue : cinv s -> Par s (Some (u, t)) -> p_alias s = [] -> mem (x_tag x) hookTags = true -> p_cache s !! u = Some ue ->
  pw (processNode E k (Some (u, t)) x) (fun _ s' => nodeAs s' x (p_next s) /\ exists ue', p_cache s' !! u = Some ue' /\ hooked x (p_next s) ue ue') s.
Proof.
  intros C Hp Ha Hx Hu. destruct k as [|k]; [apply pw_nofuel|]. apply process_rule; [done|done|]. intros sy attrs s1 K1. rewrite (hook_kids _ _ _ _ _ _ _ K1 Hx).
  destruct (checked_fresh _ _ _ _ _ _ _ K1) as (Hn & _ & Hc & _). set (s2 := p_set_next _ _) in *. rewrite Hn in *.
  assert (Hlt : (u < p_next s)%positive) by apply (C _ _ Hu). destruct (C _ _ Hu) as (_ & En & _).
  set (e0 := newElt _ _ _ _). assert (Ht : x_tag x <> "link" /\ x_tag x <> "descriptor") by (split; intros Hz; rewrite Hz in Hx; discriminate Hx). destruct Ht as [Ht Ht'].
  assert (S : forall q, attr e0 q = aget q (x_attrs x)) by (intros q; apply (checked_same _ _ _ _ _ _ e0 K1); [done|done|by right]).
  assert (Fin : forall f, (forall ue', p_cache s !! u = Some ue' -> hooked x (p_next s) ue' (f ue')) -> sy_cache sy = true -> sy_pop sy = PoNone ->
     pw (eupd (el_node ue) f ;;; pret e0) (fun e s3 => pw (pwhen (sy_cache sy) (cacheAdd e)) (fun _ s4 => post s s4 -> Par s4 (Some (p_next s, x_tag x)) -> pw (peach (processNode E k (Some (p_next s, x_tag x))) [])
       (fun _ s5 => pw (pop E (Datatypes.S k) (sy_pop sy) (p_next s)) (fun _ s' => nodeAs s' x (p_next s) /\ exists ue', p_cache s' !! u = Some ue' /\ hooked x (p_next s) ue ue') s5) s4) s3) s2).
  { intros f Hf -> ->. p1. rewrite En. apply pw_eupd. intros ue' Hue'. rewrite Hc, Hu in Hue'. injection Hue' as <-. p1. cbn [pwhen]. unfold cacheAdd. repeat p1. intros _ _. cbn [peach]. p1. cbn [pop]. p1.
    split; [exists e0; split; [cbn; by rewrite lookup_insert|split; [done|split; [done|exact S]]]|]. exists (f ue). split; [cbn; rewrite lookup_insert_ne by (cbn; lia); by rewrite lookup_insert|]. by apply Hf. }
  pose proof (ck_syn _ _ _ _ _ _ _ K1) as Es. assert (D : x_tag x = "port" \/ x_tag x = "mapping" \/ x_tag x = "bindRule" \/ x_tag x = "defaultComponent") by (apply mem_spec in Hx; unfold hookTags in Hx; set_solver).
  destruct D as [D|[D|[D|D]]]; (assert (Es' := Es); rewrite D in Es'; vm_compute in Es'; injection Es' as <-; cbn [push]).
  - unfold pushPort. apply pw_bind, pw_attr. intros i Hi. apply pw_bind, pw_parent. intros n ue' Hn' Hue'. cbn in Hn'. injection Hn' as <-. rewrite Hc, Hu in Hue'. injection Hue' as <-. apply pw_bind, pw_udata. intros l Hl.
    apply Fin; try done. intros ue' Hue'. assert (ue' = ue) as -> by congruence. apply Hk_port; [done|done|]. by rewrite <- S.
  - unfold pushMapping. apply pw_bind, pw_attr. intros i Hi. apply pw_bind, pw_parent. intros n ue' Hn' Hue'. cbn in Hn'. injection Hn' as <-. rewrite Hc, Hu in Hue'. injection Hue' as <-. apply pw_bind, pw_udata. intros l Hl.
    apply Fin; try done. intros ue' Hue'. assert (ue' = ue) as -> by congruence. by apply Hk_map.
  - unfold pushBindRule. apply pw_bind. assert (Et : String.eqb (el_tag e0) "bindRule" = true) by (cbn [el_tag newElt e0]; by rewrite D). rewrite Et. apply pw_bind, pw_attr. intros i Hi. apply pw_attr. intros j Hj. apply pw_bind, pw_parent. intros n ue' Hn' Hue'. cbn in Hn'. injection Hn' as <-. rewrite Hc, Hu in Hue'. injection Hue' as <-. apply pw_bind, pw_udata. intros l Hl.
    apply Fin; try done. intros ue' Hue'. assert (ue' = ue) as -> by congruence. apply Hk_rule; [|done]. unfold isRuleTag. by rewrite D.
  - unfold pushBindRule. apply pw_bind. assert (Et : String.eqb (el_tag e0) "bindRule" = false) by (cbn [el_tag newElt e0]; by rewrite D). rewrite Et. apply pw_attr. intros j Hj. apply pw_bind, pw_parent. intros n ue' Hn' Hue'. cbn in Hn'. injection Hn' as <-. rewrite Hc, Hu in Hue'. injection Hue' as <-. apply pw_bind, pw_udata. intros l Hl.
    apply Fin; try done. intros ue' Hue'. assert (ue' = ue) as -> by congruence. apply Hk_rule; [|done]. unfold isRuleTag. by rewrite D.
Qed.

(** ** switchPort. *)
Definition swpAt (s : pst) (y : xml) (m : nid) : Prop := nodeAs s y m /\ exists e l, p_cache s !! m = Some e /\ el_maps e = Some l /\ Forall2 (nodeAs s) (mappingsOf y) l.
Lemma swpAt_step X Y s s' y m : cinv s -> lf X s s' -> af Y s s' -> ~ Y m -> swpAt s y m -> swpAt s' y m.
Proof.
  intros C L A HY (HN & e & l & He & Hl & HF). split; [by eapply nodeAs_lf|]. destruct (af_get _ _ _ _ _ A He) as (e' & He' & Ea); [apply (C _ _ He)|done|]. exists e', l. split; [done|]. unfold att in Ea. split; [congruence|].
  eapply Forall2_impl; [exact HF|]. intros. by eapply nodeAs_lf.
Qed.
Definition mapOnly (x : string * syn) : bool := negb (mem "switchPort" (sy_parents (snd x))) || String.eqb (fst x) "mapping".
Lemma mapOnly_all : forallb mapOnly syntax = true. Proof. vm_compute. reflexivity. Qed.
Lemma map_kid c : possibleChild "switchPort" c = true -> c = "mapping".
Proof.
  intros H. unfold possibleChild, synOf in H. destruct (look c syntax) as [sy|] eqn:Es; [|done]. apply look_some in Es. pose proof (forall_elem _ _ _ mapOnly_all Es) as F. unfold mapOnly in F. cbn [fst snd] in F. rewrite H in F. by apply String.eqb_eq in F.
Qed.
Lemma filter_snoc {A} (f : A -> bool) l y : List.filter f (l ++ [y]) = List.filter f l ++ (if f y then [y] else []).
Proof. rewrite List.filter_app. cbn [List.filter]. by destruct (f y). Qed.
Lemma swport_ok E k u t x s ue : cinv s -> Par s (Some (u, t)) -> p_alias s = [] -> x_tag x = "switchPort" -> p_cache s !! u = Some ue ->
  pw (processNode E k (Some (u, t)) x) (fun _ s' => swpAt s' x (p_next s) /\ exists ue' l i, p_cache s' !! u = Some ue' /\ el_swports ue = Some l /\ aget "id" (x_attrs x) = Some i /\ el_swports ue' = Some (l ++ [i]) /\ el_ports ue' = el_ports ue /\ el_rules ue' = el_rules ue) s.
Proof.
  intros C Hp Ha Hx Hu. destruct k as [|k]; [apply pw_nofuel|]. apply process_rule; [done|done|]. intros sy attrs s1 K1.
  assert (Es : sy_push sy = PuSwitchPort /\ sy_pop sy = PoNone /\ sy_cache sy = true). { pose proof (ck_syn _ _ _ _ _ _ _ K1) as Es. rewrite Hx in Es; vm_compute in Es; injection Es as <-; done. }
  destruct Es as (-> & -> & ->). destruct (checked_fresh _ _ _ _ _ _ _ K1) as (Hn & Hn2 & Hc & _ & Hcn & _ & _ & Ha2). set (s2 := p_set_next _ _) in *. rewrite Hn in *. set (e0 := newElt _ _ _ _).
  assert (Hlt : (u < p_next s)%positive) by apply (C _ _ Hu). destruct (C _ _ Hu) as (_ & En & _).
  assert (S : forall q, attr e0 q = aget q (x_attrs x)) by (intros q; apply (checked_same _ _ _ _ _ _ e0 K1); [done|done|right; by rewrite Hx]).
  cbn [push]. unfold pushSwitchPort. apply pw_bind, pw_attr. intros i Hi. apply pw_bind, pw_parent. intros n ue' Hn' Hue'. cbn in Hn'. injection Hn' as <-. rewrite Hc, Hu in Hue'. injection Hue' as <-. apply pw_bind, pw_udata. intros l Hl.
  p1. rewrite En. apply pw_eupd. intros ue' Hue'. rewrite Hc, Hu in Hue'. injection Hue' as <-.
  p1. cbn [pwhen]. unfold cacheAdd. repeat p1. set (s4 := p_set_order _ _). intros P4 Pr4.
  assert (Hu4 : p_cache s4 !! u = Some (el_set_swports (l ++ [i]) ue)) by (unfold s4; cbn; rewrite lookup_insert_ne by (cbn; lia); by rewrite lookup_insert).
  set (e4 := el_set_maps [] e0). assert (Hn4 : p_cache s4 !! p_next s = Some e4) by (unfold s4; cbn; by rewrite lookup_insert).
  eapply pw_mono; [apply (kids_rule E k _ _ _ s4 (fun r s' => cinv s' /\ p_alias s' = [] /\ nodeAs s' x (p_next s) /\ (exists p e l', x_kids x = p ++ r /\ p_cache s' !! p_next s = Some e /\ el_maps e = Some l' /\ Forall2 (nodeAs s') (List.filter (tagIs "mapping") p) l') /\
     exists ue', p_cache s' !! u = Some ue' /\ el_swports ue' = Some (l ++ [i]) /\ el_ports ue' = el_ports ue /\ el_rules ue' = el_rules ue)); [apply P4|done| |]|].
  - split; [apply P4|]. split; [change (p_alias s2 = []); congruence|]. split; [exists e4; split; [done|split; [done|split; [by rewrite Hx|exact S]]]|]. split; [exists [], e4, []; split; [done|]; split; [done|]; split; [done|constructor]|]. eexists. split; [exact Hu4|]. done.
  - intros y l' s' [p0 Hp0] C' Hp' (_ & A' & N' & (p & e & l0 & Hpl & He & Hm & HF) & (ue' & Hu' & B1 & B2 & B3)).
    assert (Hy : x_tag y = "mapping"). { assert (Hin : y ∈ x_kids x) by (rewrite Hp0; apply in_mid). pose proof (ck_kids _ _ _ _ _ _ _ K1 y Hin) as Hy. rewrite Hx in Hy. by apply map_kid. }
    eapply pw_mono; [apply pw_conj; [by apply process_post|apply pw_conj; [apply process_ids|apply pw_conj; [by apply process_lf|apply pw_conj; [by apply process_af|apply (hook_ok E k (p_next s) (x_tag x) y s' e); try done; by rewrite Hy]]]]|].
    intros [] s'' [[P'' _] [(J1 & _) [[L'' O''] [F'' (HN & e2 & He2 & HH)]]]]. split; [apply P''|]. split; [congruence|]. split; [by eapply nodeAs_lf|]. split.
    + assert (el_maps e2 = Some (l0 ++ [p_next s'])) as Hm2. { destruct HH as [l1 i1 H1|l1 H1 H2|l1 H1]; [congruence|cbn; congruence|unfold isRuleTag in H1; rewrite Hy in H1; discriminate H1]. }
      exists (p ++ [y]), e2, (l0 ++ [p_next s']). split; [by rewrite <- app_assoc|]. split; [done|]. split; [done|]. rewrite filter_snoc. unfold tagIs at 2. rewrite Hy. apply Forall2_app; [|by constructor; [|constructor]]. eapply Forall2_impl; [exact HF|]. intros. by eapply nodeAs_lf.
    + destruct (af_get _ _ _ u _ F'' Hu') as (ue'' & Hu'' & Hco); [apply (C' _ _ Hu')| |exists ue''; split; [done|]; unfold att in Hco; repeat split; congruence]. intros [Ho _]. unfold upAt in Ho. cbn in Ho. injection Ho as <-. lia.
  - intros [] s5 (C5 & A5 & N5 & (p & e & l' & Hpl & He & Hm & HF) & ue5 & Hue5 & B). cbv beta in *. cbn [pop]. p1. rewrite app_nil_r in Hpl. subst p. split; [|exists ue5, l, i; split; [done|]; split; [done|]; split; [by rewrite <- S|done]].
    split; [done|]. exists e, l'. done.
Qed.

(** ** The list kept for a composition while its children are read. *)
Record compAt (s : pst) (x : xml) (p : list xml) (n : nid) : Prop := mkCA {
  ca_as : nodeAs s x n;
  ca_ports : x_tag x = "body" \/ x_tag x = "context" -> exists e l, p_cache s !! n = Some e /\ el_ports e = Some l /\ Forall2 (fun y i => aget "id" (x_attrs y) = Some i /\ exists m, nodeAs s y m) (List.filter (tagIs "port") p) l;
  ca_swports : x_tag x = "switch" -> exists e l, p_cache s !! n = Some e /\ el_swports e = Some l /\ Forall2 (fun y i => aget "id" (x_attrs y) = Some i /\ exists m, swpAt s y m /\ (n < m)%positive) (List.filter (tagIs "switchPort") p) l;
  ca_rules : x_tag x = "switch" -> exists e l, p_cache s !! n = Some e /\ el_rules e = Some l /\ Forall2 (fun y r => snd r = None /\ nodeAs s y (fst r)) (List.filter isRuleTag p) l }.
Lemma comp_kid E k x p n y s : cinv s -> Par s (Some (n, x_tag x)) -> p_alias s = [] -> compAt s x p n -> (n < p_next s)%positive ->
  pw (processNode E k (Some (n, x_tag x)) y) (fun _ s' => compAt s' x (p ++ [y]) n) s.
Proof.
  intros C Hp Ha CA Hn. destruct (ca_as _ _ _ _ CA) as (ue & Hue & _).
  assert (B : forall s' ue', cinv s' -> lfp (Some (n, x_tag x)) s s' -> af (grew (Some (n, x_tag x)) y) s s' -> p_cache s' !! n = Some ue' ->
     (el_ports ue' = el_ports ue /\ x_tag y <> "port" \/ exists l i, el_ports ue = Some l /\ el_ports ue' = Some (l ++ [i]) /\ aget "id" (x_attrs y) = Some i /\ x_tag y = "port" /\ nodeAs s' y (p_next s)) ->
     (el_swports ue' = el_swports ue /\ x_tag y <> "switchPort" \/ exists l i, el_swports ue = Some l /\ el_swports ue' = Some (l ++ [i]) /\ aget "id" (x_attrs y) = Some i /\ x_tag y = "switchPort" /\ swpAt s' y (p_next s)) ->
     (el_rules ue' = el_rules ue /\ isRuleTag y = false \/ exists l, el_rules ue = Some l /\ el_rules ue' = Some (l ++ [(p_next s, None)]) /\ isRuleTag y = true /\ nodeAs s' y (p_next s)) -> compAt s' x (p ++ [y]) n).
  { intros s' ue' C' [L _] F Hue' D1 D2 D3. destruct CA as [CA1 CA2 CA3 CA4]. split.
    - exact (nodeAs_lf _ _ _ _ _ C L CA1).
    - intros Hx. destruct (CA2 Hx) as (e & l & He & Hl & HF). assert (e = ue) as -> by congruence. rewrite filter_snoc. unfold tagIs at 2.
      assert (HF' : Forall2 (fun y i => aget "id" (x_attrs y) = Some i /\ exists m, nodeAs s' y m) (List.filter (tagIs "port") p) l) by (eapply Forall2_impl; [exact HF|]; intros z i [H1 (m & H2)]; split; [done|]; exists m; exact (nodeAs_lf _ _ _ _ _ C L H2)).
      destruct D1 as [[D1 D1']|(l1 & i & D1 & D1' & Di & Dt & DN)].
      + exists ue', l. split; [done|]. split; [congruence|]. destruct (String.eqb_spec (x_tag y) "port"); [done|]. by rewrite app_nil_r.
      + exists ue', (l ++ [i]). assert (l1 = l) as -> by congruence. split; [done|]. split; [done|]. rewrite Dt. cbn [String.eqb Ascii.eqb Bool.eqb]. apply Forall2_app; [done|]. constructor; [|constructor]. split; [done|]. eauto.
    - intros Hx. destruct (CA3 Hx) as (e & l & He & Hl & HF). assert (e = ue) as -> by congruence. rewrite filter_snoc. unfold tagIs at 2.
      assert (HF' : Forall2 (fun y i => aget "id" (x_attrs y) = Some i /\ exists m, swpAt s' y m /\ (n < m)%positive) (List.filter (tagIs "switchPort") p) l).
      { eapply Forall2_impl; [exact HF|]. intros z i [H1 (m & H2 & H3)]. split; [done|]. exists m. split; [|done]. eapply swpAt_step; [exact C|exact L|exact F| |done]. intros [Hq _]. unfold upAt in Hq. cbn in Hq. injection Hq as <-. lia. }
      clear D1; destruct D2 as [[D1 D1']|(l1 & i & D1 & D1' & Di & Dt & DN)].
      + exists ue', l. split; [done|]. split; [congruence|]. destruct (String.eqb_spec (x_tag y) "switchPort"); [done|]. by rewrite app_nil_r.
      + exists ue', (l ++ [i]). assert (l1 = l) as -> by congruence. split; [done|]. split; [done|]. rewrite Dt. cbn [String.eqb Ascii.eqb Bool.eqb]. apply Forall2_app; [done|]. constructor; [|constructor]. split; [done|]. exists (p_next s). split; [done|]. lia.
    - intros Hx. destruct (CA4 Hx) as (e & l & He & Hl & HF). assert (e = ue) as -> by congruence. rewrite filter_snoc.
      assert (HF' : Forall2 (fun y r => snd r = None /\ nodeAs s' y (fst r)) (List.filter isRuleTag p) l) by (eapply Forall2_impl; [exact HF|]; intros z i [H1 H2]; split; [done|]; exact (nodeAs_lf _ _ _ _ _ C L H2)).
      clear D1; destruct D3 as [[D1 D1']|(l1 & D1 & D1' & Dt & DN)].
      + exists ue', l. split; [done|]. split; [congruence|]. rewrite D1'. by rewrite app_nil_r.
      + exists ue', (l ++ [(p_next s, None)]). assert (l1 = l) as -> by congruence. split; [done|]. split; [done|]. rewrite Dt. apply Forall2_app; [done|]. constructor; [|constructor]. split; [done|]. exact DN. }
  destruct (mem (x_tag y) hookTags) eqn:Eh; [|destruct (String.eqb_spec (x_tag y) "switchPort") as [Ey|Ey]].
  - eapply pw_mono; [apply pw_conj; [by apply process_post|apply pw_conj; [by apply process_lf|apply pw_conj; [by apply process_af|by apply hook_ok]]]|]. intros [] s' [[P' _] [L [F (HN & ue' & Hue' & HH)]]]. apply (B s' ue'); [apply P'|done|done|done| | |].
    all: destruct HH as [l1 i1 H1 H2 H3|l1 H1 H2|l1 H1 H2]; cbn; rewrite ?H1; unfold isRuleTag in *; rewrite ?H1.
    all: try (left; split; [done|]; intros Hz; rewrite Hz in H1; discriminate H1); try (left; done).
    + right. exists l1, i1. done.
    + right. exists l1. done.
  - eapply pw_mono; [apply pw_conj; [by apply process_post|apply pw_conj; [by apply process_lf|apply pw_conj; [by apply process_af|by apply swport_ok]]]|]. intros [] s' [[P' _] [L [F (HN & ue' & l & i & Hue' & H1 & H2 & H3 & H4 & H5)]]]. apply (B s' ue'); [apply P'|done|done|done| | |].
    + left. split; [done|]. by rewrite Ey.
    + right. exists l, i. done.
    + left. split; [done|]. unfold isRuleTag. by rewrite Ey.
  - eapply pw_mono; [apply pw_conj; [by apply process_post|apply pw_conj; [by apply process_lf|by apply process_af]]|]. intros [] s' [[P' _] [L F]].
    assert (Hm : mem (x_tag y) attTags <> true). { intros Hm. apply mem_spec in Hm. unfold attTags in Hm. assert (D : x_tag y = "switchPort" \/ mem (x_tag y) hookTags = true). { rewrite mem_spec. unfold hookTags. clear -Hm. set_solver. } destruct D as [D|D]; [done|congruence]. }
    destruct (af_get _ _ _ n _ F Hue) as (ue' & Hue' & Ea); [done|intros [_ Hq]; done|]. unfold att in Ea. injection Ea as E1 E2 E3 E4.
    assert (Hh : x_tag y ∉ hookTags) by (rewrite <- mem_spec; congruence). unfold hookTags in Hh.
    apply (B s' ue'); [apply P'|done|done|done| | |]; left; (split; [done|]).
    + intros Hz. apply Hh. rewrite Hz. left.
    + done.
    + unfold isRuleTag. destruct (String.eqb_spec (x_tag y) "bindRule") as [Hz|_]; [exfalso; apply Hh; rewrite Hz; set_solver|]. destruct (String.eqb_spec (x_tag y) "defaultComponent") as [Hz|_]; [exfalso; apply Hh; rewrite Hz; set_solver|done].
Qed.

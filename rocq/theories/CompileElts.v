(** CompileElts.v -- C42: what the elements of connectors and links become. *)
From Verif Require Import BuildOps ParserFrame.
From Verif Require Export CompileProc CompileSpec TreePush.
Open Scope string_scope.
Open Scope list_scope.

(** ** Lists of parameters. *)
Definition paramIn (l : list xml) (n : string) : option string := option_map (attrOf "value") (List.last (map Some (List.filter (isParam n) l)) None).
Lemma last_snoc {A} (l : list A) x d : List.last (l ++ [x]) d = x.
Proof. induction l as [|y l IH]; [done|]. change ((y :: l) ++ [x]) with (y :: (l ++ [x])). cbn [List.last]. rewrite IH. by destruct l. Qed.
Lemma paramIn_snoc l y n : paramIn (l ++ [y]) n = if isParam n y then Some (attrOf "value" y) else paramIn l n.
Proof. unfold paramIn. rewrite List.filter_app, map_app. cbn [List.filter]. destruct (isParam n y); cbn [map]; [by rewrite last_snoc|by rewrite app_nil_r]. Qed.

Lemma in_mid {A} (y : A) p l : y ∈ p ++ y :: l. Proof. apply elem_of_app. right. left. Qed.

(** ** Attributes. *)
Definition same_attrs (x : xml) (e : elt) : Prop := forall k, (k <> "id" \/ x_tag x <> "link") -> attr e k = aget k (x_attrs x).
Lemma same_attr0 x e k : same_attrs x e -> (k <> "id" \/ x_tag x <> "link") -> attr0 e k = attrOf k x.
Proof. intros H Hk. unfold attr0, attrOf. by rewrite H. Qed.
Definition genLink (x : string * syn) : bool := negb (sy_genid (snd x)) || String.eqb (fst x) "link".
Lemma genLink_all : forallb genLink syntax = true. Proof. vm_compute. reflexivity. Qed.
Lemma gen_link t sy : synOf t = Some sy -> sy_genid sy = true -> t = "link".
Proof. intros H G. apply look_some in H. pose proof (forall_elem _ _ _ genLink_all H) as F. unfold genLink in F. cbn [fst snd] in F. rewrite G in F. by apply String.eqb_eq in F. Qed.
Lemma checked_same up x s sy attrs s' e : checked true up x s sy attrs s' -> p_alias s = [] -> el_attrs e = attrs -> same_attrs x e.
Proof.
  intros C Ha Ee k Hk. unfold attr. rewrite Ee. clear Ee e.
  assert (Hg : ~ (k = "id" /\ sy_genid sy = true)). { intros [-> Hg]. destruct Hk as [Hk|Hk]; [done|]. apply Hk. by eapply gen_link; [apply C|]. }
  destruct (sget k attrs) as [v|] eqn:H.
  - destruct (ck_get _ _ _ _ _ _ _ C _ _ H) as (f & _ & Hv). destruct (aget k (x_attrs x)) as [w|]; [|by destruct Hg]. by rewrite Hv, Ha, pfx_nil.
  - destruct (aget k (x_attrs x)) as [w|] eqn:Hw; [|done]. destruct (ck_known _ _ _ _ _ _ _ C eq_refl _ _ (aget_in _ _ _ Hw)) as [f Hf]. destruct (ck_has _ _ _ _ _ _ _ C _ _ Hf ltac:(by eexists)) as [w' Hw']. congruence.
Qed.
Lemma pw_top {A} (m : P A) s : pw m (fun _ _ => True) s. Proof. unfold pw. by destruct (m s). Qed.

(** ** Elements without children. *)
Definition leafTags : list string := ["linkParam"; "bindParam"; "port"; "simpleCondition"; "simpleAction"; "attributeAssessment"; "valueAssessment"; "connectorParam"].
Definition leafOk (x : string * syn) : bool := forallb (fun t => negb (mem t leafTags)) (sy_parents (snd x)).
Lemma leafOk_all : forallb leafOk syntax = true. Proof. vm_compute. reflexivity. Qed.
Lemma leaf_kids collect up x s sy attrs s' : checked collect up x s sy attrs s' -> mem (x_tag x) leafTags = true -> x_kids x = [].
Proof.
  intros C Hl. destruct (x_kids x) as [|y l] eqn:E; [done|]. pose proof (ck_kids _ _ _ _ _ _ _ C y) as H. rewrite E in H. specialize (H ltac:(left)). unfold possibleChild, synOf in H. destruct (look (x_tag y) syntax) as [sy'|] eqn:Es; [|done].
  apply look_some in Es. pose proof (forall_elem _ _ _ leafOk_all Es) as F. unfold leafOk in F. cbn [snd] in F. apply mem_spec in H. pose proof (forall_elem _ _ _ F H) as F'. cbv beta in F'. rewrite Hl in F'. done.
Qed.
(** What the steps before the push function do. *)
Definition fresh2 (s s2 : pst) : Prop := p_next s2 = Pos.succ (p_next s) /\ p_cache s2 = p_cache s /\ p_order s2 = p_order s /\ p_conn s2 = p_conn s /\ p_objs s2 = p_objs s /\ p_graph s2 = p_graph s /\ p_alias s2 = p_alias s.
Lemma checked_fresh collect up x s sy attrs s1 : checked collect up x s sy attrs s1 -> p_next s1 = p_next s /\ fresh2 s (p_set_next (Pos.succ (p_next s1)) s1).
Proof. intros C. destruct (ck_state _ _ _ _ _ _ _ C) as [g ->]. done. Qed.

(** ** linkParam and bindParam. *)
Definition isPar (x : xml) : Prop := x_tag x = "linkParam" \/ x_tag x = "bindParam".
Lemma param_ok E k u t x s ue l : cinv s -> Par s (Some (u, t)) -> p_alias s = [] -> isPar x -> p_cache s !! u = Some ue -> el_params ue = Some l ->
  pw (processNode E k (Some (u, t)) x) (fun _ s' => exists v n, aget "name" (x_attrs x) = Some n /\ aget "value" (x_attrs x) = Some v /\ p_cache s' !! u = Some (el_set_params (sset n v l) ue)) s.
Proof.
  intros C Hp Ha Hx Hu Hl. destruct k as [|k]; [apply pw_nofuel|]. apply process_rule; [done|done|]. intros sy attrs s1 K1.
  assert (Hk : x_kids x = []) by (eapply leaf_kids; [exact K1|]; destruct Hx as [-> | ->]; done). rewrite Hk.
  assert (Es : sy_push sy = PuLinkParam /\ sy_pop sy = PoNone /\ sy_cache sy = false). { pose proof (ck_syn _ _ _ _ _ _ _ K1) as Es. destruct Hx as [Ht|Ht]; rewrite Ht in Es; vm_compute in Es; injection Es as <-; done. }
  destruct Es as (-> & -> & ->). destruct (checked_fresh _ _ _ _ _ _ _ K1) as (Hn & _ & Hc & _). set (s2 := p_set_next _ _) in *.
  cbn [push]. unfold pushLinkParam. apply pw_bind, pw_attr. intros nm Hnm. apply pw_bind, pw_attr. intros v Hv. p1. apply pw_parent. intros n ue' Hn' Hue'. cbn in Hn'. injection Hn' as <-. rewrite Hc, Hu in Hue'. injection Hue' as <-.
  p1. apply pw_udata. intros l' Hl'. assert (l' = l) as -> by congruence. p1. destruct (C _ _ Hu) as (_ & En & _). rewrite En. apply pw_eupd. intros ue' Hue'. rewrite Hc, Hu in Hue'. injection Hue' as <-.
  p1. cbn [pwhen]. p1. intros _ _. cbn [peach]. p1. cbn [pop]. p1.
  assert (S : same_attrs x (newElt (x_tag x) (p_next s1) (option_map fst (Some (u, t))) attrs)) by (eapply checked_same; [exact K1|done|done]).
  exists v, nm. split; [rewrite <- (S "name"); [done|by left]|]. split; [rewrite <- (S "value"); [done|by left]|]. cbn. by rewrite lookup_insert.
Qed.
Lemma param_step y nm v m p : isPar y -> aget "name" (x_attrs y) = Some nm -> aget "value" (x_attrs y) = Some v -> (if String.eqb nm m then Some v else paramIn p m) = paramIn (p ++ [y]) m.
Proof.
  intros Hy Hn Hv. rewrite paramIn_snoc. unfold isParam, tagIs, attrOf. rewrite Hn, Hv.
  assert ((String.eqb (x_tag y) "linkParam" || String.eqb (x_tag y) "bindParam") = true) as -> by (destruct Hy as [-> | ->]; done).
  change (default "" (Some nm)) with nm. change (default "" (Some v)) with v. by destruct (String.eqb nm m).
Qed.

(** ** bind. *)
Definition bindAt (s : pst) (b : xml) (m : nid) : Prop := exists e l, p_cache s !! m = Some e /\ el_tag e = "bind" /\ (forall k, attr e k = aget k (x_attrs b)) /\ el_params e = Some l /\ forall n, sget n l = paramOf b n.
Lemma possible_parent t c sy : synOf c = Some sy -> possibleChild t c = true -> t ∈ sy_parents sy.
Proof. intros E H. unfold possibleChild in H. rewrite E in H. by apply mem_spec in H. Qed.
Definition kidTable : list (string * list string) := [("bind", ["bindParam"]); ("link", ["bind"; "linkParam"]); ("connectorBase", ["importBase"; "causalConnector"])].
Definition kidOk (x : string * syn) : bool := forallb (fun q : string * list string => negb (mem (fst q) (sy_parents (snd x))) || mem (fst x) (snd q)) kidTable.
Lemma kidOk_all : forallb kidOk syntax = true. Proof. vm_compute. reflexivity. Qed.
Lemma kid_tag t c l : possibleChild t c = true -> (t, l) ∈ kidTable -> c ∈ l.
Proof.
  intros H Hl. unfold possibleChild, synOf in H. destruct (look c syntax) as [sy|] eqn:Es; [|done]. apply look_some in Es. pose proof (forall_elem _ _ _ kidOk_all Es) as F. unfold kidOk in F. cbn [fst snd] in F.
  pose proof (forall_elem _ _ _ F Hl) as F'. cbv beta in F'. cbn [fst snd] in F'. rewrite H in F'. cbn in F'. by apply mem_spec.
Qed.
Lemma ident_attr e e' k : ident e' = ident e -> el_tag e <> "descriptor" -> attr e' k = attr e k.
Proof. intros H Ht. unfold ident in H. injection H as H1 _ _ H2. unfold attr. rewrite H1 in H2. destruct (String.eqb (el_tag e) "descriptor") eqn:E; [by apply String.eqb_eq in E|]. by rewrite H2. Qed.
Lemma ident_tag e e' : ident e' = ident e -> el_tag e' = el_tag e. Proof. unfold ident. congruence. Qed.
Lemma ident_up e e' : ident e' = ident e -> el_up e' = el_up e. Proof. unfold ident. congruence. Qed.
Lemma conn_none s s' : p_conn s = None -> connOk s s' -> p_conn s' = None. Proof. intros H [O|O]; congruence. Qed.

Lemma bind_ok E k u t x s ue bl : cinv s -> Par s (Some (u, t)) -> p_alias s = [] -> p_conn s = None -> x_tag x = "bind" -> p_cache s !! u = Some ue -> el_binds ue = Some bl ->
  pw (processNode E k (Some (u, t)) x) (fun _ s' => bindAt s' x (p_next s) /\ exists ue', p_cache s' !! u = Some ue' /\ el_binds ue' = Some (bl ++ [p_next s]) /\ el_params ue' = el_params ue /\ el_ctx ue' = el_ctx ue) s.
Proof.
  intros C Hp Ha Hc0 Hx Hu Hb. destruct k as [|k]; [apply pw_nofuel|]. apply process_rule; [done|done|]. intros sy attrs s1 K1.
  assert (Es : sy_push sy = PuBind /\ sy_pop sy = PoNone /\ sy_cache sy = true). { pose proof (ck_syn _ _ _ _ _ _ _ K1) as Es. rewrite Hx in Es; vm_compute in Es; injection Es as <-; done. }
  destruct Es as (-> & -> & ->). destruct (checked_fresh _ _ _ _ _ _ _ K1) as (Hn & Hn2 & Hc & _ & Hcn & _ & _ & Ha2). set (s2 := p_set_next _ _) in *. set (e0 := newElt _ _ _ _).
  assert (Hlt : (u < p_next s)%positive) by apply (C _ _ Hu).
  cbn [push]. unfold pushBind. apply pw_bind, pw_attr. intros nm Hnm. apply pw_bind, pw_attr. intros v Hv. p1. apply pw_parent. intros n ue' Hn' Hue'. cbn in Hn'. injection Hn' as <-. rewrite Hc, Hu in Hue'. injection Hue' as <-.
  p1. apply pw_udata. intros bl' Hbl'. assert (bl' = bl) as -> by congruence. p1. destruct (C _ _ Hu) as (_ & En & _). rewrite En. apply pw_eupd. intros ue' Hue'. rewrite Hc, Hu in Hue'. injection Hue' as <-.
  p1. cbn [pwhen]. unfold cacheAdd. repeat p1. set (s4 := p_set_order _ _). intros P4 Pr4.
  assert (Hu4 : p_cache s4 !! u = Some (el_set_binds (bl ++ [p_next s]) ue)). { unfold s4. cbn. rewrite lookup_insert_ne by (cbn; lia). by rewrite lookup_insert, Hn. }
  set (e4 := el_set_params [] e0). assert (Hn4 : p_cache s4 !! p_next s = Some e4). { unfold s4. cbn. rewrite Hn. by rewrite lookup_insert. }
  rewrite Hn in Pr4 |- *.
  eapply pw_mono; [apply (kids_rule E k _ _ _ s4 (fun l s' => cinv s' /\ p_alias s' = [] /\ p_conn s' = None /\ (exists p e l', x_kids x = p ++ l /\ p_cache s' !! p_next s = Some e /\ ident e = ident e4 /\ el_params e = Some l' /\ (forall m, sget m l' = paramIn p m)) /\
     exists ue', p_cache s' !! u = Some ue' /\ el_binds ue' = Some (bl ++ [p_next s]) /\ el_params ue' = el_params ue /\ el_ctx ue' = el_ctx ue)); [apply P4|done| |]|].
  - split; [apply P4|]. split; [change (p_alias s2 = []); congruence|]. split; [change (p_conn s2 = None); congruence|]. split; [exists [], e4, []; split; [done|]; split; [done|]; split; [done|]; split; [done|]; done|]. eexists. split; [exact Hu4|]. done.
  - intros y l' s' [p0 Hp0] C' Hp' (_ & A' & N' & (p & e & l0 & Hpl & He & Hi & Hpa & Hm) & (ue' & Hu' & B1 & B2 & B3)).
    assert (Hy : x_tag y = "bindParam"). { assert (Hin : y ∈ x_kids x) by (rewrite Hp0; apply in_mid). pose proof (ck_kids _ _ _ _ _ _ _ K1 y Hin) as Hy. rewrite Hx in Hy. apply (kid_tag _ _ ["bindParam"]) in Hy; [|unfold kidTable; set_solver]. set_solver. }
    eapply pw_mono; [apply pw_conj; [by apply process_post|apply pw_conj; [apply process_ids|apply pw_conj; [by apply process_lf|apply (param_ok E k (p_next s) (x_tag x) y s' e l0); try done; by right]]]|].
    intros [] s'' [[P'' _] [(J1 & _) [[L'' O''] (v' & nm' & Hnm' & Hv' & He'')]]]. split; [apply P''|]. split; [congruence|]. split; [by eapply conn_none|]. split.
    + exists (p ++ [y]), (el_set_params (sset nm' v' l0) e), (sset nm' v' l0). split; [by rewrite <- app_assoc|]. split; [done|]. split; [done|]. split; [done|]. intros m. rewrite sget_sset, Hm. apply param_step; try done. by right.
    + destruct (lf_get _ _ _ u _ L'' Hu') as (ue'' & Hu'' & Hco).
      * apply (C' _ _ Hu').
      * intros [Ho|Ho]; [cbn in Ho; injection Ho as <-; lia|congruence].
      * exists ue''. split; [done|]. unfold core in Hco. repeat split; congruence.
  - intros [] s5 (C5 & A5 & N5 & (p & e & l' & Hpl & He & Hi & Hpa & Hm) & Hue5). cbv beta in *. cbn [pop]. p1. split; [|done]. rewrite app_nil_r in Hpl. subst p.
    exists e, l'. split; [done|]. split; [rewrite (ident_tag _ _ Hi); exact Hx|]. split; [|done]. intros k'. rewrite (ident_attr _ _ _ Hi); [|change (x_tag x <> "descriptor"); rewrite Hx; done]. apply (checked_same _ _ _ _ _ _ e4 K1); [done|done|]. right. rewrite Hx. done.
Qed.
Lemma bindAt_lf X s s' b m : cinv s -> lf X s s' -> ~ X m -> bindAt s b m -> bindAt s' b m.
Proof.
  intros C L HX (e & l & He & Ht & Hk & Hp & Hl). destruct (lf_get _ _ _ m _ L He) as (e' & He' & Hc); [apply (C _ _ He)|done|]. exists e', l. split; [done|].
  split; [rewrite (ident_tag _ _ (core_ident _ _ Hc)); done|]. split; [|unfold core in Hc; split; [congruence|done]]. intros k. rewrite (ident_attr _ _ _ (core_ident _ _ Hc)); [done|by rewrite Ht].
Qed.

(** ** link. *)
Definition linkAt (lo : nid) (s : pst) (y : xml) (c : oid) (m : nid) : Prop := exists e bl l, p_cache s !! m = Some e /\ (lo <= m)%positive /\ el_tag e = "link" /\ attr e "xconnector" = aget "xconnector" (x_attrs y) /\
  el_binds e = Some bl /\ Forall2 (fun b n => bindAt s b n /\ (lo <= n)%positive) (bindsOf y) bl /\ el_params e = Some l /\ (forall n, sget n l = paramOf y n) /\ el_ctx e = Some c.
Lemma linkAt_lf X lo s s' y c m : cinv s -> lf X s s' -> (forall n, X n -> (n < lo)%positive) -> linkAt lo s y c m -> linkAt lo s' y c m.
Proof.
  intros C L HX (e & bl & l & He & Hm & Ht & Hk & Hb & HB & Hp & Hl & Hc). destruct (lf_get _ _ _ m _ L He) as (e' & He' & Hco); [apply (C _ _ He)|intros H; specialize (HX _ H); lia|]. exists e', bl, l. split; [done|]. split; [done|].
  split; [rewrite (ident_tag _ _ (core_ident _ _ Hco)); done|]. split; [rewrite (ident_attr _ _ _ (core_ident _ _ Hco)); [done|by rewrite Ht]|]. unfold core in Hco. split; [congruence|]. split; [|split; [congruence|split; [done|congruence]]].
  eapply Forall2_impl; [exact HB|]. intros b n [Hbn Hlo]. split; [|done]. eapply bindAt_lf; [exact C|exact L| |done]. intros H. specialize (HX _ H). lia.
Qed.
Lemma linkAt_lo lo lo' s y c m : (lo' <= lo)%positive -> linkAt lo s y c m -> linkAt lo' s y c m.
Proof.
  intros H (e & bl & l & He & Hm & Ht & Hk & Hb & HB & Hr). exists e, bl, l. split; [done|]. split; [lia|]. split; [done|]. split; [done|]. split; [done|]. split; [|done]. eapply Forall2_impl; [exact HB|]. cbv beta. intros b n [Hbn Hlo]. split; [done|lia].
Qed.
Lemma link_ok E k up x s c rest : cinv s -> Par s up -> p_alias s = [] -> p_conn s = None -> x_tag x = "link" -> p_objs s = c :: rest ->
  pw (processNode E k up x) (fun _ s' => linkAt (p_next s) s' x c (p_next s)) s.
Proof.
  intros C Hp Ha Hc0 Hx Hob. destruct k as [|k]; [apply pw_nofuel|]. apply process_rule; [done|done|]. intros sy attrs s1 K1.
  assert (Es : sy_push sy = PuLink /\ sy_pop sy = PoNone /\ sy_cache sy = true). { pose proof (ck_syn _ _ _ _ _ _ _ K1) as Es. rewrite Hx in Es; vm_compute in Es; injection Es as <-; done. }
  destruct Es as (-> & -> & ->). destruct (checked_fresh _ _ _ _ _ _ _ K1) as (Hn & Hn2 & Hc & _ & Hcn & Ho & Hg & Ha2). set (s2 := p_set_next _ _) in *. set (e0 := newElt _ _ _ _).
  cbn [push]. unfold pushLink. p1. eapply (pw_mono _ (fun c' s' => c' = c /\ s' = s2)).
  { apply pw_peek_top. intros o r ob Hr _ _. rewrite Ho, Hob in Hr. injection Hr as <- _. done. }
  intros c' s' [-> ->]. cbv beta. p1. cbn [pwhen]. unfold cacheAdd. repeat p1. set (s4 := p_set_order _ _). intros P4 Pr4.
  set (e4 := el_set_params [] (el_set_binds [] (el_set_ctx c e0))). assert (Hn4 : p_cache s4 !! p_next s = Some e4). { unfold s4. cbn. rewrite Hn. by rewrite lookup_insert. }
  rewrite Hn in Pr4 |- *.
  eapply pw_mono; [apply (kids_rule E k _ _ _ s4 (fun l s' => cinv s' /\ p_alias s' = [] /\ p_conn s' = None /\ (p_next s < p_next s')%positive /\ exists p e bl l', x_kids x = p ++ l /\ p_cache s' !! p_next s = Some e /\ ident e = ident e4 /\ el_ctx e = Some c /\
     el_binds e = Some bl /\ Forall2 (fun b n => bindAt s' b n /\ (p_next s < n)%positive) (List.filter (tagIs "bind") p) bl /\ el_params e = Some l' /\ (forall m, sget m l' = paramIn p m))); [apply P4|done| |]|].
  - split; [apply P4|]. split; [change (p_alias s2 = []); congruence|]. split; [change (p_conn s2 = None); congruence|]. split; [unfold s4; cbn; lia|]. exists [], e4, [], []. repeat split; try done. constructor.
  - intros y l' s' [p0 Hp0] C' Hp' (_ & A' & N' & Nx & (p & e & bl & l0 & Hpl & He & Hi & Hct & Hbl & HB & Hpa & Hm)).
    assert (Hy : x_tag y = "bind" \/ x_tag y = "linkParam"). { assert (Hin : y ∈ x_kids x) by (rewrite Hp0; apply in_mid). pose proof (ck_kids _ _ _ _ _ _ _ K1 y Hin) as Hy. rewrite Hx in Hy. apply (kid_tag _ _ ["bind"; "linkParam"]) in Hy; [|unfold kidTable; set_solver]. set_solver. }
    assert (Keep : forall s'', lf (opened (Some (p_next s, x_tag x)) s') s' s'' -> Forall2 (fun b n => bindAt s'' b n /\ (p_next s < n)%positive) (List.filter (tagIs "bind") p) bl).
    { intros s'' L''. eapply Forall2_impl; [exact HB|]. cbv beta. intros b n [Hbn Hlo]. split; [|done]. eapply bindAt_lf; [exact C'|exact L''| |done]. intros [Hq|Hq]; [cbn in Hq; injection Hq as <-; lia|congruence]. }
    destruct Hy as [Hy|Hy].
    + eapply pw_mono; [apply pw_conj; [by apply process_post|apply pw_conj; [apply process_ids|apply pw_conj; [by apply process_lf|apply (bind_ok E k (p_next s) (x_tag x) y s' e bl); done]]]|].
      intros [] s'' [[P'' _] [(J1 & _) [[L'' O''] (Hb & e'' & He'' & Hb'' & Hp'' & Hc'')]]]. split; [apply P''|]. split; [congruence|]. split; [by eapply conn_none|]. split; [pose proof (lf_next _ _ _ L''); lia|].
      exists (p ++ [y]), e'', (bl ++ [p_next s']), l0. split; [by rewrite <- app_assoc|]. split; [done|]. split; [|split; [congruence|split; [done|]]].
      { destruct (lf_ident _ _ _ _ _ L'' He) as (e3 & He3 & Hi3); [done|]. congruence. }
      split; [|split; [congruence|]].
      * rewrite List.filter_app. cbn [List.filter]. unfold tagIs at 2. rewrite Hy. cbn. apply Forall2_app; [by apply Keep|]. constructor; [|constructor]. split; [done|lia].
      * intros m. rewrite Hm, paramIn_snoc. unfold isParam, tagIs. rewrite Hy. done.
    + eapply pw_mono; [apply pw_conj; [by apply process_post|apply pw_conj; [apply process_ids|apply pw_conj; [by apply process_lf|apply (param_ok E k (p_next s) (x_tag x) y s' e l0); try done; by left]]]|].
      intros [] s'' [[P'' _] [(J1 & _) [[L'' O''] (v' & nm' & Hnm' & Hv' & He'')]]]. split; [apply P''|]. split; [congruence|]. split; [by eapply conn_none|]. split; [pose proof (lf_next _ _ _ L''); lia|].
      exists (p ++ [y]), (el_set_params (sset nm' v' l0) e), bl, (sset nm' v' l0). split; [by rewrite <- app_assoc|]. split; [done|]. split; [done|]. split; [done|]. split; [done|]. split; [|split; [done|]].
      * rewrite List.filter_app. cbn [List.filter]. unfold tagIs at 2. rewrite Hy. cbn. rewrite app_nil_r. by apply Keep.
      * intros m. rewrite sget_sset, Hm. apply param_step; try done. by left.
  - intros [] s5 (C5 & A5 & N5 & Nx & (p & e & bl & l' & Hpl & He & Hi & Hct & Hbl & HB & Hpa & Hm)). cbv beta in *. cbn [pop]. p1. rewrite app_nil_r in Hpl. subst p.
    exists e, bl, l'. split; [done|]. split; [lia|]. split; [rewrite (ident_tag _ _ Hi); exact Hx|]. split; [|split; [done|split; [|done]]].
    + rewrite (ident_attr _ _ _ Hi); [|change (x_tag x <> "descriptor"); rewrite Hx; done]. apply (checked_same _ _ _ _ _ _ e4 K1); [done|done|]. by left.
    + eapply Forall2_impl; [exact HB|]. cbv beta. intros b n [Hb1 Hb2]. split; [done|lia].
Qed.

(** CompileDoc.v -- C42: the links, ports and connectors of a document, in the cache. *)
From Verif Require Import BuildOps ParserFrame.
From Verif Require Export CompileOrder TreeFacts.
Open Scope string_scope.
Open Scope list_scope.

(** ** A rule for the processing of an element that tells what became of the cache. *)
Record mid (up : option (nid * string)) (x : xml) (s : pst) (sy : syn) (attrs : smapT) (e : elt) (s4 : pst) : Prop := mkMid {
  mi_lf : lf (opened up s) s s4;
  mi_conn : p_conn s = None -> sy_push sy <> PuConnector -> p_conn s4 = None;
  mi_order : sy_push sy <> PuImport -> p_order s4 = p_order s ++ (if sy_cache sy then [p_next s] else []);
  mi_elt : sy_cache sy = true -> p_cache s4 !! p_next s = Some e /\ el_tag e = x_tag x /\ (sy_push sy <> PuRegion -> el_attrs e = attrs) }.
Lemma process_rule2 E k up x s (Q : unit -> pst -> Prop) : cinv s -> Par s up ->
  (forall sy attrs s1, checked true (option_map snd up) x s sy attrs s1 -> p_next s1 = p_next s ->
     pw (push E (pushImport E (processNode E k)) (sy_push sy) (newElt (x_tag x) (p_next s) (option_map fst up) attrs))
       (fun e s3 => pw (pwhen (sy_cache sy) (cacheAdd e)) (fun _ s4 => post s s4 -> Par s4 (Some (p_next s, x_tag x)) -> mid up x s sy attrs e s4 ->
          pw (peach (processNode E k (Some (p_next s, x_tag x))) (x_kids x)) (fun _ s5 => pw (pop E (S k) (sy_pop sy) (p_next s)) Q s5) s4) s3)
       (p_set_next (Pos.succ (p_next s1)) s1)) ->
  pw (processNode E (S k) up x) Q s.
Proof.
  intros C Hp H. apply process_rule; [done|done|]. intros sy attrs s1 K1.
  destruct (checked_fresh _ _ _ _ _ _ _ K1) as (Hn & Hn2 & Hc & Ho2 & Hcn2 & _ & _ & Ha2). specialize (H sy attrs s1 K1 Hn). rewrite Hn in *.
  assert (Q2 : post s (p_set_next (Pos.succ (p_next s)) s1)).
  { destruct (ck_state _ _ _ _ _ _ _ K1) as [g ->]. apply quiet_post; [done| |cbn; set_solver|done]. split; [|done]. split; cbn; [lia|done|]. intros nn. by destruct (p_cache s !! nn). }
  set (s2 := p_set_next _ _) in *.
  assert (L2 : lq s s2). { split; [|done]. split; [lia|by rewrite Hc|by rewrite Hc|]. exists []. rewrite Ho2, app_nil_r. split; [done|]. intros nn Hnn. by apply elem_of_nil in Hnn. }
  set (e0 := newElt _ _ _ _) in *.
  assert (PO : sy_push sy <> PuImport -> pw (push E (pushImport E (processNode E k)) (sy_push sy) e0) (fun _ s' => p_order s' = p_order s2) s2) by (intros Hi; by apply kw_push).
  assert (PO' : pw (push E (pushImport E (processNode E k)) (sy_push sy) e0) (fun _ s' => sy_push sy <> PuImport -> p_order s' = p_order s2) s2).
  { assert (D : sy_push sy = PuImport \/ sy_push sy <> PuImport) by (destruct (sy_push sy); (by left) || by right). destruct D as [D|D]; [eapply pw_mono; [apply pw_top|]; done|]. eapply pw_mono; [by apply PO|]. done. }
  eapply pw_mono; [apply pw_conj; [exact H|apply pw_conj; [exact PO'|apply pw_conj; [apply (push_shape E (pushImport E (processNode E k))); intros; apply import_shape|apply (push_lf E (processNode E k) (sy_push sy) _ up)]]]|].
  { apply Q2. } { eapply Par_ext; [apply Q2|done]. } { done. }
  { intros Hd. pose proof (syn_desc _ _ (ck_syn _ _ _ _ _ _ _ K1) Hd) as Hpar. destruct (ck_up _ _ _ _ _ _ _ K1) as [Hz|(u & Hu & Hin)]; [congruence|]. rewrite Hpar in Hin. apply elem_of_list_singleton in Hin as ->.
    destruct up as [[m t]|]; [|done]. cbn in Hu. injection Hu as ->. by exists m. }
  { intros up' y s' C' Hp'. eapply pw_mono; [apply pw_conj; [by apply process_post|by apply process_lf]|]. intros [] s3 [[P _] L]. done. }
  intros e s3 [H3 [O3 [(T1 & T2 & T3) [L3 C3]]]]. cbv beta in *. cbn [el_node el_tag el_attrs newElt e0] in T1, T2, T3, C3.
  assert (L3' : lf (opened up s) s s3). { eapply lf_trans; [eapply lf_mono; [|apply L2]; intros ? _ []|exact L3|]. intros m Hm [Hq|Hq]; [by left|right; congruence]. }
  assert (N3 : (p_next s < p_next s3)%positive) by (pose proof (lf_next _ _ _ L3) as Hx; rewrite Hn2 in Hx; lia).
  assert (C3' : p_conn s = None -> sy_push sy <> PuConnector -> p_conn s3 = None). { intros Hz Hne. destruct (sy_push sy); try done; (eapply conn_none; [|exact C3]; congruence). }
  assert (M : pw (pwhen (sy_cache sy) (cacheAdd e)) (fun _ s4 => mid up x s sy attrs e s4) s3).
  { destruct (sy_cache sy) eqn:Ec; cbn [pwhen].
    - eapply pw_mono; [apply pw_conj; [apply (cache_lf (opened up s) e s s3 L3'); rewrite T2; lia|]|].
      + instantiate (1 := fun _ s4 => p_order s4 = p_order s3 ++ [p_next s] /\ p_cache s4 !! p_next s = Some e). unfold cacheAdd. repeat p1. cbn. rewrite T2. by rewrite lookup_insert.
      + intros [] s4 [[L4 C4] [O4 E4]]. split; [done|rewrite C4; auto| |].
        * intros Hi. rewrite O4, (O3 Hi), Ho2. by rewrite Ec.
        * intros _. done.
    - p1. split; [done|done| |congruence]. intros Hi. rewrite (O3 Hi), Ho2, Ec. by rewrite app_nil_r. }
  eapply pw_mono; [apply pw_conj; [exact H3|exact M]|]. intros [] s4 [H4 M4] P4 Pr4. exact (H4 P4 Pr4 M4).
Qed.

(** ** Elements of one tag, in the order they were added. *)
Definition isTag (t : string) (s : pst) (n : nid) : bool := match p_cache s !! n with Some e => String.eqb (el_tag e) t | None => false end.
Definition nodesOf (t : string) (s : pst) : list nid := List.filter (isTag t s) (p_order s).
Definition ordOk (s : pst) : Prop := forall n, n ∈ p_order s -> (n < p_next s)%positive.
Lemma ordOk_lf X s s' : lf X s s' -> ordOk s -> ordOk s'.
Proof. intros L O n Hn. destruct (lf_order _ _ _ L) as (l & E & H). rewrite E in Hn. apply elem_of_app in Hn as [Hn|Hn]; [specialize (O n Hn); pose proof (lf_next _ _ _ L); lia|]. by apply H. Qed.
Lemma isTag_lf X t s s' n : lf X s s' -> (n < p_next s)%positive -> isTag t s' n = isTag t s n.
Proof.
  intros L Hn. unfold isTag. destruct (p_cache s !! n) as [e|] eqn:E.
  - destruct (lf_ident _ _ _ _ _ L E Hn) as (e' & -> & Hi). by rewrite (ident_tag _ _ Hi).
  - destruct (p_cache s' !! n) as [e'|] eqn:E'; [|done]. destruct (lf_back _ _ _ _ _ L E' Hn) as (e & He & _). congruence.
Qed.
Lemma filter_eq {A} (f g : A -> bool) l : (forall x, x ∈ l -> f x = g x) -> List.filter f l = List.filter g l.
Proof. induction l as [|a l IH]; intros H; cbn; [done|]. rewrite (H a) by left. rewrite IH; [done|]. intros x Hx. apply H. by right. Qed.
Lemma nodes_new X t s s' l : lf X s s' -> ordOk s -> p_order s' = p_order s ++ l -> nodesOf t s' = nodesOf t s ++ List.filter (isTag t s') l.
Proof. intros L O E. unfold nodesOf. rewrite E, List.filter_app. f_equal. apply filter_eq. intros n Hn. eapply isTag_lf; [exact L|]. by apply O. Qed.
Lemma nodes_spec t s : cinv s -> map el_node (tagged s t) = nodesOf t s.
Proof.
  intros C. unfold tagged, nodesOf, isTag. induction (p_order s) as [|n l IH]; cbn; [done|]. destruct (p_cache s !! n) as [e|] eqn:E; [|done]. cbn. destruct (String.eqb (el_tag e) t); [|done]. cbn. destruct (C _ _ E) as (_ & -> & _). by rewrite IH.
Qed.
(** The nodes a step adds have tags of some kind. *)
Definition newIn (T : string -> bool) (s s' : pst) : Prop := exists l, p_order s' = p_order s ++ l /\ forall n, n ∈ l -> exists e, p_cache s' !! n = Some e /\ T (el_tag e) = true.
Lemma newIn_same T s s' : p_order s' = p_order s -> newIn T s s'.
Proof. intros E. exists []. rewrite app_nil_r. split; [done|]. intros n Hn. by apply elem_of_nil in Hn. Qed.
Lemma newIn_trans T X s s1 s2 : cinv s1 -> newIn T s s1 -> lf X s1 s2 -> newIn T s1 s2 -> newIn T s s2.
Proof.
  intros C (l1 & E1 & H1) L (l2 & E2 & H2). exists (l1 ++ l2). split; [rewrite E2, E1; by rewrite app_assoc|]. intros n Hn. apply elem_of_app in Hn as [Hn|Hn]; [|by apply H2].
  destruct (H1 n Hn) as (e & He & Ht). destruct (lf_ident _ _ _ _ _ L He) as (e' & He' & Hi); [apply (C _ _ He)|]. exists e'. split; [done|]. by rewrite (ident_tag _ _ Hi).
Qed.
Lemma filter_none {A} (f : A -> bool) l : (forall x, x ∈ l -> f x = false) -> List.filter f l = [].
Proof. induction l as [|a l IH]; intros H; cbn; [done|]. rewrite (H a) by left. apply IH. intros x Hx. apply H. by right. Qed.
Lemma newIn_nodes T X t s s' : lf X s s' -> ordOk s -> newIn T s s' -> T t = false -> nodesOf t s' = nodesOf t s.
Proof.
  intros L O (l & E & H) Ht. rewrite (nodes_new X t s s' l L O E), filter_none; [by rewrite app_nil_r|]. intros n Hn. destruct (H n Hn) as (e & He & HT). unfold isTag. rewrite He. apply String.eqb_neq. intros Eq. congruence.
Qed.

(** ** The elements below head add no links and no ports. *)
Definition isHead (t : string) : bool := mem t headTags.
Lemma import_new E go e up s : cinv s -> Par s up -> el_up e = option_map fst up -> (exists u, option_map snd up = Some u /\ mem u headTags = true) ->
  (forall up y s', cinv s' -> Par s' up -> pw (go up y) (fun _ s2 => post s' s2 /\ lfp up s' s2) s') ->
  (forall up y s', cinv s' -> Par s' up -> mem (x_tag y) headTags = true -> pw (go up y) (fun _ s2 => newIn isHead s' s2) s') ->
  pw (pushImport E go e) (fun _ s' => newIn isHead s s') s.
Proof.
  intros C Hp Hup (u & Hu & Hut) Hgo Hos. unfold pushImport. p1. apply pw_parent. intros n ue Hn Hue. p1. p1. p1. p1. p1. p1. cbv zeta. p1. p1. p1. p1.
  assert (Ht : mem (el_tag ue) headTags = true). { destruct up as [[m t]|]; [|done]. cbn in Hu, Hup. injection Hu as ->. rewrite Hup in Hn. injection Hn as ->. destruct (Hp _ _ eq_refl) as [_ H']. by rewrite (H' _ Hue). }
  match goal with |- pw _ _ ?x => set (s1 := x) end. assert (P1 : post s s1) by (apply quiet_post; [done|by apply quiet_simple|done|done]).
  p1. p1. p1. eapply pw_mono; [apply check_post, P1|]. intros r1 s2 [P2 K2]. p1. p1. p1. eapply pw_mono; [apply check_post, P2|]. intros r2 s3 [P3 K3].
  p1. p1. p1. p1. p1. match goal with |- pw _ _ ?x => set (s4 := x) end.
  assert (P4 : post s3 s4). { apply quiet_post; [apply P3| |done|done]. split; [|done]. split; cbn; [lia|done|]. intros nn. by destruct (p_cache s3 !! nn). }
  assert (Pr : Par s4 (Some (p_next s3, "head"))).
  { intros nn t [= <- <-]. split; [cbn; lia|]. intros e0 He0. cbn in He0. destruct (po_c _ _ P3 _ _ He0) as [Hlt _]. lia. }
  assert (O4 : newIn isHead s s4). { apply newIn_same. destruct (ck_state _ _ _ _ _ _ _ K2) as [g2 ->]. destruct (ck_state _ _ _ _ _ _ _ K3) as [g3 E3]. unfold s4. by rewrite E3. }
  eapply (pw_mono _ (fun _ s' => cinv s' /\ Par s' (Some (p_next s3, "head")) /\ newIn isHead s s')).
  - apply pw_each_inv; [split; [apply P4|done]|]. intros y s5 Hy (C5 & Pr5 & O5). eapply pw_mono; [apply pw_conj; [by apply Hgo|apply Hos; [done|done|]]|].
    + assert (Hk : forall hd t, y ∈ kidsTagged hd t -> x_tag y = t). { intros hd t Hi. unfold kidsTagged in Hi. apply elem_of_list_In, filter_In in Hi as [_ Hi]. by apply String.eqb_eq in Hi. }
      apply elem_of_app in Hy as [Hy|Hy]; [by rewrite (Hk _ _ Hy)|]. destruct (String.eqb (el_tag ue) "descriptorBase"); [|by apply elem_of_nil in Hy]. apply elem_of_app in Hy as [Hy|Hy]; by rewrite (Hk _ _ Hy).
    + intros [] s6 [[P6 [L6 _]] O6]. split; [apply P6|]. split; [eapply Par_ext; [apply P6|done]|]. eapply newIn_trans; [exact C5|exact O5|exact L6|exact O6].
  - intros [] s5 (_ & _ & (l & E5 & H5)). p1. p1. p1. exists l. done.
Qed.
Lemma process_headnodes E k : forall up x s, cinv s -> Par s up -> mem (x_tag x) headTags = true -> pw (processNode E k up x) (fun _ s' => newIn isHead s s') s.
Proof.
  induction k as [|k IH]; intros up x s C Hp Ht; [apply pw_nofuel|]. apply process_rule2; [done|done|]. intros sy attrs s1 K1 Hn.
  destruct (checked_fresh _ _ _ _ _ _ _ K1) as (_ & Hn2 & Hc & Ho2 & Hcn2 & _ & _ & Ha2). rewrite Hn in *.
  assert (Q2 : post s (p_set_next (Pos.succ (p_next s)) s1)).
  { destruct (ck_state _ _ _ _ _ _ _ K1) as [g ->]. apply quiet_post; [done| |cbn; set_solver|done]. split; [|done]. split; cbn; [lia|done|]. intros nn. by destruct (p_cache s !! nn). }
  set (s2 := p_set_next _ _) in *. set (e0 := newElt _ _ _ _) in *.
  eapply (pw_mono _ (fun e s3 => newIn isHead s s3 /\ el_node e = p_next s /\ el_tag e = x_tag x)).
  { assert (D : sy_push sy = PuImport \/ sy_push sy <> PuImport) by (destruct (sy_push sy); (by left) || by right). destruct D as [D|D].
    - rewrite D. cbn [push]. eapply pw_mono; [apply pw_conj; [apply (import_new E (processNode E k) e0 up)|apply import_shape]|].
      + apply Q2.
      + eapply Par_ext; [apply Q2|done].
      + done.
      + apply (import_parents _ _ _ (ck_syn _ _ _ _ _ _ _ K1) D). apply K1.
      + intros up' y s' C' Hp'. eapply pw_mono; [apply pw_conj; [by apply process_post|by apply process_lf]|]. intros [] s3 [[P _] L]. done.
      + intros up' y s' C' Hp' Hy. by apply IH.
      + intros e s3 [(l & E3 & H3) ->]. split; [|done]. exists l. split; [|done]. rewrite E3. by rewrite Ho2.
    - eapply pw_mono; [apply pw_conj; [by apply (kw_push E (pushImport E (processNode E k)) (sy_push sy) e0)|apply (push_shape E (pushImport E (processNode E k))); intros; apply import_shape]|].
      intros e s3 [O3 (T1 & T2 & _)]. split; [|done]. apply newIn_same. unfold po in O3. congruence. }
  intros e s3 (H3 & N3 & T3). cbv beta. eapply (pw_mono _ (fun _ s4 => newIn isHead s s4)).
  { destruct (sy_cache sy); cbn [pwhen]; [|by p1]. unfold cacheAdd. p1. p1. p1. p1. p1. destruct H3 as (l & E3 & H3). exists (l ++ [p_next s]). split; [cbn; rewrite E3, N3; by rewrite app_assoc|]. cbn. rewrite N3. intros n Hn3.
    destruct (decide (p_next s = n)) as [<-|Hne]; [exists e; rewrite lookup_insert; split; [done|]; unfold isHead; by rewrite T3|]. rewrite lookup_insert_ne by done. apply H3. apply elem_of_app in Hn3 as [Hn3|Hn3]; [done|]. apply elem_of_list_singleton in Hn3. congruence. }
  intros [] s4 H4 P4 Pr4 M4. cbv beta in *.
  eapply pw_mono; [apply (kids_rule E k _ _ _ s4 (fun _ s' => cinv s' /\ newIn isHead s s')); [apply P4|done| |]|].
  - split; [apply P4|done].
  - intros y l' s' [p0 Hp0] C' Hp' [_ H'].
    assert (Hy : mem (x_tag y) headTags = true). { eapply head_child; [exact Ht|]. apply (ck_kids _ _ _ _ _ _ _ K1 y). rewrite Hp0. apply in_mid. }
    eapply pw_mono; [apply pw_conj; [by apply process_post|apply pw_conj; [by apply process_lf|by apply IH]]|]. intros [] s'' [[P'' _] [[L'' _] H'']]. split; [apply P''|]. eapply newIn_trans; [exact C'|exact H'|exact L''|exact H''].
  - intros [] s5 [C5 H5]. cbv beta in *. eapply pw_mono; [apply pw_conj; [by apply pop_lf|apply kw_pop]|]. intros [] s6 [[L6 _] O6]. eapply newIn_trans; [exact C5|exact H5|exact L6|]. by apply newIn_same.
Qed.

(** ** Connectors. *)
Lemma process_closed (T : string -> bool) E k : (forall t c, T t = true -> possibleChild t c = true -> T c = true) -> forall up x s, cinv s -> Par s up -> (forall c, possibleChild (x_tag x) c = true -> T c = true) ->
  pw (processNode E k up x) (fun _ _ => forall z, z ∈ flat_map elementsOf (x_kids x) -> T (x_tag z) = true) s.
Proof.
  intros HT. induction k as [|k IH]; intros up x s C Hp Hx; [apply pw_nofuel|]. apply process_rule; [done|done|]. intros sy attrs s1 K1.
  eapply pw_mono; [apply pw_top|]. intros e s3 _. cbv beta. eapply pw_mono; [apply pw_top|]. intros [] s4 _ P4 Pr4.
  eapply pw_mono; [apply (kids_rule E k _ _ _ s4 (fun l s' => exists p, x_kids x = p ++ l /\ forall z, z ∈ flat_map elementsOf p -> T (x_tag z) = true)); [apply P4|done| |]|].
  - exists []. split; [done|]. intros z Hz. by apply elem_of_nil in Hz.
  - intros y l' s' [p0 Hp0] C' Hp' (p & Hpl & H'). assert (Hy : T (x_tag y) = true) by (apply Hx; apply (ck_kids _ _ _ _ _ _ _ K1 y); rewrite Hp0; apply in_mid).
    eapply pw_mono; [apply (IH _ y s'); [done|done|]|]. { intros c. by apply HT. } intros [] s'' H''. exists (p ++ [y]). split; [by rewrite <- app_assoc|]. intros z Hz. rewrite flat_map_app in Hz. cbn [flat_map] in Hz. rewrite app_nil_r in Hz.
    apply elem_of_app in Hz as [Hz|Hz]; [by apply H'|]. rewrite elements_eq in Hz. apply elem_of_cons in Hz as [->|Hz]; [done|by apply H''].
  - intros [] s5 (p & Hpl & H5). cbv beta. rewrite app_nil_r in Hpl. subst p. eapply pw_mono; [apply pw_top|]. intros [] s6 _. exact H5.
Qed.
Lemma mem_inner t : mem t innerTags = true <-> t ∈ innerTags. Proof. apply mem_spec. Qed.
Lemma process_conns E k : forall up x s, cinv s -> Par s up -> p_alias s = [] -> p_conn s = None ->
  pw (processNode E k up x) (fun _ s' => forall cx, cx ∈ elementsOf x -> x_tag cx = "causalConnector" -> exists m, (p_next s <= m)%positive /\ connAt s' cx m) s.
Proof.
  induction k as [|k IH]; intros up x s C Hp Ha Hc0; [apply pw_nofuel|]. destruct (decide (x_tag x = "causalConnector")) as [Hx|Hx].
  { eapply pw_mono; [apply pw_conj; [by apply conn_ok|apply (process_closed (fun t => mem t innerTags)); [|done|done|]]|].
    - intros t c Ht Hc. apply mem_inner. eapply inner_kid; [|exact Hc]. apply mem_spec. right. by apply mem_spec.
    - intros c Hc. apply mem_inner. eapply inner_kid; [|exact Hc]. rewrite Hx. done.
    - intros [] s' [Hok Hin] cx Hcx Ht. rewrite elements_eq in Hcx. apply elem_of_cons in Hcx as [->|Hcx]; [exists (p_next s); split; [lia|done]|]. specialize (Hin _ Hcx). rewrite Ht in Hin. done. }
  apply process_rule2; [done|done|]. intros sy attrs s1 K1 Hn. set (e0 := newElt _ _ _ _).
  assert (Hnc : sy_push sy <> PuConnector). { intros Hpu. apply Hx. pose proof (ck_syn _ _ _ _ _ _ _ K1) as Es. apply look_some in Es. assert (F : forallb (fun p : string * syn => match sy_push (snd p) with PuConnector => String.eqb (fst p) "causalConnector" | _ => true end) syntax = true) by (vm_compute; reflexivity).
    pose proof (forall_elem _ _ _ F Es) as F'. cbn [fst snd] in F'. rewrite Hpu in F'. by apply String.eqb_eq in F'. }
  assert (G1 : grows s (p_set_next (Pos.succ (p_next s1)) s1)) by exact (checked_grows _ _ _ _ _ _ _ K1).
  eapply pw_mono; [apply (grows_push E (processNode E k)); intros up' x' s'; eapply pw_mono; [apply process_ids|]; intros [] s'' (J1 & J2 & _); by split|]. intros e s3 G3. cbv beta.
  eapply pw_mono; [apply keep_when, keep_cacheAdd|]. intros [] s4 F4 P4 Pr4 M4.
  assert (G4 : grows s s4) by (eapply grows_trans; [exact G1|]; eapply grows_trans; [exact G3|by apply grows_fr]).
  eapply pw_mono; [apply (kids_rule E k _ _ _ s4 (fun l s' => cinv s' /\ p_alias s' = [] /\ p_conn s' = None /\ (p_next s < p_next s')%positive /\ exists p, x_kids x = p ++ l /\
    forall cx, cx ∈ flat_map elementsOf p -> x_tag cx = "causalConnector" -> exists m, (p_next s < m)%positive /\ connAt s' cx m)); [apply P4|done| |]|].
  - split; [apply P4|]. split; [by rewrite (proj1 G4)|]. split; [by apply (mi_conn _ _ _ _ _ _ _ M4)|]. split.
    { destruct (Pr4 _ _ eq_refl) as [Hlt _]. done. } exists []. split; [done|]. intros cx Hcx. by apply elem_of_nil in Hcx.
  - intros y l' s' _ C' Hp' (_ & A' & N' & Nx' & p & Hpl & H'). eapply pw_mono; [apply pw_conj; [by apply process_post|apply pw_conj; [apply process_ids|apply pw_conj; [by apply process_lf|by apply IH]]]|].
    intros [] s'' [[P'' _] [(J1 & _) [[L'' O''] H'']]]. split; [apply P''|]. split; [congruence|]. split; [by eapply conn_none|]. split; [pose proof (lf_next _ _ _ L''); lia|]. exists (p ++ [y]). split; [by rewrite <- app_assoc|].
    intros cx Hcx Ht. rewrite flat_map_app in Hcx. cbn [flat_map] in Hcx. rewrite app_nil_r in Hcx. apply elem_of_app in Hcx as [Hcx|Hcx].
    + destruct (H' cx Hcx Ht) as (m & Hm & Hcm). exists m. split; [done|]. eapply connAt_lf; [exact C'|exact L''| |done]. intros [Hq|Hq]; [cbn in Hq; injection Hq as <-; lia|congruence].
    + destruct (H'' cx Hcx Ht) as (m & Hm & Hcm). exists m. split; [lia|done].
  - intros [] s5 (C5 & A5 & N5 & Nx5 & p & Hpl & H5). cbv beta in *. rewrite app_nil_r in Hpl. subst p. eapply pw_mono; [by apply pop_lf|]. intros [] s6 [L6 _]. intros cx Hcx Ht. rewrite elements_eq in Hcx. apply elem_of_cons in Hcx as [->|Hcx]; [done|].
    destruct (H5 cx Hcx Ht) as (m & Hm & Hcm). exists m. split; [lia|]. eapply connAt_lf; [exact C5|exact L6|intros []|done].
Qed.

(** ** Two connectors never have the same id. *)
Definition uq (s : pst) : Prop := (forall n e i, p_cache s !! n = Some e -> el_tag e = "causalConnector" -> attr e "id" = Some i -> i ∈ p_unique s) /\
  forall n m e e' i, p_cache s !! n = Some e -> p_cache s !! m = Some e' -> el_tag e = "causalConnector" -> el_tag e' = "causalConnector" -> attr e "id" = Some i -> attr e' "id" = Some i -> n = m.
Lemma ident_conn e e' i : ident e' = ident e -> el_tag e' = "causalConnector" -> attr e' "id" = Some i -> el_tag e = "causalConnector" /\ attr e "id" = Some i.
Proof. intros Hi Ht Ha. assert (Ht' : el_tag e = "causalConnector") by (by rewrite <- (ident_tag _ _ Hi)). split; [done|]. rewrite <- (ident_attr _ _ _ Hi); [done|by rewrite Ht']. Qed.
Lemma uq_step X s s' : lf X s s' -> cinv s' -> p_order s' = p_order s -> ordOk s -> p_unique s ⊆ p_unique s' -> uq s -> uq s'.
Proof.
  intros L C' Eo O HU [U1 U2].
  assert (B : forall n e' i, p_cache s' !! n = Some e' -> el_tag e' = "causalConnector" -> attr e' "id" = Some i -> exists e, p_cache s !! n = Some e /\ el_tag e = "causalConnector" /\ attr e "id" = Some i).
  { intros n e' i He Ht Ha. destruct (C' _ _ He) as (_ & _ & Hin). rewrite Eo in Hin. destruct (lf_back _ _ _ _ _ L He (O _ Hin)) as (e & He0 & Hi). exists e. split; [done|]. by eapply ident_conn. }
  split.
  - intros n e' i He Ht Ha. destruct (B _ _ _ He Ht Ha) as (e & X1 & X2 & X3). apply HU. by eapply U1.
  - intros n m e e' i He He' Ht Ht' Ha Ha'. destruct (B _ _ _ He Ht Ha) as (e1 & X1 & X2 & X3). destruct (B _ _ _ He' Ht' Ha') as (e2 & Y1 & Y2 & Y3). by eapply U2.
Qed.
Lemma uq_same s s' : p_cache s' = p_cache s -> p_unique s ⊆ p_unique s' -> uq s -> uq s'.
Proof. intros E HU [U1 U2]. unfold uq. rewrite E. split; [|done]. intros n e i He Ht Ha. apply HU. by eapply U1. Qed.
Lemma import_uq E go e s : cinv s -> ordOk s -> uq s ->
  (forall up y s', cinv s' -> Par s' up -> pw (go up y) (fun _ s2 => post s' s2 /\ lfp up s' s2) s') ->
  (forall up y s', cinv s' -> Par s' up -> ordOk s' -> uq s' -> pw (go up y) (fun _ s2 => uq s2) s') ->
  pw (pushImport E go e) (fun _ s' => uq s' /\ ordOk s') s.
Proof.
  intros C O U Hgo Huq. unfold pushImport. p1. p1. p1. p1. p1. p1. p1. p1. cbv zeta. p1. p1. p1. p1.
  match goal with |- pw _ _ ?x => set (s1 := x) end. assert (P1 : post s s1) by (apply quiet_post; [done|by apply quiet_simple|done|done]).
  p1. p1. p1. eapply pw_mono; [apply check_post, P1|]. intros r1 s2 [P2 K2]. p1. p1. p1. eapply pw_mono; [apply check_post, P2|]. intros r2 s3 [P3 K3].
  p1. p1. p1. p1. p1. match goal with |- pw _ _ ?x => set (s4 := x) end.
  assert (P4 : post s3 s4). { apply quiet_post; [apply P3| |done|done]. split; [|done]. split; cbn; [lia|done|]. intros nn. by destruct (p_cache s3 !! nn). }
  assert (Pr : Par s4 (Some (p_next s3, "head"))).
  { intros nn t [= <- <-]. split; [cbn; lia|]. intros e0 He0. cbn in He0. destruct (po_c _ _ P3 _ _ He0) as [Hlt _]. lia. }
  assert (U4 : uq s4 /\ ordOk s4). { destruct (ck_state _ _ _ _ _ _ _ K2) as [g2 E2]. destruct (ck_state _ _ _ _ _ _ _ K3) as [g3 E3]. unfold s4. rewrite E3, E2. split; [apply (uq_same s); [done|cbn; set_solver|exact U]|]. intros n' Hn'. cbn in *. specialize (O _ Hn'). lia. }
  eapply (pw_mono _ (fun _ s' => cinv s' /\ Par s' (Some (p_next s3, "head")) /\ uq s' /\ ordOk s')).
  - apply pw_each_inv; [split; [apply P4|done]|]. intros y s5 Hy (C5 & Pr5 & U5 & O5). eapply pw_mono; [apply pw_conj; [by apply Hgo|by apply Huq]|].
    intros [] s6 [[P6 [L6 _]] U6]. split; [apply P6|]. split; [eapply Par_ext; [apply P6|done]|]. split; [done|]. by eapply ordOk_lf.
  - intros [] s5 (_ & _ & U5 & O5). p1. p1. p1. split; [by apply (uq_same s5)|]. exact O5.
Qed.
Lemma import_tag t sy : synOf t = Some sy -> sy_push sy = PuImport -> t <> "causalConnector".
Proof. intros E Hp ->. vm_compute in E. injection E as <-. discriminate Hp. Qed.
Lemma process_uq E k : forall up x s, cinv s -> Par s up -> ordOk s -> uq s -> pw (processNode E k up x) (fun _ s' => uq s') s.
Proof.
  induction k as [|k IH]; intros up x s C Hp O U; [apply pw_nofuel|]. apply process_rule2; [done|done|]. intros sy attrs s1 K1 Hn.
  destruct (checked_fresh _ _ _ _ _ _ _ K1) as (_ & Hn2 & Hc & Ho2 & Hcn2 & _ & _ & Ha2). rewrite Hn in *.
  assert (Q2 : post s (p_set_next (Pos.succ (p_next s)) s1)).
  { destruct (ck_state _ _ _ _ _ _ _ K1) as [g ->]. apply quiet_post; [done| |cbn; set_solver|done]. split; [|done]. split; cbn; [lia|done|]. intros nn. by destruct (p_cache s !! nn). }
  assert (G1 : grows s (p_set_next (Pos.succ (p_next s)) s1)) by (rewrite <- Hn at 1; exact (checked_grows _ _ _ _ _ _ _ K1)).
  set (s2 := p_set_next _ _) in *. set (e0 := newElt _ _ _ _) in *.
  eapply (pw_mono _ (fun e s3 => p_unique s2 ⊆ p_unique s3 /\ el_node e = p_next s /\ el_tag e = x_tag x /\ (sy_push sy = PuImport -> uq s3))).
  { eapply pw_mono; [apply pw_conj; [apply (grows_push E (processNode E k)); intros up' x' s'; eapply pw_mono; [apply process_ids|]; intros [] s'' (J1 & J2 & _); by split|apply pw_conj; [apply (push_shape E (pushImport E (processNode E k))); intros; apply import_shape|]]|].
    - instantiate (1 := fun _ s3 => sy_push sy = PuImport -> uq s3). assert (D : sy_push sy = PuImport \/ sy_push sy <> PuImport) by (destruct (sy_push sy); (by left) || by right). destruct D as [D|D]; [|eapply pw_mono; [apply pw_top|]; done].
      rewrite D. cbn [push]. eapply pw_mono; [apply import_uq|].
      + apply Q2.
      + intros m Hm. rewrite Ho2 in Hm. specialize (O _ Hm). lia.
      + eapply uq_same; [exact Hc|apply G1|done].
      + intros up' y s' C' Hp'. eapply pw_mono; [apply pw_conj; [by apply process_post|by apply process_lf]|]. intros [] s3 [[P _] L]. done.
      + intros up' y s' C' Hp' O' U'. by apply IH.
      + intros e s3 [U3 _] _. exact U3.
    - intros e s3 [[_ G3] [(T1 & T2 & _) U3]]. done. }
  intros e s3 (G3 & N3 & T3 & U3). cbv beta. eapply (pw_mono _ (fun _ s4 => p_unique s4 = p_unique s3 /\ (sy_push sy = PuImport -> uq s4))).
  { destruct (sy_cache sy); cbn [pwhen]; [|by p1]. unfold cacheAdd. p1. p1. p1. p1. p1. split; [done|]. intros Hi. destruct (U3 Hi) as [V1 V2]. pose proof (import_tag _ _ (ck_syn _ _ _ _ _ _ _ K1) Hi) as Hnt. rewrite <- T3 in Hnt. split; cbn.
    - intros m em i. destruct (decide (el_node e = m)) as [<-|Hne]; [rewrite lookup_insert; intros [= <-]; done|rewrite lookup_insert_ne by done; apply V1].
    - intros m m' em em' i. destruct (decide (el_node e = m)) as [<-|Hne]; [rewrite lookup_insert; intros [= <-]; done|rewrite lookup_insert_ne by done]. destruct (decide (el_node e = m')) as [<-|Hne']; [rewrite lookup_insert; intros _ [= <-]; done|rewrite lookup_insert_ne by done; apply V2]. }
  intros [] s4 [G4 U4] P4 Pr4 M4. cbv beta in *.
  assert (O4 : ordOk s4) by (eapply ordOk_lf; [apply M4|done]).
  assert (HU : p_unique s1 ⊆ p_unique s4) by (rewrite G4; exact G3). assert (HU0 : p_unique s ⊆ p_unique s4) by (etransitivity; [apply G1|exact HU]).
  assert (U4' : uq s4).
  { assert (D : sy_push sy = PuImport \/ sy_push sy <> PuImport) by (destruct (sy_push sy); (by left) || by right). destruct D as [D|D]; [by apply U4|]. clear U4 U3. destruct U as [U1 U2].
    assert (B : forall n e' i, p_cache s4 !! n = Some e' -> el_tag e' = "causalConnector" -> attr e' "id" = Some i -> (exists e, p_cache s !! n = Some e /\ el_tag e = "causalConnector" /\ attr e "id" = Some i /\ i ∈ p_unique s) \/ (n = p_next s /\ i ∉ p_unique s /\ i ∈ p_unique s4)).
    { intros n e' i He Ht Ha. destruct (po_c _ _ P4 _ _ He) as (_ & _ & Hin). rewrite (mi_order _ _ _ _ _ _ _ M4 D) in Hin. apply elem_of_app in Hin as [Hin|Hin].
      - left. destruct (lf_back _ _ _ _ _ (mi_lf _ _ _ _ _ _ _ M4) He (O _ Hin)) as (e1 & He0 & Hi). exists e1. split; [done|]. destruct (ident_conn _ _ _ Hi Ht Ha) as [X1 X2]. split; [done|]. split; [done|]. by eapply U1.
      - right. destruct (sy_cache sy) eqn:Ec; [|by apply elem_of_nil in Hin]. apply elem_of_list_singleton in Hin as ->. destruct (mi_elt _ _ _ _ _ _ _ M4 Ec) as (X1 & X2 & X3). assert (e' = e) as -> by congruence. split; [done|].
        assert (Hx : x_tag x = "causalConnector") by congruence. pose proof (ck_syn _ _ _ _ _ _ _ K1) as Es. rewrite Hx in Es. vm_compute in Es. injection Es as <-. unfold attr in Ha. rewrite X3 in Ha by done. destruct (checked_id _ _ _ _ _ _ _ K1 eq_refl Ha) as [Y1 Y2]. split; [done|]. by apply HU. }
    split.
    - intros n e' i He Ht Ha. destruct (B _ _ _ He Ht Ha) as [(e1 & X1 & X2 & X3 & X4)|(X1 & X2 & X3)]; [by apply HU0|done].
    - intros n m e1 e2 i He He' Ht Ht' Ha Ha'. destruct (B _ _ _ He Ht Ha) as [(f1 & X1 & X2 & X3 & X4)|(X1 & X2 & X3)]; destruct (B _ _ _ He' Ht' Ha') as [(f2 & Y1 & Y2 & Y3 & Y4)|(Y1 & Y2 & Y3)]; [by eapply U2|done|done|congruence]. }
  eapply pw_mono; [apply (kids_rule E k _ _ _ s4 (fun _ s' => cinv s' /\ ordOk s' /\ uq s')); [apply P4|done| |]|].
  - split; [apply P4|]. done.
  - intros y l' s' _ C' Hp' (_ & O' & U'). eapply pw_mono; [apply pw_conj; [by apply process_post|apply pw_conj; [by apply process_lf|by apply IH]]|]. intros [] s'' [[P'' _] [[L'' _] H'']]. split; [apply P''|]. split; [by eapply ordOk_lf|done].
  - intros [] s5 (C5 & O5 & U5). cbv beta in *. eapply pw_mono; [apply pw_conj; [by apply pop_good|apply pw_conj; [by apply pop_lf|apply pw_conj; [apply kw_pop|apply keep_pop]]]|]. intros [] s6 [[P6 _] [[L6 _] [O6 F6]]]. eapply uq_step; [exact L6|apply P6|exact O6|exact O5| |exact U5]. by rewrite (fr_unique _ _ F6).
Qed.

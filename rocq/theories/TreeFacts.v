(** TreeFacts.v -- C45: the objects of a parsed document mirror its elements. *)
From Verif Require Import BuildInv BuildOps BuildSpec BuildFacts Frame ParserFrame ParserEnd.
From Verif Require Export TreePush.
Open Scope string_scope.
Open Scope list_scope.

#[local] Instance pushk_eq2 : EqDecision pushk. Proof. solve_decision. Defined.
#[local] Instance popk_eq2 : EqDecision popk. Proof. solve_decision. Defined.
Definition bodyTable : list (string * (pushk * popk)) := [("ncl", (PuNcl, PoNcl)); ("body", (PuContext, PoContext)); ("context", (PuContext, PoContext)); ("switch", (PuSwitch, PoSwitch)); ("media", (PuMedia, PoMedia));
  ("area", (PuArea, PoNone)); ("property", (PuProperty, PoNone))].
Definition bodyOk (x : string * syn) : bool :=
  mem (fst x) headTags || match look (fst x) bodyTable with
  | Some (p, q) => bool_decide (sy_push (snd x) = p) && bool_decide (sy_pop (snd x) = q) && negb (sy_genid (snd x))
  | None => quietPush (sy_push (snd x)) && negb (stackPush (sy_push (snd x))) && quietPop (sy_pop (snd x)) && negb (stackPop (sy_pop (snd x))) end.
Lemma bodyOk_all : forallb bodyOk syntax = true. Proof. vm_compute. reflexivity. Qed.
Lemma body_syn t sy : synOf t = Some sy -> mem t headTags = false ->
  (t ∉ ["ncl"; "body"; "context"; "switch"; "media"; "area"; "property"] /\ quietPush (sy_push sy) = true /\ stackPush (sy_push sy) = false /\ quietPop (sy_pop sy) = true /\ stackPop (sy_pop sy) = false) \/
  ((t, (sy_push sy, sy_pop sy)) ∈ bodyTable /\ sy_genid sy = false).
Proof.
  intros E Ht. apply look_some in E. apply (forall_elem _ _ _ bodyOk_all) in E. unfold bodyOk in E. cbn [fst snd] in E. rewrite Ht in E. cbn [orb] in E. destruct (look t bodyTable) as [[p q]|] eqn:El.
  - right. apply andb_true_iff in E as [E E3]. apply andb_true_iff in E as [E1 E2]. apply bool_decide_eq_true in E1, E2. rewrite E1, E2. split; [by apply look_some|]. by destruct (sy_genid sy).
  - left. apply andb_true_iff in E as [E E4]. apply andb_true_iff in E as [E E3]. apply andb_true_iff in E as [E1 E2]. split; [|by destruct (stackPush _), (stackPop _)].
    intros Hi. repeat (apply elem_of_cons in Hi as [->|Hi]; [discriminate El|]). by apply elem_of_nil in Hi.
Qed.
Lemma aId_ok t sy v : synOf t = Some sy -> t = "area" -> Forall (attrOk sy v) (sy_attrs sy) -> aget "id" v <> Some "@lambda".
Proof.
  intros E -> H Hv. vm_compute in E. injection E as <-. apply list.Forall_cons in H as [H _]. unfold attrOk in H. cbn [fst snd] in H. rewrite Hv in H. destruct H as [_ H]. specialize (H eq_refl). discriminate H.
Qed.
(** The push function of an element of the body. *)
Lemma push_tree E imp up x s sy attrs s1 : pinv (p_unique s) None [] s -> tinv (p_unique s) s -> p_alias s = [] -> checked true up x s sy attrs s1 -> mem (x_tag x) headTags = false ->
  (x_tag x = "body" -> forall o rest, p_objs s = o :: rest -> g_root (p_graph s) = Some o) ->
  forall u, pw (push E imp (sy_push sy) (newElt (x_tag x) (p_next s1) u attrs)) (fun _ s' => p_odd s' = true \/ (pt (p_unique s1) x s s')) (p_set_next (Pos.succ (p_next s1)) s1).
Proof.
  intros I T Ha K Hh Hb u. set (n := p_next s1). set (e := newElt (x_tag x) n u attrs). set (s2 := p_set_next (Pos.succ n) s1).
  assert (Hg : p_graph s2 = p_graph s /\ p_objs s2 = p_objs s /\ p_refer s2 = p_refer s /\ p_unique s2 = p_unique s1) by (unfold s2; destruct (ck_state _ _ _ _ _ _ _ K) as [g ->]; done).
  destruct Hg as (Hg & Ho & Hr & Hu). assert (HU : p_unique s ⊆ p_unique s1) by apply (checked_grows _ _ _ _ _ _ _ K).
  assert (T2 : tinv (p_unique s) s2). { destruct T as [A B]. split; [by rewrite Hg|]. rewrite Hr. intros k m Hk. rewrite Hg. auto. }
  assert (G2 : GInv (p_graph s2)) by (rewrite Hg; apply I).
  assert (W : forall s', pt (p_unique s1) x s2 s' -> pt (p_unique s1) x s s').
  { intros s' [P1 P2 P3 P4 P5]. rewrite Hg in P1. rewrite Ho in P4, P5. split; try done. intros o rest. rewrite <- Ho. apply P3. }
  destruct (body_syn _ _ (ck_syn _ _ _ _ _ _ _ K) Hh) as [(N & Q1 & Q2 & _)|[B Gi]].
  { eapply pw_mono; [apply pw_conj; [apply (kq_push E imp _ e Q1)|apply (kb_push E imp _ e Q2)]|]. intros e' s' [(_ & Eg & Er) Eo]. right. apply W. unfold pob in Eo. split.
    - rewrite Eg. apply tm_refl.
    - destruct T2 as [A B]. split; [rewrite Eg; intros; destruct (A _ _ _ H H0 H1 H2); auto|]. rewrite Er, Eg. intros k m Hk. eapply entry_tm; [apply tm_refl|exact HU|]. by apply B.
    - intros o rest _. apply inPlace_none. set_solver.
    - intros Hs. exfalso. apply N. unfold standing in Hs. set_solver.
    - intros _. exact Eo. }
  assert (Ag : agrees x e). { split; [done|]. intros k v. exact (checked_attr _ _ _ _ _ _ k v K Ha Gi). }
  assert (Id : forall i, attr e "id" = Some i -> i ∉ p_unique s /\ i ∈ p_unique s1). { intros i Hi. exact (checked_id _ _ _ _ _ _ _ K Gi Hi). }
  unfold bodyTable in B. repeat (apply elem_of_cons in B as [B|B]); [..|by apply elem_of_nil in B].
  all: injection B as Et Ep _; rewrite Ep; cbn [push].
  - eapply pw_mono; [apply (push_tree_ncl (p_unique s) (p_unique s1) e x s2); done|]. intros e' s' P. right. by apply W.
  - eapply pw_mono; [apply (push_tree_body (p_unique s) (p_unique s1) e x s2); try done|]. { rewrite Ho, Hg. by apply Hb. } intros e' s' P. right. by apply W.
  - eapply pw_mono; [apply (push_tree_context (p_unique s) (p_unique s1) e x s2); done|]. intros e' s' P. right. by apply W.
  - eapply pw_mono; [apply (push_tree_switch (p_unique s) (p_unique s1) e x s2); done|]. intros e' s' P. right. by apply W.
  - eapply pw_mono; [apply (push_tree_media E (p_unique s) (p_unique s1) e x s2); try done|].
    + eapply pinv_quiet; [exact I|]. unfold s2, n. destruct (ck_state _ _ _ _ _ _ _ K) as [g ->]. split; [|done]. split; cbn; [lia|done|]. intros m. by destruct (p_cache s !! m).
    + intros e' s' [P|P]; [by left|right]. by apply W.
  - eapply pw_mono; [apply (push_tree_area (p_unique s) (p_unique s1) e x s2); try done|].
    + intros i Hi. destruct (Id i Hi). split; [done|]. split; [done|]. intros ->. apply (aId_ok _ _ _ (ck_syn _ _ _ _ _ _ _ K) Et (ck_attrs _ _ _ _ _ _ _ K)). by apply Ag.
    + intros e' s' P. right. by apply W.
  - eapply pw_mono; [apply (push_tree_property (p_unique s) (p_unique s1) e x s2); done|]. intros e' s' P. right. by apply W.
Qed.
(** The pop function of an element. *)
Lemma ns_quiet s s' : quiet s s' -> ns s s'. Proof. intros (_ & E & _). unfold ns. rewrite E. apply nk_refl. Qed.
Lemma pop_gg E k p n s : cinv s -> GInv (p_graph s) -> pw (pop E k p n) (fun _ s' => gg s s' /\ ns s s') s.
Proof.
  intros C I. destruct (quietPop p) eqn:Eq; [eapply pw_mono; [apply kq_pop; exact Eq|]; intros [] s' Q; split; [by apply gg_quiet|by apply ns_quiet]|].
  destruct p; try discriminate Eq; cbn [pop]; [|apply pw_conj; [by apply kg_popContext|apply kn_popContext]|apply pw_conj; [by apply kg_popSwitch|apply kn_popSwitch]].
  unfold popNcl. cbv zeta. p1. p1. p1. eapply (pw_mono _ (fun _ s' => quiet s s')).
  { apply pw_each_inv; [apply quiet_refl|]. intros d s1 Hd Q. destruct (tagged_node _ _ _ C Hd) as (e & He & Ht). eapply pw_mono; [apply quiet_descriptor|].
    - eapply notMedia_cfr; [apply Q|]. intros e' He'. assert (e' = e) as -> by congruence. by rewrite Ht.
    - intros [] s2 Q2. by eapply quiet_trans. }
  intros [] s1 Q1. assert (G1 : gg s s1) by (by apply gg_quiet). apply ns_quiet in Q1.
  match goal with |- pw ?m _ _ => assert (K : kg m); [|assert (K' : kn m)] end.
  { repeat first [progress intros|apply kg_media|apply kg_switch|apply kg_link|solve [apply kq_kg; kqt]|apply kg_each|apply kg_bind]. }
  { repeat first [progress intros|apply kn_media|apply kn_switch|apply kn_link|apply pre_ns|solve [apply kn_quiet; kqt]|apply kr_each|apply kr_bind]. }
  eapply pw_mono; [apply pw_conj; [exact (K s1 (gg_inv _ _ G1))|exact (K' s1)]|]. intros [] s2 [G2 N2]. split; [by eapply gg_trans|by eapply nk_trans].
Qed.
(** Elements of the head hold only elements of the head. *)
Lemma process_heads E k : forall up x s, pw (processNode E k up x) (fun _ _ => mem (x_tag x) headTags = true -> forall y, y ∈ elementsOf x -> mem (x_tag y) headTags = true) s.
Proof.
  induction k as [|k IH]; intros up x s; cbn [processNode]; [done|].
  apply pw_bind. eapply pw_mono; [apply checkNode_ok|]. intros [sy attrs] s1 Hc. cbn [fst snd] in Hc. cbv beta iota. p1. p1. p1.
  eapply (pw_mono _ (fun _ _ => True)); [unfold pw; by destruct (push _ _ _ _ _)|]. intros e s2 _. cbv beta. p1.
  eapply (pw_mono _ (fun _ _ => True)); [unfold pw; by destruct (pwhen _ _ _)|]. intros [] s3 _. cbv beta. p1.
  eapply (pw_mono _ (fun _ _ => forall y, y ∈ x_kids x -> mem (x_tag y) headTags = true -> forall z, z ∈ elementsOf y -> mem (x_tag z) headTags = true)).
  { apply (pw_each _ (x_kids x) (fun l _ => forall y, y ∈ x_kids x -> y ∈ l \/ (mem (x_tag y) headTags = true -> forall z, z ∈ elementsOf y -> mem (x_tag z) headTags = true))).
    - intros y Hy. by left.
    - intros y l' s' _ Hi. eapply pw_mono; [apply IH|]. intros [] s4 Hv z Hz. destruct (Hi z Hz) as [H|H]; [|by right]. apply elem_of_cons in H as [->|H]; [by right|by left].
    - intros s' Hi y Hy. destruct (Hi y Hy) as [H|H]; [by apply elem_of_nil in H|done]. }
  intros [] s4 Hk. cbv beta. unfold pw. destruct (pop _ _ _ _ _); try done. intros Ht y Hy. rewrite elements_eq in Hy. apply elem_of_cons in Hy as [->|Hy]; [done|].
  apply elem_of_list_In, in_flat_map in Hy as (z & Hz & Hy). apply elem_of_list_In in Hz, Hy. apply (Hk z Hz); [|done]. eapply head_child; [exact Ht|]. by apply (ck_kids _ _ _ _ _ _ _ Hc).
Qed.
Lemma tinv_mono U U' s s' : GInv (p_graph s) -> tinv U s -> U ⊆ U' -> p_graph s' = p_graph s -> p_refer s' = p_refer s -> tinv U' s'.
Proof. intros I T HU Hg Hr. eapply (tinv_tr U U' s); [done|done|done|rewrite Hg; apply tm_refl|unfold ns; rewrite Hg; apply nk_refl|done]. Qed.
Lemma head_tags t : mem t headTags = true -> t ∉ ["ncl"; "body"; "context"; "switch"; "media"; "area"; "property"].
Proof. intros H Hi. repeat (apply elem_of_cons in Hi as [->|Hi]; [discriminate H|]). by apply elem_of_nil in Hi. Qed.
Lemma pop_stack t sy : synOf t = Some sy -> mem t headTags = false -> stackPop (sy_pop sy) = true <-> t = "ncl" \/ t = "body" \/ t = "context" \/ t = "switch" \/ t = "media".
Proof.
  intros E Ht. destruct (body_syn _ _ E Ht) as [(N & _ & _ & _ & ->)|[B _]].
  - split; [done|]. intros H. exfalso. apply N. set_solver.
  - unfold bodyTable in B. repeat (apply elem_of_cons in B as [B|B]); [..|by apply elem_of_nil in B].
    all: injection B as -> _ ->; cbn [stackPop]; split; intros H; try done; tauto || (exfalso; intuition discriminate).
Qed.
(** An element and all it holds. *)
Record TR (x : xml) (s s' : pst) : Prop := mkTR {
  tR_tm : tm (p_graph s) (p_graph s');
  tR_objs : p_objs s' = p_objs s;
  tR_inv : tinv (p_unique s') s';
  tR_top : inTop s (p_graph s') x;
  tR_mir : mirrored (p_graph s') x }.
Lemma pt_hd U x s s' s2 : GInv (p_graph s') -> pt U x s s' -> hd s' s2 -> p_refer s2 = p_refer s' -> pt U x s s2.
Proof.
  intros I [A B C D F] [Hg Ho] Hr. split; rewrite ?Hg, ?Ho; try done. eapply (tinv_mono U U s'); done.
Qed.
Lemma tree E k : forall up x s, cinv s -> Par s up -> pinv (p_unique s) None [] s -> p_alias s = [] -> tinv (p_unique s) s ->
  (option_map snd up = Some "ncl" -> forall o rest, p_objs s = o :: rest -> g_root (p_graph s) = Some o) ->
  pw (processNode E k up x) (fun _ s' => p_odd s' = true \/ TR x s s') s.
Proof.
  induction k as [|k IH]; intros up x s C Hp I Ha T Hb; [apply pw_nofuel|].
  destruct (mem (x_tag x) headTags) eqn:Eh.
  { eapply pw_mono; [apply pw_conj; [by apply process_still|apply pw_conj; [by apply process_head|apply pw_conj; [apply process_ids|apply process_heads]]]|].
    intros [] s' [[Hg Ho] [[_ Hr] [(I1 & I2 & _) Hh]]]. right. specialize (Hh Eh). split.
    - rewrite Hg. apply tm_refl.
    - done.
    - eapply tinv_mono; [|exact T|done|done|done]. apply I.
    - intros o rest _. apply inPlace_none. pose proof (head_tags _ Eh). set_solver.
    - intros y Hy Hs. exfalso. apply (head_tags _ (Hh y Hy)). unfold standing in Hs. set_solver. }
  apply process_rule; [done|done|]. intros sy attrs s1 K1.
  assert (G1 : grows s (p_set_next (Pos.succ (p_next s1)) s1)) by exact (checked_grows _ _ _ _ _ _ _ K1).
  set (s2 := p_set_next _ _) in *. set (e0 := newElt _ _ _ _).
  eapply pw_mono; [apply pw_conj; [apply (push_tree E (pushImport E (processNode E k)) _ x s sy attrs s1 I T Ha K1 Eh)|apply (grows_push E (processNode E k)); intros up' x' s'; eapply pw_mono; [apply process_ids|]; intros [] s'' (J1 & J2 & _); by split]|].
  { intros Hx o rest Ho. pose proof (ck_syn _ _ _ _ _ _ _ K1) as Es. rewrite Hx in Es. vm_compute in Es. injection Es as <-.
    destruct (ck_up _ _ _ _ _ _ _ K1) as [Hu|(u & Hu & Hi)]; [done|]. apply elem_of_list_singleton in Hi as ->. by apply (Hb Hu o rest). }
  intros e s3 [H3 G3]. cbv beta in *. eapply pw_mono; [apply pw_conj; [apply hd_cache|apply pw_conj; [apply (kr_when os), ko_cacheAdd|apply keep_when, keep_cacheAdd]]|].
  intros [] s4 [D4 [[O4 R4] F4]] P4 Pr4. cbv beta in *.
  assert (G4 : grows s s4) by (eapply grows_trans; [exact G1|]; eapply grows_trans; [exact G3|by apply grows_fr]).
  assert (H4 : p_odd s4 = true \/ (pinv (p_unique s4) None [] s4 /\ pt (p_unique s4) x s s4)).
  { destruct H3 as [H3|H3]; [left; congruence|]. destruct (po_g _ _ P4 (or_intror I)) as [G|G]; [by left|]. right. split; [done|].
    assert (GI : GInv (p_graph s3)) by (rewrite <- (proj1 D4); apply G).
    assert (HU : p_unique s1 ⊆ p_unique s4). { change (p_unique s1) with (p_unique s2). destruct G3 as [_ G3]. rewrite (fr_unique _ _ F4). done. }
    eapply (pt_hd _ _ _ s3); [done| |done|done]. destruct H3 as [A B D F G']. split; try done. by eapply tinv_mono; [|exact B|..]. }
  eapply pw_mono; [apply (kids_rule E k _ _ _ s4 (fun l s' => cinv s' /\ p_alias s' = [] /\ (p_odd s' = true \/ (pinv (p_unique s') None [] s' /\ pt (p_unique s4) x s s4 /\ exists p, x_kids x = p ++ l /\ tm (p_graph s4) (p_graph s') /\
     p_objs s' = p_objs s4 /\ tinv (p_unique s') s' /\ forall y, y ∈ p -> inTop s4 (p_graph s') y /\ mirrored (p_graph s') y)))); [apply P4|done| |]|].
  - split; [apply P4|]. split; [by rewrite (proj1 G4)|]. destruct H4 as [H4|[H4 H4']]; [by left|right]. split; [done|]. split; [done|]. exists []. split; [done|]. split; [apply tm_refl|]. split; [done|]. split; [apply H4'|]. intros y Hy. by apply elem_of_nil in Hy.
  - intros y l' s' _ C' Hp' (_ & A' & H').
    destruct H' as [H'|(I' & P' & p & Ek & TM & Eo & T' & Hk)].
    { eapply pw_mono; [apply pw_conj; [by apply process_post|apply process_ids]|]. intros [] s'' [[P'' _] (J1 & _)]. split; [apply P''|]. split; [congruence|]. left. by apply (ex_odd _ _ (po_x _ _ P'')). }
    eapply pw_mono; [apply pw_conj; [by apply process_post|apply pw_conj; [apply process_ids|apply IH; try done]]|].
    { cbn [option_map snd]. intros [= Ht] o rest Ho. rewrite Eo in Ho. destruct (pt_obj _ _ _ _ P') as (o1 & Ho1 & Hx1); [by left|]. assert (o1 = o) as -> by congruence.
      rewrite (gx_root _ _ (tm_ext _ _ TM)). apply (of_root _ _ _ Hx1). by left. }
    intros [] s'' [[P'' _] [(J1 & _) HT]]. split; [apply P''|]. split; [congruence|]. destruct HT as [HT|HT]; [by left|]. destruct (po_g _ _ P'' (or_intror I')) as [G|G]; [by left|]. right. split; [done|]. split; [done|].
    exists (p ++ [y]). split; [by rewrite <- app_assoc|]. split; [eapply tm_trans; [exact TM|apply HT]|]. split; [rewrite (tR_objs _ _ _ HT); done|]. split; [apply HT|].
    intros z Hz. apply elem_of_app in Hz as [Hz|Hz].
    + destruct (Hk z Hz) as [Z1 Z2]. split; [|eapply mirrored_tm; [apply HT|done]]. intros o rest Ho. eapply inPlace_tm; [apply HT|]. by apply (Z1 o rest).
    + apply elem_of_list_singleton in Hz as ->. split; [|apply HT]. intros o rest Ho. apply (tR_top _ _ _ HT o rest). congruence.
  - intros [] s5 (C5 & A5 & H5). cbv beta in *.
    destruct H5 as [H5|(I5 & P5 & p & Ek & TM & Eo & T5 & Hk)].
    { eapply pw_mono; [apply keep_pop|]. intros [] s6 F6. left. by apply (fr_odd _ _ F6). }
    rewrite app_nil_r in Ek. subst p.
    assert (St : stackPop (sy_pop sy) = true <-> standing x) by exact (pop_stack _ _ (ck_syn _ _ _ _ _ _ _ K1) Eh).
    assert (PO : pw (pop E (S k) (sy_pop sy) (p_next s1)) (fun _ s' => p_objs s' = p_objs s) s5).
    { destruct (stackPop (sy_pop sy)) eqn:Es.
      - eapply pw_mono; [apply (pops_pop E (S k) _ (p_next s1) Es)|]. intros [] s' ->. destruct (pt_obj _ _ _ _ P5) as (o & Ho & _); [by apply St|]. by rewrite Eo, Ho.
      - eapply pw_mono; [apply (kb_pop E (S k) _ (p_next s1) Es)|]. intros [] s' Hs. unfold pob in Hs. rewrite Hs, Eo. apply P5. intros H. apply St in H. done. }
    eapply pw_mono; [apply pw_conj; [apply (pop_gg E (S k) (sy_pop sy) (p_next s1) s5 C5), I5|apply pw_conj; [exact PO|apply keep_pop]]|]. clear PO. intros [] s6 [[[G6 R6] N6] [O6 F6]]. right.
    apply gsm_tm in G6. split.
    + eapply tm_trans; [apply P5|]. by eapply tm_trans.
    + done.
    + eapply (tinv_tr (p_unique s5)); [apply I5|done|rewrite (fr_unique _ _ F6); done|done|done|done].
    + intros o rest Ho. eapply inPlace_tm; [exact G6|]. eapply inPlace_tm; [exact TM|]. by apply (pt_top _ _ _ _ P5 o rest).
    + intros y Hy Hs. rewrite elements_eq in Hy. apply elem_of_cons in Hy as [->|Hy].
      * destruct (pt_obj _ _ _ _ P5 Hs) as (o & Ho & Hx). exists o. split; [eapply objectOf_tm; [exact G6|]; by eapply objectOf_tm|].
        intros y Hy. eapply inPlace_tm; [exact G6|]. destruct (Hk y Hy) as [Z _]. by apply (Z o (p_objs s)).
      * apply elem_of_list_In, in_flat_map in Hy as (z & Hz & Hy). apply elem_of_list_In in Hz, Hy. destruct (Hk z Hz) as [_ Z]. exact (mirrored_tm _ _ _ G6 Z y Hy Hs).
Qed.
(** ** The start. *)
Definition lamOnly (g : graph) : Prop := forall e ev, g_evt g !! e = Some ev -> ev_type ev = PRESENTATION -> ev_id ev = "@lambda".
Lemma lam_addEvent g o t i b e l : t <> PRESENTATION -> lamOnly g -> pwp (addEvent o t i b e l) (fun _ g' => lamOnly g') g.
Proof.
  intros Ht L. unfold addEvent. w1. eapply wp_mono; [apply wp_getEvent|]. intros r g1 [-> _]. cbv beta. destruct r; [by w1|].
  w1. unfold galloc, wp at 1. w1. w1. w1. w1. apply wp_oupd. intros ob Ho e' ev. cbn.
  destruct (decide (e' = g_next g)) as [->|Hn]; [rewrite lookup_insert; intros [= <-] Hp; done|rewrite lookup_insert_ne by done; apply L].
Qed.
Lemma lam_newObject g k i : lamOnly g -> pwp (newObject k i) (fun _ g' => lamOnly g') g.
Proof.
  intros L. unfold newObject. w1. unfold galloc at 1, wp at 1. w1. unfold galloc at 1, wp at 1. w1. w1. w1. w1. w1.
  match goal with |- wp _ _ _ _ ?g => assert (L' : lamOnly g) end.
  { intros e ev. cbn. destruct (decide (e = Pos.succ (g_next g))) as [->|Hn]; [rewrite lookup_insert; intros [= <-] _; done|rewrite lookup_insert_ne by done; apply L]. }
  w1.
  - w1. w1. eapply wp_mono; [apply lam_addEvent; [discriminate|exact L']|]. intros [] g' L2. by w1.
  - by w1.
Qed.
Lemma lam_addObject g o : lamOnly g -> pwp (addObject o) (fun _ g' => lamOnly g') g.
Proof.
  intros L. unfold addObject, glookup. w1. apply wp_gobj. intros ob Ho. w1. w1. w1. w1. destruct (_ || _); [by w1|]. w1. w1. w1. w1. w1. exact L.
Qed.
Lemma lam_oupd g o f (Q : unit -> graph -> Prop) : lamOnly g -> (forall g', lamOnly g' -> Q tt g') -> pwp (oupd o f) Q g.
Proof. intros L H. apply wp_oupd. intros ob Ho. apply H. exact L. Qed.
Lemma lam_addChild g c o : lamOnly g -> pwp (addChild c o) (fun _ g' => lamOnly g') g.
Proof.
  intros L. unfold addChild. w1. apply wp_gobj. intros cb Hc. w1. apply wp_gobj. intros ob Ho. destruct (bool_decide _); [by w1|]. destruct (negb _); [w1|]. w1. w1. w1.
  apply lam_oupd; [done|]. clear L. intros g1 L. w1. apply wp_gobj. intros ob1 Ho1. w1. w1. w1. apply lam_oupd; [done|]. clear L. intros g2 L. destruct (negb _); [w1|]. w1.
  eapply wp_mono; [by apply lam_addObject|]. intros b g3 L3. w1. exact L3.
Qed.
Lemma lam_newDocument addr f : pwp newDocument (fun _ g' => lamOnly g') (emptyGraph addr f).
Proof.
  assert (L : lamOnly (emptyGraph addr f)) by (intros e ev He; cbn in He; rewrite lookup_empty in He; done).
  unfold newDocument. w1. eapply wp_mono; [by apply lam_newObject|]. clear L. intros r g1 L. w1. w1. w1. eapply wp_mono; [apply lam_addObject; exact L|]. clear L. intros b g2 L. w1. w1. w1.
  eapply wp_mono; [by apply lam_newObject|]. clear L. intros s g3 L. w1. eapply wp_mono; [by apply lam_addChild|]. clear L. intros [] g4 L. w1. exact L.
Qed.
Lemma start_lam addr focus z w h : pw (lift newDocument) (fun _ s => lamOnly (p_graph s) /\ p_objs s = []) (initial addr focus z w h).
Proof. apply pw_lift. eapply wp_mono; [apply lam_newDocument|]. intros [] g L. split; [exact L|done]. Qed.
Lemma f_C45 E k addr focus z w h x s : parse E k addr focus z w h x = POk tt s -> settingsPlain x -> mirrored (p_graph s) x.
Proof.
  intros H Hx. pose proof (plain_odd _ _ _ _ _ _ _ _ _ H Hx) as Ho. apply parse_inv in H.
  assert (G : pw (lift newDocument ;;; processNode E k None x) (fun _ s => p_odd s = true \/ mirrored (p_graph s) x) (initial addr focus z w h)).
  { p1. eapply pw_mono; [apply pw_conj; [apply start_good|apply start_lam]|]. intros [] s0 [(G0 & C0 & _ & R0 & U0 & O0 & A0) [L0 S0]].
    assert (I0 : pinv (p_unique s0) None [] s0) by (destruct G0 as [G0|G0]; [congruence|done]).
    eapply pw_mono; [apply (tree E k None x s0 C0); [intros n t Hn; done|exact I0|exact A0| |intros Hn; discriminate Hn]|].
    - split; [intros e ev ob He Ht _ _; left; by eapply L0|]. rewrite R0. intros k' m Hk. discriminate Hk.
    - intros [] s1 [H1|H1]; [by left|right]. apply H1. }
  destruct (pw_ok _ _ _ _ _ G H) as [H1|H1]; [|done]. rewrite Ho in H1. discriminate H1.
Qed.

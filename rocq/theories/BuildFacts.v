(** BuildFacts.v -- proofs of C21, C22 and C40. *)
From Verif Require Import Builder BuildSpec BuildInv BuildOps Frame Wf Reach.
Open Scope string_scope.
Open Scope list_scope.

Lemma bexec_step g op g' : GInv g -> bexec op g = Ok tt g' -> step g g'.
Proof.
  intros I E. cut (pwp (bexec op) (fun _ g' => step g g') g); [intros H; by apply (wp_ok _ _ _ _ _ H tt g')|].
  destruct op; cbn [bexec].
  - w1. eapply wp_mono; [by apply wp_newObject|]. intros o g1 [S _]. cbv beta. by w1.
  - w1. eapply wp_mono; [by apply wp_addObject|]. intros b g1 (ob & _ & H). cbv beta. w1. destruct b; [apply H|]. destruct H as [-> _]. by apply step_refl.
  - eapply wp_mono; [by apply wp_addChild|]. intros [] g1 [S _]. done.
  - by apply addAlias_step.
  - eapply wp_mono; [by apply wp_addEvent|]. intros [] g1 [S _]. done.
  - eapply wp_mono; [by apply wp_addEvent|]. intros [] g1 [S _]. done.
  - eapply wp_mono; [by apply wp_addEvent|]. intros [] g1 [S _]. done.
  - eapply wp_mono; [by apply wp_addEvent|]. intros [] g1 [S _]. done.
  - eapply wp_mono; [by apply wp_addEvent|]. intros [] g1 [S _]. done.
  - by apply addPort_step.
  - by apply addLink_step.
  - by apply addRule_step.
  - by apply addSwitchPort_step.
  - by apply gsetProperty_step.
  - by apply gsetParameter_step.
Qed.
Lemma built_inv g : built g -> GInv g /\ GDoc g.
Proof.
  induction 1 as [addr f g E|g op g' _ [I G] E].
  - exact (wp_ok _ _ _ _ _ (newDocument_ok addr f) tt g E).
  - pose proof (bexec_step _ _ _ I E) as [S1 S2 S3]. auto.
Qed.

(** ** C21. *)
Lemma f_C21_unique g : built g -> forall o1 o2 i, inDocument g o1 -> inDocument g o2 -> withId g o1 i -> withId g o2 i -> o1 = o2.
Proof.
  intros B o1 o2 i H1 H2 I1 I2. destruct (built_inv _ B) as [I _].
  assert (g_byid g !! i = Some o1) by (by apply (gi_byid _ I)). assert (g_byid g !! i = Some o2) by (by apply (gi_byid _ I)). congruence.
Qed.
Lemma f_C21_lookup g : built g -> forall i, exists r, glookup i g = Ok r g /\
  match r with
  | Some o => inDocument g o /\ (withId g o i \/ (withAlias g o i /\ forall o', inDocument g o' -> ~ withId g o' i))
  | None => forall o, inDocument g o -> ~ withId g o i /\ ~ withAlias g o i
  end.
Proof. intros B i. apply lookup_spec. by apply built_inv. Qed.
Lemma f_C21_add g : built g -> forall o b g' i, withId g o i -> addObject o g = Ok b g' ->
  (b = false <-> inDocument g o \/ exists o', inDocument g o' /\ (withId g o' i \/ withAlias g o' i)) /\
  (b = false -> g' = g) /\
  (b = true -> inDocument g' o /\ glookup i g' = Ok (Some o) g' /\ forall o', inDocument g' o' <-> o' = o \/ inDocument g o').
Proof.
  intros B o b g' i (ob0 & Ho0 & <-) E. destruct (built_inv _ B) as [I _].
  destruct (wp_ok _ _ _ _ _ (wp_addObject g o I) _ _ E) as (ob & Ho & H). assert (ob0 = ob) as -> by congruence. destruct b.
  - destruct H as (S & AT & Hno & Hfree & _). split.
    + split; [done|]. intros [?|(o' & A & B1)]; [done|]. exfalso. destruct (Hfree _ A). by destruct B1.
    + split; [done|]. intros _. assert (Hin : forall o', inDocument g' o' <-> o' = o \/ inDocument g o') by (intros o'; unfold inDocument; rewrite (at_objs _ _ _ _ _ AT); apply sins_elem).
      split; [apply Hin; by left|]. split; [|done]. unfold glookup, gets. rewrite (at_byid _ _ _ _ _ AT), lookup_insert. done.
  - destruct H as (-> & H). split; [|done]. split; done.
Qed.
Lemma addObject_total g o i : GInv g -> withId g o i -> exists b g', addObject o g = Ok b g' \/ addObject o g = Crash (CAssert "Document.cpp:144").
Proof.
  intros I (ob & Ho & _). unfold addObject, bind, gobj, glookup, get, gets. rewrite Ho. cbn.
  destruct (_ || _); [by eexists _, _; left|]. destruct (negb _); cbn; [by eexists _, _; left|]. exists false, g. by right.
Qed.
Lemma f_C21_child g : built g -> forall c o i g', withId g o i -> (exists o', inDocument g o' /\ (withId g o' i \/ withAlias g o' i)) ->
  addChild c o g = Ok tt g' -> g' = g /\ inDocument g o.
Proof.
  intros B c o i g' (ob & Ho & <-) (o' & A & B1) E. destruct (built_inv _ B) as [I _].
  destruct (g_obj g !! c) as [cb|] eqn:Hc; [|unfold addChild, bind, gobj in E; by rewrite Hc in E].
  destruct (decide (o ∈ ob_children cb)) as [Hi|Hi].
  - unfold addChild, bind, gobj in E. rewrite Hc in E. cbn in E. rewrite Ho in E. cbn in E. rewrite bool_decide_true in E by done. injection E as <-. split; [done|].
    destruct (oi_children _ _ _ (gi_o _ I _ _ Hc) _ Hi) as (ob' & E1 & E2). by destruct (oi_parent _ _ _ (gi_o _ I _ _ E1) _ E2) as (? & _).
  - exfalso.
    (* a fresh child must pass Document::addObject *)
    unfold addChild, bind, gobj, oupd, get in E. rewrite Hc in E. cbn in E. rewrite Ho in E. cbn in E. rewrite bool_decide_false in E by done. destruct (negb (isComp (ob_kind cb))); [done|]. cbn in E.
    unfold gobj, bind in E. rewrite Hc in E. cbn in E.
    set (m1 := <[c := ob_set_children (sins (g_addr g) o (ob_children cb)) cb]> (g_obj g)) in E.
    assert (Ho1 : exists ob1, m1 !! o = Some ob1 /\ ob_id ob1 = ob_id ob /\ ob_aliases ob1 = ob_aliases ob).
    { unfold m1. destruct (decide (c = o)) as [->|]; [rewrite lookup_insert; eexists; split; [done|]; assert (ob = cb) as -> by congruence; done|rewrite lookup_insert_ne by done; eauto]. }
    destruct Ho1 as (ob1 & Ho1 & Hid1 & Hal1). rewrite Ho1 in E. cbn in E. destruct (ob_parent ob1); [done|]. cbn in E. rewrite Ho1 in E. cbn in E.
    destruct (negb (inDoc g c)); [done|]. cbn in E. unfold addObject, bind, gobj, glookup, get, gets in E. cbn in E. rewrite lookup_insert in E. cbn in E. rewrite Hid1 in E.
    set (g2 := g_set_obj _ _) in E.
    assert (Hal : forall y, aliasIn g2 (ob_id ob) y = aliasIn g (ob_id ob) y).
    { intros y. unfold aliasIn, g2. cbn. unfold m1. destruct (decide (o = y)) as [<-|N1]; [rewrite lookup_insert, Ho; unfold ghasAlias; cbn; by rewrite Hal1|]. rewrite lookup_insert_ne by done.
      destruct (decide (c = y)) as [<-|N2]; [rewrite lookup_insert, Hc; done|]. by rewrite lookup_insert_ne by done. }
    destruct (g_byid g !! ob_id ob) as [o2|] eqn:Eb; [rewrite orb_true_r in E; done|].
    assert (exists z, List.find (aliasIn g2 (ob_id ob)) (g_objs g) = Some z) as [z Hz].
    { pose proof (find_elem (aliasIn g2 (ob_id ob)) (g_objs g)) as X. destruct (List.find _ _) as [z|]; [by exists z|]. exfalso.
      destruct B1 as [B1|B1]; [assert (g_byid g !! ob_id ob = Some o') by (by apply (gi_byid _ I)); congruence|].
      apply aliasIn_spec in B1. rewrite <- Hal in B1. rewrite (X o' A) in B1. done. }
    rewrite Hz in E. rewrite orb_true_r in E. done.
Qed.

(** ** C22. *)
Lemma f_C22_unique g : built g -> forall o e1 e2 t i, holds g o e1 t i -> holds g o e2 t i -> e1 = e2.
Proof.
  intros B o e1 e2 t i (ob1 & ev1 & A1 & A2 & A3 & A4 & A5 & _) (ob2 & ev2 & B1 & B2 & B3 & B4 & B5 & _). assert (ob2 = ob1) as -> by congruence.
  destruct (built_inv _ B) as [I _]. eapply (oi_uniq _ _ _ (gi_o _ I _ _ A1)); try done; congruence.
Qed.
Lemma f_C22_whole g : built g -> forall o ob, g_obj g !! o = Some ob -> holds g o (ob_lambda ob) PRESENTATION "@lambda".
Proof.
  intros B o ob Ho. destruct (built_inv _ B) as [I _]. destruct (oi_lambda _ _ _ (gi_o _ I _ _ Ho)) as (ev & A1 & A2 & A3).
  apply andb_prop in A2 as [A2 A4]. apply bool_decide_eq_true in A2. apply String.eqb_eq in A4.
  destruct (oi_events _ _ _ (gi_o _ I _ _ Ho) _ A3) as (ev' & B1 & B2). assert (ev' = ev) as -> by congruence. exists ob, ev. done.
Qed.
Lemma f_C22_get g : built g -> forall o ob t i, g_obj g !! o = Some ob -> exists r, getEvent o t i g = Ok r g /\
  match r with Some e => holds g o e t i | None => forall e, ~ holds g o e t i end.
Proof.
  intros B o ob t i Ho. destruct (built_inv _ B) as [I _]. pose proof (wp_getEvent g o t i) as W. unfold getEvent, bind, gobj, gets in *. unfold wp in W. rewrite Ho in *. cbn in *.
  eexists. split; [done|]. destruct W as (_ & ob' & Ho' & W). assert (ob' = ob) as -> by congruence. destruct (List.find _ _) as [e|].
  - destruct W as (W1 & ev & W2 & W3 & W4). destruct (oi_events _ _ _ (gi_o _ I _ _ Ho) _ W1) as (ev' & F1 & F2). assert (ev' = ev) as -> by congruence. exists ob, ev. done.
  - intros e (ob2 & ev & A1 & A2 & A3 & A4 & A5 & _). assert (ob2 = ob) as -> by congruence. by apply (W e ev).
Qed.
Lemma f_C22_add g : built g -> forall o ob t i b e l, g_obj g !! o = Some ob -> exists g', addEvent o t i b e l g = Ok tt g' /\
  (forall x, holds g o x t i -> g' = g) /\
  ((forall x, ~ holds g o x t i) -> exists x, holds g' o x t i /\ g_evt g !! x = None /\ g_evt g' = <[x := mkEvt t o i b e l]> (g_evt g) /\
     forall o' x' t' i', holds g' o' x' t' i' <-> holds g o' x' t' i' \/ (o' = o /\ x' = x /\ t' = t /\ i' = i)).
Proof.
  intros B o ob t i b e l Ho. destruct (f_C22_get g B o ob t i Ho) as (r & Er & Hr). destruct (built_inv _ B) as [I _]. unfold addEvent, bind. rewrite Er. destruct r as [x|].
  - exists g. split; [done|]. split; [done|]. intros Hn. by destruct (Hn x).
  - cbn. unfold oupd, bind, gobj. cbn. rewrite Ho. cbn. eexists. split; [done|]. split; [intros x Hx; by destruct (Hr x)|]. intros _.
    assert (Hx : g_evt g !! g_next g = None). { destruct (g_evt g !! g_next g) as [ev|] eqn:E; [|done]. apply (gi_evt _ I) in E. lia. }
    set (g' := g_set_obj _ _). set (x := g_next g) in *.
    assert (HH : forall o' x' t' i', holds g' o' x' t' i' <-> holds g o' x' t' i' \/ (o' = o /\ x' = x /\ t' = t /\ i' = i)).
    { intros o' x' t' i'. split.
      - intros (ob' & ev & A1 & A2 & A3 & A4 & A5 & A6). cbn in A1, A3. destruct (decide (x' = x)) as [->|Hne].
        + rewrite lookup_insert in A3. injection A3 as <-. cbn in *. right. done.
        + rewrite lookup_insert_ne in A3 by done. left. destruct (decide (o = o')) as [<-|Hno].
          * rewrite lookup_insert in A1. injection A1 as <-. cbn in A2. apply sins_elem in A2 as [->|A2]; [done|]. by exists ob, ev.
          * rewrite lookup_insert_ne in A1 by done. by exists ob', ev.
      - intros [(ob' & ev & A1 & A2 & A3 & A4 & A5 & A6)|(-> & -> & -> & ->)].
        + assert (Hne : x' <> x) by (intros Hq; rewrite Hq in A3; unfold eid in *; congruence). destruct (decide (o = o')) as [<-|Hno].
          * assert (ob' = ob) as -> by congruence. eexists _, ev. cbn. rewrite lookup_insert, lookup_insert_ne by done. split; [done|]. split; [apply sins_elem; by right|done].
          * exists ob', ev. cbn. rewrite !lookup_insert_ne by done. done.
        + eexists _, _. cbn. rewrite !lookup_insert. split; [done|]. split; [apply sins_elem; by left|done]. }
    exists x. split; [apply HH; by right|]. split; [done|]. split; [done|]. exact HH.
Qed.

(** ** C40: well-formed documents. *)
Lemma docOf_obj g X o ob : d_obj (docOf g X) !! o = Some ob <-> g_obj g !! o = Some ob /\ o ∈ g_objs g.
Proof. cbn. rewrite map_filter_lookup_Some. done. Qed.
Lemma docOf_evt g X e ev : d_evt (docOf g X) !! e = Some ev <-> g_evt g !! e = Some ev /\ ev_obj ev ∈ g_objs g.
Proof. cbn. rewrite map_filter_lookup_Some. done. Qed.
Lemma docOf_evtIn g X e : evtInDoc g e -> valid_evt (docOf g X) e.
Proof. intros (ev & A & B). exists ev. by apply docOf_evt. Qed.
Lemma inv_wf g X : GInv g -> GDoc g -> closedRefs g -> wf_doc (docOf g X).
Proof.
  intros I G C. destruct (gi_time _ I) as (time & N & T1 & T2). exists (fun o => N - time o).
  split.
  - intros o ob Ho. apply docOf_obj in Ho as [Ho Hi]. pose proof (gi_o _ I _ _ Ho) as OI. split.
    + destruct (oi_lambda _ _ _ OI) as (ev & A1 & A2 & A3). exists ev. split; [|done]. apply docOf_evt. split; [done|].
      destruct (oi_events _ _ _ OI _ A3) as (ev' & B1 & B2). assert (ev' = ev) as -> by congruence. by rewrite B2.
    + intros e He. destruct (oi_events _ _ _ OI _ He) as (ev & B1 & B2). exists ev. split; [|done]. apply docOf_evt. split; [done|]. by rewrite B2.
    + intros p Hp. destruct (oi_parent _ _ _ OI _ Hp) as (_ & A & pb & P1 & P2 & P3). exists pb. split; [by apply docOf_obj|]. split; [done|]. split; [destruct (ob_kind pb); auto; done|].
      pose proof (T2 _ _ _ Ho Hp). pose proof (T1 _ Hi). lia.
    + intros c Hc. destruct (oi_children _ _ _ OI _ Hc) as (cb & A1 & A2). exists cb. split; [|done]. apply docOf_obj. split; [done|]. by apply (oi_parent _ _ _ (gi_o _ I _ _ A1) _ A2).
    + apply OI.
    + intros e He. apply docOf_evtIn. by eapply cr_ports.
    + intros cs acts c Hl Hc. apply docOf_evtIn. eapply cr_links; eauto.
    + intros cs acts c Hl Hc. apply docOf_evtIn. eapply cr_links; eauto.
    + intros c p Hc. by eapply cr_rules.
    + intros n l Hl. split; [intros e He; apply docOf_evtIn; by eapply cr_swports|]. destruct (oi_swports _ _ _ OI _ _ Hl) as (e & ev & B1 & B2 & B3 & B4). exists e, ev.
      split; [done|]. split; [|done]. apply docOf_evt. split; [done|]. destruct (oi_events _ _ _ OI _ B1) as (ev' & D1 & D2). assert (ev' = ev) as -> by congruence. by rewrite D2.
    + intros i c Hc. pose proof (cr_aliases _ C _ _ _ _ Hi Ho Hc) as Hd. destruct (gi_objs _ I _ Hd) as (cb & Hcb). exists cb. by apply docOf_obj.
  - intros e ev He. apply docOf_evt in He as [He Hi]. destruct (gi_e _ I _ _ He) as (ob & A & B). exists ob. split; [by apply docOf_obj|]. split; [done|].
    intros L. destruct (oi_lambda _ _ _ (gi_o _ I _ _ A)) as (ev' & L1 & L2 & L3). apply andb_prop in L as [M1 M2], L2 as [M3 M4].
    apply bool_decide_eq_true in M1, M3. apply String.eqb_eq in M2, M4. eapply (oi_uniq _ _ _ (gi_o _ I _ _ A)); try done; congruence.
  - intros o. cbn [d_objs docOf]. split.
    + intros Hi. destruct (gi_objs _ I _ Hi) as (ob & Ho). exists ob. by apply docOf_obj.
    + intros [ob Ho]. by apply docOf_obj in Ho as [_ ?].
  - apply I.
  - intros o. cbn [d_medias docOf]. rewrite (gi_medias _ I). split.
    + intros [A (ob & B1 & B2)]. exists ob. split; [by apply docOf_obj|done].
    + intros (ob & Ho & Hm). apply docOf_obj in Ho as [Ho Hi]. eauto.
  - apply I.
  - destruct (gd_root _ G) as (r & rb & R1 & R2 & R3 & R4 & R5). exists rb. cbn [d_root docOf]. rewrite R1. cbn [default]. split; [by apply docOf_obj|done].
  - destruct (gd_settings _ G) as (s & sb & S1 & S2 & S3 & S4 & S5). destruct (gd_root _ G) as (r & rb & R1 & _). exists sb. cbn [d_root d_settings docOf]. rewrite R1, S1. cbn [default from_option]. split; [by apply docOf_obj|]. split; [done|]. rewrite S5, R1. done.
  - intros o ob Ho Hk. apply docOf_obj in Ho as [Ho Hi]. pose proof (gd_kset _ G _ _ Hi Ho Hk) as E. cbn [d_settings docOf]. by rewrite E.
Qed.
Lemma stOf_init g X w h : init_ok (docOf g X) (stOf g w h).
Proof.
  assert (HO : forall o, exists p, ostOf (stOf g w h) o = mkOS TIME_NONE p [] 0 true None None).
  { intros o. unfold ostOf, stOf. cbn. rewrite lookup_total_alt, lookup_fmap. destruct (g_props g !! o) as [p|]; cbn; eauto. }
  split; try done; try (intros o; destruct (HO o) as [p ->]; done).
  intros e. unfold evState, estOf, stOf. cbn. rewrite lookup_total_alt, lookup_fmap. by destruct (g_params g !! e).
Qed.
Lemma f_C40_built g X w h : built g -> closedRefs g -> wf_doc (docOf g X) /\ init_ok (docOf g X) (stOf g w h).
Proof. intros B C. destruct (built_inv _ B). split; [by apply inv_wf|apply stOf_init]. Qed.

(** ** Running construction programs, for examples. *)
Definition construct (ops : list bop) : option graph :=
  foldl (fun r op => match r with Some g => match bexec op g with Ok _ g' => Some g' | _ => None end | None => None end)
    (match newDocument (emptyGraph (fun x => x) "") with Ok _ g => Some g | _ => None end) ops.
Lemma construct_built ops : forall g, construct ops = Some g -> built g.
Proof.
  induction ops as [|op ops IH] using rev_ind; intros g E; unfold construct in E.
  - cbn in E. destruct (newDocument _) as [[] g0| |] eqn:En; try done. injection E as <-. by eapply b_new.
  - rewrite foldl_app in E. cbn [foldl] in E. fold (construct ops) in E. destruct (construct ops) as [g0|]; [|done].
    destruct (bexec op g0) as [[] g1| |] eqn:Eb; try done. injection E as <-. eapply b_op; [by apply IH|done].
Qed.
Definition evtb (g : graph) (e : eid) : bool := has (g_evt g !! e) (fun ev => elemb (ev_obj ev) (g_objs g)).
Definition closedb (g : graph) : bool :=
  all_in (map_to_list (g_obj g)) (fun x => let ob := snd x in
    all_in (ob_ports ob) (evtb g) && all_in (ob_links ob) (fun l => all_in (fst l ++ snd l) (fun a => evtb g (ac_evt a)))
    && all_in (ob_swports ob) (fun sp => all_in (snd sp) (evtb g)) && all_in (ob_rules ob) (fun r => elemb (fst r) (ob_children ob))
    && all_in (ob_aliases ob) (fun a => match snd a with Some c => elemb c (g_objs g) | None => true end)).
Lemma closedb_ok g : closedb g = true -> closedRefs g.
Proof.
  intros H. assert (E : forall e, evtb g e = true -> evtInDoc g e).
  { intros e He. apply has_spec in He as (ev & A & B). exists ev. split; [done|]. by apply elemb_spec. }
  assert (HO : forall o ob, g_obj g !! o = Some ob -> _) by (intros o ob Ho; exact (all_in_spec _ _ H (o, ob) ltac:(by apply elem_of_map_to_list))).
  cbn [snd] in HO. clear H. split.
  - intros o ob e _ Ho He. specialize (HO _ _ Ho). repeat (apply andb_prop in HO as [HO ?]). apply E. by eapply (all_in_spec _ _ HO).
  - intros o ob cs acts a _ Ho Hl Ha. specialize (HO _ _ Ho). repeat (apply andb_prop in HO as [HO ?]). apply E.
    match goal with H1 : all_in (ob_links ob) _ = true |- _ => pose proof (all_in_spec _ _ H1 _ Hl) as X end. cbn in X. eapply (all_in_spec _ _ X). set_solver.
  - intros o ob n l e _ Ho Hl He. specialize (HO _ _ Ho). repeat (apply andb_prop in HO as [HO ?]). apply E.
    match goal with H1 : all_in (ob_swports ob) _ = true |- _ => pose proof (all_in_spec _ _ H1 _ Hl) as X end. by eapply (all_in_spec _ _ X).
  - intros o ob c p _ Ho Hc. specialize (HO _ _ Ho). repeat (apply andb_prop in HO as [HO ?]).
    match goal with H1 : all_in (ob_rules ob) _ = true |- _ => pose proof (all_in_spec _ _ H1 _ Hc) as X end. by apply elemb_spec.
  - intros o ob i c _ Ho Hc. specialize (HO _ _ Ho). repeat (apply andb_prop in HO as [HO ?]).
    match goal with H1 : all_in (ob_aliases ob) _ = true |- _ => pose proof (all_in_spec _ _ H1 _ Hc) as X end. by apply elemb_spec.
Qed.
(** A document with a media (pointer 6) and a nested context (8) holding a second media
    (10, alias "z"), a port, a link and an anchor; a third media (13), id "a" again, is
    left out. *)
Definition opsB : list bop :=
  [ BNew KMedia "a"; BChild 1 6; BNew KContext "c"; BChild 1 8; BNew KMedia "b"; BChild 8 10;
    BAlias 10 "z" (Some 8%positive); BPresentation 6 "x" 0 5; BPort 1 7;
    BLink 1 [mkAct 7 STOP None "" "" ""] [mkAct 11 START None "" "" ""];
    BNew KMedia "a" ]%positive.

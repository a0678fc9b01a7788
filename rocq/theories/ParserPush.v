(** ParserPush.v -- the push functions of compositions and media. *)
From Verif Require Export ParserObjs.
From Verif Require Import BuildInv BuildOps BuildSpec BuildFacts Frame ParserFrame.
Open Scope string_scope.
Open Scope list_scope.

Lemma pw_peek ok pos (Q : oid -> pst -> Prop) s : (forall o ob, g_obj (p_graph s) !! o = Some ob -> ok (ob_kind ob) = true -> Q o s) -> pw (peek ok pos) Q s.
Proof. intros H. unfold peek. p1. p1. p1; [p1|]. p1. apply pw_gobj. intros ob Ho. p1. p1. p1. eauto. Qed.
Lemma pinv_quiet U pend X s s' : pinv U pend X s -> quiet s s' -> pinv U pend X s'.
Proof. intros I Q. eapply pinv_gq; [done|]. apply gq_quiet; [apply I|done]. Qed.
Lemma pw_opush U pend o s : pinv U pend [] s -> pw (opush o) (fun _ s' => pinv U pend [] s') s.
Proof. intros I. eapply pw_mono; [apply kq_opush|]. intros [] s' Q. by eapply pinv_quiet. Qed.
Lemma cfr_graph s g : cfr s (p_set_graph g s).
Proof. split; cbn; [lia|done|]. intros n. by destruct (p_cache s !! n). Qed.
Lemma p_graph_same s : p_set_graph (p_graph s) s = s. Proof. by destruct s. Qed.
Lemma pinv_child U pend s c up : pinv U pend [c] s -> pw (lift (addChild up c)) (fun _ s' => pinv U pend [] s' /\ gsm [c] (p_graph s) (p_graph s') /\ p_refer s' = p_refer s) s.
Proof.
  intros I. apply pw_lift. eapply wp_mono; [apply gsm_addChild, I|]. intros [] g' G. cbv beta in *.
  split; [|by split]. pose proof (pinv_move _ _ _ [c] s (p_set_graph g' s) I (cfr_graph s g') G eq_refl) as H. cbn in H. by rewrite bool_decide_true in H by constructor.
Qed.
Lemma push_ncl U U' e s : pinv U None [] s -> U ⊆ U' -> (forall i, attr e "id" = Some i -> i ∉ U /\ i ∈ U') -> pw (pushNcl e) (fun _ s' => pinv U' None [] s') s.
Proof.
  intros I HU Hi. unfold pushNcl. p1. p1. p1. p1. p1. eapply (pw_mono _ (fun _ s' => pinv U' None [] s')).
  - destruct (attr e "id") as [i|] eqn:E; [|p1; by eapply pinv_mono]. destruct (Hi _ eq_refl) as [A B]. destruct (pi_root _ _ _ _ I) as (r & rb & R1 & R2 & R3 & R4 & R5).
    assert (a = r) as -> by congruence. apply pw_lift. eapply wp_mono; [eapply pinv_alias; [exact I|exact R3|right; split; [exact R5|exact A]|done|done|done]|]. intros [] g' [Hz _]. done.
  - intros [] s' I'. p1. eapply pw_mono; [by apply pw_opush|]. intros [] s2 I2. by p1.
Qed.
Lemma push_new U U' k up i s : pinv U None [] s -> U ⊆ U' -> i ∉ U -> i ∈ U' -> is_media k = false ->
  pw (let* c := lift (newObject k i) in lift (addChild up c) ;;; pret c) (fun _ s' => pinv U' None [] s') s.
Proof.
  intros I HU H1 H2 Hk. p1. apply pw_lift. eapply wp_mono; [eapply pinv_new; [exact I|right; done|done]|]. intros o g' (H & _). cbv beta in *.
  p1. eapply pw_mono; [by apply pinv_child|]. intros [] s' [H' _]. by p1.
Qed.
Lemma push_context U U' e s : pinv U None [] s -> U ⊆ U' -> (forall i, attr e "id" = Some i -> i ∉ U /\ i ∈ U') -> pw (pushContext e) (fun _ s' => pinv U' None [] s') s.
Proof.
  intros I HU Hi. unfold pushContext. p1. eapply (pw_mono _ (fun _ s' => pinv U' None [] s')).
  - p1.
    + p1. apply pw_peek. intros c cb Hc Hk. p1. destruct (attr e "id") as [i|] eqn:E; [|p1; p1; by eapply pinv_mono]. destruct (Hi _ eq_refl) as [A B].
      apply pw_lift. eapply wp_mono; [eapply pinv_alias; [exact I|exact Hc|right; split; [unfold isCtx in Hk; by apply bool_decide_eq_true in Hk|exact A]|done|done|done]|]. intros [] g' [H' _]. by p1.
    + p1. apply pw_peek. intros c cb Hc Hk. p1. p1. destruct (Hi _ ltac:(eassumption)) as [A B]. by apply push_new with (U := U).
  - intros c s' I'. p1. eapply pw_mono; [by apply pw_opush|]. intros [] s2 I2. by p1.
Qed.
Lemma push_switch U U' e s : pinv U None [] s -> U ⊆ U' -> (forall i, attr e "id" = Some i -> i ∉ U /\ i ∈ U') -> pw (pushSwitch e) (fun _ s' => pinv U' None [] s') s.
Proof.
  intros I HU Hi. unfold pushSwitch. p1. apply pw_peek. intros c cb Hc Hk. p1. p1. destruct (Hi _ ltac:(eassumption)) as [A B].
  p1. apply pw_lift. eapply wp_mono; [eapply pinv_new; [exact I|right; done|done]|]. intros o g' (H' & _). cbv beta in *.
  p1. eapply pw_mono; [by apply pinv_child|]. intros [] s' [I' _]. p1. eapply pw_mono; [by apply pw_opush|]. intros [] s2 I2. by p1.
Qed.

(** A new media that others refer to needs no place yet. *)
Lemma pinv_pending U pend s o ob : pinv U pend [o] s -> g_obj (p_graph s) !! o = Some ob -> ob_kind ob = KMedia -> sget (ob_id ob) (p_refer s) = Some o ->
  (exists a, knownM s pend a /\ sget "refer" a = Some (ob_id ob)) -> (forall a, knownM s pend a -> sget "refer" a = None -> sget "id" a <> Some (ob_id ob)) -> pinv U pend [] s.
Proof.
  intros [] Ho Hk Hr Hx Hn. split; try done.
  - intros o' ob' Ho'. destruct (pi_orphan _ _ Ho') as [H|[H|H]]; auto. apply elem_of_list_singleton in H as ->. assert (ob' = ob) as -> by congruence. auto.
  - intros a r o' ob' Ha Hi Hr' Ho' Hid. destruct (pi_settled a r o' ob' Ha Hi Hr' Ho' Hid) as [H|H]; auto. apply elem_of_list_singleton in H as ->. assert (ob' = ob) as -> by congruence.
    exfalso. apply (Hn a Ha Hr'). congruence.
Qed.
Definition OddOr (Q : pst -> Prop) (s : pst) : Prop := p_odd s = true \/ Q s.
Lemma odd_keep {A} (m : P A) s Q : keep m -> p_odd s = true -> pw m (fun _ => OddOr Q) s.
Proof. intros K H. eapply pw_mono; [apply K|]. intros a s' F. left. by apply (fr_odd _ _ F). Qed.
Lemma odd_keep' {A} (m : P A) s : keep m -> p_odd s = true -> pw m (fun _ s' => p_odd s' = true) s.
Proof. intros K H. eapply pw_mono; [apply K|]. intros a s' F. by apply (fr_odd _ _ F). Qed.
Lemma push_media_refer U U' e i r s : pinv U None [] s -> U ⊆ U' -> attr e "id" = Some i -> i ∉ U -> i ∈ U' -> attr e "refer" = Some r ->
  pw (let* x := lift (glookup r) in
      let* x := match x with
                | Some o => let* ob := lift (gobj o) in pret (if is_media (ob_kind ob) then Some o else None)
                | None => pret None end in
      let* m := match x with
                | Some o => pret o
                | None =>
                  let* rm := pgets p_refer in
                  let* m := match sget r rm with Some m => pret m | None => lift (newObject KMedia r) end in
                  referAdd r m ;;; pret m
                end in
      let* up := peek isComp "Parser.cpp:3913" in
      lift (addAlias m i (Some up)) ;;;
      referAdd i m ;;; pret m) (fun _ s' => pinv U' (Some (el_attrs e)) [] s') s.
Proof.
  intros I0 HU Hi Hi1 Hi2 Hr. assert (I : pinv U' (Some (el_attrs e)) [] s) by (eapply pinv_pend_refer; [by eapply pinv_mono|done|done|done]).
  p1. apply pw_lift. eapply wp_mono; [apply wp_lookup, I|]. intros x g [-> Hx]. cbv beta in *. rewrite p_graph_same.
  p1. eapply (pw_mono _ (fun y s' => s' = s /\ match y with Some o => exists ob, g_obj (p_graph s) !! o = Some ob /\ is_media (ob_kind ob) = true
    | None => forall a, knownM s (Some (el_attrs e)) a -> sget "refer" a = None -> sget "id" a <> Some r end)).
  { destruct x as [o|].
    - p1. apply pw_gobj. intros ob Ho. p1. split; [done|]. destruct (is_media (ob_kind ob)) eqn:Em; [by exists ob|]. intros a Ka Ra Ia. destruct Hx as [Hx1 Hx2].
      rewrite (pi_media _ _ _ _ I a r o ob Ka Ia Ra Ho) in Em; [done|]. destruct Hx2 as [(ob2 & A & B)|(ob2 & p & A & B)]; assert (ob2 = ob) as -> by congruence; [by left|right; eauto].
    - p1. split; [done|]. intros a Ka Ra Ia. destruct (pi_there _ _ _ _ I a r Ka Ia Ra) as (o & ob & A & B & C). destruct (Hx o A) as [X1 X2]. destruct C as [C|[p C]]; [apply X1; by exists ob|apply X2; by exists ob, p]. }
  intros y s' [-> Hy]. p1.
  eapply (pw_mono _ (fun m s' => pinv U' (Some (el_attrs e)) [] s' /\ exists ob, g_obj (p_graph s') !! m = Some ob /\ is_media (ob_kind ob) = true)).
  { destruct y as [o|]; [by p1|]. p1. p1. p1. destruct (sget r (p_refer s)) as [m|] eqn:Em.
    - destruct (pi_refer _ _ _ _ I _ _ Em) as (ob & A & B & C). repeat (p1 || unfold referAdd). split; [by eapply pinv_referAdd|by exists ob].
    - apply pw_lift. eapply wp_mono; [eapply pinv_new; [exact I|by left|done]|]. intros o g (I1 & Hno & (ob & Ho & Ho1 & Ho2 & Ho3) & Hoth & Hobjs). cbv beta in *. repeat (p1 || unfold referAdd).
      split; [|exists ob; rewrite Ho1; done].
      set (s1 := p_set_graph g s) in *. assert (Em1 : sget r (p_refer s1) = None) by done.
      assert (I2 : pinv U' (Some (el_attrs e)) [o] (p_set_refer (sins0 r o (p_refer s1)) s1)) by (eapply pinv_referAdd; [done|exact Ho|by rewrite Ho1|by right]).
      eapply pinv_pending; [exact I2|exact Ho|done|rewrite Ho2; cbn [p_refer p_set_refer]; rewrite sget_sins0, Em1, String.eqb_refl; done|exists (el_attrs e); rewrite Ho2; split; [by right|done]|].
      rewrite Ho2. intros a Ka. apply Hy. exact Ka. }
  intros m s1 [I1 (ob & Ho & Hm)]. p1. apply pw_peek. intros up ub Hu _. p1. apply pw_lift.
  eapply wp_mono; [eapply pinv_alias; [exact I1|exact Ho|by left|done|done|intros c [= <-]; by exists ub]|]. intros [] g' (I2 & _ & ob' & Ho' & Hk' & _). cbv beta in *.
  repeat (p1 || unfold referAdd). eapply pinv_referAdd; [exact I2|exact Ho'|congruence|by left].
Qed.
Lemma gsm_prop U pend X m n v s : pinv U pend X s -> pw (lift (gsetProperty m n v)) (fun _ s' => pinv U pend X s' /\ gsm [] (p_graph s) (p_graph s') /\ p_refer s' = p_refer s) s.
Proof.
  intros I. apply pw_lift. eapply wp_mono; [apply gsm_setProperty, I|]. intros [] g' G. cbv beta in *. split; [|by split]. eapply pinv_gq; [exact I|]. split; [apply cfr_graph|by split].
Qed.
(** A name that is not yet in use is not the name of a composition. *)
Lemma pinv_new_name U pend X s i o ob : pinv U pend X s -> i ∉ U -> i <> "__root__" -> g_obj (p_graph s) !! o = Some ob -> named ob i -> is_media (ob_kind ob) = true.
Proof.
  intros I H1 H2 Ho Hn. destruct (is_media (ob_kind ob)) eqn:E; [done|exfalso]. destruct (pi_names _ _ _ _ I _ _ Ho E) as [A B]. destruct Hn as [<-|[p Hn]]; [by destruct A|]. apply H1. by destruct (B _ _ Hn).
Qed.
Lemma push_media_plain U U' e i m s : pinv U None [m] s -> U ⊆ U' -> attr e "id" = Some i -> i ∉ U -> i ∈ U' -> attr e "refer" = None ->
  (exists ob, g_obj (p_graph s) !! m = Some ob /\ is_media (ob_kind ob) = true /\ ob_id ob = i) -> (forall o, sget i (p_refer s) = Some o -> o = m) -> forall uri ty,
  pw (lift (gsetProperty m "uri" uri) ;;; lift (gsetProperty m "type" ty) ;;;
      let* up := peek isComp "Parser.cpp:3980" in lift (addChild up m) ;;; pret m) (fun _ s' => pinv U' (Some (el_attrs e)) [] s') s.
Proof.
  intros I HU Hi Hi1 Hi2 Hr (ob & Ho & Hk & Hid) Hm uri ty.
  p1. eapply pw_mono; [by apply gsm_prop|]. intros [] s1 (I1 & G1 & R1). p1. eapply pw_mono; [by apply gsm_prop|]. intros [] s2 (I2 & G2 & R2).
  p1. apply pw_peek. intros up ub Hu _. p1. eapply pw_mono; [by apply pinv_child|]. intros [] s3 (I3 & G3 & R3). p1.
  destruct (gsm_fwd _ _ _ _ _ G1 Ho) as (ob1 & Ho1 & Hk1 & Hid1 & _). destruct (gsm_fwd _ _ _ _ _ G2 Ho1) as (ob2 & Ho2 & Hk2 & Hid2 & _). destruct (gsm_fwd _ _ _ _ _ G3 Ho2) as (ob3 & Ho3 & Hk3 & Hid3 & _).
  assert (Hin : m ∈ g_objs (p_graph s3)) by (apply (gs_objs _ _ _ G3); right; constructor).
  assert (Hroot : i <> "__root__").
  { intros Er. destruct (pi_root _ _ _ _ I3) as (r & rb & A1 & A2 & A3 & A4 & A5). assert (m = r) as <-; [|assert (rb = ob3) as -> by congruence; rewrite Hk3, Hk2, Hk1 in A5; by rewrite A5 in Hk].
    assert (E1 : g_byid (p_graph s3) !! i = Some m) by (apply (gi_byid _ (pi_g _ _ _ _ I3)); split; [done|exists ob3; split; [done|congruence]]).
    assert (E2 : g_byid (p_graph s3) !! i = Some r) by (apply (gi_byid _ (pi_g _ _ _ _ I3)); split; [done|exists rb; split; [done|congruence]]). congruence. }
  eapply pinv_pend_plain; [by eapply pinv_mono|done|done|done| | |].
  - exists m, ob3. split; [done|]. split; [done|]. left. congruence.
  - intros o ob' Ho' Hn. exact (pinv_new_name _ _ _ _ _ _ _ I3 Hi1 Hroot Ho' Hn).
  - intros o ob' Ho' Hn. destruct (pi_orphan _ _ _ _ I3 _ _ Ho') as [H|[H|(_ & H & _)]]; [done|by apply elem_of_nil in H|]. rewrite R3, R2, R1, Hn in H. by rewrite (Hm _ H).
Qed.
Lemma push_media_settings U U' e i m s : pinv U None [] s -> U ⊆ U' -> attr e "id" = Some i -> i ∉ U -> i ∈ U' -> attr e "refer" = None -> i <> "__root__" -> sget i (p_refer s) = None ->
  g_settings (p_graph s) = Some m ->
  pw (let* up := peek isComp "Parser.cpp:3949" in lift (addAlias m i (Some up)) ;;; referAdd i m ;;; pret m) (fun _ s' => pinv U' (Some (el_attrs e)) [] s') s.
Proof.
  intros I HU Hi Hi1 Hi2 Hr Hroot Hrm Hset. destruct (gd_settings _ (pi_d _ _ _ _ I)) as (m0 & mb & S1 & S2 & S3 & S4 & _). assert (m0 = m) as -> by congruence.
  p1. apply pw_peek. intros up ub Hu _. p1. apply pw_lift.
  eapply wp_mono; [eapply pinv_alias; [exact I|exact S3|left; by rewrite S4|done|done|intros c [= <-]; by exists ub]|]. intros [] g' (I2 & Hobjs & ob' & Ho' & Hk' & Hid' & Hn' & Hoth). cbv beta in *.
  unfold referAdd. p1. p1. p1. eapply pinv_referAdd; [|exact Ho'|rewrite Hk', S4; done|by left].
  eapply pinv_pend_plain; [done|done|done|done| | |]; cbn [p_graph p_set_graph].
  - exists m, ob'. rewrite Hobjs. done.
  - intros o ob2 Ho2 Hn. destruct (decide (o = m)) as [->|Hne]; [assert (ob2 = ob') as -> by congruence; rewrite Hk', S4; done|]. rewrite Hoth in Ho2 by done. exact (pinv_new_name _ _ _ _ _ _ _ I Hi1 Hroot Ho2 Hn).
  - intros o ob2 Ho2 Hn. destruct (pi_orphan _ _ _ _ I2 _ _ Ho2) as [H|[H|(_ & H & _)]]; [done|by apply elem_of_nil in H|]. cbn [p_refer p_set_graph] in H. congruence.
Qed.
Lemma push_media E U U' e s : pinv U None [] s -> U ⊆ U' -> (forall i, attr e "id" = Some i -> i ∉ U /\ i ∈ U') -> pw (pushMedia E e) (fun _ => OddOr (fun s' => pinv U' (Some (el_attrs e)) [] s')) s.
Proof.
  intros I HU Hi. unfold pushMedia. p1. p1. rename a into i. destruct (Hi _ H) as [Hi1 Hi2]. cbv zeta. p1.
  eapply (pw_mono _ (fun _ => OddOr (fun s' => pinv U' (Some (el_attrs e)) [] s'))).
  2:{ intros m s' [H'|H']; [apply odd_keep; [kp|done]|]. p1. eapply pw_mono; [by apply pw_opush|]. intros [] s2 I2. p1. by right. }
  destruct (attr e "refer") as [r|] eqn:Er.
  - p1. p1. p1. p1. eapply pw_mono; [by eapply push_media_refer|]. intros m s' I'. by right.
  - p1.
    + p1. p1. p1. p1. p1. p1. p1. destruct (String.eqb i "__root__") eqn:Eroot.
      * apply odd_keep; [|done]. kp.
      * cbn [pwhen]. p1. p1. destruct (sget i (p_refer s)) as [tmp|] eqn:Etmp; [eapply (pw_mono _ (fun _ s' => p_odd s' = true)); [p1; p1; apply odd_keep'; [kp|done]|intros ? ? ?; apply odd_keep; [kp|done]]|].
        p1. p1. p1; [p1|].
        p1. eapply pw_mono; [eapply push_media_settings; [exact I|done|done|done|done|done|by apply String.eqb_neq|done|done]|]. intros m s' I'. by right.
    + p1. eapply (pw_mono _ (fun _ s' => s' = s)). { p1; [by p1|]. p1; [by p1|p1]. }
      intros uri s' ->. p1. p1. p1.
      eapply (pw_mono _ (fun m s' => pinv U None [m] s' /\ (exists ob, g_obj (p_graph s') !! m = Some ob /\ is_media (ob_kind ob) = true /\ ob_id ob = i) /\ forall o, sget i (p_refer s') = Some o -> o = m)).
      * destruct (sget i (p_refer s)) as [m|] eqn:Em.
        -- p1. destruct (pi_refer _ _ _ _ I _ _ Em) as (ob & A & B & [C|C]); [done|]. split; [eapply pinv_weaken; [|exact I]; set_solver|]. split; [by exists ob|congruence].
        -- apply pw_lift. eapply wp_mono; [eapply (pinv_new U U); [exact I|by left|done]|]. intros o g (I1 & Hno & (ob & Ho & Ho1 & Ho2 & Ho3) & _). cbv beta in *. split; [done|].
           split; [exists ob; rewrite Ho1; done|]. cbn [p_refer p_set_graph]. congruence.
      * intros m s' (I1 & Hm & Hr). eapply pw_mono; [by eapply push_media_plain|]. intros ? s2 I2. by right.
Qed.

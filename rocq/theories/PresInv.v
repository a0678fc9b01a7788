(** PresInv.v -- invariants about presentations: players, clocks, counters. *)
From Verif Require Export Cases.
Open Scope string_scope.
Open Scope list_scope.

Section PresInv.
Context (D : doc) (rank : oid -> nat) (WF : wf_at D rank).

Lemma mainb_spec o ob e : d_obj D !! o = Some ob -> mainb D o e = true <-> mainE D o ob e.
Proof.
  intros Ho. unfold mainb, mainE. rewrite Ho.
  rewrite orb_true_iff, !andb_true_iff, !bool_decide_eq_true. split.
  - intros [Hx|[[Hx Hy] Hz]]; [by left|right]. split; [done|]. split; [done|].
    destruct (d_evt D !! e) as [ev|] eqn:E; [|done]. apply bool_decide_eq_true in Hz. eauto.
  - intros [Hx|(Hx & Hy & ev & E & Ht)]; [by left|right]. split; [done|]. rewrite E.
    by apply bool_decide_eq_true.
Qed.
Lemma mainb_other o ob e o' : d_obj D !! o = Some ob -> e ∈ ob_events ob -> o <> o' ->
  mainb D o' e = false.
Proof.
  intros Ho He Hne. destruct (mainb D o' e) eqn:E; [|done].
  destruct (d_obj D !! o') as [ob'|] eqn:Ho'; [|by (unfold mainb in E; rewrite Ho' in E)].
  apply (mainb_spec _ _ _ Ho') in E. apply (main_self D rank WF) in E; [|done].
  exfalso. apply Hne. eapply (events_disjoint D rank WF); eauto.
Qed.
Lemma lambdab_mainb o e : lambdab D o e = true -> mainb D o e = true.
Proof.
  unfold lambdab, mainb. destruct (d_obj D !! o); [|done]. intros ->. done.
Qed.
Lemma lambdab_other o ob e o' : d_obj D !! o = Some ob -> e ∈ ob_events ob -> o <> o' ->
  lambdab D o' e = false.
Proof.
  intros Ho He Hne. destruct (lambdab D o' e) eqn:E; [|done].
  apply lambdab_mainb in E. rewrite (mainb_other o ob e o') in E; done.
Qed.
Lemma lambdab_self o ob e : d_obj D !! o = Some ob -> lambdab D o e = bool_decide (e = ob_lambda ob).
Proof. intros Ho. unfold lambdab. by rewrite Ho. Qed.
Lemma lambda_ne o ob o' ob' e : d_obj D !! o = Some ob -> e ∈ ob_events ob ->
  d_obj D !! o' = Some ob' -> o <> o' -> e <> ob_lambda ob'.
Proof.
  intros Ho He Ho' Hne ->. apply Hne. eapply (events_disjoint D rank WF); eauto.
  by apply (lambda_event D rank WF o').
Qed.

Lemma pres_ind (I : st -> Prop) :
  (forall s, init_ok D s -> I s) ->
  (forall s s', I s -> pstep D s s' -> I s') ->
  forall s, reach D s -> I s.
Proof.
  intros Hi Hs. apply (reach_ind D rank WF); [done|].
  intros s s' _ _ HI Hst. eapply Hs; [exact HI|]. by eapply astep_pstep.
Qed.

Lemma lam_in o ob : d_obj D !! o = Some ob -> inEvents D o (ob_lambda ob).
Proof. intros Ho. exists ob. split; [done|]. by apply (lambda_event D rank WF o). Qed.

(** *** Players. *)
Definition PlayerInv (s : st) : Prop :=
  forall o ob, d_obj D !! o = Some ob ->
    pl s o = (is_media (ob_kind ob) && bool_decide (evState s (ob_lambda ob) <> SLEEPING))%bool.
Lemma player_step s0 s' : PlayerInv s0 -> pstep D s0 s' -> PlayerInv s'.
Proof.
    intros HI Hst o ob Ho. specialize (HI o ob Ho).
    destruct Hst as [He _ _ Hp _ | o1 ob1 e ev t Ho1 Hev Hin Heo Hk He _ _ Hp _
                    | o1 ob1 e cr Ho1 Hm Hin Hc1 Hc2 He _ _ Hp _
                    | o1 ob1 e t Ho1 Hm Hin Ht Hns Hpl He _ _ Hp _ | o1 ob1 d Ho1 _ He _ _ Hp _].
    + by rewrite He, Hp.
    + rewrite He, Hp. destruct (decide (e = ob_lambda ob)) as [->|Hne]; [|done].
      assert (o1 = o) as ->. { destruct (decide (o1 = o)); [done|]. by destruct (lambda_ne o1 ob1 o ob _ Ho1 Hin Ho n). }
      assert (ob1 = ob) as -> by congruence.
      destruct Hk as [Hk|(_ & Ht & Hk)]; [by destruct Hk; left|].
      destruct (is_media (ob_kind ob)); [|done]. rewrite Hk by done.
      by destruct Ht as [-> | ->].
    + rewrite He, Hp. destruct (decide (o1 = o)) as [->|Hne].
      * assert (ob1 = ob) as -> by congruence.
        destruct Hm as [->|(Hsw & _)].
        -- rewrite decide_True by done. rewrite bool_decide_true by done. rewrite andb_true_r.
           destruct cr; [destruct (Hc1 eq_refl) as (-> & _); by rewrite orb_true_r|].
           rewrite orb_false_r. destruct (is_media (ob_kind ob)) eqn:Ek; [auto|].
           by rewrite HI.
        -- rewrite HI, Hsw. cbn. destruct cr; [destruct (Hc1 eq_refl) as (Hx & _); by rewrite Hsw in Hx|done].
      * rewrite decide_False; [done|]. by eapply (lambda_ne o1 ob1 o ob).
    + rewrite He, Hp. destruct (decide (o1 = o)) as [->|Hne].
      * assert (ob1 = ob) as -> by congruence.
        rewrite (decide_True (P := inEvents D o (ob_lambda ob))) by (by apply lam_in).
        rewrite (bool_decide_false (SLEEPING <> SLEEPING)) by (intros H; by apply H).
        rewrite andb_false_r. destruct (is_media (ob_kind ob)) eqn:Ek; [by rewrite decide_True|].
        rewrite decide_False by (intros []; congruence). by rewrite HI.
      * rewrite decide_False by (intros []; done). rewrite decide_False; [done|].
        intros (ob2 & Ho2 & Hin2). apply Hne. eapply (events_disjoint D rank WF); eauto.
        by apply (lambda_event D rank WF o).
    + by rewrite He, Hp.
Qed.
Lemma player_reach s : reach D s -> PlayerInv s.
Proof.
  apply pres_ind; [|apply player_step]. intros s0 Hi o ob Ho. rewrite (in_ev _ _ Hi). rewrite bool_decide_false by (intros H; by apply H).
  unfold pl. rewrite (in_player _ _ Hi). by rewrite andb_false_r.
Qed.

Lemma playerHist_quiet o h h' :
  (h' = h \/ exists x, silent x = true /\ h' = x :: h) -> playerHist o h' = playerHist o h.
Proof. intros [->|([] & Hs & ->)]; done. Qed.
Lemma hist_reach s : reach D s -> forall o,
  alternating (playerHist o (s_log s)) /\ hd false (playerHist o (s_log s)) = pl s o.
Proof.
  revert s. apply (pres_ind (fun s => forall o,
    alternating (playerHist o (s_log s)) /\ hd false (playerHist o (s_log s)) = pl s o)).
  - intros s0 Hi o. rewrite (in_log _ _ Hi). unfold pl. by rewrite (in_player _ _ Hi).
  - intros s0 s' HI Hst o. specialize (HI o) as [HA HB].
    destruct Hst as [_ _ _ Hp Hl | o1 ob1 e ev t Ho1 Hev Hin Heo Hk He _ _ Hp Hl
                    | o1 ob1 e cr Ho1 Hm Hin Hc1 Hc2 He _ _ Hp Hl
                    | o1 ob1 e t Ho1 Hm Hin Ht Hns Hpl He _ _ Hp Hl | o1 ob1 d Ho1 _ He _ _ Hp Hl].
    + rewrite (playerHist_quiet _ _ _ Hl), Hp. done.
    + rewrite Hl, Hp. done.
    + rewrite Hl, Hp. destruct cr; cbn [app playerHist].
      * destruct (Hc1 eq_refl) as (_ & _ & Hf). destruct (decide (o1 = o)) as [->|]; [|done].
        rewrite orb_true_r. cbn [alternating hd]. rewrite HB, Hf. done.
      * destruct (decide (o1 = o)) as [->|]; [|done]. by rewrite orb_false_r.
    + rewrite Hl, Hp. destruct (is_media (ob_kind ob1)) eqn:Ek; cbn [app playerHist].
      * destruct (decide (o1 = o)) as [->|Hne].
        -- rewrite decide_True by done. cbn [alternating hd]. rewrite HB, Hpl by done. done.
        -- rewrite decide_False by tauto. done.
      * rewrite decide_False by (intros []; congruence). done.
    + rewrite Hl, Hp. done.
Qed.

(** *** Presentation states and clocks. *)
Lemma stateOf_quiet o h h' :
  (h' = h \/ exists x, silent x = true /\ h' = x :: h) -> stateOf D o h' = stateOf D o h.
Proof. intros [->|([] & Hs & ->)]; done. Qed.
Lemma sinceStart_quiet o h h' :
  (h' = h \/ exists x, silent x = true /\ h' = x :: h) -> sinceStart D o h' = sinceStart D o h.
Proof. intros [->|([] & Hs & ->)]; done. Qed.

Definition clockVal (x : option N) : N := match x with Some n => (n mod W64)%N | None => TIME_NONE end.
Lemma state_step s0 s' o ob : d_obj D !! o = Some ob -> pstep D s0 s' ->
  evState s0 (ob_lambda ob) = stateOf D o (s_log s0) ->
  evState s' (ob_lambda ob) = stateOf D o (s_log s').
Proof.
    intros Ho Hst HI.
    destruct Hst as [He _ _ _ Hl | o1 ob1 e ev t Ho1 Hev Hin Heo Hk He _ _ Hp Hl
                    | o1 ob1 e cr Ho1 Hm Hin Hc1 Hc2 He _ _ Hp Hl
                    | o1 ob1 e t Ho1 Hm Hin Ht Hns Hpl He _ _ Hp Hl | o1 ob1 d Ho1 _ He _ _ Hp Hl].
    + by rewrite (stateOf_quiet _ _ _ Hl), He.
    + rewrite He, Hl. cbn [stateOf]. rewrite (lambdab_self _ _ _ Ho).
      destruct (decide (e = ob_lambda ob)) as [->|Hne].
      * rewrite bool_decide_true by done. by destruct t.
      * rewrite bool_decide_false by done.
        destruct (mainb D o e && ends t)%bool eqn:E; [|done]. exfalso.
        apply andb_true_iff in E as [E1 E2].
        destruct (decide (o1 = o)) as [->|Hn1].
        2:{ by rewrite (mainb_other o1 ob1 e o) in E1. }
        assert (ob1 = ob) as -> by congruence. apply (mainb_spec _ _ _ Ho) in E1.
        destruct Hk as [Hk|(_ & [-> | ->] & _)]; done.
    + rewrite He, Hl. destruct (decide (e = ob_lambda ob)) as [->|Hne].
      * cbn [stateOf]. rewrite (lambdab_self _ _ _ Ho). by rewrite bool_decide_true.
      * assert (E : stateOf D o ((if cr then [OPlayer o1 true] else []) ++ s_log s0) = stateOf D o (s_log s0)) by (destruct cr; reflexivity).
        cbn [stateOf]. rewrite (lambdab_self _ _ _ Ho). rewrite bool_decide_false by done.
        cbn [ends]. rewrite andb_false_r. by rewrite E.
    + rewrite He, Hl.
      assert (E : stateOf D o ((if is_media (ob_kind ob1) then [OPlayer o1 false] else []) ++ OTrans e t :: s_log s0)
                = stateOf D o (OTrans e t :: s_log s0)) by (destruct (is_media (ob_kind ob1)); reflexivity).
      rewrite E. cbn [stateOf]. destruct (decide (o1 = o)) as [->|Hn1].
      * assert (ob1 = ob) as -> by congruence.
        rewrite (decide_True (P := inEvents D o (ob_lambda ob))) by (by apply lam_in).
        rewrite (proj2 (mainb_spec o ob e Ho) Hm).
        destruct Ht as [-> | ->]; by destruct (lambdab D o e).
      * rewrite (lambdab_other o1 ob1 e o), (mainb_other o1 ob1 e o) by done. cbn [andb].
        rewrite decide_False; [done|].
        intros (ob2 & Ho2 & Hin2). apply Hn1. eapply (events_disjoint D rank WF); eauto.
        by apply (lambda_event D rank WF o).
    + by rewrite He, Hl.
Qed.
Lemma state_reach s : reach D s -> forall o ob, d_obj D !! o = Some ob ->
  evState s (ob_lambda ob) = stateOf D o (s_log s).
Proof.
  revert s. apply (pres_ind (fun s => forall o ob, d_obj D !! o = Some ob ->
    evState s (ob_lambda ob) = stateOf D o (s_log s))).
  - intros s0 Hi o ob Ho. by rewrite (in_ev _ _ Hi), (in_log _ _ Hi).
  - intros s0 s' HI Hst o ob Ho. eapply state_step; eauto.
Qed.

Definition ClockInv (s : st) : Prop := forall o ob, d_obj D !! o = Some ob ->
    evState s (ob_lambda ob) = stateOf D o (s_log s) /\
    o_time (ostOf s o) = clockVal (sinceStart D o (s_log s)).
Lemma clock_step s0 s' : ClockInv s0 -> pstep D s0 s' -> ClockInv s'.
Proof.
  intros HI Hst o ob Ho.
  assert (HE : evState s' (ob_lambda ob) = stateOf D o (s_log s')) by
    (eapply state_step; eauto; by apply HI).
  split; [exact HE|]. clear HE.
  destruct Hst as [He Ht' _ _ Hl | o1 ob1 e ev t Ho1 Hev Hin Heo Hk He Ht' _ Hp Hl
                  | o1 ob1 e cr Ho1 Hm Hin Hc1 Hc2 He Ht' _ Hp Hl
                  | o1 ob1 e t Ho1 Hm Hin Ht Hns Hpl He Ht' _ Hp Hl | o1 ob1 d Ho1 Hv He Ht' _ Hp Hl].
  + rewrite (sinceStart_quiet _ _ _ Hl), Ht'. by apply (HI o ob).
  + rewrite Ht', Hl. cbn [sinceStart]. rewrite (proj2 (HI o ob Ho)).
    destruct (mainb D o e) eqn:Em; [|done].
    destruct (decide (o1 = o)) as [->|Hn1].
    2:{ by rewrite (mainb_other o1 ob1 e o) in Em. }
    assert (ob1 = ob) as -> by congruence. apply (mainb_spec _ _ _ Ho) in Em.
    destruct Hk as [Hk|(_ & [-> | ->] & _)]; done.
  + rewrite Ht', Hl. cbn [sinceStart]. destruct (decide (o1 = o)) as [->|Hn1].
    * assert (ob1 = ob) as -> by congruence. by rewrite (proj2 (mainb_spec o ob e Ho) Hm).
    * rewrite (mainb_other o1 ob1 e o) by done. rewrite (proj2 (HI o ob Ho)).
      by destruct cr.
  + rewrite Ht', Hl.
    assert (E : sinceStart D o ((if is_media (ob_kind ob1) then [OPlayer o1 false] else []) ++ OTrans e t :: s_log s0)
              = sinceStart D o (OTrans e t :: s_log s0)) by (destruct (is_media (ob_kind ob1)); reflexivity).
    rewrite E. cbn [sinceStart]. destruct (decide (o1 = o)) as [->|Hn1].
    * assert (ob1 = ob) as -> by congruence. rewrite (proj2 (mainb_spec o ob e Ho) Hm).
      destruct Ht as [-> | ->]; done.
    * rewrite (mainb_other o1 ob1 e o) by done. by apply (HI o ob).
  + rewrite Ht', Hl. cbn [sinceStart]. destruct (decide (o1 = o)) as [->|Hn1].
    2:{ rewrite decide_False by tauto. rewrite bool_decide_false by done. cbn [andb]. by apply (HI o ob). }
    assert (ob1 = ob) as -> by congruence. rewrite (bool_decide_true (o = o)) by done. cbn [andb].
    destruct (HI o ob Ho) as [HI1 HI2]. rewrite <- HI1.
    destruct (decide (evState s0 (ob_lambda ob) = OCCURRING)) as [E|E].
    * rewrite decide_True by done. rewrite bool_decide_true by done.
      specialize (Hv E). rewrite HI2 in Hv |- *.
      destruct (sinceStart D o (s_log s0)) as [x|]; [|done].
      cbn. unfold tadd. rewrite N.add_mod_idemp_l by done. done.
    * rewrite decide_False by tauto. rewrite bool_decide_false by done. done.
Qed.

Lemma clock_init s : init_ok D s -> ClockInv s.
Proof. intros Hi o ob Ho. rewrite (in_ev _ _ Hi), (in_log _ _ Hi), (in_time _ _ Hi). done. Qed.
Lemma clockInv_reach s : reach D s -> ClockInv s.
Proof. revert s. apply pres_ind; [apply clock_init|]. intros s s'. apply clock_step. Qed.
Lemma clock_reach s : reach D s -> forall o ob, d_obj D !! o = Some ob ->
  o_time (ostOf s o) = clockVal (sinceStart D o (s_log s)).
Proof. intros Hr o ob Ho. by apply (clockInv_reach s Hr o ob Ho). Qed.

(** For media: not sleeping exactly when the clock runs. *)
Lemma media_clock_reach s : reach D s -> forall o ob, d_obj D !! o = Some ob ->
  is_media (ob_kind ob) = true ->
  (stateOf D o (s_log s) = SLEEPING <-> sinceStart D o (s_log s) = None).
Proof.
  intros Hr o ob Ho Hk.
  assert (Hmain : forall e, mainb D o e = lambdab D o e).
  { intros e. unfold mainb, lambdab. rewrite Ho. destruct (ob_kind ob); try done; by rewrite orb_false_r. }
  cut ((pl s o = true <-> stateOf D o (s_log s) <> SLEEPING) /\
       (stateOf D o (s_log s) = SLEEPING <-> sinceStart D o (s_log s) = None)); [tauto|].
  revert s Hr. apply pres_ind.
  - intros s0 Hi. rewrite (in_log _ _ Hi). unfold pl. rewrite (in_player _ _ Hi). done.
  - intros s0 s' [HP HI] Hst.
    destruct Hst as [He Ht' _ Hp Hl | o1 ob1 e ev t Ho1 Hev Hin Heo Hkk He Ht' _ Hp Hl
                    | o1 ob1 e cr Ho1 Hm Hin Hc1 Hc2 He Ht' _ Hp Hl
                    | o1 ob1 e t Ho1 Hm Hin Ht Hns Hpl He Ht' _ Hp Hl | o1 ob1 d Ho1 Hv He Ht' _ Hp Hl].
    + rewrite (stateOf_quiet _ _ _ Hl), (sinceStart_quiet _ _ _ Hl), Hp. done.
    + rewrite Hl, Hp. cbn [stateOf sinceStart]. rewrite Hmain.
      destruct (lambdab D o e) eqn:El; [|done].
      destruct (decide (o1 = o)) as [->|Hn1]; [|by rewrite (lambdab_other o1 ob1 e o) in El].
      assert (ob1 = ob) as -> by congruence. destruct Hkk as [Hkk|(_ & Ht & Hkk)].
      { destruct Hkk. apply (mainb_spec _ _ _ Ho). by rewrite Hmain. }
      specialize (Hkk Hk). rewrite Hkk in HP. destruct HP as [HP _]. specialize (HP eq_refl).
      destruct Ht as [-> | ->]; (split; [by split|]); split; try done; tauto.
    + rewrite Hl, Hp. cbn [stateOf sinceStart]. rewrite Hmain.
      destruct (decide (o1 = o)) as [->|Hn1].
      * assert (ob1 = ob) as -> by congruence. 
        assert (El : lambdab D o e = true) by (rewrite <- Hmain; by apply (mainb_spec _ _ _ Ho)).
        rewrite El. split; [|done]. split; [done|]. intros _.
        destruct cr; [by rewrite orb_true_r|]. rewrite orb_false_r. auto.
      * rewrite (lambdab_other o1 ob1 e o) by done. cbn [andb]. by destruct cr.
    + rewrite Hl, Hp.
      assert (E : sinceStart D o ((if is_media (ob_kind ob1) then [OPlayer o1 false] else []) ++ OTrans e t :: s_log s0)
                = sinceStart D o (OTrans e t :: s_log s0)) by (destruct (is_media (ob_kind ob1)); reflexivity).
      assert (E2 : stateOf D o ((if is_media (ob_kind ob1) then [OPlayer o1 false] else []) ++ OTrans e t :: s_log s0)
                = stateOf D o (OTrans e t :: s_log s0)) by (destruct (is_media (ob_kind ob1)); reflexivity).
      rewrite E, E2. clear E E2. cbn [stateOf sinceStart]. rewrite Hmain. destruct (decide (o1 = o)) as [->|Hn1].
      * assert (ob1 = ob) as -> by congruence. rewrite decide_True by done.
        assert (El : lambdab D o e = true) by (rewrite <- Hmain; by apply (mainb_spec _ _ _ Ho)).
        rewrite El. destruct Ht as [-> | ->]; (split; [by split|done]).
      * rewrite decide_False by tauto. rewrite (lambdab_other o1 ob1 e o) by done. done.
    + rewrite Hl, Hp. cbn [stateOf sinceStart]. split; [done|]. rewrite HI.
      destruct (_ && _)%bool; [|done]. by destruct (sinceStart D o (s_log s0)).
Qed.

(** *** Awake-children accounting. *)
Lemma runs_quiet o h h' :
  (h' = h \/ exists x, silent x = true /\ h' = x :: h) -> runs D o h' = runs D o h.
Proof. intros [->|([] & Hs & ->)]; done. Qed.
Lemma sumZ_ext f g l : (forall c, c ∈ l -> f c = g c) -> sumZ f l = sumZ g l.
Proof.
  induction l as [|x l IH]; cbn; intros H; [done|]. rewrite (H x) by left. rewrite IH; [done|].
  intros c Hc. apply H. by right.
Qed.
Lemma sumZ_one f g o k l : NoDup l -> (forall c, g c = f c + (if decide (c = o) then k else 0))%Z ->
  sumZ g l = (sumZ f l + (if decide (o ∈ l) then k else 0))%Z.
Proof.
  intros Hnd Hg. induction Hnd as [|x l Hx Hnd IH]; cbn; [done|].
  rewrite Hg, IH. destruct (decide (x = o)) as [->|Hne].
  - rewrite (decide_True (P := o ∈ o :: l)) by left. rewrite decide_False by done. lia.
  - destruct (decide (o ∈ l)).
    + rewrite decide_True by (by right). lia.
    + rewrite decide_False by set_solver. lia.
Qed.
Lemma awk_spec o ob k p pb : d_obj D !! o = Some ob -> d_obj D !! p = Some pb -> ob_kind pb = KContext ->
  awk D o k p = if decide (o ∈ ob_children pb) then k else 0%Z.
Proof.
  intros Ho Hp Hk. unfold awk. destruct (decide (o ∈ ob_children pb)) as [Hin|Hn].
  - destruct (wo_children _ _ _ _ (wf_o _ _ WF _ _ Hp) _ Hin) as (cb & Hcb & Hpar).
    assert (cb = ob) as -> by congruence.
    rewrite decide_True; [done|]. unfold ctxParent. by rewrite Ho, Hpar, Hp, Hk.
  - rewrite decide_False; [done|]. unfold ctxParent. rewrite Ho.
    destruct (ob_parent ob) as [q|] eqn:Hq; [|done].
    destruct (wo_parent _ _ _ _ (wf_o _ _ WF _ _ Ho) _ Hq) as (qb & Hqb & Hin & _).
    rewrite Hqb. destruct (ob_kind qb); try done. intros [= ->]. apply Hn. by simplify_eq.
Qed.
Lemma awake_reach s : reach D s -> forall p pb, d_obj D !! p = Some pb -> ob_kind pb = KContext ->
  o_awake (ostOf s p) = sumZ (fun c => runs D c (s_log s)) (ob_children pb).
Proof.
  intros Hr p pb Hp Hk. revert s Hr.
  assert (Hnd : NoDup (ob_children pb)) by (by eapply wo_nodup, wf_o).
  apply pres_ind.
  - intros s0 Hi. rewrite (in_awake _ _ Hi), (in_log _ _ Hi). cbn [runs].
    clear. induction (ob_children pb); cbn; lia.
  - intros s0 s' HI Hst.
    destruct Hst as [He _ Ha Hp' Hl | o1 ob1 e ev t Ho1 Hev Hin Heo Hkk He _ Ha Hp' Hl
                    | o1 ob1 e cr Ho1 Hm Hin Hc1 Hc2 He _ Ha Hp' Hl
                    | o1 ob1 e t Ho1 Hm Hin Ht Hns Hpl He _ Ha Hp' Hl | o1 ob1 d Ho1 Hv He _ Ha Hp' Hl].
    + rewrite Ha, HI. apply sumZ_ext. intros c _. by rewrite (runs_quiet _ _ _ Hl).
    + rewrite Ha, HI, Hl. apply sumZ_ext. intros c _. cbn [runs].
      destruct (mainb D c e) eqn:Em; [|done].
      destruct (decide (o1 = c)) as [<-|Hn1]; [|by rewrite (mainb_other o1 ob1 e c) in Em].
      apply (mainb_spec _ _ _ Ho1) in Em. destruct Hkk as [Hkk|(_ & [-> | ->] & _)]; done.
    + rewrite Ha, HI, Hl. rewrite (awk_spec o1 ob1 1 p pb) by done. symmetry.
      apply sumZ_one; [done|]. intros c. cbn [runs].
      assert (E : runs D c ((if cr then [OPlayer o1 true] else []) ++ s_log s0) = runs D c (s_log s0)) by (destruct cr; reflexivity).
      rewrite E. destruct (decide (c = o1)) as [->|Hne].
      * rewrite (proj2 (mainb_spec o1 ob1 e Ho1) Hm). done.
      * rewrite (mainb_other o1 ob1 e c) by done. lia.
    + rewrite Ha, HI, Hl. rewrite (awk_spec o1 ob1 (-1) p pb) by done. symmetry.
      apply sumZ_one; [done|]. intros c.
      assert (E : runs D c ((if is_media (ob_kind ob1) then [OPlayer o1 false] else []) ++ OTrans e t :: s_log s0)
                = runs D c (OTrans e t :: s_log s0)) by (destruct (is_media (ob_kind ob1)); reflexivity).
      rewrite E. cbn [runs]. destruct (decide (c = o1)) as [->|Hne].
      * rewrite (proj2 (mainb_spec o1 ob1 e Ho1) Hm). destruct Ht as [-> | ->]; lia.
      * rewrite (mainb_other o1 ob1 e c) by done. lia.
    + rewrite Ha, HI, Hl. done.
Qed.
End PresInv.

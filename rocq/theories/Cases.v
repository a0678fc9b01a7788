(** Cases.v -- the atomic steps grouped by their effect on presentations (event
    states, clocks, players, counters), and the invariants about these. *)
From Verif Require Export Inv.
Open Scope string_scope.
Open Scope list_scope.

(** Observations that say nothing about presentations. *)
Definition silent (x : obs) : bool :=
  match x with OTrans _ _ | OTick _ _ | OPlayer _ _ => false | _ => true end.
Definition pl (s : st) (o : oid) : bool := match o_player (ostOf s o) with Some _ => true | None => false end.

Lemma evState_sev s s' e : s_ev s' = s_ev s -> evState s' e = evState s e.
Proof. intros E. unfold evState, estOf. by rewrite E. Qed.

Section Cases.
Context (D : doc) (rank : oid -> nat) (WF : wf_at D rank).

Inductive pstep (s s' : st) : Prop :=
  | ps_quiet :
      (forall e, evState s' e = evState s e) ->
      (forall o, o_time (ostOf s' o) = o_time (ostOf s o)) ->
      (forall o, o_awake (ostOf s' o) = o_awake (ostOf s o)) ->
      (forall o, pl s' o = pl s o) ->
      (s_log s' = s_log s \/ exists x, silent x = true /\ s_log s' = x :: s_log s) ->
      pstep s s'
  | ps_commit o ob e ev t :          (* plain events; pauses and resumptions *)
      d_obj D !! o = Some ob -> d_evt D !! e = Some ev -> e ∈ ob_events ob -> ev_obj ev = o ->
      (~ mainE D o ob e \/ (mainE D o ob e /\ (t = PAUSE \/ t = RESUME) /\
           (is_media (ob_kind ob) = true -> pl s o = true))) ->
      (forall e', evState s' e' = if decide (e = e') then target t else evState s e') ->
      (forall o, o_time (ostOf s' o) = o_time (ostOf s o)) ->
      (forall o, o_awake (ostOf s' o) = o_awake (ostOf s o)) ->
      (forall o, pl s' o = pl s o) ->
      s_log s' = OTrans e t :: s_log s ->
      pstep s s'
  | ps_start o ob e created :
      d_obj D !! o = Some ob -> mainE D o ob e -> e ∈ ob_events ob ->
      (created = true -> is_media (ob_kind ob) = true /\ evState s (ob_lambda ob) = SLEEPING /\ pl s o = false) ->
      (created = false -> is_media (ob_kind ob) = true -> pl s o = true) ->
      (forall e', evState s' e' = if decide (e = e') then OCCURRING else evState s e') ->
      (forall o', o_time (ostOf s' o') = if decide (o = o') then 0%N else o_time (ostOf s o')) ->
      (forall o', o_awake (ostOf s' o') = (o_awake (ostOf s o') + awk D o 1 o')%Z) ->
      (forall o', pl s' o' = if decide (o = o') then pl s o || created else pl s o') ->
      s_log s' = OTrans e START :: (if created then [OPlayer o true] else []) ++ s_log s ->
      pstep s s'
  | ps_stop o ob e t :
      d_obj D !! o = Some ob -> mainE D o ob e -> e ∈ ob_events ob -> t = STOP \/ t = ABORT ->
      evState s e <> SLEEPING ->
      (is_media (ob_kind ob) = true -> pl s o = true) ->
      (forall e', evState s' e' = if decide (inEvents D o e') then SLEEPING else evState s e') ->
      (forall o', o_time (ostOf s' o') = if decide (o = o') then TIME_NONE else o_time (ostOf s o')) ->
      (forall o', o_awake (ostOf s' o') = (o_awake (ostOf s o') + awk D o (-1) o')%Z) ->
      (forall o', pl s' o' = if decide (o = o' /\ is_media (ob_kind ob) = true) then false else pl s o') ->
      s_log s' = (if is_media (ob_kind ob) then [OPlayer o false] else []) ++ OTrans e t :: s_log s ->
      pstep s s'
  | ps_tick o ob d :
      d_obj D !! o = Some ob ->
      (evState s (ob_lambda ob) = OCCURRING -> tvalid (o_time (ostOf s o)) = true) ->
      (forall e, evState s' e = evState s e) ->
      (forall o', o_time (ostOf s' o') =
         if decide (o = o' /\ evState s (ob_lambda ob) = OCCURRING) then tadd (o_time (ostOf s o)) d
         else o_time (ostOf s o')) ->
      (forall o, o_awake (ostOf s' o) = o_awake (ostOf s o)) ->
      (forall o, pl s' o = pl s o) ->
      s_log s' = OTick o d :: s_log s ->
      pstep s s'.

Lemma main_self o ob e : d_obj D !! o = Some ob -> mainE D o ob e -> e ∈ ob_events ob.
Proof. apply (mainE_events D rank WF). Qed.

Lemma commit_inEvents o ob e e' t s : d_obj D !! o = Some ob -> e ∈ ob_events ob ->
  (if decide (inEvents D o e') then SLEEPING else evState (commit e t s) e') =
  (if decide (inEvents D o e') then SLEEPING else evState s e').
Proof.
  intros Ho He. destruct (decide (inEvents D o e')) as [|Hn]; [done|]. sts.
  rewrite decide_False; [done|]. intros ->. apply Hn. by exists ob.
Qed.

Local Ltac quiet := apply ps_quiet; [intros ?; unfold sched; by sts
   | intros o'; unfold sched; sts; try (destruct (decide _) as [->|]); done
   | intros o'; unfold sched; sts; try (destruct (decide _) as [->|]); done
   | intros o'; unfold pl, sched; sts; try (destruct (decide _) as [->|]); try done
   | unfold sched; sts; first [by left | right; eexists; split; [|reflexivity]; done]].

Lemma astep_pstep s s' : astep D s s' -> pstep s s'.
Proof.
  intros Hst. destruct Hst as [s s' Hm| | | | | |]; [|
    | quiet | quiet | quiet | quiet | quiet].
  - destruct Hm; try (by quiet).
    + quiet. cbn. by destruct (o_player _).
    + eapply (ps_commit _ _ (ev_obj ev) ob e ev t); eauto; try (intros; by sts). 
    + destruct (wo_events _ _ _ _ (wf_o _ _ WF _ _ H) _ H1) as (ev & Hev & Heo).
      eapply (ps_commit _ _ o ob e ev t); eauto; try (intros; by sts). right. split; [done|].
      split; [done|]. intros Hk. destruct (H3 Hk) as [p Hp]. unfold pl. by rewrite Hp.
    + destruct (doStart_ok _ _ _ _ _ H H3) as (E1 & E2 & E3).
      eapply (ps_start _ _ o ob e false); eauto.
      * done.
      * intros _ Hk. destruct (H2 Hk) as [p Hp]. unfold pl. by rewrite Hp.
      * intros e'. rewrite (evState_sev _ _ _ E1). by sts.
      * intros o'. by rewrite E3.
      * intros o'. by rewrite E3.
      * intros o'. unfold pl. rewrite E3. cbn. rewrite orb_false_r. by destruct (decide (o = o')) as [->|].
    + pose proof (createPlayer_ok _ _ _ _ H3) as F. destruct F.
      destruct (doStart_ok _ _ _ _ _ H H4) as (E1 & E2 & E3).
      assert (Hev : forall e, evState s1 e = evState s e) by (intros; unfold evState, estOf; by rewrite cf_ev).
      assert (Hpl : pl s o = false) by (unfold pl; by rewrite cf_player0).
      eapply (ps_start _ _ o ob (ob_lambda ob) true); eauto.
      * by left.
      * intros e'. rewrite (evState_sev _ _ _ E1). sts.
        by rewrite Hev.
      * intros o'. rewrite E3. cbn. sts. destruct (decide (o = o')) as [->|]; [done|]. by rewrite cf_other.
      * intros o'. rewrite E3. cbn. sts. destruct (decide (o = o')) as [->|]; [by rewrite cf_awake|]. by rewrite cf_other.
      * intros o'. unfold pl at 1. rewrite E3. cbn. sts. destruct (decide (o = o')) as [->|].
        -- rewrite orb_true_r. by destruct cf_player as [? ->].
        -- rewrite cf_other by done. done.
      * rewrite E2. cbn. by rewrite cf_log.
    + destruct (doStop_ok _ _ _ _ _ H H5) as (E1 & E2 & E3).
      eapply (ps_stop _ _ o ob e t); eauto.
      * intros Hk. congruence.
      * intros e'. rewrite <- (commit_inEvents o ob e e' t s H H1).
        unfold evState at 1. rewrite E2. by destruct (decide _).
      * intros o'. rewrite E3. cbn. by destruct (decide _).
      * intros o'. rewrite E3. cbn. by destruct (decide _).
      * intros o'. rewrite H3. rewrite decide_False by (intros [_ ?]; congruence).
        unfold pl. rewrite E3. cbn. by destruct (decide _) as [->|].
      * rewrite E1, H3. done.
    + destruct (mediaDoStop_ok _ _ _ (commit _ t s) _ H H4 H5) as (E1 & E2 & E3).
      eapply (ps_stop _ _ o ob (ob_lambda ob) t); eauto.
      * by left.
      * intros Hk. destruct H4 as [p Hp]. unfold pl. by rewrite Hp.
      * intros e'. rewrite <- (commit_inEvents o ob (ob_lambda ob) e' t s H H1).
        unfold evState at 1. rewrite E2. by destruct (decide _).
      * intros o'. rewrite E3. cbn. by destruct (decide _).
      * intros o'. rewrite E3. cbn. by destruct (decide _).
      * intros o'. unfold pl at 1. rewrite E3. cbn. destruct (decide (o = o')) as [->|].
        -- by rewrite decide_True.
        -- rewrite decide_False by tauto. done.
      * rewrite E1, H0. done.
  - eapply (ps_tick _ _ o ob d); eauto.
    + intros. apply tick_ev.
    + intros. rewrite tick_ob. by destruct (decide _).
    + intros. rewrite tick_ob. by destruct (decide _) as [[-> _]|].
    + intros. unfold pl. rewrite tick_ob. by destruct (decide _) as [[-> _]|].
    + apply tick_log.
Qed.
End Cases.

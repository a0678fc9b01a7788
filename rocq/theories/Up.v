(** Up.v -- in documents without switches and without links reacting to pauses, an
    active object always has active ancestors; so stopping a context puts
    everything inside it to sleep (C05). *)
From Verif Require Export Hold.
Open Scope string_scope.
Open Scope list_scope.
Open Scope m_scope.

Section Up.
Context (D : doc) (rank : oid -> nat) (WF : wf_at D rank).
Context (NS : noSwitch D) (NH : noHoldLinks D).

Definition act (s : st) (ob : obj) : Prop := evState s (ob_lambda ob) <> SLEEPING.
Definition UpX (s : st) (q : option oid) : Prop := forall o ob p pb, d_obj D !! o = Some ob -> ob_parent ob = Some p ->
  d_obj D !! p = Some pb -> act s ob -> act s pb \/ q = Some p.
Definition Up (s : st) : Prop := UpX s None.
Lemma Up_X s q : Up s -> UpX s q.
Proof. intros H o ob p pb Ho Hp Hpb Ha. destruct (H _ _ _ _ Ho Hp Hpb Ha) as [?|[=]]. by left. Qed.
Lemma act_ev s s' ob : evsame s s' -> act s' ob <-> act s ob.
Proof. intros H. unfold act. by rewrite H. Qed.
Lemma UpX_same s s' q : (forall o ob, d_obj D !! o = Some ob -> (act s' ob <-> act s ob)) -> UpX s q -> UpX s' q.
Proof.
  intros HE H o ob p pb Ho Hp Hpb Ha. rewrite (HE _ _ Ho) in Ha. rewrite (HE _ _ Hpb). eauto.
Qed.
Lemma UpX_ev s s' q : evsame s s' -> UpX s q -> UpX s' q.
Proof. intros HE. apply UpX_same. intros o ob _. by apply act_ev. Qed.
Lemma UpX_act s p pb : d_obj D !! p = Some pb -> act s pb -> UpX s (Some p) -> Up s.
Proof. intros Hpb Ha H o ob q qb Ho Hq Hqb Hao. destruct (H _ _ _ _ Ho Hq Hqb Hao) as [?|[= ->]]; [by left|]. left. congruence. Qed.
Lemma UpX_commit e ob o t s : d_obj D !! o = Some ob -> e = ob_lambda ob -> target t <> SLEEPING -> UpX s (Some o) -> UpX (commit e t s) (ob_parent ob).
Proof.
  intros Ho -> Ht H x xb p pb Hx Hp Hpb Ha. unfold act in *. sts_in Ha. sts.
  destruct (decide (ob_lambda ob = ob_lambda pb)) as [E|E]; [by left|].
  destruct (decide (ob_lambda ob = ob_lambda xb)) as [E2|E2].
  - right. destruct (lambda_evt D rank WF _ _ Ho) as (ev1 & H1 & _ & H2). destruct (lambda_evt D rank WF _ _ Hx) as (ev2 & H3 & _ & H4).
    assert (o = x) as -> by congruence. congruence.
  - destruct (H _ _ _ _ Hx Hp Hpb Ha) as [?|[= ->]]; [by left|]. exfalso. apply E. congruence.
Qed.

Lemma startParent_up trn o ob s : d_obj D !! o = Some ob ->
  (forall p pb s, d_obj D !! p = Some pb -> ob_kind pb = KContext -> UpX s (Some p) ->
     pwp (trn (ob_lambda pb) START) (fun _ s' => Up s' /\ act s' pb) s) ->
  UpX s (ob_parent ob) ->
  pwp (startParent D trn o) (fun _ s' => Up s' /\ forall p pb, ob_parent ob = Some p -> d_obj D !! p = Some pb -> act s' pb) s.
Proof.
  intros Ho IH HU. unfold startParent. w1. wgetO ob' Ho'. assert (ob' = ob) as -> by congruence.
  destruct (ob_parent ob) as [p|] eqn:Hp; [|w1; done].
  destruct (wo_parent _ _ _ _ (wf_o _ _ WF _ _ Ho) _ Hp) as (pb & Hpb & _ & Hkk & Hlt).
  assert (Hk : ob_kind pb = KContext) by (destruct Hkk as [?|?]; [done|by destruct (NS _ _ Hpb)]).
  unfold isContext. w1. w1. wgetO pb' Hpb'. assert (pb' = pb) as -> by congruence. rewrite Hk. w1. cbn [bool_decide].
  rewrite bool_decide_eq_true_2 by done.
  w1. eapply pwp_isSleeping; [done|]. cbv beta. w1.
  - w1. wgetO pb' Hpb''. assert (pb' = pb) as -> by congruence.
    w1. unfold setParam. w1. w1. eapply wp_mono; [eapply IH; eauto|].
    + eapply UpX_ev; [|exact HU]. intros e. by sts.
    + intros b s' [H1 H2]. cbv beta. w1. split; [done|]. intros q qb [= <-] Hq. congruence.
  - apply bool_decide_eq_false in H. w1. split; [by eapply UpX_act|]. intros q qb [= <-] Hq. unfold act. congruence.
Qed.
Lemma ctx_start_up n : forall p pb s, d_obj D !! p = Some pb -> ob_kind pb = KContext -> UpX s (Some p) ->
  pwp (tr D n (ob_lambda pb) START) (fun _ s' => Up s' /\ act s' pb) s.
Proof.
  induction n as [|n IH]; intros p pb s Hp Hk HU; [done|].
  destruct (lambda_evt D rank WF _ _ Hp) as (ev & He & Hl & Ho).
  rewrite tr_S. unfold tr_body. w1. wgetE ev' He'. assert (ev' = ev) as -> by congruence.
  w1. w1. destruct (legal (evState s (ob_lambda pb)) START) eqn:El; cbn [negb].
  2:{ w1. assert (act s pb) by (intros E; by rewrite E in El). split; [by eapply UpX_act|done]. }
  w1. unfold before. rewrite Ho. w1. wgetO pb' Hp'.
  assert (pb' = pb) as -> by congruence. rewrite Hk. unfold ctx_before.
  assert (Hty : ev_type ev = PRESENTATION).
  { unfold isLambda in Hl. apply andb_true_iff in Hl as [Hl _]. by apply bool_decide_eq_true in Hl. }
  rewrite Hty, Hl. w1. w1. w1. cbn [negb]. w1. w1. w1. w1. fold (commit (ob_lambda pb) START s).
  assert (HU1 : UpX (commit (ob_lambda pb) START s) (ob_parent pb)) by (by eapply UpX_commit).
  unfold after. w1. w1. wgetO pb' Hp''. assert (pb' = pb) as -> by congruence. rewrite Hk.
  eapply (wp_mono _ _ _ (fun a s' => a = true /\ Up s' /\ act s' pb)).
  2:{ intros a s' (-> & H1 & H2). cbv beta iota. by w1. }
  unfold ctx_after. rewrite Hty, Hl. w1. w1. w1. eapply wp_mono; [apply doStart_ev|]. intros [] s1 E1. cbv beta. w1.
  eapply wp_mono.
  { apply (wp_conj _ _ _ (fun _ s' => Up s' /\ forall p' pb', ob_parent pb = Some p' -> d_obj D !! p' = Some pb' -> act s' pb') (fun _ s' => lowkeep D rank (S (rank p)) s1 s')); [eapply startParent_up; [exact Hp|exact IH|by eapply UpX_ev]|].
    eapply startParent_low; [exact WF|done|apply tr_ctx_start; done]. }
  intros [] s2 [[HU2 _] HL]. cbv beta. 
  assert (HA : act s2 pb).
  { unfold act. rewrite (HL _ _ He) by (rewrite Ho; lia). rewrite E1. sts. by rewrite decide_True. }
  w1. unfold getParam. w1. w1. eapply (wp_mono _ _ _ (fun _ s' => evsame s2 s')).
  { w1; [|by w1]. w1. wgetO ob' Ho'. w1. eapply wp_mono; [apply addPorts_ev|].
    intros [] s3 HE. cbv beta in HE |- *. unfold setParam. w1. intros e'. sts. by rewrite HE. }
  intros [] s3 HE3. cbv beta. w1. split; [done|]. split; [by eapply UpX_ev|by eapply act_ev].
Qed.
Lemma startParent_up' n o ob s : d_obj D !! o = Some ob -> Up s ->
  pwp (startParent D (tr D n) o) (fun _ s' => Up s' /\ forall p pb, ob_parent ob = Some p -> d_obj D !! p = Some pb -> act s' pb) s.
Proof. intros Ho HU. eapply startParent_up; [done|apply ctx_start_up|by apply Up_X]. Qed.

(** *** Stops, pauses and resumptions. *)
Lemma stop_up n t o ob s : isStop t -> d_obj D !! o = Some ob -> Up s -> pwp (tr D n (ob_lambda ob) t) (fun _ s' => Up s') s.
Proof.
  intros Ht Ho HU. eapply wp_mono; [by apply (R_stop D rank WF)|]. intros b s' [HR _].
  intros x xb p pb Hx Hp Hpb Ha. left. 
  destruct (HR x) as [Hs|[Hs _]].
  2:{ exfalso. apply (asleep_inactive D rank WF _ _ Hs). by exists xb. }
  unfold act in Ha. rewrite (same_lam D rank WF _ _ _ _ Hs Hx) in Ha.
  destruct (HU _ _ _ _ Hx Hp Hpb Ha) as [Hap|[=]]. unfold act.
  destruct (HR p) as [Hsp|[_ Hbe]]; [by rewrite (same_lam D rank WF _ _ _ _ Hsp Hpb)|].
  exfalso. destruct (wo_parent _ _ _ _ (wf_o _ _ WF _ _ Hx) _ Hp) as (pb' & Hpb' & Hc & Hkk & _). assert (pb' = pb) as -> by congruence.
  assert (Hk : ob_kind pb = KContext) by (destruct Hkk as [?|?]; [done|by destruct (NS _ _ Hpb)]).
  apply (asleep_inactive D rank WF s' x).
  - apply Hbe; [|by exists xb]. eapply be_child; eauto. apply be_self.
  - exists xb. split; [done|]. by rewrite (same_lam D rank WF _ _ _ _ Hs Hx).
Qed.
Lemma hold_up n t o ob s : isHold t -> d_obj D !! o = Some ob -> Up s -> pwp (tr D n (ob_lambda ob) t) (fun _ s' => Up s') s.
Proof.
  intros Ht Ho HU. eapply wp_mono; [by apply (hold_tr D rank WF NS NH t Ht)|]. intros b s' ([HK _] & _).
  eapply UpX_same; [|exact HU]. intros x xb Hx. unfold act. destruct (HK (ob_lambda xb)) as [->|[-> ->]]; [done|].
  by destruct Ht as [-> | ->].
Qed.
(** *** Other events. *)
Lemma foreach_sched_ev o l s : pwp (foreach (fun e' => do ev' <- getE D e';
                   if (negb (isLambda ev') && bool_decide (ev_type ev' = PRESENTATION)
                       && negb (hasLabel ev'))%bool
                   then addDelayed o e' START "" (ev_begin ev') ;;
                        addDelayed o e' STOP "" (ev_end ev')
                   else ret tt) l) (fun _ s' => evsame s s') s.
Proof.
  apply (wp_foreach_inv True True _ _ (fun s' => evsame s s')); [done| |done].
  intros x s' _ HE. w1. wgetE pe Hpe. unfold addDelayed.
  w1; [w1; w1; w1; by apply evsame_sched, evsame_sched|by w1].
Qed.
Lemma after_ev n evalA e ev ob t s : d_evt D !! e = Some ev -> d_obj D !! ev_obj ev = Some ob ->
  (isLambda ev = true -> t = START /\ is_media (ob_kind ob) = true) ->
  pwp (after D (tr D n) evalA (ev_obj ev) e ev t) (fun a s' => evsame s s') s.
Proof.
  intros He Ho Hnl. unfold after. w1. wgetO ob' Ho'. assert (ob' = ob) as -> by congruence.
  assert (Hve : valid_evt D e) by (by eexists).
  assert (Hmedia : pwp (media_after D (ev_obj ev) e ev t) (fun a s' => evsame s s') s).
  { unfold media_after. w1. w1. cbv zeta. destruct (ev_type ev).
    - destruct t; try done; try (by w1). w1. eapply wp_mono; [by apply attribStart_ev|]. intros [] s1 E. cbv beta in E |- *. by w1.
    - assert (Hso : pwp (do b <- isOccurring D (ev_obj ev); assertm b "Media.cpp:386" ;; ret true) (fun _ s' => evsame s s') s).
      { unfold isOccurring, objState. w1. w1. w1. wgetO ob2 Ho2. w1. w1. w1. w1. by w1. }
      destruct t; try (by w1).
      + w1; [by destruct (Hnl H)|]. w1; [destruct (o_player _); [by w1|done]|exact Hso].
      + w1; [|w1; [destruct (o_player _); [by w1|done]|by w1]].
        w1. w1. w1. eapply wp_mono; [apply doStart_ev|]. intros [] s1 E. cbv beta in E |- *.
        w1. wgetO ob2 Ho2. w1. eapply wp_mono; [apply foreach_sched_ev|].
        intros [] s2 E2. cbv beta in E2 |- *. w1. intros e'. by rewrite E2, E.
      + w1; [by destruct (Hnl H)|]. w1; [destruct (o_player _); [by w1|done]|exact Hso].
    - destruct t; try done; by w1.
    - destruct t; try done; by w1. }
  destruct (ob_kind ob) eqn:Hk; [|by destruct (NS _ _ Ho)|exact Hmedia|exact Hmedia].
  unfold ctx_after. destruct (ev_type ev) eqn:Hty; try done.
  - destruct t; try done; try (by w1). w1. eapply wp_mono; [by apply attribStart_ev|]. intros [] s1 E. cbv beta in E |- *. by w1.
  - w1. w1. destruct (Hnl H) as [_ ?]. done.
Qed.
Lemma Up_commit_other e ev t s : d_evt D !! e = Some ev -> isLambda ev = false -> Up s -> Up (commit e t s).
Proof.
  intros He Hl. apply UpX_same. intros o ob Ho. unfold act. sts. rewrite decide_False; [done|]. intros ->.
  destruct (lambda_evt D rank WF _ _ Ho) as (ev' & He' & Hl' & _). congruence.
Qed.
Lemma playerSet_ev o k v s : pwp (playerSetProperty D o k v) (fun _ s' => evsame s s') s.
Proof.
  eapply wp_mono; [by eapply playerSetProperty_pframe|]. intros [] s' F e. by eapply pframe_evState.
Qed.
Lemma createPlayer_ev o s : pwp (createPlayer D o) (fun _ s' => evsame s s') s.
Proof.
  eapply wp_mono; [by eapply createPlayer_cframe|]. intros [] s' F e. apply evState_sev. apply F.
Qed.
(** *** Media: starting. *)
Notation keeps m := (forall s, Up s -> pwp m (fun _ s' => Up s') s).
Lemma seek_up trn o b f k : (forall e t, keeps (trn e t)) -> forall i, keeps (anchor_seek trn o b f k i).
Proof.
  intros IHt. induction k as [|k IH]; intros i s Hs; cbn [anchor_seek]; [by w1|].
  w1. w1. destruct (_ !! i) as [[a x]|] eqn:Ei; [|done]. w1.
  - w1. eapply (wp_mono _ _ _ (fun _ s' => Up s')).
    { w1; [|by w1]. w1. eapply wp_mono; [by apply IHt|]. intros bb s1 Hs1. cbv beta in Hs1 |- *. by w1. }
    intros [] s1 Hs1. cbv beta in Hs1 |- *. w1. w1. w1. w1. w1. w1. w1. apply IH. eapply UpX_ev; [|exact Hs1]. intros e. by sts.
  - w1. w1. w1. w1. apply IH. eapply UpX_ev; [|exact Hs]. intros e. by sts.
Qed.
Lemma anchor_up trn o e ev lam : (forall e t, keeps (trn e t)) -> keeps (media_start_anchor D trn o e ev lam).
Proof.
  intros IHt s Hs. unfold media_start_anchor. w1. eapply wp_mono; [by apply IHt|].
  intros b s1 Hs1. cbv beta zeta in Hs1 |- *. w1. eapply wp_mono; [apply playerSet_ev|].
  intros [] s2 E2. cbv beta in E2 |- *. w1. assert (Hs2 : Up s2) by (by eapply UpX_ev).
  eapply (wp_mono _ _ _ (fun _ s' => Up s')).
  { w1; [by w1|]. w1. eapply wp_mono; [apply playerSet_ev|].
    intros [] s3 E3. cbv beta in E3 |- *. unfold addDelayed. w1. eapply UpX_ev; [|exact Hs2]. by apply evsame_sched. }
  intros [] s3 Hs3. cbv beta in Hs3 |- *. w1. w1. by apply seek_up.
Qed.
Lemma media_start_up n e ev ob s : d_evt D !! e = Some ev -> d_obj D !! ev_obj ev = Some ob -> is_media (ob_kind ob) = true ->
  ev_type ev = PRESENTATION -> (forall e t, keeps (tr D n e t)) -> Up s ->
  pwp (media_before D (tr D n) (fun a => loop D n [a]) (ev_obj ev) e ev START) (fun b s' => b = true /\ Up (commit e START s')) s.
Proof.
  intros He Ho Hm Hty IH HU. unfold media_before. rewrite Hty. w1.
  eapply wp_mono; [by apply startParent_up'|]. intros [] s1 [HU1 HP]. cbv beta. w1. w1.
  assert (HL : isLambda ev = true -> forall s2, evsame s1 s2 -> Up (commit e START s2)).
  { intros Hl s2 E2. pose proof (isLambda_lambda D rank WF _ _ _ He Ho Hl) as ->.
    assert (HU2 : UpX (commit (ob_lambda ob) START s2) (ob_parent ob)).
    { eapply UpX_commit; eauto. apply Up_X. by eapply UpX_ev. }
    destruct (ob_parent ob) as [p|] eqn:Hp; [|done].
    destruct (wo_parent _ _ _ _ (wf_o _ _ WF _ _ Ho) _ Hp) as (pb & Hpb & _ & _).
    eapply (UpX_act _ p pb); [done| |done]. unfold act. sts. destruct (decide _); [done|]. rewrite E2. by apply (HP p pb). }
  assert (Hsame : Up (commit e START s1)).
  { destruct (isLambda ev) eqn:Hl; [by apply HL|]. by eapply Up_commit_other. }
  destruct (evState s1 e); try (w1; split; [done|]; exact Hsame).
  w1.
  - w1. eapply wp_mono; [apply createPlayer_ev|]. intros [] s2 E2. cbv beta in E2 |- *. w1. split; [done|]. by apply HL.
  - w1. wgetO ob' Ho'. w1. w1. destruct (evState s1 (ob_lambda ob')); try (w1; split; [done|]; exact Hsame).
    w1. eapply wp_mono; [by apply anchor_up|]. intros [] s2 HU2. cbv beta in HU2 |- *. w1. split; [done|]. by eapply Up_commit_other.
Qed.
Lemma tr_up_step n : (forall e t, keeps (tr D n e t)) -> forall e t, keeps (tr D (S n) e t).
Proof.
  intros IH e t s HU. destruct (d_evt D !! e) as [ev|] eqn:He.
  2:{ rewrite tr_S. unfold tr_body. w1. wgetE ev He'. congruence. }
  destruct (wf_e _ _ WF _ _ He) as (ob & Ho & Hin & HlL).
  assert (HG : (isLambda ev = true -> t = START /\ is_media (ob_kind ob) = true) -> pwp (tr D (S n) e t) (fun _ s' => Up s') s).
  { intros HT. rewrite tr_S. unfold tr_body. w1. wgetE ev' He'. assert (ev' = ev) as -> by congruence. w1. w1. w1; [by w1|].
    w1. eapply (wp_mono _ _ _ (fun b s' => (b = true -> Up (commit e t s')) /\ (b = false -> s' = s))).
    2:{ intros b s1 [H1 H2]. cbv beta. destruct b; cbn [negb]; [|by w1; rewrite H2]. w1. w1. w1. w1. w1. fold (commit e t s1).
        eapply wp_mono.
        { apply (wp_conj _ _ _ (fun _ s' => evsame (commit e t s1) s') (fun a _ => a = true)); [by eapply after_ev|].
          assert (Hsw : ob_kind ob = KSwitch -> t = START -> is_Some (o_selected (ostOf (commit e t s1) (ev_obj ev)))).
          { intros Hk. by destruct (NS _ _ Ho). }
          eapply wp_mono; [eapply (after_target D rank WF n); eauto; sts; by rewrite decide_True|]. by intros a s2 [-> _]. }
        intros a s2 [HE ->]. cbv beta iota. w1. eapply UpX_ev; [exact HE|]. by apply H1. }
    unfold before. w1. wgetO ob' Ho'. assert (ob' = ob) as -> by congruence.
    assert (Hplain : forall b : bool, isLambda ev = false -> pwp (ret b) (fun b s' => (b = true -> Up (commit e t s')) /\ (b = false -> s' = s)) s).
    { intros b Hl. w1. split; [|done]. intros _. by eapply Up_commit_other. }
    assert (HM : is_media (ob_kind ob) = true -> pwp (media_before D (tr D n) (fun a => loop D n [a]) (ev_obj ev) e ev t)
       (fun b s' => (b = true -> Up (commit e t s')) /\ (b = false -> s' = s)) s).
    { intros Hm. assert (Hnp : ev_type ev <> PRESENTATION -> isLambda ev = false).
      { intros Hne. unfold isLambda. by rewrite bool_decide_eq_false_2. }
      destruct (ev_type ev) eqn:Hty; try (unfold media_before; rewrite Hty; by apply Hplain, Hnp).
      destruct (decide (t = START)) as [->|Hns].
      - eapply wp_mono; [by eapply media_start_up|]. intros b s' [-> ?]. by split.
      - assert (Hl : isLambda ev = false) by (destruct (isLambda ev); [by destruct HT|done]).
        unfold media_before. rewrite Hty, Hl. destruct t; try done; by apply Hplain. }
    destruct (ob_kind ob) eqn:Hk; [|by destruct (NS _ _ Ho)|by apply HM|by apply HM].
    assert (Hl : isLambda ev = false) by (destruct (isLambda ev); [by destruct HT|done]).
    unfold ctx_before. destruct (ev_type ev); [by apply Hplain| |by apply Hplain|done].
    rewrite Hl. by w1. }
  destruct (isLambda ev) eqn:Hl; [|by apply HG].
  rewrite (HlL eq_refl) in *. destruct t.
  - eapply stop_up; eauto. by right.
  - eapply hold_up; eauto. by left.
  - eapply hold_up; eauto. by right.
  - destruct (ob_kind ob) eqn:Hk; [|by destruct (NS _ _ Ho)|by apply HG|by apply HG].
    eapply wp_mono; [eapply ctx_start_up; eauto; by apply Up_X|]. intros b s' [? _]. done.
  - eapply stop_up; eauto. by left.
Qed.
(** *** Links. *)
Lemma fire_acts_ev ctx acts s : pwp (fire_acts D ctx acts) (fun _ s' => evsame s s') s.
Proof.
  revert s. induction acts as [|a acts IH]; intros s; cbn [fire_acts]; [by w1|]. w1. w1. w1. apply pwp_parse_time. intros d.
  w1.
  - w1. eapply wp_mono; [apply IH|]. intros r s1 E. cbv beta. by w1.
  - w1. unfold addDelayed. w1. eapply wp_mono; [apply IH|]. intros r s1 E e. rewrite E. unfold sched. by sts.
Qed.
Lemma evsame_trans s1 s2 s3 : evsame s1 s2 -> evsame s2 s3 -> evsame s1 s3.
Proof. intros H1 H2 e. by rewrite H2, H1. Qed.
Lemma fire_conds_ev ctx e t conds acts s : pwp (fire_conds D ctx e t conds acts) (fun _ s' => evsame s s') s.
Proof.
  revert s. induction conds as [|c conds IH]; intros s; cbn [fire_conds]; [by w1|]. w1; [|apply IH]. w1.
  eapply (wp_mono _ _ _ (fun _ s' => s' = s)).
  { destruct (ac_pred c); [apply (evalPredicate_pure D)|by w1]. }
  intros b s1 ->. cbv beta. w1; [|apply IH]. w1. eapply wp_mono; [apply fire_acts_ev|]. intros r s1 E1. cbv beta in E1 |- *.
  w1. eapply wp_mono; [apply IH|]. intros r2 s2 E2. cbv beta in E2 |- *. w1. by eapply evsame_trans.
Qed.
Lemma fire_links_ev ctx e t links s : pwp (fire_links D ctx e t links) (fun _ s' => evsame s s') s.
Proof.
  revert s. induction links as [|[cs acts] links IH]; intros s; cbn [fire_links]; [by w1|]. w1.
  eapply wp_mono; [apply fire_conds_ev|]. intros r s1 E1. cbv beta in E1 |- *. w1.
  eapply wp_mono; [apply IH|]. intros r2 s2 E2. cbv beta in E2 |- *. w1. by eapply evsame_trans.
Qed.
Lemma inCtx_ev a ctx s : pwp (evalActionInContext D a ctx) (fun _ s' => evsame s s') s.
Proof. unfold evalActionInContext. w1. wgetO ob Ho. w1. w1. w1; [apply fire_links_ev|by w1]. Qed.
Lemma ports_ev a o gp ports s : pwp (fire_ports D a o gp ports) (fun _ s' => evsame s s') s.
Proof.
  revert s. induction ports as [|p ports IH]; intros s; cbn [fire_ports]; [by w1|]. w1. wgetE pe Hpe. w1; [|apply IH].
  w1. eapply wp_mono; [apply inCtx_ev|]. intros r s1 E1. cbv beta in E1 |- *. w1.
  eapply wp_mono; [apply IH|]. intros r2 s2 E2. cbv beta in E2 |- *. w1. by eapply evsame_trans.
Qed.
Lemma aliases_ev a als s : pwp (fire_aliases D a als) (fun _ s' => evsame s s') s.
Proof.
  revert s. induction als as [|[i [c|]] als IH]; intros s; cbn [fire_aliases]; [by w1| |apply IH].
  unfold isContext. w1. w1. wgetO cb Hcb. w1. w1; [|apply IH].
  w1. eapply wp_mono; [apply inCtx_ev|]. intros r s1 E1. cbv beta in E1 |- *. w1.
  eapply wp_mono; [apply IH|]. intros r2 s2 E2. cbv beta in E2 |- *. w1. by eapply evsame_trans.
Qed.
Lemma triggered_ev evalA a s : pwp (triggered D evalA a) (fun _ s' => evsame s s') s.
Proof.
  unfold triggered. w1. wgetE ev He. w1. wgetO ob Ho. w1.
  eapply (wp_mono _ _ _ (fun _ s' => evsame s s')).
  - unfold fire_parent. destruct (ob_parent ob) as [p|]; [|by w1]. w1. wgetO pb Hpb.
    destruct (ob_kind pb) eqn:Hk; [|by destruct (NS _ _ Hpb)|by w1|by w1].
    w1. eapply pwp_isOccurring; [done|]. cbv beta. w1; [|by w1]. w1.
    eapply wp_mono; [by apply inCtx_ev|]. intros r s1 E1. cbv beta in E1 |- *. w1.
    eapply (wp_mono _ _ _ (fun _ s' => evsame s s')).
    { destruct (ob_parent pb) as [gp|]; [|by w1]. w1. wgetO gb Hgb. w1. eapply pwp_isOccurring; [done|]. cbv beta.
      w1; [|by w1]. eapply wp_mono; [apply ports_ev|]. intros r2 s2 E2. by eapply evsame_trans. }
    intros r2 s2 E2. cbv beta. by w1.
  - intros r s1 E1. cbv beta in E1 |- *. w1. unfold fire_self.
    eapply (wp_mono _ _ _ (fun _ s' => evsame s1 s')).
    { destruct (ob_kind ob); [by apply inCtx_ev|by apply aliases_ev..]. }
    intros r2 s2 E2. cbv beta in E2 |- *. w1. by eapply evsame_trans.
Qed.
Theorem tr_loop_up n : (forall e t, keeps (tr D n e t)) /\ (forall l, keeps (loop D n l)).
Proof.
  induction n as [|n [IH1 IH2]]; [split; intros; exact I|]. split; [by apply tr_up_step|].
  intros l s HU. rewrite loop_S. destruct l as [|a l]; cbn [loop_body]; [by w1|]. w1.
  eapply (wp_mono _ _ _ (fun _ s' => Up s')).
  { unfold attempt. w1. w1. w1. wgetE ev He. unfold setParam. w1. w1. w1. eapply (wp_mono _ _ _ (fun _ s' => Up s')).
    - assert (Up (upd_ev (ac_evt a) (es_set_param "duration" (ac_dur a)) (log (OBegin a) s))).
      { eapply UpX_ev; [|exact HU]. intros e. by sts. }
      w1; [|done]. w1. eapply UpX_ev; [|exact HU]. intros e. by sts.
    - intros [] s1 H1. by apply IH1. }
  intros b s1 HU1. cbv beta in HU1 |- *. w1; [|by apply IH2]. w1. eapply wp_mono; [apply triggered_ev|]. intros r s2 E2.
  cbv beta in E2 |- *. w1. eapply wp_mono; [apply IH2; by eapply UpX_ev|]. intros k s3 HU3. cbv beta. by w1.
Qed.

(** *** Every reachable state. *)
Lemma eval_up n a : keeps (evalAction D n a). Proof. intros s. apply tr_loop_up. Qed.
Lemma objTick_up n o d : keeps (objTick D n o d).
Proof.
  intros s HU. unfold objTick. w1. w1. w1. destruct (d_obj D !! o) as [ob|] eqn:Ho.
  2:{ unfold isOccurring, objState. w1. w1. apply wp_getO; [done|]. intros ob' Ho'. congruence. }
  eapply (pwp_isOccurring D); [done|]. cbv beta. w1; [|w1; by eapply UpX_ev]. w1. w1. w1. w1. w1. w1. w1. w1. w1. w1. w1.
  assert (HR : forall l, keeps (run_triggered D n o l)).
  { induction l as [|a l IH]; intros s1 HU1; cbn [run_triggered]; [by w1|]. w1. w1. w1.
    eapply wp_mono; [apply eval_up; by eapply UpX_ev|]. intros k s2 HU2. cbv beta in HU2 |- *. w1. eapply (pwp_isOccurring D); [done|]. cbv beta.
    w1; [by apply IH|by w1]. }
  eapply wp_mono; [apply HR; eapply UpX_ev; [|exact HU]; intros e; by sts|]. intros b s1 HU1. cbv beta in HU1 |- *.
  w1; [|by w1]. w1. by eapply UpX_ev.
Qed.
Lemma mediaTick_up n o d : keeps (mediaTick D n o d).
Proof.
  intros s HU. unfold mediaTick. w1. eapply wp_mono; [by apply objTick_up|]. intros [] s1 HU1. cbv beta in HU1 |- *. w1. w1.
  destruct (o_player _); [|by w1]. w1. unfold updPlayer. w1. w1; [|w1; by eapply UpX_ev]. w1. wgetO ob Ho. w1.
  eapply wp_mono; [apply eval_up; by eapply UpX_ev|]. intros k s2 HU2. cbv beta in HU2 |- *. by w1.
Qed.
Lemma sendTick_up n o d : keeps (sendTick D n o d).
Proof.
  intros s HU. unfold sendTick. w1. wgetO ob Ho. destruct (ob_kind ob).
  - unfold ctxTick. w1. eapply wp_mono; [by apply objTick_up|]. intros [] s1 HU1. cbv beta in HU1 |- *. w1. w1. w1. wgetO ob' Ho'.
    assert (HE : pwp (evalAction D n (mkA (ob_lambda ob') STOP "") ;; ret tt) (fun _ s' => Up s') s1).
    { w1. eapply wp_mono; [by apply eval_up|]. intros k s2 HU2. cbv beta in HU2 |- *. by w1. }
    cbv zeta. w1; [|w1; [exact HE|by w1]]. w1. destruct (wf_settings _ _ WF) as (sb & Hsb & _).
    eapply pwp_isOccurring; [done|]. cbv beta. w1. exact HE.
  - by apply objTick_up.
  - by apply mediaTick_up.
  - unfold settingsTick. w1. w1. w1. eapply (wp_mono _ _ _ (fun _ s' => Up s')); [|intros [] s1 HU1; by apply mediaTick_up].
    destruct (s_next s); [|by w1]. w1. eapply (wp_mono _ _ _ (fun _ s' => Up s')); [|intros [] s1 HU1; cbv beta in HU1 |- *; w1; by eapply UpX_ev].
    unfold updateCurrentFocus. w1. w1. cbv zeta. w1. wgetO ob' Ho'. w1. w1. w1. eapply wp_mono; [by apply eval_up|].
    intros k s1 HU1. cbv beta in HU1 |- *. by w1.
Qed.
Lemma sendKey_up n o k p : keeps (sendKey D n o k p).
Proof.
  intros s HU. unfold sendKey. w1. w1. assert (Hs1 : Up (log (OKey o k p) s)) by (by eapply UpX_ev).
  revert Hs1. generalize (log (OKey o k p) s). clear s HU. intros s Hs.
  w1. wgetO ob Ho. w1; [|by w1]. unfold mediaKey. w1. eapply pwp_isSleeping; [done|]. cbv beta.
  w1; [by w1|]. w1. w1. destruct (o_player (ostOf s o)) as [pl|]; [|by w1]. w1.
  eapply (wp_mono _ _ _ (fun _ s' => Up s')).
  { w1; [|by w1]. cbv zeta. w1; [by w1|]. unfold scheduleFocus. w1. by eapply UpX_ev. }
  intros [] s1 Hs1. cbv beta in Hs1 |- *. w1. wgetO ob' Ho'. assert (ob' = ob) as -> by congruence.
  apply (keeps_foreach Up); [|done]. intros e He s2 Hs2. w1.
  eapply wp_mono; [by apply eval_up|]. intros n' s3 Hs3. by w1.
Qed.
Theorem reach_up s : reach D s -> Up s.
Proof.
  induction 1 as [s Hi|n a k s s' Hf IH Hv E|n e t b s s' Hf IH Hv E|n o d s s' Hf IH E|n o d s s' Hf IH E|n o k p s s' Hf IH E
    |o k v d s s' Hf IH E|w h s Hf IH|o ob s Hf IH Ho Hm|o ob e t v s Hf IH Ho He|o ob b s Hf IH Ho].
  - intros o ob p pb Ho Hp Hpb Ha. exfalso. apply Ha. by apply Hi.
  - exact (wp_ok _ _ _ _ _ (eval_up n a s IH) _ _ E).
  - exact (wp_ok _ _ _ _ _ (proj1 (tr_loop_up n) e t s IH) _ _ E).
  - exact (wp_ok _ _ _ _ _ (sendTick_up n o d s IH) _ _ E).
  - exact (wp_ok _ _ _ _ _ (objTick_up n o d s IH) _ _ E).
  - exact (wp_ok _ _ _ _ _ (sendKey_up n o k p s IH) _ _ E).
  - pose proof (wp_ok _ _ _ _ _ (setProperty_pframe D o k v d s) _ _ E) as F. eapply UpX_ev; [|exact IH].
    intros e2. exact (pframe_evState _ _ _ e2 F).
  - by eapply UpX_ev.
  - by eapply UpX_ev.
  - eapply UpX_ev; [|exact IH]. by apply evsame_sched.
  - by eapply UpX_ev.
Qed.
(** Everything active inside [o] is on stage below [o]. *)
Lemma inside_below s o x : Up s -> inside D o x -> activeObj D s x -> below D s o x /\ activeObj D s o.
Proof.
  intros HU Hin. induction Hin as [|c cb p Hcb Hpar Hp IH]; [split; [apply be_self|done]|]. intros (cb' & Hcb' & Hac).
  assert (cb' = cb) as -> by congruence.
  destruct (wo_parent _ _ _ _ (wf_o _ _ WF _ _ Hcb) _ Hpar) as (pb & Hpb & Hc & Hkk & _).
  destruct (HU _ _ _ _ Hcb Hpar Hpb Hac) as [Hao|[=]]. destruct IH as [IH1 IH2]; [by exists pb|].
  split; [|done]. eapply be_child; eauto. destruct Hkk as [?|?]; [done|by destruct (NS _ _ Hpb)].
Qed.
End Up.

(** Trans.v -- what one transition does to its own event (C01). *)
From Verif Require Export PresInv.
Open Scope string_scope.
Open Scope list_scope.

Section Trans.
Context (D : doc) (rank : oid -> nat) (WF : wf_at D rank).

(** Starting a context only touches that context's and its ancestors' events. *)
Definition lowkeep (r : nat) (s s' : st) : Prop :=
  forall e ev, d_evt D !! e = Some ev -> rank (ev_obj ev) < r -> evState s' e = evState s e.
Lemma lowkeep_refl r s : lowkeep r s s. Proof. by intros e ev. Qed.
Lemma lowkeep_trans r s1 s2 s3 : lowkeep r s1 s2 -> lowkeep r s2 s3 -> lowkeep r s1 s3.
Proof. intros H1 H2 e ev He Hr. rewrite (H2 e ev), (H1 e ev); auto. Qed.

Lemma startParent_low trn o ob s : d_obj D !! o = Some ob ->
  (forall p pb s, d_obj D !! p = Some pb -> ob_kind pb = KContext ->
     pwp (trn (ob_lambda pb) START) (fun _ s' => lowkeep (rank p) s s') s) ->
  pwp (startParent D trn o) (fun _ s' => lowkeep (S (rank o)) s s') s.
Proof.
  intros Ho IH. unfold startParent. w1. wgetO ob' Ho'. assert (ob' = ob) as -> by congruence.
  destruct (ob_parent ob) as [p|] eqn:Hp; [|w1; apply lowkeep_refl].
  destruct (wo_parent _ _ _ _ (wf_o _ _ WF _ _ Ho) _ Hp) as (pb & Hpb & _ & _ & Hlt).
  unfold isContext. w1. w1. wgetO pb' Hpb'. assert (pb' = pb) as -> by congruence. w1.
  w1; [|w1; apply lowkeep_refl]. apply bool_decide_eq_true in H.
  w1. eapply pwp_isSleeping; [done|]. cbv beta. w1; [|w1; apply lowkeep_refl].
  w1. wgetO pb' Hpb''. assert (pb' = pb) as -> by congruence.
  w1. unfold setParam. w1. w1. eapply wp_mono; [eapply IH; eauto|].
  intros b s' HL. cbv beta. w1. intros e ev He Hr. rewrite (HL e ev He) by lia. by sts.
Qed.

Definition evsame (s s' : st) : Prop := forall e, evState s' e = evState s e.
Lemma evsame_sched s o e t v d s' : evsame s s' -> evsame s (sched o e t v d s').
Proof. intros H e'. unfold sched. sts. apply H. Qed.
Lemma addPorts_ev o l s : pwp (foreach (fun p => do pe <- getE D p;
                    whenm (bool_decide (ev_type pe = PRESENTATION))
                          (addDelayed o p START "" 0)) l)
     (fun _ s' => evsame s s') s.
Proof.
  apply (wp_foreach_inv True True _ _ (fun s' => evsame s s')); [done| |done].
  intros x s' _ HE. w1. wgetE pe Hpe. unfold addDelayed. w1; [w1; by apply evsame_sched|done].
Qed.

Lemma ctx_start_after trn o ob e ev s :
  d_obj D !! o = Some ob -> d_evt D !! e = Some ev -> ev_obj ev = o -> 
  (forall p pb s, d_obj D !! p = Some pb -> ob_kind pb = KContext ->
     pwp (trn (ob_lambda pb) START) (fun _ s' => lowkeep (rank p) s s') s) ->
  ev_type ev = PRESENTATION ->
  pwp (ctx_after D trn o e ev START) (fun a s' => a = true /\ lowkeep (S (rank o)) s s') s.
Proof.
  intros Ho He Hob IH Hty. unfold ctx_after. rewrite Hty. w1. w1. w1.
  apply wp_doStart; [done|done|]. intros s1 E1 _ _ _ _ _ _. w1.
  eapply wp_mono; [eapply startParent_low; eauto|]. intros [] s2 HL. cbv beta in HL |- *.
  assert (HL' : lowkeep (S (rank o)) s s2).
  { intros e' ev' He' Hr. rewrite (HL e' ev' He' Hr). by apply evState_sev. }
  w1. unfold getParam. w1. w1. eapply (wp_mono _ _ _ (fun _ s' => lowkeep (S (rank o)) s s')).
  { w1; [|by w1]. w1. wgetO ob' Ho'. w1. eapply wp_mono; [apply addPorts_ev|].
    intros [] s3 HE. cbv beta in HE |- *. unfold setParam. w1.
    intros e' ev' He' Hr. sts. rewrite HE. eauto. }
  intros [] s3 HL3. cbv beta. by w1.
Qed.

Lemma tr_ctx_start n : forall p pb s, d_obj D !! p = Some pb -> ob_kind pb = KContext ->
  pwp (tr D n (ob_lambda pb) START) (fun _ s' => lowkeep (rank p) s s') s.
Proof.
  induction n as [|n IH]; intros p pb s Hp Hk; [done|].
  destruct (lambda_evt D rank WF _ _ Hp) as (ev & He & Hl & Ho).
  rewrite tr_S. unfold tr_body. w1. wgetE ev' He'. assert (ev' = ev) as -> by congruence.
  w1. w1. w1; [w1; apply lowkeep_refl|]. w1. unfold before. rewrite Ho. w1. wgetO pb' Hp'.
  assert (pb' = pb) as -> by congruence. rewrite Hk. unfold ctx_before.
  assert (Hty : ev_type ev = PRESENTATION).
  { unfold isLambda in Hl. apply andb_true_iff in Hl as [Hl _]. by apply bool_decide_eq_true in Hl. }
  rewrite Hty, Hl. w1. w1. w1. cbn [negb]. w1. w1. w1. w1. fold (commit (ob_lambda pb) START s).
  unfold after. w1. w1. wgetO pb' Hp''. assert (pb' = pb) as -> by congruence. rewrite Hk.
  eapply wp_mono; [eapply ctx_start_after; eauto|]. intros a s' [-> HL]. cbv beta iota. w1.
  intros e' ev' He'' Hr. rewrite (HL e' ev' He'') by lia. sts. rewrite decide_False; [done|].
  intros <-. simplify_eq. lia.
Qed.

(** A successful transition. *)
Definition done_ok (e : eid) (t : trans) (s' : st) : Prop := evState s' e = target t.

Lemma doStart_ev o s : pwp (doStart D o) (fun _ s' => evsame s s') s.
Proof.
  apply wp_doStart; [done|done|]. intros s' E1 _ _ _ _ _ _ e. by apply evState_sev.
Qed.
Lemma doStop_ev o s e : evState s e = SLEEPING -> pwp (doStop D o) (fun _ s' => evState s' e = SLEEPING) s.
Proof.
  intros Hs. apply wp_doStop; [done|done|]. intros s' _ _ _ _ _ E6 _. unfold evState. rewrite E6.
  by destruct (decide _).
Qed.
Lemma mediaDoStop_ev o s e : evState s e = SLEEPING -> pwp (mediaDoStop D o) (fun _ s' => evState s' e = SLEEPING) s.
Proof.
  intros Hs. unfold mediaDoStop. w1. w1. destruct (o_player _).
  - w1. w1. w1. w1. apply doStop_ev. by sts.
  - unfold isSleeping, objState. w1. w1. w1. wgetO ob Ho. w1. w1. by w1.
Qed.
Lemma attribStart_ev o e s : valid_evt D e ->
  pwp (attribStart D o e) (fun _ s' => evsame s s') s.
Proof.
  intros [ev He]. eapply wp_mono; [eapply attribStart_pframe; eauto|].
  intros [] s' (s1 & v & d & F & ->) e'. unfold sched. sts. by eapply pframe_evState.
Qed.

Lemma sw_choose_selected trn o cands rules s :
  pwp (sw_choose D trn o cands rules) (fun b s' => b = true -> is_Some (o_selected (ostOf s' o))) s.
Proof.
  revert s. induction rules as [|[c p] rules IH]; intros s; cbn [sw_choose]; [by w1|].
  w1. apply pwp_intro. intros sel s' _.
  destruct sel; [|apply IH]. w1. eapply wp_mono; [apply (evalPredicate_pure D)|]. intros b s1 _. cbv beta.
  w1; [|apply IH]. w1. apply pwp_intro. intros ok s2 _. w1; [|by w1]. w1. w1. w1. intros _. sts.
  rewrite decide_True by done. by eexists.
Qed.
Lemma sw_before_selected trn o e ev s : ev_type ev = PRESENTATION ->
  pwp (sw_before D trn o e ev START) (fun b s' => b = true -> is_Some (o_selected (ostOf s' o))) s.
Proof.
  intros Hty. unfold sw_before. w1. apply pwp_intro. intros cands s1 _. rewrite Hty. w1. w1. w1. w1. w1.
  wgetO ob Ho. apply sw_choose_selected.
Qed.

Lemma after_target n trn evalA e ev ob t s :
  trn = tr D n ->
  d_evt D !! e = Some ev -> d_obj D !! ev_obj ev = Some ob ->
  evState s e = target t ->
  (ob_kind ob = KSwitch -> t = START -> is_Some (o_selected (ostOf s (ev_obj ev)))) ->
  pwp (after D trn evalA (ev_obj ev) e ev t) (fun a s' => a = true /\ evState s' e = target t) s.
Proof.
  intros -> He Ho Hs Hsel. unfold after. w1. wgetO ob' Ho'. assert (ob' = ob) as -> by congruence.
  assert (Hve : valid_evt D e) by (by eexists).
  assert (Hmedia : pwp (media_after D (ev_obj ev) e ev t) (fun a s' => a = true /\ evState s' e = target t) s).
  { unfold media_after. w1. w1. cbv zeta. destruct (ev_type ev).
    - destruct t; try done. w1. eapply wp_mono; [by apply attribStart_ev|]. intros [] s1 E. cbv beta in E |- *.
      w1. by rewrite E.
    - destruct t; try (by w1).
      + w1; [|w1; [destruct (o_player _); [by w1|done]|]].
        * w1. w1. w1. eapply wp_mono; [by apply mediaDoStop_ev|]. intros [] s1 E. cbv beta in E |- *. by w1.
        * unfold isOccurring, objState. w1. w1. w1. wgetO ob2 Ho2. w1. w1. w1. w1. by w1.
      + w1; [|w1; [destruct (o_player _); [by w1|done]|by w1]].
        w1. w1. w1. eapply wp_mono; [apply doStart_ev|]. intros [] s1 E. cbv beta in E |- *.
        w1. wgetO ob2 Ho2. w1.
        eapply (wp_mono _ _ _ (fun _ s' => evsame s1 s')).
        { apply (wp_foreach_inv True True _ _ (fun s' => evsame s1 s')); [done| |done].
          intros x s' _ HE. w1. wgetE pe Hpe. unfold addDelayed.
          w1; [w1; w1; w1; by apply evsame_sched, evsame_sched|by w1]. }
        intros [] s2 E2. cbv beta in E2 |- *. w1. by rewrite E2, E.
      + w1; [|w1; [destruct (o_player _); [by w1|done]|]].
        * w1. w1. w1. eapply wp_mono; [by apply mediaDoStop_ev|]. intros [] s1 E. cbv beta in E |- *. by w1.
        * unfold isOccurring, objState. w1. w1. w1. wgetO ob2 Ho2. w1. w1. w1. w1. by w1.
    - destruct t; try done; by w1.
    - destruct t; try done; by w1. }
  destruct (ob_kind ob) eqn:Hk; [| |exact Hmedia|exact Hmedia].
  - unfold ctx_after. destruct (ev_type ev) eqn:Hty; try done.
    + destruct t; try done. w1. eapply wp_mono; [by apply attribStart_ev|]. intros [] s1 E. cbv beta in E |- *.
      w1. by rewrite E.
    + destruct t; try (w1; w1; by w1).
      * w1. w1. w1. eapply wp_mono; [by apply doStop_ev|]. intros [] s1 E. cbv beta in E |- *. by w1.
      * pose proof (ctx_start_after (tr D n) (ev_obj ev) ob e ev s Ho He eq_refl (tr_ctx_start n) Hty) as HC.
        unfold ctx_after in HC. rewrite Hty in HC. eapply wp_mono; [exact HC|]. intros a s' [-> HL]. split; [done|].
        rewrite (HL e ev He); [done|lia].
      * w1. w1. w1. eapply wp_mono; [by apply doStop_ev|]. intros [] s1 E. cbv beta in E |- *. by w1.
  - unfold sw_after. destruct (ev_type ev) eqn:Hty; try done. destruct t; try (by w1).
    + w1. eapply wp_mono; [by apply doStop_ev|]. intros [] s1 E. cbv beta in E |- *. by w1.
    + w1. apply wp_doStart; [done|done|]. intros s1 E1 _ _ _ _ _ E2. w1. w1.
      destruct (Hsel eq_refl eq_refl) as [c Hc]. rewrite E2. cbn [os_set_time os_set_awake o_selected]. rewrite Hc.
      w1. split; [done|]. by rewrite (evState_sev _ _ _ E1).
    + w1. eapply wp_mono; [by apply doStop_ev|]. intros [] s1 E. cbv beta in E |- *. by w1.
Qed.

Lemma tr_ok_wp n e ev t s : d_evt D !! e = Some ev ->
  pwp (tr D n e t) (fun b s' =>
    (legal (evState s e) t = false -> b = false /\ s' = s) /\
    (b = true -> legal (evState s e) t = true /\ evState s' e = target t)) s.
Proof.
  intros He. destruct n as [|n]; [done|]. rewrite tr_S.
  unfold tr_body. w1. wgetE ev' He'. assert (ev' = ev) as -> by congruence. w1. w1.
  w1; [w1; apply negb_true_iff in H; rewrite H; done|]. apply negb_false_iff in H.
  destruct (wf_e _ _ WF _ _ He) as (ob & Ho & _).
  w1. eapply (wp_mono _ _ _ (fun b s1 => b = true -> ob_kind ob = KSwitch -> t = START -> is_Some (o_selected (ostOf s1 (ev_obj ev))))).
  { unfold before. w1. wgetO ob' Ho'. assert (ob' = ob) as -> by congruence.
    destruct (ob_kind ob) eqn:Hk; try (apply pwp_intro; done).
    destruct (decide (t = START)) as [->|]; [|apply pwp_intro; done].
    unfold sw_before. destruct (ev_type ev) eqn:Hty.
    2:{ pose proof (sw_before_selected (tr D n) (ev_obj ev) e ev s Hty) as HS. unfold sw_before in HS.
        rewrite Hty in HS. eapply wp_mono; [exact HS|]. auto. }
    all: w1; apply pwp_intro; intros; done. }
  intros b1 s1 Hsel. cbv beta. w1; [w1; split; [congruence|done]|]. apply negb_false_iff in H0. subst b1.
  w1. w1. w1. w1. fold (commit e t s1). w1.
  eapply wp_mono; [eapply (after_target n); eauto; sts; by rewrite decide_True|].
  intros a s2 [-> HE]. cbv beta iota. w1. split; [congruence|done].
Qed.
Lemma tr_ok n e ev t s b s' : d_evt D !! e = Some ev -> tr D n e t s = Ok b s' ->
  (legal (evState s e) t = false -> b = false /\ s' = s) /\
  (b = true -> legal (evState s e) t = true /\ evState s' e = target t).
Proof. intros He E. exact (wp_ok _ _ _ _ _ (tr_ok_wp n e ev t s He) _ _ E). Qed.
End Trans.

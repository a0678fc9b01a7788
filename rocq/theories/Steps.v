(** Steps.v -- every run of the engine is a sequence of a few kinds of atomic
    steps.  A state predicate closed under the steps is therefore preserved by
    every transition and every action evaluation (theorem [tr_loop_inv]). *)
From Verif Require Export Frame.
Open Scope string_scope.
Open Scope list_scope.

(** ** Atomic steps. *)
(** The main events of an object: its lambda; for a switch also its labels. *)
Definition mainE (D : doc) (o : oid) (ob : obj) (e : eid) : Prop :=
  e = ob_lambda ob \/
  (ob_kind ob = KSwitch /\ e ∈ ob_events ob /\
   exists ev, d_evt D !! e = Some ev /\ ev_type ev = PRESENTATION).

(** The media with anchors, whose queue is rearranged when an anchor is started
    while they sleep. *)
Definition seekable (D : doc) (ob : obj) : Prop :=
  is_media (ob_kind ob) = true /\
  exists e ev, e ∈ ob_events ob /\ d_evt D !! e = Some ev /\ ev_type ev = PRESENTATION /\ isLambda ev = false.

Inductive mstep (D : doc) : st -> st -> Prop :=
  | ms_param s e k v : mstep D s (upd_ev e (es_set_param k v) s)
  | ms_log s a : mstep D s (log (OBegin a) s)
  | ms_next s x : mstep D s (set_next x s)
  | ms_focus s x : mstep D s (set_focus x s)
  | ms_sched s o ob e t v d : d_obj D !! o = Some ob -> valid_evt D e ->
      ob_kind ob = KContext \/ e ∈ ob_events ob ->
      mstep D s (sched o e t v d s)
  | ms_erase s o ob i a x : d_obj D !! o = Some ob -> seekable D ob ->
      o_delayed (ostOf s o) !! i = Some (a, x) ->
      mstep D s (log (OSkip o a) (upd_ob o (fun x => os_set_delayed (delete i (o_delayed x)) x) s))
  | ms_shift s o ob begin i a x : d_obj D !! o = Some ob -> seekable D ob ->
      o_delayed (ostOf s o) !! i = Some (a, x) -> x <> TIME_NONE -> (begin <= x)%N ->
      mstep D s (log (OSeek o a begin) (upd_ob o (fun x => os_set_delayed
                  (alter (fun ax => (fst ax, tsub (snd ax) begin)) i (o_delayed x)) x) s))
  | ms_prop s o ob k v : d_obj D !! o = Some ob ->
      mstep D s (upd_ob o (fun x => os_set_props (<[k := v]> (o_props x)) x) s)
  | ms_player s o ob f : d_obj D !! o = Some ob ->
      mstep D s (upd_ob o (fun x => os_set_player (f <$> o_player x) x) s)
  | ms_select s o ob x : d_obj D !! o = Some ob -> ob_kind ob = KSwitch ->
      (forall c, x = Some c -> c ∈ ob_children ob) ->
      mstep D s (upd_ob o (os_set_selected x) s)
  | ms_plain s e ev ob t : d_evt D !! e = Some ev -> d_obj D !! ev_obj ev = Some ob ->
      e ∈ ob_events ob -> ~ mainE D (ev_obj ev) ob e ->
      mstep D s (commit e t s)
  | ms_hold s o ob e t : d_obj D !! o = Some ob -> mainE D o ob e -> e ∈ ob_events ob ->
      t = PAUSE \/ t = RESUME ->
      (is_media (ob_kind ob) = true -> is_Some (o_player (ostOf s o))) ->
      mstep D s (commit e t s)
  | ms_start s o ob e s' : d_obj D !! o = Some ob -> mainE D o ob e -> e ∈ ob_events ob ->
      (is_media (ob_kind ob) = true -> is_Some (o_player (ostOf s o))) ->
      doStart D o (commit e START s) = Ok tt s' ->
      mstep D s s'
  | ms_create s o ob s1 s' : d_obj D !! o = Some ob -> is_media (ob_kind ob) = true ->
      ob_lambda ob ∈ ob_events ob ->
      evState s (ob_lambda ob) = SLEEPING ->
      createPlayer D o s = Ok tt s1 ->
      doStart D o (commit (ob_lambda ob) START s1) = Ok tt s' ->
      mstep D s s'
  | ms_stop s o ob e t s' : d_obj D !! o = Some ob -> mainE D o ob e -> e ∈ ob_events ob ->
      t = STOP \/ t = ABORT -> is_media (ob_kind ob) = false ->
      evState s e <> SLEEPING ->
      doStop D o (commit e t s) = Ok tt s' ->
      mstep D s s'
  | ms_mstop s o ob t s' : d_obj D !! o = Some ob -> is_media (ob_kind ob) = true ->
      ob_lambda ob ∈ ob_events ob -> t = STOP \/ t = ABORT ->
      evState s (ob_lambda ob) <> SLEEPING ->
      is_Some (o_player (ostOf s o)) ->
      mediaDoStop D o (commit (ob_lambda ob) t s) = Ok tt s' ->
      mstep D s s'.

(** ** Selected components of switches are children of the switch. *)
Definition SelInv (D : doc) (s : st) : Prop :=
  forall o ob c, d_obj D !! o = Some ob -> o_selected (ostOf s o) = Some c -> c ∈ ob_children ob.

Ltac wgetO x H := apply wp_getO; [done|]; intros x H.
Ltac wgetE x H := apply wp_getE; [done|]; intros x H.

Lemma tr_S D n e t : tr D (S n) e t = tr_body D (tr D n) (fun a => loop D n [a]) e t.
Proof. reflexivity. Qed.
Lemma loop_S D n l : loop D (S n) l = loop_body D (tr D n) (loop D n) l.
Proof. reflexivity. Qed.

Section Steps.
Context (D : doc) (rank : oid -> nat) (WF : wf_at D rank).

Lemma wf_parent_ok o ob p : d_obj D !! o = Some ob -> ob_parent ob = Some p -> is_Some (d_obj D !! p).
Proof. intros H1 H2. destruct (wo_parent _ _ _ _ (wf_o _ _ WF _ _ H1) _ H2) as (pb & ? & _). eauto. Qed.

Lemma mainE_events o ob e : d_obj D !! o = Some ob -> mainE D o ob e -> e ∈ ob_events ob.
Proof.
  intros Ho [->|(_ & H & _)]; [|done].
  destruct (wo_lambda _ _ _ _ (wf_o _ _ WF _ _ Ho)) as (? & _ & _ & ?). done.
Qed.
Lemma event_obj e ev o ob : d_evt D !! e = Some ev -> d_obj D !! o = Some ob ->
  e ∈ ob_events ob -> ev_obj ev = o.
Proof.
  intros He Ho Hin. destruct (wo_events _ _ _ _ (wf_o _ _ WF _ _ Ho) _ Hin) as (ev' & ? & ?).
  congruence.
Qed.
Lemma events_disjoint o ob o' ob' e : d_obj D !! o = Some ob -> d_obj D !! o' = Some ob' ->
  e ∈ ob_events ob -> e ∈ ob_events ob' -> o = o'.
Proof.
  intros Ho Ho' H1 H2. destruct (wo_events _ _ _ _ (wf_o _ _ WF _ _ Ho) _ H1) as (ev & E & <-).
  destruct (wo_events _ _ _ _ (wf_o _ _ WF _ _ Ho') _ H2) as (ev' & E' & <-). congruence.
Qed.
Lemma lambda_event o ob : d_obj D !! o = Some ob -> ob_lambda ob ∈ ob_events ob.
Proof. intros Ho. destruct (wo_lambda _ _ _ _ (wf_o _ _ WF _ _ Ho)) as (? & _ & _ & ?). done. Qed.
Lemma lambda_evt o ob : d_obj D !! o = Some ob ->
  exists ev, d_evt D !! ob_lambda ob = Some ev /\ isLambda ev = true /\ ev_obj ev = o.
Proof.
  intros Ho. destruct (wo_lambda _ _ _ _ (wf_o _ _ WF _ _ Ho)) as (ev & E & ? & Hin).
  exists ev. split; [done|]. split; [done|]. eapply event_obj; eauto.
Qed.
Lemma isLambda_lambda e ev ob : d_evt D !! e = Some ev -> d_obj D !! ev_obj ev = Some ob ->
  isLambda ev = true -> e = ob_lambda ob.
Proof.
  intros He Ho Hl. destruct (wf_e _ _ WF _ _ He) as (ob' & Ho' & _ & H).
  assert (ob' = ob) as <- by congruence. auto.
Qed.
Lemma evt_in e ev ob : d_evt D !! e = Some ev -> d_obj D !! ev_obj ev = Some ob -> e ∈ ob_events ob.
Proof.
  intros He Ho. destruct (wf_e _ _ WF _ _ He) as (ob' & Ho' & H & _). by simplify_eq.
Qed.

Lemma SelInv_pframe o s s' : pframe o s s' -> SelInv D s -> SelInv D s'.
Proof.
  intros F H o' ob c Ho Hs. apply (H o' ob c Ho).
  destruct (decide (o' = o)) as [->|]; [by rewrite <- (pf_selected _ _ _ F)|].
  by rewrite <- (pf_other _ _ _ F).
Qed.
Lemma SelInv_sel s s' : (forall o, o_selected (ostOf s' o) = o_selected (ostOf s o)) ->
  SelInv D s -> SelInv D s'.
Proof. intros E H o ob c Ho Hs. rewrite E in Hs. eauto. Qed.

(** *** STOP and ABORT never reach an object above the stopped one. *)
Definition above (r : nat) (s s' : st) : Prop :=
  forall e ev, d_evt D !! e = Some ev -> r < rank (ev_obj ev) -> evState s' e = evState s e.
Lemma above_refl r s : above r s s. Proof. by intros e ev. Qed.
Lemma above_trans r s1 s2 s3 : above r s1 s2 -> above r s2 s3 -> above r s1 s3.
Proof. intros H1 H2 e ev He Hr. rewrite (H2 e ev), (H1 e ev); auto. Qed.
Lemma above_mono r r' s s' : r <= r' -> above r s s' -> above r' s s'.
Proof. intros Hr H e ev He Hr'. apply (H e ev He). lia. Qed.

Definition stopR (r : nat) (s s' : st) : Prop := SelInv D s' /\ above r s s'.

Lemma stop_doStop o ob s : d_obj D !! o = Some ob -> SelInv D s ->
  pwp (doStop D o) (fun _ s' => stopR (rank o) s s') s.
Proof.
  intros Ho HS. apply wp_doStop; [done|done|]. intros s' E1 E2 E3 E4 E5 E6 E7. split.
  - eapply SelInv_sel; [|exact HS]. intros o'. rewrite E7. cbn.
    by destruct (decide (o = o')).
  - intros e ev He Hr. unfold evState. rewrite E6.
    rewrite decide_False; [done|]. intros (ob' & Ho' & Hin).
    assert (ev_obj ev = o) as <- by (eapply event_obj; eauto). lia.
Qed.
Lemma stop_mediaDoStop o ob s : d_obj D !! o = Some ob -> SelInv D s ->
  is_Some (o_player (ostOf s o)) ->
  pwp (mediaDoStop D o) (fun _ s' => stopR (rank o) s s') s.
Proof.
  intros Ho HS Hp. apply wp_mediaDoStop; [done|done|done|]. intros s' E1 E2 E3 E4 E5 E6 E7. split.
  - eapply SelInv_sel; [|exact HS]. intros o'. rewrite E7. cbn.
    by destruct (decide (o = o')).
  - intros e ev He Hr. unfold evState. rewrite E6.
    rewrite decide_False; [done|]. intros (ob' & Ho' & Hin).
    assert (ev_obj ev = o) as <- by (eapply event_obj; eauto). lia.
Qed.

Definition isStop (t : trans) : Prop := t = STOP \/ t = ABORT.

Definition level (r : nat) (s s' : st) : Prop :=
  SelInv D s' /\ forall e ev, d_evt D !! e = Some ev -> r <= rank (ev_obj ev) -> evState s' e = evState s e.
Lemma stop_children (trn : eid -> trans -> ME bool) o ob t s :
  isStop t -> d_obj D !! o = Some ob -> SelInv D s ->
  (forall e' ev' s', d_evt D !! e' = Some ev' -> SelInv D s' ->
     pwp (trn e' t) (fun _ s'' => stopR (rank (ev_obj ev')) s' s'') s') ->
  pwp (foreach (fun c => do cb <- getO D c; trn (ob_lambda cb) t ;; ret tt) (ob_children ob))
      (fun _ s' => level (rank o) s s') s.
Proof.
  intros Ht Ho HS IH.
  apply (wp_foreach_inv True True _ _ (fun s' => level (rank o) s s')); [by split| |done].
  intros c s' Hin [HS' HA]. w1. wgetO x Hx. w1.
  destruct (lambda_evt _ _ Hx) as (lev & Hlev & _ & Hlo).
  eapply wp_mono; [eapply IH; eauto|]. intros b s'' [HS'' HA'']. cbv beta. w1. split; [done|].
  intros e' ev' He' Hr. rewrite (HA'' e' ev' He'); [eauto|].
  destruct (wo_children _ _ _ _ (wf_o _ _ WF _ _ Ho) _ Hin) as (cb & Hcb & Hpar).
  destruct (wo_parent _ _ _ _ (wf_o _ _ WF _ _ Hcb) _ Hpar) as (pb & _ & _ & _ & Hlt).
  rewrite Hlo. lia.
Qed.

Lemma stop_before trn evalA e ev t s :
  isStop t -> d_evt D !! e = Some ev -> SelInv D s ->
  (forall e' ev' s', d_evt D !! e' = Some ev' -> SelInv D s' ->
     pwp (trn e' t) (fun _ s'' => stopR (rank (ev_obj ev')) s' s'') s') ->
  pwp (before D trn evalA (ev_obj ev) e ev t)
      (fun _ s' => SelInv D s' /\ forall e' ev', d_evt D !! e' = Some ev' ->
                   rank (ev_obj ev) <= rank (ev_obj ev') -> evState s' e' = evState s e') s.
Proof.
  intros Ht He HS IH. unfold before. w1. wgetO ob Ho.
  assert (Hchild : forall c s', c ∈ ob_children ob -> SelInv D s' ->
     (forall e' ev', d_evt D !! e' = Some ev' -> rank (ev_obj ev) <= rank (ev_obj ev') ->
         evState s' e' = evState s e') ->
     pwp (do cb <- getO D c; trn (ob_lambda cb) t ;; ret tt)
       (fun _ s' => SelInv D s' /\ forall e' ev', d_evt D !! e' = Some ev' ->
                   rank (ev_obj ev) <= rank (ev_obj ev') -> evState s' e' = evState s e') s').
  { intros c s' Hc HS' HA. w1. wgetO x Hx. w1.
    destruct (lambda_evt _ _ Hx) as (lev & Hlev & _ & Hlo).
    eapply wp_mono; [eapply IH; eauto|]. intros b s'' [HS'' HA'']. cbv beta. w1. split; [done|].
    intros e' ev' He' Hr. rewrite (HA'' e' ev' He'); [eauto|].
    destruct (wo_children _ _ _ _ (wf_o _ _ WF _ _ Ho) _ Hc) as (cb & Hcb & Hpar).
    destruct (wo_parent _ _ _ _ (wf_o _ _ WF _ _ Hcb) _ Hpar) as (pb & _ & _ & _ & Hlt).
    rewrite Hlo. lia. }
  destruct (ob_kind ob).
  - unfold ctx_before. destruct (ev_type ev).
    + w1. auto.
    + w1. w1. assert (t <> START) by (destruct Ht; congruence).
      destruct t; try done; (w1; wgetO x Hx; w1; simplify_eq;
       eapply (wp_mono _ _ _ (fun _ s' => SelInv D s' /\ forall e' ev', d_evt D !! e' = Some ev' ->
                   rank (ev_obj ev) <= rank (ev_obj ev') -> evState s' e' = evState s e'));
       [ apply (wp_foreach_inv True True _ _ (fun s' => SelInv D s' /\ forall e' ev', d_evt D !! e' = Some ev' ->
                   rank (ev_obj ev) <= rank (ev_obj ev') -> evState s' e' = evState s e')); auto;
         intros c s' Hc [HS' HA']; apply Hchild; auto
       | intros [] s' HH; cbv beta; w1; exact HH ]).
    + w1. auto.
    + exact I.
  - unfold sw_before. w1.
    eapply (wp_mono _ _ _ (fun _ s' => s' = s)).
    { unfold sw_candidates. w1. wgetO x Hx. w1.
      - generalize (ob_children x). intros l. clear. revert s. induction l as [|c l IHl]; intros s.
        + by w1.
        + w1. wgetO y Hy. w1. eapply wp_mono; [apply IHl|]. intros ? ? ->. cbv beta. by w1.
      - destruct (assoc _ _); by w1. }
    intros cands s' ->. cbv beta. destruct (ev_type ev); try exact I.
    assert (t <> START) by (destruct Ht; congruence).
    assert (Hsel : pwp (do s0 <- get; match o_selected (ostOf s0 (ev_obj ev)) with
       | Some c => do cb <- getO D c; trn (ob_lambda cb) t;;
                   modify (upd_ob (ev_obj ev) (os_set_selected None));; ret true
       | None => ret true end) (fun _ s' => SelInv D s' /\ forall e' ev', d_evt D !! e' = Some ev' ->
                   rank (ev_obj ev) <= rank (ev_obj ev') -> evState s' e' = evState s e') s).
    { w1. w1. destruct (o_selected (ostOf s (ev_obj ev))) as [c|] eqn:Esel; [|w1; auto].
      assert (Hc : c ∈ ob_children ob) by eauto.
      specialize (Hchild c s Hc HS ltac:(auto)).
      w1. wgetO x Hx. w1.
      assert (Hw : pwp (trn (ob_lambda x) t) (fun _ s' => SelInv D s' /\ forall e' ev', d_evt D !! e' = Some ev' ->
                   rank (ev_obj ev) <= rank (ev_obj ev') -> evState s' e' = evState s e') s).
      { unfold wp, bind, getO, ofoption in Hchild |- *. rewrite Hx in Hchild. cbn in Hchild.
        destruct (trn (ob_lambda x) t s); auto. }
      eapply wp_mono; [exact Hw|]. intros b s' [HS' HA']. cbv beta. w1. w1. split.
      - intros o' ob' c' Ho' Hs'. sts_in Hs'. destruct (decide (ev_obj ev = o')); [done|]. eauto.
      - intros e' ev' He' Hr. sts. eauto. }
    destruct t; try done; exact Hsel.
  - unfold media_before. destruct (ev_type ev); try (w1; auto).
    destruct Ht as [-> | ->]; w1; auto.
  - unfold media_before. destruct (ev_type ev); try (w1; auto).
    destruct Ht as [-> | ->]; w1; auto.
Qed.

Lemma stop_frame n : forall t e ev s, isStop t -> d_evt D !! e = Some ev -> SelInv D s ->
  pwp (tr D n e t) (fun _ s' => stopR (rank (ev_obj ev)) s s') s.
Proof.
  induction n as [|n IH]; intros t e ev s Ht He HS; [exact I|].
  rewrite tr_S. unfold tr_body. w1. apply wp_getE; [done|]. intros ev' He'.
  assert (ev' = ev) as -> by congruence. w1. w1. w1; [w1; split; [done|apply above_refl]|].
  w1. eapply wp_mono; [apply stop_before; eauto|]. intros b s1 [HS1 HA1]. cbv beta.
  assert (HA1' : above (rank (ev_obj ev)) s s1) by (intros e' ev'' ? ?; eapply HA1; eauto; lia).
  w1; [w1; done|]. w1. w1. w1. w1.
  fold (commit e t s1).
  assert (HSc : SelInv D (commit e t s1)) by done.
  assert (HAc : above (rank (ev_obj ev)) s (commit e t s1)).
  { eapply above_trans; [exact HA1'|]. intros e' ev'' He'' Hr. sts.
    rewrite decide_False; [done|]. intros ->. simplify_eq. lia. }
  unfold after. w1. w1. wgetO ob Ho.
  assert (Hst : forall s', stopR (rank (ev_obj ev)) (commit e t s1) s' ->
     stopR (rank (ev_obj ev)) s s').
  { intros s' [HS' HA']. split; [done|]. eapply above_trans; eauto. }
  eapply (wp_mono _ _ _ (fun b s' => b = true /\ stopR (rank (ev_obj ev)) s s')).
  2:{ intros b' s' [-> HH]. cbv beta iota. w1. exact HH. }
  assert (Hid : stopR (rank (ev_obj ev)) s (commit e t s1)) by (split; done).
  set (s2 := commit e t s1) in *. clearbody s2.
  destruct (ob_kind ob).
  - unfold ctx_after. destruct (ev_type ev); try exact I.
    + destruct Ht as [-> | ->]; w1; auto.
    + w1. w1. destruct Ht as [-> | ->]; (w1; eapply wp_mono; [eapply stop_doStop; eauto|];
        intros [] s' HH; cbv beta in HH |- *; w1; auto).
  - unfold sw_after. destruct (ev_type ev); try exact I.
    destruct Ht as [-> | ->]; (w1; eapply wp_mono; [eapply stop_doStop; eauto|];
        intros [] s' HH; cbv beta in HH |- *; w1; auto).
  - unfold media_after. w1. w1. destruct (ev_type ev); try (destruct Ht as [-> | ->]; w1; by auto).
    destruct Ht as [-> | ->]; (w1; [w1; w1; w1; eapply wp_mono;
       [eapply stop_mediaDoStop; eauto; apply bool_decide_eq_true in H2; by destruct (o_player _) |
        intros [] s' HH; cbv beta in HH |- *; w1; auto]
     | w1; [destruct (o_player _); [w1; auto | exact I] |
       unfold isOccurring, objState; w1; w1; w1; wgetO y Hy; w1; w1; w1; w1; w1; auto]]).
  - unfold media_after. w1. w1. destruct (ev_type ev); try (destruct Ht as [-> | ->]; w1; by auto).
    destruct Ht as [-> | ->]; (w1; [w1; w1; w1; eapply wp_mono;
       [eapply stop_mediaDoStop; eauto; apply bool_decide_eq_true in H2; by destruct (o_player _) |
        intros [] s' HH; cbv beta in HH |- *; w1; auto]
     | w1; [destruct (o_player _); [w1; auto | exact I] |
       unfold isOccurring, objState; w1; w1; w1; wgetO y Hy; w1; w1; w1; w1; w1; auto]]).
Qed.

(** Queued actions refer to events of the document. *)
Definition QInv (s : st) : Prop :=
  forall o ob a x, d_obj D !! o = Some ob -> (a, x) ∈ o_delayed (ostOf s o) -> valid_evt D (ac_evt a).

(** ** Preservation of a predicate closed under the atomic steps. *)
Section Inv.
Context (I : st -> Prop) (HSel : forall s, I s -> SelInv D s) (HQ : forall s, I s -> QInv s).
Context (Hc : forall s s', I s -> mstep D s s' -> I s').
Notation keeps m := (forall s, I s -> pwp m (fun _ s' => I s') s).

Lemma keeps_sched o ob e t v d : d_obj D !! o = Some ob -> valid_evt D e ->
  ob_kind ob = KContext \/ e ∈ ob_events ob ->
  keeps (addDelayed o e t v d).
Proof. intros Ho He Hk s Hs. unfold addDelayed. w1. eapply Hc; [exact Hs|]. eapply ms_sched; eauto. Qed.
Lemma keeps_param e k v : keeps (setParam e k v).
Proof. intros s Hs. unfold setParam. w1. eapply Hc; [exact Hs|]. apply ms_param. Qed.
Lemma keeps_foreach {A} (f : A -> ME unit) l : (forall x, x ∈ l -> keeps (f x)) -> keeps (foreach f l).
Proof.
  intros Hf s Hs. apply (wp_foreach_inv True True f l I); auto.
Qed.
Lemma keeps_set n :
  (forall o k v d, keeps (mediaSet D n o k v d)) /\ (forall o k v, valid_obj D o -> keeps (playerSet D n o k v)).
Proof.
  induction n as [|n [IH1 IH2]]; [split; intros; done|]. split; intros o k v.
  - intros d s Hs. cbn [mediaSet]. w1. wgetO ob Ho. w1.
    eapply (wp_mono _ _ _ (fun _ s' => I s')).
    { w1; [w1|done]. eapply Hc; [exact Hs|]. apply ms_focus. }
    intros [] s1 F1. cbv beta in F1 |- *. w1. w1. w1. w1. w1. unfold objSetProp. w1.
    match goal with |- wp _ _ _ _ ?x => set (s2 := x) in * end.
    assert (F2 : I s2) by (eapply Hc; [exact F1|]; eapply ms_prop; eauto).
    w1. w1. destruct (o_player (ostOf s2 o)) as [p|]; [|by w1].
    w1.
    + unfold animSchedule. repeat (w1; try done).
    + apply IH2; [by eexists|done].
  - intros [ob Ho] s Hs. cbn [playerSet]. w1. w1.
    destruct (o_player (ostOf s o)) as [p|]; [|done].
    w1. eapply (wp_mono _ _ _ (fun _ s' => I s')).
    { destruct (pset_value p k v) as [[code v']|]; [|by w1].
      destruct (doset_own _ _ _ _ _ _); try done.
      w1. unfold updPlayer. w1. apply keeps_foreach.
      - intros x _. apply IH1.
      - eapply Hc; [exact Hs|]. eapply ms_player; eauto. }
    intros [] s1 F1. cbv beta in F1 |- *. unfold updPlayer. w1. eapply Hc; [exact F1|].
    eapply ms_player; eauto.
Qed.
Lemma keeps_playerSet o k v : valid_obj D o -> keeps (playerSetProperty D o k v).
Proof. intros Ho. by apply keeps_set. Qed.
Lemma keeps_setProperty o k v d : keeps (setProperty D o k v d).
Proof.
  intros s Hs. unfold setProperty. w1. wgetO ob Ho. w1.
  - by apply keeps_set.
  - w1. w1. unfold objSetProp. w1. eapply Hc; [exact Hs|]. eapply ms_prop; eauto.
Qed.
Lemma pwp_parse_time {S} x (Q : N -> S -> Prop) (s : S) :
  (forall t, Q t s) -> pwp (parse_time x) Q s.
Proof. intros H. unfold parse_time. destruct (try_parse_time x); w1; auto. Qed.
Lemma keeps_attribStart o ob e : d_obj D !! o = Some ob -> valid_evt D e -> e ∈ ob_events ob -> keeps (attribStart D o e).
Proof.
  intros Ho He Hin s Hs. unfold attribStart. w1. wgetE ev' He'. w1. unfold getParam. w1. w1. w1. w1. w1. w1.
  eapply (wp_mono _ _ _ (fun _ s' => I s')).
  { destruct (_ !! "duration"); [|by w1]. by apply pwp_parse_time. }
  intros d s1 Hs1. cbv beta in Hs1 |- *. w1. eapply wp_mono; [apply keeps_setProperty; exact Hs1|].
  intros [] s2 Hs2. cbv beta in Hs2 |- *. eapply keeps_sched; eauto.
Qed.

Section Open.
Context (trn : eid -> trans -> ME bool) (evalA : action -> ME nat).
Context (Htrn : forall e t, valid_evt D e -> keeps (trn e t)).
Context (Hev : forall a, valid_evt D (ac_evt a) -> keeps (evalA a)).
Context (Hfr : forall t e ev s, isStop t -> d_evt D !! e = Some ev -> SelInv D s ->
  pwp (trn e t) (fun _ s' => stopR (rank (ev_obj ev)) s s') s).

Lemma valid_lambda o ob : d_obj D !! o = Some ob -> valid_evt D (ob_lambda ob).
Proof. intros Ho. destruct (lambda_evt _ _ Ho) as (ev & ? & _). by eexists. Qed.

Lemma keeps_startParent o : keeps (startParent D trn o).
Proof.
  intros s Hs. unfold startParent. w1. wgetO ob Ho. destruct (ob_parent ob) as [p|]; [|by w1].
  unfold isContext, isSleeping, objState. w1. w1. wgetO pb Hpb. w1. w1; [|by w1].
  w1. w1. w1. wgetO pb' Hpb'. w1. w1. w1; [|by w1].
  w1. wgetO pb'' Hpb''. w1. eapply wp_mono; [apply keeps_param; exact Hs|].
  intros [] s1 Hs1. cbv beta in Hs1 |- *. w1.
  eapply wp_mono; [apply Htrn; [eapply valid_lambda; eauto|exact Hs1]|].
  intros b s2 Hs2. cbv beta in Hs2 |- *. by w1.
Qed.

Lemma keeps_children (o : oid) (ob : obj) t : d_obj D !! o = Some ob ->
  keeps (foreach (fun c => do cb <- getO D c; trn (ob_lambda cb) t ;; ret tt) (ob_children ob)).
Proof.
  intros Ho. apply keeps_foreach. intros c Hin s Hs. w1. wgetO cb Hcb. w1.
  eapply wp_mono; [apply Htrn; [eapply valid_lambda; eauto|exact Hs]|].
  intros b s2 Hs2. cbv beta in Hs2 |- *. by w1.
Qed.


(** What has to be shown of a pair beforeTransition/afterTransition. *)
Definition goodpair (bef aft : ME bool) (e : eid) (t : trans) (s : st) : Prop :=
  pwp bef (fun b s1 => (b = false -> I s1) /\ (b = true ->
     pwp aft (fun a s' => a = true /\ I s') (commit e t s1))) s.

Lemma goodpair_ret (aft : ME bool) e t s :
  I s -> pwp aft (fun a s' => a = true /\ I s') (commit e t s) -> goodpair (ret true) aft e t s.
Proof. intros Hs H. unfold goodpair. w1. auto. Qed.

Lemma keeps_true (m : ME unit) s : I s -> keeps m ->
  pwp (m ;; ret true) (fun a s' => a = true /\ I s') s.
Proof. intros Hs Hm. w1. eapply wp_mono; [apply Hm, Hs|]. intros [] s' H. cbv beta. w1. auto. Qed.

Lemma good_doStart o ob e s (m : ME bool) :
  d_obj D !! o = Some ob -> mainE D o ob e -> I s ->
  (is_media (ob_kind ob) = true -> is_Some (o_player (ostOf s o))) ->
  (forall s', I s' -> pwp m (fun a s' => a = true /\ I s') s') ->
  pwp (doStart D o ;; m) (fun a s' => a = true /\ I s') (commit e START s).
Proof.
  intros Ho Hm Hs Hp H. w1. apply pwp_intro. intros [] s' E. apply H. eapply Hc; [exact Hs|].
  eapply ms_start; eauto using mainE_events.
Qed.
Lemma good_doStop o ob e t s :
  d_obj D !! o = Some ob -> mainE D o ob e -> I s -> isStop t -> is_media (ob_kind ob) = false ->
  evState s e <> SLEEPING ->
  pwp (doStop D o ;; ret true) (fun a s' => a = true /\ I s') (commit e t s).
Proof.
  intros Ho Hm Hs Ht Hk Hne. w1. apply pwp_intro. intros [] s' E. w1. split; [done|].
  eapply Hc; [exact Hs|]. eapply ms_stop; eauto using mainE_events.
Qed.

Lemma not_main_type o ob e ev : d_evt D !! e = Some ev -> ev_obj ev = o -> d_obj D !! o = Some ob ->
  ev_type ev <> PRESENTATION -> ~ mainE D o ob e.
Proof.
  intros He <- Ho Hty [->|(_ & _ & ev' & E & ?)]; [|congruence].
  destruct (lambda_evt _ _ Ho) as (ev' & E & Hl & _). rewrite He in E. injection E as <-.
  unfold isLambda in Hl. apply andb_prop in Hl as [Hl _]. by apply bool_decide_eq_true in Hl.
Qed.
Lemma not_main_media o ob e ev : d_evt D !! e = Some ev -> ev_obj ev = o -> d_obj D !! o = Some ob ->
  ob_kind ob <> KSwitch -> isLambda ev = false -> ~ mainE D o ob e.
Proof.
  intros He <- Ho Hk Hl [->|(? & _)]; [|congruence].
  destruct (lambda_evt _ _ Ho) as (ev' & E & Hl' & _). congruence.
Qed.
Lemma main_lambda e ev ob : d_evt D !! e = Some ev -> d_obj D !! ev_obj ev = Some ob ->
  isLambda ev = true -> mainE D (ev_obj ev) ob e.
Proof. intros. left. by eapply isLambda_lambda. Qed.
Lemma keeps_plain e ev ob t s : d_evt D !! e = Some ev -> d_obj D !! ev_obj ev = Some ob ->
  ~ mainE D (ev_obj ev) ob e -> I s -> I (commit e t s).
Proof. intros He Ho Hm Hs. eapply Hc; [exact Hs|]. eapply ms_plain; eauto using evt_in. Qed.
Lemma keeps_hold e ev ob t s : d_evt D !! e = Some ev -> d_obj D !! ev_obj ev = Some ob ->
  mainE D (ev_obj ev) ob e -> t = PAUSE \/ t = RESUME ->
  (is_media (ob_kind ob) = true -> is_Some (o_player (ostOf s (ev_obj ev)))) -> I s -> I (commit e t s).
Proof. intros. eapply Hc; [eassumption|]. eapply ms_hold; eauto using mainE_events. Qed.

Lemma ctx_good e ev ob t s :
  d_evt D !! e = Some ev -> d_obj D !! ev_obj ev = Some ob -> ob_kind ob = KContext ->
  I s -> legal (evState s e) t = true ->
  goodpair (ctx_before D trn (ev_obj ev) e ev t) (ctx_after D trn (ev_obj ev) e ev t) e t s.
Proof.
  intros He Ho Hk Hs Hl. unfold ctx_before, ctx_after. set (o := ev_obj ev) in *.
  assert (Hve : valid_evt D e) by (by eexists).
  destruct (ev_type ev) eqn:Hty.
  - apply goodpair_ret; [done|].
    assert (Hm : ~ mainE D o ob e) by (eapply not_main_type; eauto; congruence).
    assert (HI : I (commit e t s)) by (eapply keeps_plain; eauto).
    destruct t; try done.
    apply keeps_true; [done|]. eapply keeps_attribStart; eauto using evt_in.
  - unfold goodpair. w1. w1.
    assert (Hm : mainE D o ob e) by (by apply main_lambda).
    assert (Hnm : is_media (ob_kind ob) = true -> False) by (by rewrite Hk).
    assert (HH : t = PAUSE \/ t = RESUME -> pwp (
       do ob0 <- getO D o;
       foreach (fun c => do cb <- getO D c; trn (ob_lambda cb) t ;; ret tt) (ob_children ob0) ;;
       ret true) (fun b s1 => (b = false -> I s1) /\ (b = true -> pwp (assertm (isLambda ev) "Context.cpp:242" ;; ret true)
         (fun a s' => a = true /\ I s') (commit e t s1))) s).
    { intros Ht. w1. wgetO ob0 Ho0. assert (ob0 = ob) as -> by congruence. w1.
      eapply wp_mono; [eapply keeps_children; eauto|]. intros [] s1 Hs1. cbv beta in Hs1 |- *. w1.
      split; [done|]. intros _. w1. w1. w1. split; [done|]. eapply keeps_hold; eauto. intros; by destruct Hnm. }
    assert (HS : isStop t -> pwp (
       do ob0 <- getO D o;
       foreach (fun c => do cb <- getO D c; trn (ob_lambda cb) t ;; ret tt) (ob_children ob0) ;;
       ret true) (fun b s1 => (b = false -> I s1) /\ (b = true -> pwp (assertm (isLambda ev) "Context.cpp:242" ;; doStop D o ;; ret true)
         (fun a s' => a = true /\ I s') (commit e t s1))) s).
    { intros Ht. w1. wgetO ob0 Ho0. assert (ob0 = ob) as -> by congruence. w1.
      eapply wp_mono; [apply wp_conj; [eapply keeps_children; eauto|eapply stop_children; eauto]|].
      intros [] s1 [Hs1 [_ Hx]]. cbv beta in Hs1 |- *. w1. split; [done|]. intros _. w1. w1.
      eapply good_doStop; eauto. { by rewrite Hk. }
        rewrite (Hx e ev He) by (fold o; lia). intros Hsl. rewrite Hsl in Hl. by destruct Ht as [-> | ->]. }
    destruct t.
    + apply HS. by right.
    + apply HH. by left.
    + apply HH. by right.
    + w1. split; [done|]. intros _. w1. w1. eapply good_doStart; eauto. { intros; by destruct Hnm. }
      intros s1 Hs1. w1. eapply wp_mono; [apply keeps_startParent, Hs1|].
      intros [] s2 Hs2. cbv beta in Hs2 |- *. w1. unfold getParam. w1.
      apply keeps_true; [done|]. intros s3 Hs3. w1; [|by w1].
      w1. wgetO ob0 Ho0. assert (ob0 = ob) as -> by congruence. w1.
      eapply wp_mono.
      { apply keeps_foreach; [|exact Hs3]. intros p Hp s' Hs'. w1. wgetE pe Hpe. w1; [|done].
        eapply keeps_sched; eauto. by eexists. }
      intros [] s4 Hs4. by apply keeps_param.
    + apply HS. by left.
  - unfold goodpair. w1. split; [done|]. done.
  - done.
Qed.

Lemma sw_candidates_pure o ev s :
  pwp (sw_candidates D o ev) (fun l s' => s' = s /\ forall e, e ∈ l -> valid_evt D e) s.
Proof.
  unfold sw_candidates. w1. wgetO ob Ho. w1.
  - revert s. generalize (ob_children ob) as l. induction l as [|c l IHl]; intros s.
    + w1. split; [done|]. intros e Hin. by apply elem_of_nil in Hin.
    + w1. wgetO cb Hcb. w1. eapply wp_mono; [apply IHl|]. intros r s' [-> Hr]. cbv beta. w1.
      split; [done|]. intros e [->|]%elem_of_cons; [eapply valid_lambda; eauto|auto].
  - destruct (assoc (ev_id ev) (ob_swports ob)) as [l|] eqn:Ea; [|done]. w1. split; [done|].
    assert (Hin : (ev_id ev, l) ∈ ob_swports ob).
    { clear -Ea. induction (ob_swports ob) as [|[k v] r IH]; [done|]. cbn in Ea.
      destruct (String.eqb (ev_id ev) k) eqn:Ek.
      - apply String.eqb_eq in Ek. subst. injection Ea as ->. left.
      - right. auto. }
    intros e He. eapply (wo_swports _ _ _ _ (wf_o _ _ WF _ _ Ho)); eauto.
Qed.
Lemma sw_find_pure c l acc s :
  (forall e, e ∈ l -> valid_evt D e) -> (forall e, acc = Some e -> valid_evt D e) ->
  pwp (sw_find D c l acc) (fun r s' => s' = s /\ forall e, r = Some e -> valid_evt D e) s.
Proof.
  revert acc. induction l as [|x l IH]; intros acc H1 H2; cbn [sw_find].
  - w1. auto.
  - w1. wgetE ev He. apply IH; [intros e Hin; apply H1; by right|]. intros e. destruct (bool_decide _); [|auto].
    intros [= ->]. by eexists.
Qed.
Lemma evalPredicate_pure p s : pwp (evalPredicate D p) (fun _ s' => s' = s) s.
Proof. unfold evalPredicate, wp. by destruct (eval_pred _ _). Qed.
Lemma keeps_sw_choose o ob cands rules : d_obj D !! o = Some ob -> ob_kind ob = KSwitch ->
  (forall e, e ∈ cands -> valid_evt D e) -> (forall c p, (c, p) ∈ rules -> c ∈ ob_children ob) ->
  keeps (sw_choose D trn o cands rules).
Proof.
  intros Ho Hk Hcands Hrules. induction rules as [|[c p] rules IH]; intros s Hs; cbn [sw_choose].
  - by w1.
  - w1. eapply wp_mono; [apply sw_find_pure; [done|done]|]. intros sel s' [-> Hsel]. cbv beta.
    destruct sel as [e'|]; [|apply IH; [set_solver|done]].
    w1. eapply wp_mono; [apply evalPredicate_pure|]. intros b s' ->. cbv beta. w1.
    + w1. eapply wp_mono; [apply Htrn; [by apply Hsel|exact Hs]|]. intros ok s1 Hs1. cbv beta in Hs1 |- *.
      w1; [|by w1]. w1. w1. w1. eapply Hc; [exact Hs1|]. eapply ms_select; eauto.
      intros c' [= <-]. eapply Hrules. left.
    + apply IH; [set_solver|done].
Qed.

Lemma sw_good e ev ob t s :
  d_evt D !! e = Some ev -> d_obj D !! ev_obj ev = Some ob -> ob_kind ob = KSwitch ->
  I s -> legal (evState s e) t = true ->
  goodpair (sw_before D trn (ev_obj ev) e ev t) (sw_after D evalA (ev_obj ev) e ev t) e t s.
Proof.
  intros He Ho Hk Hs Hl. unfold goodpair, sw_before, sw_after. w1.
  eapply wp_mono; [apply sw_candidates_pure|]. intros cands s' [-> Hcands]. cbv beta.
  set (o := ev_obj ev) in *. destruct (ev_type ev) eqn:Hty; try done.
  assert (Hm : mainE D o ob e).
  { right. split; [done|]. split; [by eapply evt_in|]. eauto. }
  assert (Hnm : is_media (ob_kind ob) = true -> False) by (by rewrite Hk).
  assert (HH : t = PAUSE \/ t = RESUME -> pwp (
       do s0 <- get;
       match o_selected (ostOf s0 o) with
       | None => ret true
       | Some c => do cb <- getO D c; trn (ob_lambda cb) t ;;
                   modify (upd_ob o (os_set_selected None)) ;; ret true
       end) (fun b s1 => (b = false -> I s1) /\ (b = true -> pwp (ret true)
         (fun a s' => a = true /\ I s') (commit e t s1))) s).
  { intros Ht. w1. w1.
    assert (Hfin : forall s1, I s1 -> (true = false -> I s1) /\ (true = true -> pwp (ret true)
         (fun a s' => a = true /\ I s') (commit e t s1))).
    { intros s1 Hs1. split; [done|]. intros _. w1. split; [done|]. eapply keeps_hold; eauto.
      intros; by destruct Hnm. }
    destruct (o_selected (ostOf s o)) as [c|]; [|w1; by auto].
    w1. wgetO cb Hcb. w1.
    eapply wp_mono; [apply Htrn; [eapply valid_lambda; eauto|exact Hs]|].
    intros b s1 Hs1. cbv beta in Hs1 |- *. w1. w1. w1. apply Hfin. eapply Hc; [exact Hs1|].
    eapply ms_select; eauto. done. }
  assert (HS : isStop t -> pwp (
       do s0 <- get;
       match o_selected (ostOf s0 o) with
       | None => ret true
       | Some c => do cb <- getO D c; trn (ob_lambda cb) t ;;
                   modify (upd_ob o (os_set_selected None)) ;; ret true
       end) (fun b s1 => (b = false -> I s1) /\ (b = true -> pwp (doStop D o ;; ret true)
         (fun a s' => a = true /\ I s') (commit e t s1))) s).
  { intros Ht. w1. w1.
    assert (Hfin : forall s1, I s1 -> evState s1 e = evState s e -> (true = false -> I s1) /\ (true = true -> pwp (doStop D o ;; ret true)
         (fun a s' => a = true /\ I s') (commit e t s1))).
    { intros s1 Hs1 Hx. split; [done|]. intros _. eapply good_doStop; eauto. { by rewrite Hk. }
      rewrite Hx. intros Hsl. rewrite Hsl in Hl. by destruct Ht as [-> | ->]. }
    destruct (o_selected (ostOf s o)) as [c|] eqn:Esel; [|w1; by auto].
    w1. wgetO cb Hcb. w1. destruct (lambda_evt _ _ Hcb) as (lev & Hlev & _ & Hlo).
    eapply wp_mono; [apply wp_conj; [apply Htrn; [eapply valid_lambda; eauto|exact Hs]|
      eapply Hfr; eauto]|].
    intros b s1 [Hs1 [_ HA]]. cbv beta in Hs1 |- *. w1. w1. w1. apply Hfin.
    - eapply Hc; [exact Hs1|]. eapply ms_select; eauto. done.
    - sts. apply (HA e ev He).
      assert (Hin : c ∈ ob_children ob) by exact (HSel _ Hs _ _ _ Ho Esel).
      destruct (wo_children _ _ _ _ (wf_o _ _ WF _ _ Ho) _ Hin) as (cb' & Hcb' & Hpar).
      destruct (wo_parent _ _ _ _ (wf_o _ _ WF _ _ Hcb') _ Hpar) as (pb & _ & _ & _ & Hlt).
      rewrite Hlo. done. }
  destruct t.
  - apply HS. by right.
  - apply HH. by left.
  - apply HH. by right.
  - w1. w1. w1. w1. w1. wgetO ob0 Ho0. assert (ob0 = ob) as -> by congruence.
    eapply wp_mono; [eapply keeps_sw_choose; eauto; intros; eapply (wo_rules _ _ _ _ (wf_o _ _ WF _ _ Ho)); eauto|].
    intros b s1 Hs1. cbv beta in Hs1 |- *. split; [done|]. intros _.
    eapply good_doStart; eauto. { intros; by destruct Hnm. }
    intros s2 Hs2. w1. w1. destruct (o_selected (ostOf s2 o)); [w1; auto|].
    w1. eapply wp_mono; [apply Hev; [by eexists|exact Hs2]|]. intros k s3 Hs3. cbv beta in Hs3 |- *. w1. auto.
  - apply HS. by left.
Qed.

Lemma keeps_anchor_seek o ob begin fin k i : d_obj D !! o = Some ob -> seekable D ob ->
  keeps (anchor_seek trn o begin fin k i).
Proof.
  intros Ho Hsk. revert i. induction k as [|k IH]; intros i s Hs; cbn [anchor_seek]; [by w1|].
  w1. w1. destruct (_ !! i) as [[a x]|] eqn:Ei; [|done].
  assert (Ha : valid_evt D (ac_evt a)) by (eapply (HQ s Hs); eauto using elem_of_list_lookup_2).
  w1.
  - w1. eapply (wp_mono _ _ _ (fun _ s' => I s')).
    { w1; [|by w1]. w1. eapply wp_mono; [apply Htrn; [done|exact Hs]|].
      intros b s1 Hs1. cbv beta in Hs1 |- *. by w1. }
    intros [] s1 Hs1. cbv beta in Hs1 |- *. w1. w1. w1. w1. w1. w1. w1. apply IH.
    eapply Hc; [exact Hs1|]. eapply ms_erase; eauto. by apply bool_decide_eq_true in H0.
  - w1. w1. w1. w1. apply IH. eapply Hc; [exact Hs|].
    apply orb_false_iff in H as [H _]. apply orb_false_iff in H as [H1 H2].
    apply N.eqb_neq in H1. apply N.ltb_ge in H2. by eapply ms_shift.
Qed.

Lemma keeps_updPlayer o ob f : d_obj D !! o = Some ob -> keeps (updPlayer o f).
Proof. intros Ho s Hs. unfold updPlayer. w1. eapply Hc; [exact Hs|]. eapply ms_player; eauto. Qed.
Lemma keeps_start_anchor o ob e ev : d_obj D !! o = Some ob -> seekable D ob -> valid_evt D e -> e ∈ ob_events ob ->
  keeps (media_start_anchor D trn o e ev (ob_lambda ob)).
Proof.
  intros Ho Hsk He Hin s Hs. unfold media_start_anchor. w1.
  eapply wp_mono; [apply Htrn; [eapply valid_lambda; eauto|exact Hs]|].
  intros b s1 Hs1. cbv beta zeta in Hs1 |- *. w1.
  eapply wp_mono; [apply keeps_playerSet; [by eexists|exact Hs1]|].
  intros [] s2 Hs2. cbv beta in Hs2 |- *. w1.
  eapply (wp_mono _ _ _ (fun _ s' => I s')).
  { w1; [by w1|]. w1. eapply wp_mono; [apply keeps_playerSet; [by eexists|exact Hs2]|].
    intros [] s3 Hs3. cbv beta in Hs3 |- *. eapply keeps_sched; eauto. }
  intros [] s3 Hs3. cbv beta in Hs3 |- *. w1. w1. eapply keeps_anchor_seek; eauto.
Qed.
Lemma keeps_pause o ob : d_obj D !! o = Some ob -> forall s, I s ->
  pwp (playerPause o) (fun _ s' => I s' /\ is_Some (o_player (ostOf s' o))) s.
Proof.
  intros Ho s Hs. unfold playerPause. w1. w1. destruct (o_player (ostOf s o)) as [p|] eqn:Ep; [|done].
  w1. w1. w1. w1. unfold updPlayer. w1. split.
  - eapply Hc; [exact Hs|]. eapply ms_player; eauto.
  - sts. rewrite decide_True by done. cbn. rewrite Ep. by eexists.
Qed.
Lemma keeps_resume o ob : d_obj D !! o = Some ob -> forall s, I s ->
  pwp (playerResume o) (fun _ s' => I s' /\ is_Some (o_player (ostOf s' o))) s.
Proof.
  intros Ho s Hs. unfold playerResume. w1. w1. destruct (o_player (ostOf s o)) as [p|] eqn:Ep; [|done].
  w1. w1. w1. w1. unfold updPlayer. w1. split.
  - eapply Hc; [exact Hs|]. eapply ms_player; eauto.
  - sts. rewrite decide_True by done. cbn. rewrite Ep. by eexists.
Qed.

Lemma bd_player (p : option player) : bool_decide (p <> None) = true -> is_Some p.
Proof. intros H%bool_decide_eq_true. by apply not_eq_None_Some. Qed.

Lemma media_good e ev ob t s :
  d_evt D !! e = Some ev -> d_obj D !! ev_obj ev = Some ob -> is_media (ob_kind ob) = true ->
  I s -> legal (evState s e) t = true ->
  goodpair (media_before D trn evalA (ev_obj ev) e ev t) (media_after D (ev_obj ev) e ev t) e t s.
Proof.
  intros He Ho Hk Hs Hl. unfold media_before. set (o := ev_obj ev) in *.
  assert (Hve : valid_evt D e) by (by eexists).
  assert (Hksw : ob_kind ob <> KSwitch) by (intros E; by rewrite E in Hk).
  assert (Hin : e ∈ ob_events ob) by (by eapply evt_in).
  (* scheduling of the anchors *)
  assert (Hanch : keeps (foreach (fun e' => do ev' <- getE D e';
                   if (negb (isLambda ev') && bool_decide (ev_type ev' = PRESENTATION)
                       && negb (hasLabel ev'))%bool
                   then addDelayed o e' START "" (ev_begin ev') ;;
                        addDelayed o e' STOP "" (ev_end ev')
                   else ret tt) (ob_events ob))).
  { apply keeps_foreach. intros e' He' s1 Hs1. w1. wgetE ev' Hev'. w1; [|by w1]. w1.
    assert (valid_evt D e') by (by eexists).
    eapply wp_mono; [eapply keeps_sched; eauto|]. intros [] s2 Hs2. eapply keeps_sched; eauto. }
  destruct (ev_type ev) eqn:Hty.
  - apply goodpair_ret; [done|]. unfold media_after. w1. w1. rewrite Hty.
    assert (Hm : ~ mainE D o ob e) by (eapply not_main_type; eauto; congruence).
    assert (HI : I (commit e t s)) by (eapply keeps_plain; eauto).
    destruct t; try done.
    apply keeps_true; [done|]. eapply keeps_attribStart; eauto using evt_in.
  - destruct (isLambda ev) eqn:Hla.
    + (* lambda *)
      assert (e = ob_lambda ob) as -> by (eapply isLambda_lambda; eauto).
      assert (Hm : mainE D o ob (ob_lambda ob)) by (by left).
      assert (HHold : t = PAUSE \/ t = RESUME ->
        goodpair (do ob0 <- getO D o;
           foreach (fun e' => do ev' <- getE D e';
                   if (negb (isLambda ev') && bool_decide (ev_type ev' = PRESENTATION))%bool
                   then evalA (mkA e' t "") ;; ret tt else ret tt) (ob_events ob0) ;;
           (match t with PAUSE => playerPause o | _ => playerResume o end) ;;
           ret true) (ret true) (ob_lambda ob) t s).
      { intros Ht. unfold goodpair. w1. wgetO ob0 Ho0. assert (ob0 = ob) as -> by congruence. w1.
        eapply wp_mono.
        { apply keeps_foreach; [|exact Hs]. intros e' He' s1 Hs1. w1. wgetE ev' Hev'. w1; [|by w1]. w1.
          eapply wp_mono; [apply Hev; [by eexists|exact Hs1]|]. intros n s2 Hs2. cbv beta in Hs2 |- *. by w1. }
        intros [] s1 Hs1. cbv beta in Hs1 |- *. w1.
        eapply (wp_mono _ _ _ (fun _ s' => I s' /\ is_Some (o_player (ostOf s' o)))).
        { destruct Ht as [-> | ->]; [eapply keeps_pause | eapply keeps_resume]; eauto. }
        intros [] s2 [Hs2 Hp2]. cbv beta. w1. split; [done|]. intros _. w1. split; [done|].
        eapply keeps_hold; eauto. }
      assert (HStop : isStop t ->
         pwp (media_after D o (ob_lambda ob) ev t) (fun a s' => a = true /\ I s') (commit (ob_lambda ob) t s)).
      { intros Ht. unfold media_after. w1. w1. rewrite Hty, Hla.
        assert (Hgo : pwp (assertm (bool_decide (o_player (ostOf (commit (ob_lambda ob) t s) o) <> None)) "Media.cpp:370" ;;
           mediaDoStop D o ;; ret true) (fun a s' => a = true /\ I s') (commit (ob_lambda ob) t s)).
        { w1. w1. apply bd_player in H. w1. apply pwp_intro. intros [] s' E. w1. split; [done|].
          eapply Hc; [exact Hs|]. eapply ms_mstop; eauto.
          intros Hsl. rewrite Hsl in Hl. by destruct Ht as [-> | ->]. }
        destruct Ht as [-> | ->]; exact Hgo. }
      assert (Hafter_hold : t = PAUSE \/ t = RESUME ->
         media_after D o (ob_lambda ob) ev t = (do s <- get; ret true)).
      { intros Ht. unfold media_after. rewrite Hty. destruct Ht as [-> | ->]; reflexivity. }
      assert (HHold' : t = PAUSE \/ t = RESUME ->
        goodpair (do ob0 <- getO D o;
           foreach (fun e' => do ev' <- getE D e';
                   if (negb (isLambda ev') && bool_decide (ev_type ev' = PRESENTATION))%bool
                   then evalA (mkA e' t "") ;; ret tt else ret tt) (ob_events ob0) ;;
           (match t with PAUSE => playerPause o | _ => playerResume o end) ;;
           ret true) (media_after D o (ob_lambda ob) ev t) (ob_lambda ob) t s).
      { intros Ht. rewrite Hafter_hold by done. exact (HHold Ht). }
      destruct t.
      * apply goodpair_ret; [done|]. apply HStop. by right.
      * apply HHold'. by left.
      * apply HHold'. by right.
      * (* START *)
        unfold goodpair. w1. eapply wp_mono; [apply keeps_startParent, Hs|].
        intros [] s1 Hs1. cbv beta in Hs1 |- *. w1. w1.
        assert (Hmid : forall s2, is_Some (o_player (ostOf s2 o)) ->
            (forall s', doStart D o (commit (ob_lambda ob) START s2) = Ok tt s' -> I s') ->
            pwp (media_after D o (ob_lambda ob) ev START) (fun a s' => a = true /\ I s')
                (commit (ob_lambda ob) START s2)).
        { intros s2 Hp2 Hst. unfold media_after. w1. w1. rewrite Hty, Hla. w1. w1. w1.
          apply pwp_intro. intros [] s3 E. apply Hst in E. w1. wgetO ob0 Ho0.
          assert (ob0 = ob) as -> by congruence. by apply keeps_true. }
        assert (Hkeep : pwp (media_after D o (ob_lambda ob) ev START) (fun a s' => a = true /\ I s')
                (commit (ob_lambda ob) START s1)).
        { destruct (o_player (ostOf s1 o)) as [p|] eqn:Ep.
          - apply Hmid; [rewrite Ep; by eexists|]. intros s2 E2.
            eapply Hc; [exact Hs1|]. eapply ms_start; eauto.
          - unfold media_after. w1. w1. rewrite Hty, Hla. sts. rewrite Ep. done. }
        destruct (evState s1 (ob_lambda ob)) eqn:Est.
        -- w1. split; [done|]. intros _. apply Hkeep; auto.
        -- w1. split; [done|]. intros _. apply Hkeep; auto.
        -- w1. apply pwp_intro. intros [] s2 E2.
           pose proof (wp_ok _ _ _ _ _ (createPlayer_cframe D o s1) _ _ E2) as F. w1.
           split; [done|]. intros _. apply Hmid; [exact (cf_player _ _ _ F)|].
           intros s3 E3. eapply Hc; [exact Hs1|]. eapply ms_create; eauto.
      * apply goodpair_ret; [done|]. apply HStop. by left.
    + (* anchor *)
      assert (Hm : ~ mainE D o ob e) by (eapply not_main_media; eauto).
      assert (HI : forall s1, I s1 -> I (commit e t s1)) by (intros; eapply keeps_plain; eauto).
      destruct t.
      * apply goodpair_ret; [done|]. unfold media_after. w1. w1. rewrite Hty, Hla. w1.
        -- destruct (o_player _); [w1; auto|done].
        -- unfold isOccurring, objState. w1. w1. w1. wgetO y Hy. w1. w1. w1. w1. w1. auto.
      * apply goodpair_ret; [done|]. unfold media_after. w1. w1. rewrite Hty. w1. auto.
      * apply goodpair_ret; [done|]. unfold media_after. w1. w1. rewrite Hty. w1. auto.
      * assert (HA : forall s1, I s1 -> pwp (media_after D o e ev START) (fun a s' => a = true /\ I s') (commit e START s1)).
        { intros s1 Hs1. unfold media_after. w1. w1. rewrite Hty, Hla. w1; [|w1; auto].
          destruct (o_player _); [w1; auto|done]. }
        unfold goodpair. w1. eapply wp_mono; [apply keeps_startParent, Hs|].
        intros [] s1 Hs1. cbv beta in Hs1 |- *. w1. w1.
        destruct (evState s1 e).
        -- w1. auto.
        -- w1. auto.
        -- w1. wgetO ob0 Ho0. assert (ob0 = ob) as -> by congruence. w1. w1.
           destruct (evState s1 (ob_lambda ob)); [w1; auto|w1; auto|].
           assert (Hsk : seekable D ob) by (split; [done|]; by exists e, ev).
           w1. eapply wp_mono; [eapply keeps_start_anchor; eauto|].
           intros [] s2 Hs2. cbv beta in Hs2 |- *. w1. auto.
      * apply goodpair_ret; [done|]. unfold media_after. w1. w1. rewrite Hty, Hla. w1.
        -- destruct (o_player _); [w1; auto|done].
        -- unfold isOccurring, objState. w1. w1. w1. wgetO y Hy. w1. w1. w1. w1. w1. auto.
  - apply goodpair_ret; [done|]. unfold media_after. w1. w1. rewrite Hty.
    assert (Hm : ~ mainE D o ob e) by (eapply not_main_type; eauto; congruence).
    assert (HI : I (commit e t s)) by (eapply keeps_plain; eauto).
    by destruct t.
  - apply goodpair_ret; [done|]. unfold media_after. w1. w1. rewrite Hty.
    assert (Hm : ~ mainE D o ob e) by (eapply not_main_type; eauto; congruence).
    assert (HI : I (commit e t s)) by (eapply keeps_plain; eauto).
    by destruct t.
Qed.

Lemma tr_body_keeps e t : keeps (tr_body D trn evalA e t).
Proof.
  intros s Hs. unfold tr_body. w1. wgetE ev He. w1. w1. w1; [by w1|]. apply negb_false_iff in H.
  destruct (wf_e _ _ WF _ _ He) as (ob & Ho & _).
  assert (HG : goodpair (before D trn evalA (ev_obj ev) e ev t) (after D trn evalA (ev_obj ev) e ev t) e t s).
  { assert (HGo : forall (bef aft bef' aft' : ME bool),
       (forall s, bef s = bef' s) -> (forall s, aft s = aft' s) -> goodpair bef' aft' e t s -> goodpair bef aft e t s).
    { intros bef aft bef' aft' E1 E2. unfold goodpair, wp. rewrite E1. destruct (bef' s) as [b s1| |]; auto.
      intros [G1 G2]. split; [done|]. rewrite E2. done. }
    destruct (ob_kind ob) eqn:Hk.
    - eapply HGo; [| |eapply ctx_good; eauto];
        intros s'; unfold before, after, bind, getO, ofoption; rewrite Ho; cbn; by rewrite Hk.
    - eapply HGo; [| |eapply sw_good; eauto];
        intros s'; unfold before, after, bind, getO, ofoption; rewrite Ho; cbn; by rewrite Hk.
    - eapply HGo; [| |eapply media_good; eauto; by rewrite Hk];
        intros s'; unfold before, after, bind, getO, ofoption; rewrite Ho; cbn; by rewrite Hk.
    - eapply HGo; [| |eapply media_good; eauto; by rewrite Hk];
        intros s'; unfold before, after, bind, getO, ofoption; rewrite Ho; cbn; by rewrite Hk. }
  w1. eapply wp_mono; [exact HG|]. intros b s1 [G1 G2]. cbv beta.
  destruct b; cbn [negb]; [|w1; auto]. w1. w1. w1. w1. fold (commit e t s1). w1.
  eapply wp_mono; [apply G2; done|]. intros a s2 [-> Hs2]. by w1.
Qed.
End Open.

(** Firing of links. *)
Definition valid_acts (l : list action) : Prop := forall a, a ∈ l -> valid_evt D (ac_evt a).
Lemma fire_acts_keeps ctx ob acts s : d_obj D !! ctx = Some ob -> ob_kind ob = KContext -> valid_acts acts -> I s ->
  pwp (fire_acts D ctx acts) (fun r s' => I s' /\ valid_acts r) s.
Proof.
  intros Ho Hk. revert s. induction acts as [|a acts IH]; intros s Hv Hs; cbn [fire_acts].
  - w1. auto.
  - assert (valid_evt D (ac_evt a)) by (apply Hv; left).
    assert (valid_acts acts) by (intros x Hx; apply Hv; by right).
    w1. w1. w1. apply pwp_parse_time. intros delay. w1.
    + w1. eapply wp_mono; [apply IH; auto|]. intros r s1 [Hs1 Hr]. cbv beta. w1. split; [done|].
      intros x [->|]%elem_of_cons; auto.
    + w1. eapply wp_mono; [eapply keeps_sched; eauto|]. intros [] s1 Hs1. apply IH; auto.
Qed.
Lemma valid_app r1 r2 : valid_acts r1 -> valid_acts r2 -> valid_acts (r1 ++ r2).
Proof. intros H1 H2 x [?|?]%elem_of_app; auto. Qed.
Lemma valid_rev r : valid_acts r -> valid_acts (rev r).
Proof. intros H x Hx. apply H. rewrite elem_of_list_In, <- in_rev, <- elem_of_list_In in Hx. done. Qed.
Lemma valid_nil : valid_acts [].
Proof. intros x Hx. by apply elem_of_nil in Hx. Qed.
Lemma fire_conds_keeps ctx ob e t conds acts s : d_obj D !! ctx = Some ob -> ob_kind ob = KContext -> valid_acts acts -> I s ->
  pwp (fire_conds D ctx e t conds acts) (fun r s' => I s' /\ valid_acts r) s.
Proof.
  intros Ho Hk Hv. revert s. induction conds as [|c conds IH]; intros s Hs; cbn [fire_conds].
  - w1. split; [done|apply valid_nil].
  - w1; [|by apply IH]. w1.
    eapply (wp_mono _ _ _ (fun _ s' => s' = s)).
    { destruct (ac_pred c); [apply evalPredicate_pure | by w1]. }
    intros b s' ->. cbv beta. w1; [|by apply IH]. w1.
    eapply wp_mono; [eapply fire_acts_keeps; eauto using valid_rev|]. intros r1 s1 [Hs1 Hr1]. cbv beta.
    w1. eapply wp_mono; [by apply IH|]. intros r2 s2 [Hs2 Hr2]. cbv beta. w1. split; [done|]. by apply valid_app.
Qed.
Lemma fire_links_keeps ctx ob e t links s : d_obj D !! ctx = Some ob -> ob_kind ob = KContext ->
  (forall cs acts a, (cs, acts) ∈ links -> a ∈ acts -> valid_evt D (ac_evt a)) -> I s ->
  pwp (fire_links D ctx e t links) (fun r s' => I s' /\ valid_acts r) s.
Proof.
  intros Ho Hk. revert s. induction links as [|[cs acts] links IH]; intros s Hv Hs; cbn [fire_links].
  - w1. split; [done|apply valid_nil].
  - w1. eapply wp_mono; [eapply fire_conds_keeps; eauto; intros a Ha; eapply Hv; eauto; left|].
    intros r1 s1 [Hs1 Hr1]. cbv beta. w1.
    eapply wp_mono; [apply IH; [intros; eapply Hv; eauto; by right|done]|].
    intros r2 s2 [Hs2 Hr2]. cbv beta. w1. split; [done|]. by apply valid_app.
Qed.
Definition isCtx (c : oid) : Prop := forall ob, d_obj D !! c = Some ob -> ob_kind ob = KContext.
Lemma isCtx_intro c ob : d_obj D !! c = Some ob -> ob_kind ob = KContext -> isCtx c.
Proof. intros H1 H2 ob' H3. by simplify_eq. Qed.
Lemma evalInCtx_keeps a ctx s : isCtx ctx -> I s ->
  pwp (evalActionInContext D a ctx) (fun r s' => I s' /\ valid_acts r) s.
Proof.
  intros Hk Hs. unfold evalActionInContext. w1. wgetO ob Ho. w1. w1. w1.
  - eapply fire_links_keeps; eauto. intros. eapply (wo_acts _ _ _ _ (wf_o _ _ WF _ _ Ho)); eauto.
  - w1. split; [done|apply valid_nil].
Qed.
Lemma fire_ports_keeps a o gp ports s : isCtx gp -> I s ->
  pwp (fire_ports D a o gp ports) (fun r s' => I s' /\ valid_acts r) s.
Proof.
  intros Hk. revert s. induction ports as [|p ports IH]; intros s Hs; cbn [fire_ports].
  - w1. split; [done|apply valid_nil].
  - w1. wgetE pe Hpe. w1; [|by apply IH]. w1.
    eapply wp_mono; [by apply evalInCtx_keeps|]. intros r1 s1 [Hs1 Hr1]. cbv beta. w1.
    eapply wp_mono; [by apply IH|]. intros r2 s2 [Hs2 Hr2]. cbv beta. w1. split; [done|]. by apply valid_app.
Qed.
Lemma fire_aliases_keeps a als s : I s ->
  pwp (fire_aliases D a als) (fun r s' => I s' /\ valid_acts r) s.
Proof.
  revert s. induction als as [|[i [c|]] als IH]; intros s Hs; cbn [fire_aliases].
  - w1. split; [done|apply valid_nil].
  - unfold isContext. w1. w1. wgetO cb Hcb. w1. w1; [|by apply IH]. w1.
    eapply wp_mono; [apply evalInCtx_keeps; [eapply isCtx_intro; [exact Hcb|by eapply bool_decide_eq_true]|done]|]. intros r1 s1 [Hs1 Hr1]. cbv beta. w1.
    eapply wp_mono; [by apply IH|]. intros r2 s2 [Hs2 Hr2]. cbv beta. w1. split; [done|]. by apply valid_app.
  - by apply IH.
Qed.
Lemma find_label_pure name l s :
  pwp ((fix find (l : list eid) : ME eid :=
                  match l with
                  | [] => crashm (CAssert "Document.cpp:390")
                  | x :: l => do xe <- getE D x;
                              if (bool_decide (ev_type xe = PRESENTATION)
                                  && String.eqb (ev_id xe) name)%bool
                              then ret x else find l
                  end) l) (fun e s' => s' = s /\ valid_evt D e) s.
Proof.
  revert s. induction l as [|x l IH]; intros s; [done|]. w1. wgetE xe Hxe. w1; [|apply IH].
  w1. split; [done|by eexists].
Qed.
Lemma fire_swport_keeps evalA a o sw name mapped :
  (forall a, valid_evt D (ac_evt a) -> keeps (evalA a)) ->
  keeps (fire_swport D evalA a o sw name mapped).
Proof.
  intros Hev. unfold fire_swport. apply keeps_foreach. intros m _ s Hs.
  w1. wgetE me Hme. w1. wgetO sb Hsb. w1; [|by w1]. w1.
  eapply wp_mono; [apply find_label_pure|]. intros le s' [-> Hle]. cbv beta. w1.
  eapply wp_mono; [apply Hev; [exact Hle|exact Hs]|]. intros n s1 Hs1. cbv beta in Hs1 |- *. by w1.
Qed.
Lemma triggered_keeps evalA a s : (forall a, valid_evt D (ac_evt a) -> keeps (evalA a)) -> I s ->
  pwp (triggered D evalA a) (fun r s' => I s' /\ valid_acts r) s.
Proof.
  intros Hev Hs. unfold triggered. w1. wgetE ev He. w1. wgetO ob Ho. w1.
  eapply (wp_mono _ _ _ (fun r s' => I s' /\ valid_acts r)).
  { unfold fire_parent. destruct (ob_parent ob) as [p|]; [|w1; split; [done|apply valid_nil]].
    w1. wgetO pb Hpb. destruct (ob_kind pb) eqn:Hkp; try (w1; split; [done|apply valid_nil]).
    - unfold isOccurring, objState. w1. w1. w1. wgetO pb' Hpb'. w1. w1.
      w1; [|w1; split; [done|apply valid_nil]]. w1.
      eapply wp_mono; [apply evalInCtx_keeps; [eapply isCtx_intro; [exact Hpb|exact Hkp]|done]|]. intros r1 s1 [Hs1 Hr1]. cbv beta. w1.
      eapply (wp_mono _ _ _ (fun r s' => I s' /\ valid_acts r)).
      { destruct (ob_parent pb) as [gp|]; [|w1; split; [done|apply valid_nil]].
        w1. wgetO gb Hgb. w1. w1. w1. wgetO gb' Hgb'. w1. w1. w1; [apply fire_ports_keeps; [eapply isCtx_intro; [exact Hgb|]|done]|].
        { match goal with HH : (_ && _)%bool = true |- _ => apply andb_prop in HH as [HH _]; by apply bool_decide_eq_true in HH end. }
        w1; split; [done|apply valid_nil]. }
      intros r2 s2 [Hs2 Hr2]. cbv beta. w1. split; [done|]. by apply valid_app.
    - w1. eapply wp_mono; [eapply keeps_foreach; [|exact Hs]; intros x _; by apply fire_swport_keeps|].
      intros [] s1 Hs1. cbv beta in Hs1 |- *. w1. split; [done|apply valid_nil]. }
  intros r1 s1 [Hs1 Hr1]. cbv beta. w1.
  eapply (wp_mono _ _ _ (fun r s' => I s' /\ valid_acts r)).
  { unfold fire_self. destruct (ob_kind ob) eqn:Hk; try (by apply fire_aliases_keeps). apply evalInCtx_keeps; [by eapply isCtx_intro|done]. }
  intros r2 s2 [Hs2 Hr2]. cbv beta. w1. split; [done|]. by apply valid_app.
Qed.

Lemma attempt_keeps trn a : (forall e t, valid_evt D e -> keeps (trn e t)) -> keeps (attempt D trn a).
Proof.
  intros Htrn s Hs. unfold attempt. w1. w1.
  assert (Hs1 : I (log (OBegin a) s)) by (eapply Hc; [exact Hs|]; apply ms_log).
  w1. wgetE ev He. w1. eapply wp_mono; [by apply keeps_param|]. intros [] s2 Hs2. cbv beta in Hs2 |- *.
  w1. eapply (wp_mono _ _ _ (fun _ s' => I s')).
  { w1; [by apply keeps_param|done]. }
  intros [] s3 Hs3. apply Htrn; [by eexists|done].
Qed.

Theorem tr_loop_inv n :
  (forall e t, valid_evt D e -> keeps (tr D n e t)) /\
  (forall l, valid_acts l -> keeps (loop D n l)).
Proof.
  induction n as [|n [IH1 IH2]]; [split; intros; done|]. 
  assert (Hev : forall a, valid_evt D (ac_evt a) -> keeps (loop D n [a])).
  { intros a Ha. apply IH2. intros x ->%elem_of_list_singleton. done. }
  split.
  - intros e t He. rewrite tr_S. apply tr_body_keeps; auto. intros. by apply stop_frame.
  - intros l Hl s Hs. rewrite loop_S. unfold loop_body. destruct l as [|a l]; [by w1|].
    assert (Hl' : valid_acts l) by (intros x Hx; apply Hl; by right).
    w1. eapply wp_mono; [apply attempt_keeps; eauto|]. intros ok s1 Hs1. cbv beta in Hs1 |- *. w1; [|by apply IH2].
    w1. eapply wp_mono; [apply triggered_keeps; auto|]. intros r s2 [Hs2 Hr]. cbv beta. w1.
    eapply wp_mono; [apply IH2; [|exact Hs2]; apply valid_app; [by apply valid_rev|done]|].
    intros k s3 Hs3. by w1.
Qed.
End Inv.
End Steps.

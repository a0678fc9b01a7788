(** Reach.v -- the states a document goes through: initial states, and whatever
    the API and the environment do to them.  [reach_inv]: a predicate closed under
    the atomic steps holds in every reachable state. *)
From Verif Require Export Steps Formatter.
Open Scope string_scope.
Open Scope list_scope.

(** A document as the parser leaves it: nothing has happened yet.  Properties and
    event parameters are arbitrary. *)
Record init_ok (D : doc) (s : st) : Prop := mkInit {
  in_ev : forall e, evState s e = SLEEPING;
  in_time : forall o, o_time (ostOf s o) = TIME_NONE;
  in_delayed : forall o, o_delayed (ostOf s o) = [];
  in_awake : forall o, o_awake (ostOf s o) = 0%Z;
  in_selected : forall o, o_selected (ostOf s o) = None;
  in_player : forall o, o_player (ostOf s o) = None;
  in_next : s_next s = None;
  in_log : s_log s = []
}.

(** States reachable by API calls from a state in [P], with any fuel. *)
Inductive from (D : doc) (P : st -> Prop) : st -> Prop :=
  | r_init s : P s -> from D P s
  | r_act n a k s s' : from D P s -> valid_evt D (ac_evt a) -> evalAction D n a s = Ok k s' -> from D P s'
  | r_tr n e t b s s' : from D P s -> valid_evt D e -> tr D n e t s = Ok b s' -> from D P s'
  | r_tick n o d s s' : from D P s -> sendTick D n o d s = Ok tt s' -> from D P s'
  | r_half n o d s s' : from D P s -> objTick D n o d s = Ok tt s' -> from D P s'
      (* inside a tick of o: due actions done, end of content not yet tested *)
  | r_key n o k p s s' : from D P s -> sendKey D n o k p s = Ok tt s' -> from D P s'
  | r_prop o k v d s s' : from D P s -> setProperty D o k v d s = Ok tt s' -> from D P s'
  | r_size w h s : from D P s -> from D P (set_size w h s)
  | r_eos o ob s : from D P s -> d_obj D !! o = Some ob -> is_media (ob_kind ob) = true ->
      from D P (upd_ob o (fun x => os_set_player (p_set_eos true <$> o_player x) x) s)
  | r_post o ob e t v s : from D P s -> d_obj D !! o = Some ob -> e ∈ ob_events ob ->
      from D P (sched o e t v 0 s)
  | r_links o ob b s : from D P s -> d_obj D !! o = Some ob -> from D P (upd_ob o (os_set_links b) s).

(** The reachable states of a document. *)
Definition reach (D : doc) : st -> Prop := from D (init_ok D).

(** Atomic steps of the API. *)
Definition tickState (D : doc) (o : oid) (ob : obj) (diff : N) (s : st) : st :=
  let s1 := log (OTick o diff) s in
  if decide (evState s (ob_lambda ob) = OCCURRING) then
    let now := tadd (o_time (ostOf s o)) diff in
    upd_ob o (os_set_delayed (mark now (o_delayed (ostOf s o)))) (upd_ob o (os_set_time now) s1)
  else s1.
Inductive astep (D : doc) : st -> st -> Prop :=
  | as_m s s' : mstep D s s' -> astep D s s'
  | as_tick s o ob d : d_obj D !! o = Some ob ->
      (evState s (ob_lambda ob) = OCCURRING -> tvalid (o_time (ostOf s o)) = true) ->
      astep D s (tickState D o ob d s)
  | as_purge s o ob : d_obj D !! o = Some ob ->
      astep D s (upd_ob o (fun x => os_set_delayed (purge (o_delayed x)) x) s)
  | as_trig s o a : astep D s (log (OTrig o a) s)
  | as_key s o k p : astep D s (log (OKey o k p) s)
  | as_size s w h : astep D s (set_size w h s)
  | as_links s o ob b : d_obj D !! o = Some ob -> astep D s (upd_ob o (os_set_links b) s).

(** Without the parts of a tick. *)
Inductive bstep (D : doc) : st -> st -> Prop :=
  | bs_m s s' : mstep D s s' -> bstep D s s'
  | bs_key s o k p : bstep D s (log (OKey o k p) s)
  | bs_size s w h : bstep D s (set_size w h s)
  | bs_links s o ob b : d_obj D !! o = Some ob -> bstep D s (upd_ob o (os_set_links b) s).

Section Reach0.
Context (D : doc) (rank : oid -> nat) (WF : wf_at D rank).
Context (I : st -> Prop) (HSel : forall s, I s -> SelInv D s) (HQ : forall s, I s -> QInv D s).
Context (Hb : forall s s', I s -> bstep D s s' -> I s').
Notation keeps m := (forall s, I s -> pwp m (fun _ s' => I s') s).

Lemma Hcm : forall s s', I s -> mstep D s s' -> I s'.
Proof. intros. eapply Hb; eauto. by constructor. Qed.
Lemma keeps_tr n e t : valid_evt D e -> keeps (tr D n e t).
Proof. intros. eapply tr_loop_inv; eauto using Hcm. Qed.
Lemma keeps_eval n a : valid_evt D (ac_evt a) -> keeps (evalAction D n a).
Proof.
  intros Ha. unfold evalAction. eapply tr_loop_inv; eauto using Hcm.
  intros x ->%elem_of_list_singleton. done.
Qed.

Lemma pwp_isOccurring o ob (Q : bool -> st -> Prop) s :
  d_obj D !! o = Some ob -> Q (bool_decide (evState s (ob_lambda ob) = OCCURRING)) s ->
  pwp (isOccurring D o) Q s.
Proof.
  intros Ho HQ'. unfold isOccurring, objState. w1. w1. wgetO ob' Ho'. assert (ob' = ob) as -> by congruence.
  w1. by w1.
Qed.
Lemma pwp_isSleeping o ob (Q : bool -> st -> Prop) s :
  d_obj D !! o = Some ob -> Q (bool_decide (evState s (ob_lambda ob) = SLEEPING)) s ->
  pwp (isSleeping D o) Q s.
Proof.
  intros Ho HQ'. unfold isSleeping, objState. w1. w1. wgetO ob' Ho'. assert (ob' = ob) as -> by congruence.
  w1. by w1.
Qed.

Context (Hobj : forall n o d, keeps (objTick D n o d)).
Lemma keeps_mediaTick n o ob d : d_obj D !! o = Some ob -> keeps (mediaTick D n o d).
Proof.
  intros Ho s Hs. unfold mediaTick. w1. eapply wp_mono; [by apply Hobj|].
  intros [] s1 Hs1. cbv beta in Hs1 |- *. w1. w1.
  destruct (o_player (ostOf s1 o)) as [p|]; [|by w1]. w1.
  eapply wp_mono; [eapply (keeps_updPlayer D I Hcm); eauto|]. intros [] s2 Hs2. cbv beta in Hs2 |- *.
  w1; [|by w1]. w1. wgetO ob' Ho'. w1.
  eapply wp_mono; [apply keeps_eval; [eapply valid_lambda; eauto|exact Hs2]|].
  intros k s3 Hs3. by w1.
Qed.
Lemma keeps_ctxTick n o ob d : d_obj D !! o = Some ob -> keeps (ctxTick D n o d).
Proof.
  intros Ho s Hs. unfold ctxTick. w1. eapply wp_mono; [by apply Hobj|].
  intros [] s1 Hs1. cbv beta in Hs1 |- *. w1. w1. w1. wgetO ob' Ho'. assert (ob' = ob) as -> by congruence.
  assert (HE : keeps (evalAction D n (mkA (ob_lambda ob) STOP "") ;; ret tt)).
  { intros s2 Hs2. w1. eapply wp_mono; [apply keeps_eval; [eapply valid_lambda; eauto|exact Hs2]|].
    intros k s3 Hs3. by w1. }
  cbv zeta. w1.
  - w1. destruct (wf_settings _ _ WF) as (sb & Hsb & _). eapply pwp_isOccurring; [done|]. cbv beta.
    w1. by apply HE.
  - w1; [by apply HE|by w1].
Qed.
Lemma find_event_valid ty i l e : find_event D ty i l = Some e -> valid_evt D e.
Proof.
  induction l as [|x l IH]; cbn; [done|]. destruct (d_evt D !! x) as [ev|] eqn:E; [|done].
  destruct (_ && _)%bool; [|done]. intros [= ->]. by eexists.
Qed.
Lemma keeps_updateFocus n i : keeps (updateCurrentFocus D n i).
Proof.
  intros s Hs. unfold updateCurrentFocus. w1. w1. cbv zeta. w1. wgetO ob Ho. w1. w1.
  w1. eapply wp_mono; [apply keeps_eval; [|exact Hs]|].
  - eapply find_event_valid; eauto.
  - intros k s1 Hs1. by w1.
Qed.
Lemma keeps_sendTick n o d : keeps (sendTick D n o d).
Proof.
  intros s Hs. unfold sendTick. w1. wgetO ob Ho. destruct (ob_kind ob).
  - eapply keeps_ctxTick; eauto.
  - by apply Hobj.
  - eapply keeps_mediaTick; eauto.
  - unfold settingsTick. w1. w1. w1. eapply (wp_mono _ _ _ (fun _ s' => I s')).
    { destruct (s_next s); [|by w1]. w1. eapply wp_mono; [by apply keeps_updateFocus|].
      intros [] s1 Hs1. cbv beta in Hs1 |- *. w1. eapply Hcm; [exact Hs1|]. apply ms_next. }
    intros [] s1 Hs1. eapply keeps_mediaTick; eauto.
Qed.
Lemma keeps_sendKey n o k p : keeps (sendKey D n o k p).
Proof.
  intros s Hs. unfold sendKey. w1. w1. assert (Hs1 : I (log (OKey o k p) s)) by (eapply Hb; [exact Hs|apply bs_key]).
  revert Hs1. generalize (log (OKey o k p) s). clear s Hs. intros s Hs.
  w1. wgetO ob Ho. w1; [|by w1]. unfold mediaKey. w1. eapply pwp_isSleeping; [done|]. cbv beta.
  w1; [by w1|]. w1. w1. destruct (o_player (ostOf s o)) as [pl|]; [|by w1]. w1.
  eapply (wp_mono _ _ _ (fun _ s' => I s')).
  { w1; [|by w1]. cbv zeta. w1; [by w1|]. unfold scheduleFocus. w1. eapply Hcm; [exact Hs|]. apply ms_next. }
  intros [] s1 Hs1. cbv beta in Hs1 |- *. w1. wgetO ob' Ho'. assert (ob' = ob) as -> by congruence.
  apply (keeps_foreach I); [|done]. intros e He s2 Hs2. w1.
  eapply wp_mono; [apply keeps_eval; [|exact Hs2]|].
  - rewrite elem_of_list_In, filter_In, <- elem_of_list_In in He. destruct He as [He _].
    destruct (wo_events _ _ _ _ (wf_o _ _ WF _ _ Ho) _ He) as (ev & ? & _). by eexists.
  - intros n' s3 Hs3. by w1.
Qed.

Theorem from_inv0 (P : st -> Prop) : (forall s, P s -> I s) -> forall s, from D P s -> I s.
Proof.
  intros Hi s Hr. induction Hr.
  - auto.
  - exact (wp_ok _ _ _ _ _ (keeps_eval n a H s IHHr) _ _ H0).
  - exact (wp_ok _ _ _ _ _ (keeps_tr n e t H s IHHr) _ _ H0).
  - exact (wp_ok _ _ _ _ _ (keeps_sendTick n o d s IHHr) _ _ H).
  - exact (wp_ok _ _ _ _ _ (Hobj n o d s IHHr) _ _ H).
  - exact (wp_ok _ _ _ _ _ (keeps_sendKey n o k p s IHHr) _ _ H).
  - pose proof (keeps_setProperty D I Hcm o k v d) as K.
    exact (wp_ok _ _ _ _ _ (K s IHHr) _ _ H).
  - eapply Hb; [exact IHHr|]. apply bs_size.
  - eapply Hcm; [exact IHHr|]. eapply ms_player; eauto.
  - eapply Hcm; [exact IHHr|]. eapply ms_sched; eauto.
    destruct (wo_events _ _ _ _ (wf_o _ _ WF _ _ H) _ H0) as (ev & ? & _). by eexists.
  - eapply Hb; [exact IHHr|]. eapply bs_links; eauto.
Qed.
End Reach0.

Section Reach.
Context (D : doc) (rank : oid -> nat) (WF : wf_at D rank).
Context (I : st -> Prop) (HSel : forall s, I s -> SelInv D s) (HQ : forall s, I s -> QInv D s).
Context (Hc : forall s s', I s -> astep D s s' -> I s').
Notation keeps m := (forall s, I s -> pwp m (fun _ s' => I s') s).
Lemma Hbs : forall s s', I s -> bstep D s s' -> I s'.
Proof.
  intros s s' Hs Hst. destruct Hst; (eapply Hc; [exact Hs|]).
  - by constructor.
  - apply as_key.
  - apply as_size.
  - by eapply as_links.
Qed.
Lemma keeps_run_triggered n o ob l : d_obj D !! o = Some ob ->
  valid_acts D l -> keeps (run_triggered D n o l).
Proof.
  intros Ho. induction l as [|a l IH]; intros Hv s Hs; cbn [run_triggered]; [by w1|].
  w1. w1. w1. eapply wp_mono; [apply (keeps_eval D rank WF I HSel HQ Hbs); [apply Hv; left|]|].
  - eapply Hc; [exact Hs|]. apply as_trig.
  - intros k s1 Hs1. cbv beta in Hs1 |- *. w1. eapply (pwp_isOccurring D); [done|]. cbv beta.
    w1; [|by w1]. apply IH; [|done]. intros x Hx. apply Hv. by right.
Qed.

Lemma due_valid now l : (forall a x, (a, x) ∈ l -> valid_evt D (ac_evt a)) -> valid_acts D (due now l).
Proof.
  intros H a Ha. unfold due in Ha. apply elem_of_list_fmap in Ha as ([a' x] & -> & Hin).
  rewrite elem_of_list_In, filter_In, <- elem_of_list_In in Hin. destruct Hin as [Hin _]. eauto.
Qed.
Lemma keeps_objTick n o d : keeps (objTick D n o d).
Proof.
  intros s Hs. unfold objTick. w1. w1. w1.
  destruct (d_obj D !! o) as [ob|] eqn:Ho.
  2:{ unfold isOccurring, objState. w1. w1. apply wp_getO; [done|]. intros ob' Ho'. congruence. }
  eapply (pwp_isOccurring D); [done|]. cbv beta. sts.
  assert (HT := Hc s (tickState D o ob d s) Hs). unfold tickState in HT.
  destruct (decide (evState s (ob_lambda ob) = OCCURRING)) as [E|E].
  - rewrite bool_decide_true by done. w1. w1. w1. w1. w1. w1.
    w1. w1. w1. w1. w1.
    sts_in H. sts. rewrite decide_True by done. cbn [os_set_time o_delayed].
    assert (HT' : I (upd_ob o (os_set_delayed (mark (tadd (o_time (ostOf s o)) d) (o_delayed (ostOf s o))))
       (upd_ob o (os_set_time (tadd (o_time (ostOf s o)) d)) (log (OTick o d) s)))).
    { apply HT. pose proof (as_tick D s o ob d Ho) as A. unfold tickState in A.
      rewrite decide_True in A by done. by apply A. }
    eapply wp_mono.
    { eapply keeps_run_triggered; [exact Ho| |exact HT'].
      apply due_valid. intros a x Hin. exact (HQ s Hs o ob a x Ho Hin). }
    intros fin s1 Hs1. cbv beta in Hs1 |- *. w1; [|by w1]. w1. eapply Hc; [exact Hs1|]. eapply as_purge; eauto.
  - rewrite bool_decide_false by done. w1.
    apply HT. pose proof (as_tick D s o ob d Ho) as A. unfold tickState in A.
    rewrite decide_False in A by done. by apply A.
Qed.


Theorem from_inv (P : st -> Prop) : (forall s, P s -> I s) -> forall s, from D P s -> I s.
Proof. apply (from_inv0 D rank WF I HSel HQ Hbs keeps_objTick). Qed.
Theorem reach_inv : (forall s, init_ok D s -> I s) -> forall s, reach D s -> I s.
Proof. apply from_inv. Qed.
End Reach.

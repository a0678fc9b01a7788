(** Inv.v -- invariants of reachable states. *)
From Verif Require Export Reach Spec.
Open Scope string_scope.
Open Scope list_scope.

Section Inv.
Context (D : doc) (rank : oid -> nat) (WF : wf_at D rank).

Lemma pok {A} (m : ME A) s a s' (Q : st -> Prop) : m s = Ok a s' -> pwp m (fun _ => Q) s -> Q s'.
Proof. unfold wp. intros ->. auto. Qed.

(** ** Effects of the composite steps as equations. *)
Lemma doStart_ok o ob s s' : d_obj D !! o = Some ob -> doStart D o s = Ok tt s' ->
  s_ev s' = s_ev s /\ s_log s' = s_log s /\
  forall o', ostOf s' o' = os_set_time (if decide (o = o') then 0%N else o_time (ostOf s o'))
        (os_set_awake (o_awake (ostOf s o') + awk D o 1 o')%Z (ostOf s o')).
Proof.
  intros Ho. revert s'. cut (pwp (doStart D o) (fun _ s' => s_ev s' = s_ev s /\ s_log s' = s_log s /\
  forall o', ostOf s' o' = os_set_time (if decide (o = o') then 0%N else o_time (ostOf s o'))
        (os_set_awake (o_awake (ostOf s o') + awk D o 1 o')%Z (ostOf s o'))) s).
  { intros H s'. exact (wp_ok _ _ _ _ _ H tt s'). }
  apply wp_doStart; [done|done|]. intros; auto.
Qed.
Lemma doStop_ok o ob s s' : d_obj D !! o = Some ob -> doStop D o s = Ok tt s' ->
  s_log s' = s_log s /\
  (forall e, estOf s' e = if decide (inEvents D o e) then es_set_state SLEEPING (estOf s e)
                             else estOf s e) /\
  (forall o', ostOf s' o' =
        let x := os_set_awake (o_awake (ostOf s o') + awk D o (-1) o')%Z (ostOf s o') in
        if decide (o = o') then os_set_time TIME_NONE (os_set_delayed [] x) else x).
Proof.
  intros Ho E. pattern s'; eapply pok; [exact E|].
  apply wp_doStop; [done|done|]. intros; auto.
Qed.
Lemma mediaDoStop_ok o ob s s' : d_obj D !! o = Some ob -> is_Some (o_player (ostOf s o)) ->
  mediaDoStop D o s = Ok tt s' ->
  s_log s' = OPlayer o false :: s_log s /\
  (forall e, estOf s' e = if decide (inEvents D o e) then es_set_state SLEEPING (estOf s e)
                             else estOf s e) /\
  (forall o', ostOf s' o' =
        let x := os_set_awake (o_awake (ostOf s o') + awk D o (-1) o')%Z (ostOf s o') in
        if decide (o = o') then os_set_player None (os_set_time TIME_NONE (os_set_delayed [] x)) else x).
Proof.
  intros Ho Hp E. pattern s'; eapply pok; [exact E|].
  apply wp_mediaDoStop; [done|done|done|]. intros; auto.
Qed.
Lemma createPlayer_ok o s s' : createPlayer D o s = Ok tt s' -> cframe o s s'.
Proof.
  intros E. pattern s'; eapply pok; [exact E|].
  apply createPlayer_cframe.
Qed.

Lemma tick_ob o ob d s o' : ostOf (tickState D o ob d s) o' =
  if decide (o = o' /\ evState s (ob_lambda ob) = OCCURRING) then
    os_set_delayed (mark (tadd (o_time (ostOf s o)) d) (o_delayed (ostOf s o)))
      (os_set_time (tadd (o_time (ostOf s o)) d) (ostOf s o))
  else ostOf s o'.
Proof.
  unfold tickState. destruct (decide (evState s _ = _)) as [E|E].
  - sts. destruct (decide (o = o')) as [->|].
    + rewrite !decide_True by done. done.
    + by rewrite decide_False by tauto.
  - sts. by rewrite decide_False by tauto.
Qed.
Lemma tick_ev o ob d s e : evState (tickState D o ob d s) e = evState s e.
Proof. unfold tickState. by destruct (decide _). Qed.
Lemma tick_log o ob d s : s_log (tickState D o ob d s) = OTick o d :: s_log s.
Proof. unfold tickState. by destruct (decide _). Qed.

(** ** The base invariants. *)
Lemma SelInv_step s s' : SelInv D s -> astep D s s' -> SelInv D s'.
Proof.
  intros HS Hst. destruct Hst as [s s' Hm| | | | | |].
  - destruct Hm; try (eapply SelInv_sel; [|exact HS]; intros o'; unfold sched; sts; 
      try (destruct (decide _) as [->|]); done).
    + intros o' ob' c Ho' Hsel. sts_in Hsel. destruct (decide (o = o')) as [->|]; [|eauto].
      cbn in Hsel. simplify_eq. eauto.
    + destruct (doStart_ok _ _ _ _ H H3) as (_ & _ & E). eapply SelInv_sel; [|exact HS].
      intros o'. rewrite E. done.
    + destruct (doStart_ok _ _ _ _ H H4) as (_ & _ & E). eapply SelInv_sel; [|exact HS].
      intros o'. rewrite E. cbn. destruct (createPlayer_ok _ _ _ H3). sts.
      destruct (decide (o' = o)) as [->|]; [done|]. by rewrite cf_other.
    + destruct (doStop_ok _ _ _ _ H H5) as (_ & _ & E). eapply SelInv_sel; [|exact HS].
      intros o'. rewrite E. cbn. by destruct (decide _).
    + destruct (mediaDoStop_ok _ _ (commit _ t s) _ H H4 H5) as (_ & _ & E). eapply SelInv_sel; [|exact HS].
      intros o'. rewrite E. cbn. by destruct (decide _).
  - eapply SelInv_sel; [|exact HS]; intros o'. rewrite tick_ob.
    destruct (decide _) as [[-> _]|]; done.
  - eapply SelInv_sel; [|exact HS]; intros o'. sts. destruct (decide (o = o')) as [->|]; done.
  - done.
  - done.
  - done.
  - eapply SelInv_sel; [|exact HS]; intros o'. sts. destruct (decide (o = o')) as [->|]; done.
Qed.

Lemma QInv_sub s s' : (forall o ax, ax ∈ o_delayed (ostOf s' o) ->
    exists x, (ax.1, x) ∈ o_delayed (ostOf s o)) -> QInv D s -> QInv D s'.
Proof. intros E H o ob a x Ho Hin. apply E in Hin as [x' Hin]. eauto. Qed.
Lemma QInv_step s s' : QInv D s -> astep D s s' -> QInv D s'.
Proof.
  intros HS Hst.
  assert (Hself : forall (o : oid) (ax : action * N), ax ∈ o_delayed (ostOf s o) ->
     exists x, (ax.1, x) ∈ o_delayed (ostOf s o)) by (intros ? [a x] ?; eauto).
  destruct Hst as [s s' Hm| | | | | |].
  - destruct Hm; try (eapply QInv_sub; [|exact HS]; intros o' ax; unfold sched; sts; 
      try (destruct (decide _) as [->|]); by eauto).
    + intros o' ob' a x Ho'. unfold sched. sts. destruct (decide (o = o')) as [->|]; [|eauto].
      cbn. intros [?|Hx]%elem_of_app; [eauto|]. apply elem_of_list_singleton in Hx. by simplify_eq.
    + eapply QInv_sub; [|exact HS]. intros o' ax. sts. destruct (decide (o = o')) as [->|]; [|eauto].
      cbn. intros Hx. apply elem_of_list_lookup in Hx as [j Hj].
      destruct ax as [a0 x0]. exists x0. cbn.
      destruct (decide (j < i)).
      * rewrite lookup_delete_lt in Hj by done. by eapply elem_of_list_lookup_2.
      * rewrite lookup_delete_ge in Hj by lia. by eapply elem_of_list_lookup_2.
    + eapply QInv_sub; [|exact HS]. intros o' ax. sts. destruct (decide (o = o')) as [->|]; [|eauto].
      cbn. intros Hx. apply elem_of_list_lookup in Hx as [j Hj].
      destruct (decide (i = j)) as [->|Hne].
      * rewrite list_lookup_alter in Hj. destruct (_ !! j) as [[a0 x0]|] eqn:Ej; [|done].
        cbn in Hj. simplify_eq. eexists. by eapply elem_of_list_lookup_2.
      * rewrite list_lookup_alter_ne in Hj by done.
        destruct ax as [a0 x0]. exists x0. by eapply elem_of_list_lookup_2.
    + destruct (doStart_ok _ _ _ _ H H3) as (_ & _ & E). eapply QInv_sub; [|exact HS].
      intros o'. rewrite E. apply Hself.
    + destruct (doStart_ok _ _ _ _ H H4) as (_ & _ & E). eapply QInv_sub; [|exact HS].
      intros o'. rewrite E. cbn. destruct (createPlayer_ok _ _ _ H3). sts.
      destruct (decide (o' = o)) as [->|]; [rewrite cf_delayed|rewrite cf_other by done]; apply Hself.
    + destruct (doStop_ok _ _ _ _ H H5) as (_ & _ & E). eapply QInv_sub; [|exact HS].
      intros o' ax. rewrite E. cbn. destruct (decide _); [by intros ?%elem_of_nil|]. apply Hself.
    + destruct (mediaDoStop_ok _ _ (commit _ t s) _ H H4 H5) as (_ & _ & E). eapply QInv_sub; [|exact HS].
      intros o' ax. rewrite E. cbn. destruct (decide _); [by intros ?%elem_of_nil|]. apply Hself.
  - eapply QInv_sub; [|exact HS]; intros o' ax. rewrite tick_ob. destruct (decide _) as [[-> _]|]; [|apply Hself].
    cbn. unfold mark. intros ([a x] & -> & Hin)%elem_of_list_fmap. exists x. cbn. by destruct (_ <=? _)%N.
  - eapply QInv_sub; [|exact HS]; intros o' ax. sts. destruct (decide (o = o')) as [->|]; [|apply Hself].
    cbn. unfold purge. rewrite elem_of_list_In, filter_In, <- elem_of_list_In. intros [Hin _].
    destruct ax as [a x]; eauto.
  - done.
  - done.
  - done.
  - eapply QInv_sub; [|exact HS]; intros o' ax. sts. destruct (decide (o = o')) as [->|]; apply Hself.
Qed.

(** The induction principle used below: an invariant may assume the base
    invariants and any other established invariant [J]. *)
Lemma reach_ind (I : st -> Prop) :
  (forall s, init_ok D s -> I s) ->
  (forall s s', SelInv D s -> QInv D s -> I s -> astep D s s' -> I s') ->
  forall s, reach D s -> I s.
Proof.
  intros Hi Hs s Hr.
  cut (SelInv D s /\ QInv D s /\ I s); [tauto|]. revert s Hr.
  apply (reach_inv D rank WF); [tauto|tauto| |].
  - intros s s' (H1 & H2 & H3) Hst. split; [eapply SelInv_step; eauto|].
    split; [eapply QInv_step; eauto|]. eauto.
  - intros s Hin. split; [|split; [|auto]].
    + intros o ob c Ho Hc. by rewrite (in_selected _ _ Hin) in Hc.
    + intros o ob a x Ho Hc. rewrite (in_delayed _ _ Hin) in Hc. by apply elem_of_nil in Hc.
Qed.
End Inv.

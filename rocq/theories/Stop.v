(** Stop.v -- stopping an object stops what is on stage below it (C05). *)
From Verif Require Export StopSpec Inter PresInv.
Open Scope string_scope.
Open Scope list_scope.
Open Scope m_scope.

Section Stop.
Context (D : doc) (rank : oid -> nat) (WF : wf_at D rank).

Record same (s s' : st) (o : oid) : Prop := mkSameO {
  sm_ev : forall ob e, d_obj D !! o = Some ob -> e ∈ ob_events ob -> evState s' e = evState s e;
  sm_sel : o_selected (ostOf s' o) = o_selected (ostOf s o);
  sm_pl : o_player (ostOf s' o) = o_player (ostOf s o);
  sm_time : o_time (ostOf s' o) = o_time (ostOf s o);
  sm_del : o_delayed (ostOf s' o) = o_delayed (ostOf s o) }.
Lemma same_refl s o : same s s o. Proof. by split. Qed.
Lemma same_trans s1 s2 s3 o : same s1 s2 o -> same s2 s3 o -> same s1 s3 o.
Proof.
  intros [] []. split; try congruence. intros ob e Ho He. by rewrite (sm_ev1 ob e Ho He), (sm_ev0 ob e Ho He).
Qed.
Lemma lam_ev o ob : d_obj D !! o = Some ob -> ob_lambda ob ∈ ob_events ob.
Proof. intros Ho. destruct (wo_lambda _ _ _ _ (wf_o _ _ WF _ _ Ho)) as (ev & _ & _ & H). done. Qed.
Lemma same_lam s s' o ob : same s s' o -> d_obj D !! o = Some ob -> evState s' (ob_lambda ob) = evState s (ob_lambda ob).
Proof. intros H Ho. apply (sm_ev _ _ _ H ob); [done|]. by eapply lam_ev. Qed.
Lemma same_asleep s s' o : same s s' o -> asleep D s o -> asleep D s' o.
Proof.
  intros H (ob & Ho & H1 & H2 & H3 & H4). destruct H. exists ob. split; [done|]. split; [|split; [|split]]; try congruence.
  - intros e He. rewrite (sm_ev0 ob e Ho He). auto.
  - intros Hm. rewrite sm_pl0. auto.
Qed.
Lemma asleep_inactive s o : asleep D s o -> ~ activeObj D s o.
Proof.
  intros (ob & Ho & H1 & _) (ob' & Ho' & Ha). assert (ob' = ob) as -> by congruence. apply Ha, H1. by eapply lam_ev.
Qed.
Definition R (s s' : st) : Prop := forall o, same s s' o \/
  (asleep D s' o /\ forall o2, below D s o o2 -> activeObj D s o2 -> asleep D s' o2).
Lemma R_refl s : R s s. Proof. intros o. left. apply same_refl. Qed.
Lemma R_asleep s s' o : R s s' -> asleep D s o -> asleep D s' o.
Proof. intros H Ha. destruct (H o) as [Hs|[? _]]; [by eapply same_asleep|done]. Qed.
Lemma below_trans s a b c : below D s a b -> below D s b c -> below D s a c.
Proof. intros H1 H2. induction H2; eauto using below. Qed.
Lemma below_inactive s a b : below D s a b -> ~ activeObj D s a -> b = a.
Proof.
  intros H Ha. induction H as [|p pb c H IH Ho Hk Hac Hc|p pb c H IH Ho Hk Hac Hc]; [done| |].
  all: subst; destruct Ha; by exists pb.
Qed.
Lemma below_head s a b : below D s a b -> b = a \/ (exists ab c, d_obj D !! a = Some ab /\ below D s c b /\
  ((ob_kind ab = KContext /\ c ∈ ob_children ab) \/ (ob_kind ab = KSwitch /\ o_selected (ostOf s a) = Some c))).
Proof.
  intros H. induction H as [|p pb c H IH Ho Hk Ha Hc|p pb c H IH Ho Hk Ha Hc]; [by left| |]; right.
  - destruct IH as [->|(ab & d & H1 & H2 & H3)].
    + exists pb, c. split; [done|]. split; [apply be_self|]. by left.
    + exists ab, d. split; [done|]. split; [by eapply be_child|done].
  - destruct IH as [->|(ab & d & H1 & H2 & H3)].
    + exists pb, c. split; [done|]. split; [apply be_self|]. by right.
    + exists ab, d. split; [done|]. split; [by eapply be_sel|done].
Qed.
Lemma below_active s a b : below D s a b -> activeObj D s b -> activeObj D s a.
Proof.
  intros H. induction H as [|p pb c H IH Ho Hk Ha Hc|p pb c H IH Ho Hk Ha Hc]; [done| |]; intros _; apply IH; by exists pb.
Qed.
Lemma R_below s s1 a b : R s s1 -> below D s a b ->
  below D s1 a b \/ exists p, below D s p b /\ forall o2, below D s p o2 -> activeObj D s o2 -> asleep D s1 o2.
Proof.
  intros HR H. induction H as [|p pb c H IH Ho Hk Ha Hc|p pb c H IH Ho Hk Ha Hc]; [left; apply be_self| |].
  - destruct IH as [IH|(q & H1 & H2)].
    + destruct (HR p) as [Hs|[H1 H2]].
      * left. eapply be_child; eauto. by rewrite (same_lam _ _ _ _ Hs Ho).
      * right. exists p. split; [|done]. eapply be_child; eauto. apply be_self.
    + right. exists q. split; [by eapply be_child|done].
  - destruct IH as [IH|(q & H1 & H2)].
    + destruct (HR p) as [Hs|[H1 H2]].
      * left. eapply be_sel; eauto; [by rewrite (same_lam _ _ _ _ Hs Ho)|]. by rewrite (sm_sel _ _ _ Hs).
      * right. exists p. split; [|done]. eapply be_sel; eauto. apply be_self.
    + right. exists q. split; [by eapply be_sel|done].
Qed.
Lemma R_trans s s1 s2 : R s s1 -> R s1 s2 -> R s s2.
Proof.
  intros H1 H2 o. destruct (H1 o) as [Ha|[Ha1 Ha2]].
  - destruct (H2 o) as [Hb|[Hb1 Hb2]]; [left; by eapply same_trans|]. right. split; [done|]. intros o2 Hbe Hac.
    destruct (H1 o2) as [Hs|[Hs _]]; [|by eapply R_asleep].
    destruct (R_below _ _ _ _ H1 Hbe) as [Hbe1|(p & Hp1 & Hp2)].
    + apply Hb2; [done|]. destruct Hac as (ob & Ho & Hac). exists ob. split; [done|]. by rewrite (same_lam _ _ _ _ Hs Ho).
    + eapply R_asleep; [done|]. by apply Hp2.
  - right. split; [by eapply R_asleep|]. intros o2 Hbe Hac. eapply R_asleep; [done|]. by apply Ha2.
Qed.

Definition stopsR (s : st) (o : oid) (s' : st) : Prop := R s s' /\ (activeObj D s o -> asleep D s' o).
Lemma R_final s s1 s2 o : R s s1 -> (forall o', o' <> o -> same s1 s2 o') -> asleep D s2 o ->
  (forall o2, o2 <> o -> below D s o o2 -> activeObj D s o2 -> asleep D s1 o2) -> stopsR s o s2.
Proof.
  intros H1 H2 H3 H4. split; [|done]. intros o'. destruct (decide (o' = o)) as [->|Hne].
  - right. split; [done|]. intros o2 Hb Ha. destruct (decide (o2 = o)) as [->|Hne]; [done|]. eapply same_asleep; eauto.
  - destruct (H1 o') as [Hs|[Ha Hb]]; [left; eapply same_trans; eauto|]. right. split; [eapply same_asleep; eauto|].
    intros o2 Hbe Hac. destruct (decide (o2 = o)) as [->|]; [done|]. eapply same_asleep; [by apply H2|]. by apply Hb.
Qed.
Lemma other_event o ob o' ob' e : d_obj D !! o = Some ob -> d_obj D !! o' = Some ob' -> o' <> o -> e ∈ ob_events ob' -> ~ inEvents D o e.
Proof.
  intros Ho Ho' Hne He (ob2 & Ho2 & He2). assert (ob2 = ob) as -> by congruence.
  destruct (wo_events _ _ _ _ (wf_o _ _ WF _ _ Ho) _ He2) as (ev & H1 & H2).
  destruct (wo_events _ _ _ _ (wf_o _ _ WF _ _ Ho') _ He) as (ev' & H1' & H2'). congruence.
Qed.
Lemma doStop_stops o ob e t s1 s2 : d_obj D !! o = Some ob -> e ∈ ob_events ob -> is_media (ob_kind ob) = false ->
  doStop D o (commit e t s1) = Ok tt s2 -> (forall o', o' <> o -> same s1 s2 o') /\ asleep D s2 o.
Proof.
  intros Ho He Hk E. destruct (doStop_ok _ _ _ _ _ Ho E) as (_ & E2 & E3). split.
  - intros o' Hne. split.
    + intros ob' e' Ho' He'. unfold evState. rewrite E2. rewrite decide_False by (by eapply other_event).
      change (evState (commit e t s1) e' = evState s1 e'). sts. rewrite decide_False; [done|]. intros ->.
      eapply (other_event o ob o' ob'); eauto. by exists ob.
    + rewrite E3. cbn. by rewrite decide_False by done.
    + rewrite E3. cbn. by rewrite decide_False by done.
    + rewrite E3. cbn. by rewrite decide_False by done.
    + rewrite E3. cbn. by rewrite decide_False by done.
  - exists ob. split; [done|]. split; [|split; [|split]].
    + intros e' He'. unfold evState. rewrite E2. rewrite decide_True by (by exists ob). done.
    + by rewrite Hk.
    + rewrite E3. cbn. by rewrite decide_True by done.
    + rewrite E3. cbn. by rewrite decide_True by done.
Qed.
Lemma mediaDoStop_stops o ob e t s1 s2 : d_obj D !! o = Some ob -> e ∈ ob_events ob -> is_Some (o_player (ostOf s1 o)) ->
  mediaDoStop D o (commit e t s1) = Ok tt s2 -> (forall o', o' <> o -> same s1 s2 o') /\ asleep D s2 o.
Proof.
  intros Ho He Hp E. destruct (mediaDoStop_ok _ _ _ (commit e t s1) _ Ho Hp E) as (_ & E2 & E3). split.
  - intros o' Hne. split.
    + intros ob' e' Ho' He'. unfold evState. rewrite E2. rewrite decide_False by (by eapply other_event).
      change (evState (commit e t s1) e' = evState s1 e'). sts. rewrite decide_False; [done|]. intros ->.
      eapply (other_event o ob o' ob'); eauto. by exists ob.
    + rewrite E3. cbn. by rewrite decide_False by done.
    + rewrite E3. cbn. by rewrite decide_False by done.
    + rewrite E3. cbn. by rewrite decide_False by done.
    + rewrite E3. cbn. by rewrite decide_False by done.
  - exists ob. split; [done|]. split; [|split; [|split]].
    + intros e' He'. unfold evState. rewrite E2. rewrite decide_True by (by exists ob). done.
    + intros _. rewrite E3. cbn. by rewrite decide_True by done.
    + rewrite E3. cbn. by rewrite decide_True by done.
    + rewrite E3. cbn. by rewrite decide_True by done.
Qed.
Definition mid (s : st) (o : oid) (s1 : st) : Prop := exists s0, R s s0 /\ (forall o', o' <> o -> same s0 s1 o') /\
  (forall o2, o2 <> o -> below D s o o2 -> activeObj D s o2 -> asleep D s0 o2).
Lemma mid_final s o s1 s2 : mid s o s1 -> (forall o', o' <> o -> same s1 s2 o') -> asleep D s2 o -> stopsR s o s2.
Proof.
  intros (s0 & H1 & H2 & H3) H4 H5. eapply R_final; eauto. intros o' Hne. eapply same_trans; [by apply H2|by apply H4].
Qed.
Lemma R_stop n : forall t o ob s, isStop t -> d_obj D !! o = Some ob -> pwp (tr D n (ob_lambda ob) t) (fun _ s' => stopsR s o s') s.
Proof.
  induction n as [|n IH]; intros t o ob s Ht Ho; [exact I|].
  destruct (lambda_evt D rank WF _ _ Ho) as (ev & He & Hl & Hob).
  assert (Hty : ev_type ev = PRESENTATION).
  { unfold isLambda in Hl. apply andb_true_iff in Hl as [Hl _]. by apply bool_decide_eq_true in Hl. }
  rewrite tr_S. unfold tr_body. w1. wgetE ev' He'. assert (ev' = ev) as -> by congruence. w1. w1.
  destruct (legal (evState s (ob_lambda ob)) t) eqn:El; cbn [negb].
  2:{ w1. split; [apply R_refl|]. intros (ob' & Ho' & Ha). assert (ob' = ob) as -> by congruence.
      exfalso. destruct Ht as [-> | ->], (evState s (ob_lambda ob)); done. }
  assert (Hac : activeObj D s o).
  { exists ob. split; [done|]. intros E. rewrite E in El. by destruct Ht as [-> | ->]. }
  w1. eapply (wp_mono _ _ _ (fun b s1 => b = true /\ mid s o s1)).
  - unfold before. rewrite Hob. w1. wgetO ob' Ho'. assert (ob' = ob) as -> by congruence.
    destruct (ob_kind ob) eqn:Hk.
    + unfold ctx_before. rewrite Hty, Hl. w1. w1.
      assert (HL : pwp (do ob <- getO D o; foreach (fun c => do cb <- getO D c; tr D n (ob_lambda cb) t ;; ret tt) (ob_children ob) ;; ret true)
        (fun b s1 => b = true /\ mid s o s1) s).
      { w1. wgetO ob' Ho2. assert (ob' = ob) as -> by congruence. w1.
        apply (wp_foreach _ _ _ _ (fun l s1 => R s s1 /\ forall c, c ∈ ob_children ob -> c ∉ l -> activeObj D s c -> asleep D s1 c)).
        - split; [apply R_refl|]. intros c Hc Hn. done.
        - intros c l s1 _ [HR1 Hdone]. w1. wgetO cb Hcb. w1. eapply wp_mono; [by apply IH|].
          intros b s2 [HR2 Hst]. cbv beta. w1. split; [by eapply R_trans|]. intros c' Hc' Hn Ha.
          destruct (decide (c' = c)) as [->|Hne]; [|eapply R_asleep; [done|]; apply Hdone; [done| |done]; by intros [?|?]%elem_of_cons].
          destruct (HR1 c) as [Hs|[Hs _]]; [|by eapply R_asleep]. apply Hst.
          destruct Ha as (cb' & Hcb' & Ha). exists cb'. split; [done|]. by rewrite (same_lam _ _ _ _ Hs Hcb').
        - intros s1 [HR1 Hdone]. w1. split; [done|]. exists s1. split; [done|]. split; [intros; apply same_refl|]. intros o2 Hne Hb Ha.
          destruct (below_head _ _ _ Hb) as [->|(ab & c & Hab & Hbc & Hh)]; [done|]. assert (ab = ob) as -> by congruence.
          destruct Hh as [[_ Hc]|[? _]]; [|congruence].
          assert (Hca : activeObj D s c) by (by eapply below_active).
          destruct (HR1 c) as [Hs|[_ Hs]]; [|by apply Hs].
          exfalso. apply (asleep_inactive s1 c); [apply Hdone; [done|by intros ?%elem_of_nil|done]|].
          destruct Hca as (cb & Hcb & Hca). exists cb. split; [done|]. by rewrite (same_lam _ _ _ _ Hs Hcb). }
      destruct Ht as [-> | ->]; exact HL.
    + unfold sw_before. w1. eapply (wp_mono _ _ _ (fun _ s' => s' = s)).
      { eapply wp_mono; [by eapply (candidates_spec D rank WF)|]. intros r s' H. cbv beta in H |- *. tauto. }
      intros cands s0 ->. cbv beta. rewrite Hty.
      assert (HL : pwp (do s0 <- get; match o_selected (ostOf s0 o) with
         | Some c => do cb <- getO D c; tr D n (ob_lambda cb) t;;
                     modify (upd_ob o (os_set_selected None));; ret true
         | None => ret true end)
        (fun b s1 => b = true /\ mid s o s1) s).
      { w1. w1. destruct (o_selected (ostOf s o)) as [c|] eqn:Esel.
        - w1. wgetO cb Hcb. w1. eapply wp_mono; [by apply IH|]. intros b s1 [HR1 Hst]. cbv beta. w1. w1. w1. split; [done|].
          exists s1. split; [done|]. split.
          + intros o' Hne. split; intros; sts; try rewrite decide_False by done; done.
          + intros o2 Hne Hb Ha. destruct (below_head _ _ _ Hb) as [->|(ab & c' & Hab & Hbc & Hh)]; [done|].
            assert (ab = ob) as -> by congruence. destruct Hh as [[? _]|[_ Hc]]; [congruence|]. assert (c' = c) as -> by congruence.
            assert (Hca : activeObj D s c) by (by eapply below_active).
            destruct (HR1 c) as [Hs|[_ Hs]]; [|by apply Hs].
            exfalso. apply (asleep_inactive s1 c); [by apply Hst|].
            destruct Hca as (cb' & Hcb' & Hca). exists cb'. split; [done|]. by rewrite (same_lam _ _ _ _ Hs Hcb').
        - w1. split; [done|]. exists s. split; [apply R_refl|]. split; [intros; apply same_refl|]. intros o2 Hne Hb _.
          destruct (below_head _ _ _ Hb) as [->|(ab & c & Hab & Hbc & Hh)]; [done|]. assert (ab = ob) as -> by congruence.
          destruct Hh as [[? _]|[_ ?]]; congruence. }
      destruct Ht as [-> | ->]; exact HL.
    + unfold media_before. rewrite Hty. destruct Ht as [-> | ->]; w1; (split; [done|]; exists s; split; [apply R_refl|]; split; [intros; apply same_refl|]; intros o2 Hne Hb;
        destruct (below_head _ _ _ Hb) as [->|(ab & c & Hab & Hbc & Hh)]; [done|]; assert (ab = ob) as -> by congruence;
        destruct Hh as [[? _]|[? _]]; congruence).
    + unfold media_before. rewrite Hty. destruct Ht as [-> | ->]; w1; (split; [done|]; exists s; split; [apply R_refl|]; split; [intros; apply same_refl|]; intros o2 Hne Hb;
        destruct (below_head _ _ _ Hb) as [->|(ab & c & Hab & Hbc & Hh)]; [done|]; assert (ab = ob) as -> by congruence;
        destruct Hh as [[? _]|[? _]]; congruence).
  - intros b s1 [-> Hm]. cbv beta. cbn [negb]. w1. w1. w1. w1. w1. fold (commit (ob_lambda ob) t s1).
    pose proof (lam_ev _ _ Ho) as Hin.
    eapply (wp_mono _ _ _ (fun b s' => b = true /\ stopsR s o s')); [|intros b s2 [-> H2]; by w1].
    unfold after. rewrite Hob. w1. wgetO ob' Ho'. assert (ob' = ob) as -> by congruence.
    assert (HS : is_media (ob_kind ob) = false -> pwp (doStop D o ;; ret true) (fun b s' => b = true /\ stopsR s o s') (commit (ob_lambda ob) t s1)).
    { intros Hk. w1. apply pwp_intro. intros [] s2 E. cbv beta. w1. split; [done|].
      destruct (doStop_stops _ _ _ _ _ _ Ho Hin Hk E) as [H1 H2]. by eapply mid_final. }
    assert (HM : pwp (media_after D o (ob_lambda ob) ev t) (fun b s' => b = true /\ stopsR s o s') (commit (ob_lambda ob) t s1)).
    { unfold media_after. w1. w1. cbv zeta. rewrite Hty, Hl.
      assert (HM' : pwp (assertm (bool_decide (o_player (ostOf (commit (ob_lambda ob) t s1) o) <> None)) "Media.cpp:370" ;; mediaDoStop D o ;; ret true)
        (fun b s' => b = true /\ stopsR s o s') (commit (ob_lambda ob) t s1)).
      { w1. w1. w1. apply pwp_intro. intros [] s2 E. cbv beta. w1. split; [done|].
        apply bool_decide_eq_true in H. sts_in H.
        assert (Hp : is_Some (o_player (ostOf s1 o))) by (destruct (o_player (ostOf s1 o)); [by eexists|done]).
        destruct (mediaDoStop_stops _ _ _ _ _ _ Ho Hin Hp E) as [H1 H2]. by eapply mid_final. }
      destruct Ht as [-> | ->]; exact HM'. }
    destruct (ob_kind ob) eqn:Hk; [| |exact HM|exact HM].
    + unfold ctx_after. rewrite Hty, Hl. w1. w1. destruct Ht as [-> | ->]; by apply HS.
    + unfold sw_after. rewrite Hty. destruct Ht as [-> | ->]; by apply HS.
Qed.

(** ** Stopping never fails. *)
Definition J (s : st) : Prop := BInv D s /\ PlayerInv D s.
Lemma J_step s s' : J s -> astep D s s' -> J s'.
Proof.
  intros [H1 H2] Hst. split; [by eapply BInv_step|]. eapply player_step; eauto. by eapply astep_pstep.
Qed.
Lemma J_reach s : reach D s -> J s.
Proof. intros H. split; [by eapply BInv_reach|by eapply player_reach]. Qed.
Lemma J_tr n e t s : valid_evt D e -> J s -> pwp (tr D n e t) (fun _ s' => J s') s.
Proof.
  intros He. revert s. eapply (tr_loop_inv D rank WF J); [by intros s [(?&?&?) ?]|by intros s [(?&?&?) ?]| |done].
  intros s s' Hs Hm. eapply J_step; [exact Hs|]. by constructor.
Qed.
Notation fwp := (wp False False).
Lemma fwp_of {A} (m : ME A) (Q : A -> st -> Prop) s : fwp m (fun _ _ => True) s -> pwp m Q s -> fwp m Q s.
Proof. unfold wp. by destruct (m s). Qed.
Lemma fwp_getO o ob (Q : obj -> st -> Prop) s : d_obj D !! o = Some ob -> Q ob s -> fwp (getO D o) Q s.
Proof. intros Ho HQ. apply wp_getO; [congruence|]. intros ob' Ho'. by assert (ob' = ob) as -> by congruence. Qed.
Lemma fwp_getE o ob (Q : evt -> st -> Prop) s : d_evt D !! o = Some ob -> Q ob s -> fwp (getE D o) Q s.
Proof. intros Ho HQ. apply wp_getE; [congruence|]. intros ob' Ho'. by assert (ob' = ob) as -> by congruence. Qed.
Lemma parent_valid o ob p : d_obj D !! o = Some ob -> ob_parent ob = Some p -> d_obj D !! p = None -> False.
Proof. intros Ho Hp Hn. destruct (wo_parent _ _ _ _ (wf_o _ _ WF _ _ Ho) _ Hp) as (pb & Hpb & _). congruence. Qed.
Lemma child_rank o ob c : d_obj D !! o = Some ob -> c ∈ ob_children ob -> exists cb, d_obj D !! c = Some cb /\ rank c < rank o.
Proof.
  intros Ho Hc. destruct (wo_children _ _ _ _ (wf_o _ _ WF _ _ Ho) _ Hc) as (cb & Hcb & Hpar).
  destruct (wo_parent _ _ _ _ (wf_o _ _ WF _ _ Hcb) _ Hpar) as (pb & _ & _ & _ & Hr). eauto.
Qed.
Lemma doStop_f o ob s : d_obj D !! o = Some ob -> fwp (doStop D o) (fun _ _ => True) s.
Proof. intros Ho. apply wp_doStop; [congruence| |done]. intros ob' p Ho' Hp Hn. by eapply parent_valid. Qed.
Lemma stop_total n : forall t o ob s, isStop t -> d_obj D !! o = Some ob -> rank o < n -> J s ->
  fwp (tr D n (ob_lambda ob) t) (fun _ s' => J s') s.
Proof.
  induction n as [|n IH]; intros t o ob s Ht Ho Hn HJ; [lia|].
  destruct (lambda_evt D rank WF _ _ Ho) as (ev & He & Hl & Hob).
  apply fwp_of; [|apply J_tr; [by eexists|done]].
  assert (Hty : ev_type ev = PRESENTATION).
  { unfold isLambda in Hl. apply andb_true_iff in Hl as [Hl _]. by apply bool_decide_eq_true in Hl. }
  rewrite tr_S. unfold tr_body. w1. eapply fwp_getE; [done|]. cbv beta. w1. w1.
  destruct (legal (evState s (ob_lambda ob)) t) eqn:El; cbn [negb]; [|by w1].
  assert (Hact : evState s (ob_lambda ob) <> SLEEPING).
  { intros E. rewrite E in El. by destruct Ht as [-> | ->]. }
  w1. rewrite Hob. 
  eapply (wp_mono _ _ _ (fun _ s1 => J s1 /\ (is_media (ob_kind ob) = true -> s1 = s))).
  - unfold before. w1. eapply fwp_getO; [done|]. cbv beta. destruct (ob_kind ob) eqn:Hk.
    + unfold ctx_before. rewrite Hty, Hl. w1. w1; [done|]. 
      assert (HL : fwp (do ob <- getO D o; foreach (fun c => do cb <- getO D c; tr D n (ob_lambda cb) t ;; ret tt) (ob_children ob) ;; ret true)
        (fun _ s1 => J s1) s).
      { w1. eapply fwp_getO; [done|]. cbv beta. w1. apply (wp_foreach_inv _ _ _ _ J); [done| |intros s1 H1; by w1].
        intros c s1 Hc H1. destruct (child_rank _ _ _ Ho Hc) as (cb & Hcb & Hr). w1. eapply fwp_getO; [done|]. cbv beta.
        w1. eapply wp_mono; [eapply IH; eauto; lia|]. intros b s2 H2. by w1. }
      eapply wp_mono; [destruct Ht as [-> | ->]; exact HL|]. intros b s1 H1. split; [done|]. done.
    + unfold sw_before. w1. unfold sw_candidates. w1. eapply fwp_getO; [done|]. cbv beta. rewrite Hl.
      eapply (wp_mono _ _ _ (fun _ s' => s' = s)).
      { pose proof (wo_children _ _ _ _ (wf_o _ _ WF _ _ Ho)) as Hch.
        revert Hch. generalize (ob_children ob) as l. induction l as [|x l IHl]; intros Hch; [by w1|].
        destruct (Hch x) as (xb & Hxb & _); [left|]. w1. eapply fwp_getO; [done|]. cbv beta. w1.
        eapply wp_mono; [apply IHl; intros; apply Hch; by right|]. intros r s' ->. by w1. }
      intros cands s0 ->. cbv beta. rewrite Hty.
      assert (HL : fwp (do s0 <- get; match o_selected (ostOf s0 o) with
         | Some c => do cb <- getO D c; tr D n (ob_lambda cb) t;;
                     modify (upd_ob o (os_set_selected None));; ret true
         | None => ret true end) (fun _ s1 => J s1) s).
      { w1. w1. destruct (o_selected (ostOf s o)) as [c|] eqn:Esel; [|by w1].
        destruct HJ as [(HS & HQ & HO) HP]. pose proof (HS _ _ _ Ho Esel) as Hc.
        destruct (child_rank _ _ _ Ho Hc) as (cb & Hcb & Hr). w1. eapply fwp_getO; [done|]. cbv beta.
        w1. eapply wp_mono; [eapply IH; eauto; [lia|done]|]. intros b s2 H2. w1. w1. w1. eapply J_step; [exact H2|]. constructor.
        eapply ms_select; eauto. done. }
      eapply wp_mono; [destruct Ht as [-> | ->]; exact HL|]. intros b s1 H1. split; [done|]. done.
    + unfold media_before. rewrite Hty. destruct Ht as [-> | ->]; by w1.
    + unfold media_before. rewrite Hty. destruct Ht as [-> | ->]; by w1.
  - intros b s1 [HJ1 Hs1]. cbv beta. destruct b; cbn [negb]; [|by w1]. w1. w1. w1. w1. w1. fold (commit (ob_lambda ob) t s1).
    eapply (wp_mono _ _ _ (fun _ _ => True)).
    2:{ intros b s2 _. destruct b; by repeat w1. }
    unfold after. w1. eapply fwp_getO; [done|]. cbv beta.
    assert (HM : is_media (ob_kind ob) = true -> fwp (media_after D o (ob_lambda ob) ev t) (fun _ _ => True) (commit (ob_lambda ob) t s1)).
    { intros Hm. unfold media_after. w1. w1. cbv zeta. rewrite Hty, Hl. rewrite (Hs1 Hm) in *.
      assert (Hp : is_Some (o_player (ostOf s o))).
      { destruct HJ as [_ HP]. specialize (HP _ _ Ho). rewrite Hm, bool_decide_true in HP by done. unfold pl in HP.
        destruct (o_player (ostOf s o)); [by eexists|done]. }
      assert (HM' : fwp (assertm (bool_decide (o_player (ostOf (commit (ob_lambda ob) t s) o) <> None)) "Media.cpp:370" ;; mediaDoStop D o ;; ret true)
        (fun _ _ => True) (commit (ob_lambda ob) t s)).
      { w1. apply wp_assert; [intros E; apply bool_decide_eq_false in E; apply E; sts; by destruct Hp as [? ->]|].
        intros _. w1. apply wp_mediaDoStop; [congruence| |done|intros; by w1]. intros ob' p Ho' Hp' Hn'. by eapply parent_valid. }
      destruct Ht as [-> | ->]; exact HM'. }
    destruct (ob_kind ob) eqn:Hk; [| |by apply HM|by apply HM].
    + unfold ctx_after. rewrite Hty, Hl. w1. w1; [done|].
      destruct Ht as [-> | ->]; (w1; eapply wp_mono; [by eapply doStop_f|]; intros; by w1).
    + unfold sw_after. rewrite Hty. 
      destruct Ht as [-> | ->]; (w1; eapply wp_mono; [by eapply doStop_f|]; intros; by w1).
Qed.
End Stop.

(** Delay.v -- delayed actions: never early, in order, and not forgotten. *)
From Verif Require Export Queue.
Open Scope string_scope.
Open Scope list_scope.

Section Delay.
Context (D : doc) (rank : oid -> nat) (WF : wf_at D rank).

Lemma elem_delete {A} (l : list A) i x : x ∈ delete i l -> x ∈ l.
Proof.
  intros Hx. apply elem_of_list_lookup in Hx as [j Hj]. destruct (decide (j < i)).
  - rewrite lookup_delete_lt in Hj by done. by eapply elem_of_list_lookup_2.
  - rewrite lookup_delete_ge in Hj by lia. by eapply elem_of_list_lookup_2.
Qed.
Lemma elem_alter {A} (f : A -> A) (l : list A) i x : x ∈ alter f i l -> x ∈ l \/ exists y, l !! i = Some y /\ x = f y.
Proof.
  intros Hx. apply elem_of_list_lookup in Hx as [j Hj]. destruct (decide (i = j)) as [->|Hne].
  - rewrite list_lookup_alter in Hj. destruct (l !! j) as [y|] eqn:E; [|done]. right. exists y.
    split; [done|]. by injection Hj.
  - rewrite list_lookup_alter_ne in Hj by done. left. by eapply elem_of_list_lookup_2.
Qed.

(** *** Never early. *)
Definition OnTime (o : oid) (l : list action) (s : st) : Prop :=
  Base D s /\ ((totalTicks (s_log s) < TIME_NONE)%N ->
    (forall a x, (a, x) ∈ q s o -> x <> TIME_NONE -> schedSince D o a x (s_log s)) /\
    (forall a, a ∈ l -> dueAtTick D o a (s_log s)) /\
    firedOnTime D o (s_log s)).

Lemma deadline_clock s o ob d : ClockInv D s -> d_obj D !! o = Some ob ->
  tadd (o_time (ostOf s o)) d = deadline D o d (s_log s).
Proof.
  intros HC Ho. destruct (HC o ob Ho) as [_ ->]. unfold tadd, deadline, clockVal.
  destruct (sinceStart D o (s_log s)) as [n|]; [|done]. by rewrite N.add_mod_idemp_l.
Qed.
Lemma not_end o o1 ob e t : d_obj D !! o1 = Some ob -> e ∈ ob_events ob ->
  ~ (o1 = o /\ mainE D o1 ob e /\ ends t = true) -> (mainb D o e && ends t)%bool = false.
Proof.
  intros Ho He Hn. destruct (decide (o1 = o)) as [->|Hne].
  - destruct (mainb D o e) eqn:E; [|done]. apply (mainb_spec D _ _ _ Ho) in E. cbn.
    destruct (ends t); [|done]. exfalso. tauto.
  - by rewrite (mainb_other D rank WF o1 ob e o).
Qed.
Lemma tsub_add x b : (b <= x)%N -> x <> TIME_NONE -> (x < W64)%N -> (tsub x b + b)%N = x.
Proof.
  intros Hb Hx Hw. unfold tsub.
  replace (x + W64 - b)%N with ((x - b) + 1 * W64)%N by lia.
  rewrite N.mod_add by done. rewrite N.mod_small by lia. lia.
Qed.

(** Deadlines fit in 64 bits. *)
Definition QBound (s : st) : Prop := forall o ob a x, d_obj D !! o = Some ob -> (a, x) ∈ q s o -> (x < W64)%N.
Lemma tadd_lt x d : (tadd x d < W64)%N.
Proof. unfold tadd. by apply N.mod_lt. Qed.
Lemma QBound_bstep s s' : QBound s -> bstep D s s' -> QBound s'.
Proof.
  intros H Hst o ob a x Ho. apply (bstep_qstep D) in Hst.
  destruct Hst as [new Hq Hl Hd|o1 ob1 a1 d Ho1 Hq Hq' Hl|o1 ob1 i a1 x1 Ho1 Hsk Hi Hq Hq' Hl|o1 ob1 b i a1 x1 Ho1 Hsk Hi Hx Hb Hq Hq' Hl
    |o1 ob1 e t new Ho1 He Hn Hq Hl Hd|o1 ob1 e t new Ho1 He Hm Hn Hq Hq' Hl Hd].
  - rewrite Hq. by eapply H.
  - destruct (decide (o1 = o)) as [->|Hne]; [|rewrite Hq' by done; by eapply H].
    rewrite Hq. intros [Hi|Hi]%elem_of_app; [by eapply H|]. apply elem_of_list_singleton in Hi as [= -> ->]. apply tadd_lt.
  - destruct (decide (o1 = o)) as [->|Hne]; [|rewrite Hq' by done; by eapply H].
    rewrite Hq. intros Hx%elem_delete. by eapply H.
  - destruct (decide (o1 = o)) as [->|Hne]; [|rewrite Hq' by done; by eapply H].
    rewrite Hq. intros [Hx'|([a2 x2] & _ & [= -> ->])]%elem_alter; [by eapply H|]. apply N.mod_lt. done.
  - rewrite Hq. by eapply H.
  - destruct (decide (o1 = o)) as [->|Hne]; [|rewrite Hq' by done; by eapply H].
    rewrite Hq. by intros ?%elem_of_nil.
Qed.
Lemma QBound_step s s' : QBound s -> astep D s s' -> QBound s'.
Proof.
  intros H Hst. destruct Hst as [s s' Hm|s o ob d Ho Hv|s o ob Ho|s o a|s o k p|s w h|s o ob b Ho].
  - eapply QBound_bstep; [exact H|]. by constructor.
  - intros o' ob' a x Ho'. unfold q. rewrite (tick_ob). destruct (decide _) as [[<- _]|]; [|by eapply H].
    cbn. unfold mark. intros ([a1 x1] & E & Hin)%elem_of_list_fmap. cbn in E.
    destruct (x1 <=? _)%N; simplify_eq; [done|]. by eapply H.
  - intros o' ob' a x Ho'. unfold q. sts. destruct (decide (o = o')) as [<-|]; [|by eapply H].
    cbn. unfold purge. rewrite elem_of_list_In, filter_In, <- elem_of_list_In. intros [Hin _]. by eapply H.
  - done.
  - done.
  - done.
  - intros o' ob' a x Ho'. unfold q. sts. destruct (decide (o = o')) as [<-|]; by eapply H.
Qed.
Lemma QBound_init s : init_ok D s -> QBound s.
Proof. intros Hi o ob a x _. unfold q. rewrite (in_delayed _ _ Hi). by intros ?%elem_of_nil. Qed.

Lemma OnTime_bstep o ob l s s' : d_obj D !! o = Some ob -> QBound s ->
  OnTime o l s -> bstep D s s' -> OnTime o l s'.
Proof.
  intros Ho HQB [HB H] Hst. split; [by eapply Base_bstep|]. assert (Hst' := Hst).
  apply (bstep_qstep D) in Hst.
  destruct Hst as [new Hq Hl Hd|o1 ob1 a1 d Ho1 Hq Hq' Hl|o1 ob1 i a1 x1 Ho1 Hsk Hi Hq Hq' Hl|o1 ob1 b i a1 x1 Ho1 Hsk Hi Hx Hb Hq Hq' Hl
    |o1 ob1 e t new Ho1 He Hn Hq Hl Hd|o1 ob1 e t new Ho1 He Hm Hn Hq Hq' Hl Hd]; rewrite Hl.
  - rewrite totalTicks_dull by done. intros Ht. destruct (H Ht) as (H1 & H2 & H3). split; [|split].
    + intros a x. rewrite Hq, schedSince_dull by done. apply H1.
    + intros a. rewrite dueAtTick_dull by done. apply H2.
    + by rewrite firedOnTime_dull.
  - cbn [totalTicks schedSince dueAtTick firedOnTime]. intros Ht. destruct (H Ht) as (H1 & H2 & H3).
    split; [|by split]. intros a x. destruct (decide (o1 = o)) as [->|Hne].
    + rewrite Hq. intros [Hi|Hi]%elem_of_app Hx; [right; by apply H1|].
      apply elem_of_list_singleton in Hi as [= -> ->]. left. split; [done|]. split; [done|].
      destruct HB as (_ & _ & HC). by eapply deadline_clock.
    + rewrite Hq' by done. intros Hi Hx. right. by apply H1.
  - cbn [totalTicks schedSince dueAtTick firedOnTime]. intros Ht. destruct (H Ht) as (H1 & H2 & H3).
    split; [|by split]. intros a x. destruct (decide (o1 = o)) as [->|Hne].
    + rewrite Hq. intros Hx%elem_delete. by apply H1.
    + rewrite Hq' by done. by apply H1.
  - cbn [totalTicks schedSince dueAtTick firedOnTime]. intros Ht. destruct (H Ht) as (H1 & H2 & H3).
    split; [|by split]. intros a x. destruct (decide (o1 = o)) as [->|Hne].
    + rewrite Hq. intros [Hin|([a2 x2] & Hi2 & [= -> ->])]%elem_alter Hxn; [right; by apply H1|].
      left. cbn [fst snd]. rewrite Hi in Hi2. injection Hi2 as <- <-. split; [done|]. split; [done|].
      rewrite tsub_add; [|done|done|]. 2:{ eapply (HQB o); [exact Ho|]. by eapply elem_of_list_lookup_2. }
      apply H1; [|done]. by eapply elem_of_list_lookup_2.
    + rewrite Hq' by done. intros Hin Hxn. right. by apply H1.
  - cbn [totalTicks schedSince dueAtTick firedOnTime]. rewrite totalTicks_dull by done. intros Ht.
    destruct (H Ht) as (H1 & H2 & H3). split; [|split].
    + intros a x. rewrite Hq, schedSince_dull by done. split; [|by apply H1].
      eapply not_end; [done|done|]. tauto.
    + intros a. rewrite dueAtTick_dull by done. apply H2.
    + by rewrite firedOnTime_dull.
  - rewrite totalTicks_dull by done. cbn [totalTicks]. intros Ht. destruct (H Ht) as (H1 & H2 & H3). split; [|split].
    + intros a x. rewrite schedSince_dull by done. cbn [schedSince]. destruct (decide (o1 = o)) as [->|Hne].
      * rewrite Hq. by intros ?%elem_of_nil.
      * rewrite Hq' by done. intros Hin Hx. split; [|by apply H1]. eapply not_end; [done|done|]. tauto.
    + intros a. rewrite dueAtTick_dull by done. apply H2.
    + by rewrite firedOnTime_dull.
Qed.

Definition OnTimeB (o : oid) (l : list action) (s : st) : Prop := OnTime o l s /\ QBound s.
Lemma OnTimeB_objTick n o ob o1 d : d_obj D !! o = Some ob -> keepsI (OnTimeB o []) (objTick D n o1 d).
Proof.
  intros Ho s Hs. destruct (d_obj D !! o1) as [ob1|] eqn:Ho1.
  2:{ unfold objTick. w1. w1. w1. unfold isOccurring, objState. w1. w1. apply wp_getO; [done|]. intros ob' Ho'. congruence. }
  eapply wp_mono; [eapply (tick_generic D rank WF (fun l => OnTimeB o (if decide (o1 = o) then l else [])) o1 ob1 d n s); try done|].
  - intros l s1 [[H _] _]. done.
  - intros l s1 s2 [H1 H2] Hst. split; [by eapply OnTime_bstep|by eapply QBound_bstep].
  - intros a l s1 [[HB H] HQB]. split; [|done]. split; [eapply Base_step; [exact WF|exact HB|apply as_trig]|].
    cbn [log s_log totalTicks schedSince dueAtTick firedOnTime]. intros Ht.
    destruct (H Ht) as (H1 & H2 & H3). split; [apply H1|]. split.
    + destruct (decide (o1 = o)); [|by intros ? ?%elem_of_nil]. intros a' Ha'. apply H2. by right.
    + split; [|done]. intros ->. rewrite decide_True in H2 by done. apply H2. left.
  - intros l s1 [[HB H] HQB]. split; [|done]. split; [done|]. intros Ht. destruct (H Ht) as (H1 & H2 & H3).
    split; [done|]. split; [|done]. destruct (decide _); by intros ? ?%elem_of_nil.
  - intros s1 [[HB H] HQB]. assert (Hp : astep D s1 (upd_ob o1 (fun x => os_set_delayed (purge (o_delayed x)) x) s1)) by (by eapply as_purge).
    split; [|by eapply QBound_step]. split; [by eapply Base_step|].
    sts. intros Ht. destruct (H Ht) as (H1 & H2 & H3). split; [|by split].
    intros a x. unfold q. sts. destruct (decide (o1 = o)) as [->|Hne]; [|apply H1].
    cbn. unfold purge. rewrite elem_of_list_In, filter_In, <- elem_of_list_In. intros [Hin _]. by apply H1.
  - by destruct (decide (o1 = o)).
  - intros Hne. destruct Hs as [[HB H] HQB].
    assert (Hp : astep D s (tickState D o1 ob1 d s)) by (by eapply as_tick).
    split; [|by eapply QBound_step]. split; [by eapply Base_step|].
    rewrite tick_log. cbn [totalTicks schedSince firedOnTime]. intros Ht. destruct (H ltac:(lia)) as (H1 & H2 & H3).
    split; [|split; [|done]].
    + intros a x. unfold q. rewrite tick_ob, decide_False by tauto. apply H1.
    + destruct (decide (o1 = o)); by intros ? ?%elem_of_nil.
  - intros Hoc Hv. destruct Hs as [[HB H] HQB].
    assert (Hp : astep D s (tickState D o1 ob1 d s)) by (by eapply as_tick).
    split; [|by eapply QBound_step]. split; [by eapply Base_step|].
    rewrite tick_log. intros Ht. assert (Ht' := Ht). cbn [totalTicks schedSince firedOnTime] in *.
    destruct (H ltac:(lia)) as (H1 & H2 & H3). destruct HB as (_ & _ & HC). split; [|split; [|done]].
    + intros a x. unfold q. rewrite tick_ob. destruct (decide _) as [[-> _]|]; [|apply H1].
      cbn. unfold mark. intros ([a1 x1] & E & Hin)%elem_of_list_fmap Hx. cbn in E.
      destruct (x1 <=? _)%N; simplify_eq. by apply H1.
    + destruct (decide (o1 = o)) as [->|]; [|by intros ? ?%elem_of_nil].
      destruct (tadd_bound D s o ob1 d HC Ho1 Hv Hoc Ht') as (m & Em & Et & Hm). rewrite Et.
      intros a Ha. unfold due in Ha. apply elem_of_list_fmap in Ha as ([a' x] & -> & Hin).
      rewrite elem_of_list_In, filter_In, <- elem_of_list_In in Hin. destruct Hin as [Hin Hle]. cbn in Hle. apply N.leb_le in Hle.
      cbn [dueAtTick fst]. split; [done|]. exists x, m. split; [|by split]. apply H1; [done|]. lia.
  - intros [] s' H'. cbv beta in H'. by destruct (decide (o1 = o)).
Qed.
Theorem never_early s o ob : reach D s -> d_obj D !! o = Some ob ->
  (totalTicks (s_log s) < TIME_NONE)%N -> firedOnTime D o (s_log s).
Proof.
  intros Hr Ho Ht. cut (OnTimeB o [] s).
  { intros [[_ H] _]. by apply H. }
  clear Ht. revert s Hr. apply (from_inv0 D rank WF (OnTimeB o [])).
  - intros s [[(H & _) _] _]; done.
  - intros s [[(_ & H & _) _] _]; done.
  - intros s s' [H1 H2] Hst. split; [by eapply OnTime_bstep|by eapply QBound_bstep].
  - intros n o' d. by eapply OnTimeB_objTick.
  - intros s Hi. split; [|by apply QBound_init]. split; [by apply Base_init|]. intros _.
    unfold q. rewrite (in_delayed _ _ Hi), (in_log _ _ Hi). split; [by intros ? ? ?%elem_of_nil|].
    split; [by intros ? ?%elem_of_nil|done].
Qed.

(** *** In the order of scheduling. *)
Lemma schedsOf_dull o new h : Forall dull new -> schedsOf o (new ++ h) = schedsOf o h.
Proof. induction 1 as [|x l Hx _ IH]; cbn; [done|]. by destruct x. Qed.
Lemma map_fst_alter (l : list (action * N)) i b :
  map fst (alter (fun ax => (fst ax, tsub (snd ax) b)) i l) = map fst l.
Proof. revert i. induction l as [|y l IH]; intros [|i]; cbn; [done|done|done|]. f_equal. apply IH. Qed.
Lemma sublist_map {A B} (f : A -> B) l k : l `sublist_of` k -> map f l `sublist_of` map f k.
Proof. induction 1; cbn; by constructor. Qed.
Lemma map_fst_delete (l : list (action * N)) i : map fst (delete i l) `sublist_of` map fst l.
Proof. apply sublist_map. apply sublist_delete. Qed.
Lemma order_reach s o ob : reach D s -> d_obj D !! o = Some ob -> map fst (q s o) `sublist_of` schedsOf o (s_log s).
Proof.
  intros Hr Ho. cut (Base D s /\ map fst (q s o) `sublist_of` schedsOf o (s_log s)); [tauto|].
  revert s Hr. apply (reach_inv D rank WF (fun s => Base D s /\ map fst (q s o) `sublist_of` schedsOf o (s_log s))).
  { by intros s [(H & _) _]. } { by intros s [(_ & H & _) _]. }
  2:{ intros s Hi. split; [by apply Base_init|]. unfold q. rewrite (in_delayed _ _ Hi). apply sublist_nil_l. }
  intros s s' [HB H] Hst. split; [by eapply Base_step|].
  assert (Hb : forall s', bstep D s s' -> map fst (q s' o) `sublist_of` schedsOf o (s_log s')).
  { clear Hst s'. intros s' Hst. apply (bstep_qstep D) in Hst.
    destruct Hst as [new Hq Hl Hd|o1 ob1 a1 d Ho1 Hq Hq' Hl|o1 ob1 i a1 x1 Ho1 Hsk Hi Hq Hq' Hl|o1 ob1 b i a1 x1 Ho1 Hsk Hi Hx Hb Hq Hq' Hl
      |o1 ob1 e t new Ho1 He Hn Hq Hl Hd|o1 ob1 e t new Ho1 He Hm Hn Hq Hq' Hl Hd]; rewrite Hl.
    - rewrite Hq, schedsOf_dull by done. done.
    - cbn [schedsOf]. destruct (decide (o1 = o)) as [->|Hne].
      + rewrite Hq, map_app. by apply sublist_app.
      + rewrite Hq', app_nil_r by done. done.
    - cbn [schedsOf]. destruct (decide (o1 = o)) as [->|Hne]; [|by rewrite Hq'].
      rewrite Hq. etrans; [apply map_fst_delete|done].
    - cbn [schedsOf]. destruct (decide (o1 = o)) as [->|Hne]; [|by rewrite Hq'].
      rewrite Hq, map_fst_alter. done.
    - cbn [schedsOf]. rewrite Hq, schedsOf_dull by done. done.
    - rewrite schedsOf_dull by done. cbn [schedsOf]. destruct (decide (o1 = o)) as [->|Hne]; [|by rewrite Hq'].
      rewrite Hq. apply sublist_nil_l. }
  destruct Hst as [s s' Hm|s o1 ob1 d Ho1 Hv|s o1 ob1 Ho1|s o1 a|s o1 k p|s w h|s o1 ob1 b Ho1].
  - apply Hb. by constructor.
  - rewrite tick_log. unfold q. rewrite tick_ob. cbn [schedsOf]. destruct (decide _) as [[-> _]|]; [|done].
    cbn. unfold mark. rewrite map_map. erewrite map_ext; [done|]. intros [a x]. cbn. by destruct (_ <=? _)%N.
  - unfold q. sts. destruct (decide (o1 = o)) as [->|]; [|done]. cbn. etrans; [|exact H].
    apply sublist_map. unfold q, purge. clear. induction (o_delayed (ostOf s o)) as [|y l IH]; cbn; [done|].
    destruct (negb _); [by constructor|by constructor].
  - done.
  - apply Hb. apply bs_key.
  - apply Hb. apply bs_size.
  - apply Hb. by eapply bs_links.
Qed.

(** *** At the tick that reaches the deadline. *)
Lemma tick_exact n o ob d s s' :
  reach D s -> d_obj D !! o = Some ob -> evState s (ob_lambda ob) = OCCURRING ->
  objTick D n o d s = Ok tt s' ->
  exists l1 l2, due (tadd (o_time (ostOf s o)) d) (q s o) = l1 ++ l2 /\
    trigsOf o (s_log s') = trigsOf o (s_log s) ++ l1 /\
    (l2 <> [] -> evState s' (ob_lambda ob) <> OCCURRING).
Proof.
  intros Hr Ho Hoc E.
  assert (HB : Base D s).
  { revert s Hr Hoc E. intros s Hr _ _. revert s Hr. apply (reach_inv D rank WF (Base D)); try done.
    { by intros s (H & _). } { by intros s (_ & H & _). } { intros s1 s2. by apply (Base_step D rank WF). } by apply Base_init. }
  set (l := due (tadd (o_time (ostOf s o)) d) (q s o)).
  set (I := fun T s1 => Base D s1 /\ trigsOf o (s_log s1) = T).
  assert (HI : forall T s1 s2, I T s1 -> bstep D s1 s2 -> I T s2).
  { intros T s1 s2 [H1 H2] Hst. split; [by eapply Base_bstep|]. apply (bstep_qstep D) in Hst.
    destruct Hst as [new Hq Hl Hd|o1 ob1 a1 d1 Ho1 Hq Hq' Hl|o1 ob1 i a1 x1 Ho1 Hsk Hi Hq Hq' Hl|o1 ob1 b i a1 x1 Ho1 Hsk Hi Hx Hb Hq Hq' Hl
      |o1 ob1 e t new Ho1 He Hn Hq Hl Hd|o1 ob1 e t new Ho1 He Hm Hn Hq Hq' Hl Hd]; rewrite Hl; cbn [trigsOf];
    rewrite ?trigsOf_dull by done; done. }
  assert (Hrun : forall l T s1, valid_acts D l -> I T s1 -> evState s1 (ob_lambda ob) = OCCURRING ->
     pwp (run_triggered D n o l) (fun fin s2 => exists l1 l2, l = l1 ++ l2 /\ I (T ++ l1) s2 /\
        (if fin then l2 = [] else evState s2 (ob_lambda ob) <> OCCURRING)) s1).
  { clear l E. induction l as [|a l IH]; intros T s1 Hv H1 Ho1; cbn [run_triggered].
    - w1. exists [], []. rewrite (app_nil_r T). done.
    - w1. w1. w1. eapply wp_mono.
      + eapply (keeps_eval D rank WF (I (T ++ [a]))).
        * intros s2 [(H2 & _) _]. done.
        * intros s2 [(_ & H2 & _) _]. done.
        * intros s2 s3. apply HI.
        * apply Hv. left.
        * destruct H1 as [H1 H2]. split; [eapply Base_step; [exact WF|exact H1|apply as_trig]|].
          cbn. rewrite decide_True by done. by rewrite H2.
      + intros k s2 Hs2. cbv beta in Hs2 |- *. w1. eapply (pwp_isOccurring D); [done|]. cbv beta.
        destruct (bool_decide_reflect (evState s2 (ob_lambda ob) = OCCURRING)) as [E2|E2].
        * eapply wp_mono; [apply IH; [|exact Hs2|done]|]. { intros x Hx. apply Hv. by right. }
          intros fin s3 (l1 & l2 & -> & H3 & H4). exists (a :: l1), l2. split; [done|].
          split; [|done]. by rewrite <- (app_assoc T [a] l1) in H3.
        * w1. exists [a], l. done. }
  enough (HW : pwp (objTick D n o d) (fun _ s' => exists l1 l2, l = l1 ++ l2 /\
     trigsOf o (s_log s') = trigsOf o (s_log s) ++ l1 /\ (l2 <> [] -> evState s' (ob_lambda ob) <> OCCURRING)) s).
  { exact (wp_ok _ _ _ _ _ HW _ _ E). }
  unfold objTick. w1. w1. w1. eapply (pwp_isOccurring D); [done|]. cbv beta. sts.
  rewrite bool_decide_true by done. w1. w1. w1. w1. w1. w1. w1. w1. w1. w1. w1.
  sts_in H. sts. rewrite decide_True by done. cbn [os_set_time o_delayed].
  assert (HT : I (trigsOf o (s_log s)) (tickState D o ob d s)).
  { split; [eapply Base_step; [exact WF|exact HB|by apply as_tick]|]. by rewrite tick_log. }
  unfold tickState in HT. rewrite decide_True in HT by done.
  eapply wp_mono; [apply Hrun; [|exact HT|]|].
  - apply due_valid. intros a x Hin. destruct HB as (_ & HQ & _). exact (HQ o ob a x Ho Hin).
  - sts. done.
  - intros fin s1 (l1 & l2 & E1 & [_ H2] & H3). cbv beta.
    destruct fin; w1; (exists l1, l2; split; [exact E1|]); sts; (split; [exact H2|]); [by subst|done].
Qed.

(** *** Not forgotten. *)
Definition Persist (o : oid) (a : action) (x : N) (h0 : list obs) (s : st) : Prop :=
  Base D s /\ exists h, s_log s = h ++ h0 /\
    ((totalTicks (s_log s) < TIME_NONE)%N -> waiting D o x h h0 -> (a, x) ∈ q s o).
Lemma waiting_dull o x new h h0 : Forall dull new -> waiting D o x (new ++ h) h0 <-> waiting D o x h h0.
Proof. induction 1 as [|y l Hx _ IH]; cbn [app waiting]; [done|]. rewrite IH. destruct y; try done; tauto. Qed.
Lemma elem_delete_ne {A} (l : list A) i x y : l !! i = Some y -> x <> y -> x ∈ l -> x ∈ delete i l.
Proof.
  intros Hi Hne Hx. apply elem_of_list_lookup in Hx as [j Hj]. destruct (decide (i = j)) as [->|Hij]; [congruence|].
  destruct (decide (j < i)).
  - apply (elem_of_list_lookup_2 _ j). by rewrite lookup_delete_lt.
  - apply (elem_of_list_lookup_2 _ (pred j)). rewrite lookup_delete_ge by lia. by replace (S (pred j)) with j by lia.
Qed.
Lemma Persist_step o a x h0 ob s s' : d_obj D !! o = Some ob -> x <> TIME_NONE -> Persist o a x h0 s -> astep D s s' -> Persist o a x h0 s'.
Proof.
  intros Ho Hx [HB (h & Hh & H)] Hst. split; [by eapply Base_step|].
  assert (Hb : forall s', bstep D s s' -> exists h, s_log s' = h ++ h0 /\
    ((totalTicks (s_log s') < TIME_NONE)%N -> waiting D o x h h0 -> (a, x) ∈ q s' o)).
  { clear Hst s'. intros s' Hst. apply (bstep_qstep D) in Hst.
    destruct Hst as [new Hq Hl Hd|o1 ob1 a1 d1 Ho1 Hq Hq' Hl|o1 ob1 i a1 x1 Ho1 Hsk Hi Hq Hq' Hl|o1 ob1 b i a1 x1 Ho1 Hsk Hi Hx1 Hb Hq Hq' Hl
      |o1 ob1 e t new Ho1 He Hn Hq Hl Hd|o1 ob1 e t new Ho1 He Hm Hn Hq Hq' Hl Hd]; rewrite Hl, Hh.
    - exists (new ++ h). split; [by rewrite app_assoc|]. rewrite totalTicks_dull, waiting_dull, Hq by done. by rewrite <- Hh.
    - exists (OSched o1 a1 d1 :: h). split; [done|]. cbn [totalTicks waiting]. rewrite <- Hh. intros Ht [Hw _]. specialize (H Ht Hw).
      destruct (decide (o1 = o)) as [->|Hne]; [|by rewrite Hq']. rewrite Hq. apply elem_of_app. by left.
    - exists (OSkip o1 a1 :: h). split; [done|]. cbn [totalTicks waiting]. rewrite <- Hh. intros Ht [Hw Hne]. specialize (H Ht Hw). by rewrite Hq'.
    - exists (OSeek o1 a1 b :: h). split; [done|]. cbn [totalTicks waiting]. rewrite <- Hh. intros Ht [Hw Hne]. specialize (H Ht Hw). by rewrite Hq'.
    - exists (OTrans e t :: new ++ h). split; [cbn; by rewrite app_assoc|]. cbn [totalTicks waiting].
      rewrite totalTicks_dull, waiting_dull, Hq by done. rewrite <- Hh. intros Ht [Hw _]. by apply H.
    - exists (new ++ OTrans e t :: h). split; [by rewrite <- app_assoc|].
      rewrite totalTicks_dull, waiting_dull by done. cbn [totalTicks waiting]. rewrite <- Hh. intros Ht [Hw Hne].
      destruct (decide (o1 = o)) as [->|Hno]; [|rewrite Hq' by done; by apply H].
      apply (mainb_spec D _ _ _ Ho1) in Hm. by rewrite Hm, Hn in Hne. }
  destruct Hst as [s s' Hm|s o1 ob1 d Ho1 Hv|s o1 ob1 Ho1|s o1 a1|s o1 k p|s w h1|s o1 ob1 b Ho1].
  - apply Hb. by constructor.
  - exists (OTick o1 d :: h). rewrite tick_log, Hh. split; [done|]. cbn [waiting]. intros Ht [Hw Hn].
    rewrite <- Hh in *. specialize (H ltac:(cbn in Ht; lia) Hw).
    unfold q. rewrite tick_ob. destruct (decide _) as [[-> Hoc]|]; [|done].
    destruct HB as (_ & _ & HC). assert (ob1 = ob) as -> by congruence.
    destruct (tadd_bound D s o ob d HC Ho (Hv Hoc) Hoc Ht) as (m & Em & Et & Hm2). rewrite Em in Hn.
    cbn. unfold mark. apply elem_of_list_fmap. exists (a, x). split; [|done]. cbn. rewrite Et.
    destruct (N.leb_spec x m); [lia|done].
  - exists h. sts. split; [done|]. intros Ht Hw. specialize (H Ht Hw). unfold q. sts.
    destruct (decide (o1 = o)) as [->|]; [|done]. cbn. unfold purge.
    rewrite elem_of_list_In, filter_In, <- elem_of_list_In. split; [done|]. cbn. apply negb_true_iff. by apply N.eqb_neq.
  - exists (OTrig o1 a1 :: h). cbn [log s_log]. split; [by rewrite Hh|]. cbn [totalTicks waiting]. intros Ht [Hw _]. by apply H.
  - apply Hb. apply bs_key.
  - apply Hb. apply bs_size.
  - apply Hb. by eapply bs_links.
Qed.
Theorem not_forgotten s0 s o ob a x h : reach D s0 -> d_obj D !! o = Some ob ->
  (a, x) ∈ q s0 o -> x <> TIME_NONE ->
  from D (fun s => s = s0) s -> s_log s = h ++ s_log s0 ->
  (totalTicks (s_log s) < TIME_NONE)%N -> waiting D o x h (s_log s0) -> (a, x) ∈ q s o.
Proof.
  intros Hr Ho Hin Hx Hf Hl Ht Hw.
  assert (HB : Base D s0).
  { clear -Hr WF. revert s0 Hr. apply (reach_inv D rank WF (Base D)); try done.
    { by intros s (H & _). } { by intros s (_ & H & _). } { intros s1 s2. by apply (Base_step D rank WF). } by apply Base_init. }
  cut (Persist o a x (s_log s0) s).
  { intros [_ (h' & Hh & H)]. apply H; [done|]. rewrite Hh in Hl. by apply app_inv_tail in Hl as ->. }
  clear Hl Ht Hw h. revert s Hf. apply (from_inv D rank WF (Persist o a x (s_log s0))).
  - by intros s [(H & _) _].
  - by intros s [(_ & H & _) _].
  - intros s s'. by eapply Persist_step.
  - intros s ->. split; [done|]. exists []. split; [done|]. done.
Qed.
End Delay.

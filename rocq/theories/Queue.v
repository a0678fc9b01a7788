(** Queue.v -- delayed actions: what each step does to the queues, and the
    invariants that make them fire at most once and not before their time. *)
From Verif Require Export Count.
Open Scope string_scope.
Open Scope list_scope.

Definition q (s : st) (o : oid) : list (action * N) := o_delayed (ostOf s o).
(** Observations that concern neither queues, clocks nor presentations. *)
Definition dull (x : obs) : Prop :=
  match x with OBegin _ | OPlayer _ _ | OKey _ _ _ => True | _ => False end.

Section Queue.
Context (D : doc) (rank : oid -> nat) (WF : wf_at D rank).

Inductive qstep (s s' : st) : Prop :=
  | qs_quiet new : (forall o, q s' o = q s o) -> s_log s' = new ++ s_log s -> Forall dull new -> qstep s s'
  | qs_sched o ob a d : d_obj D !! o = Some ob ->
      q s' o = q s o ++ [(a, tadd (o_time (ostOf s o)) d)] -> (forall o', o <> o' -> q s' o' = q s o') ->
      s_log s' = OSched o a d :: s_log s -> qstep s s'
  | qs_erase o ob i a x : d_obj D !! o = Some ob -> seekable D ob -> q s o !! i = Some (a, x) ->
      q s' o = delete i (q s o) -> (forall o', o <> o' -> q s' o' = q s o') ->
      s_log s' = OSkip o a :: s_log s -> qstep s s'
  | qs_shift o ob begin i a x : d_obj D !! o = Some ob -> seekable D ob ->
      q s o !! i = Some (a, x) -> x <> TIME_NONE -> (begin <= x)%N ->
      q s' o = alter (fun ax => (fst ax, tsub (snd ax) begin)) i (q s o) -> (forall o', o <> o' -> q s' o' = q s o') ->
      s_log s' = OSeek o a begin :: s_log s -> qstep s s'
  | qs_trans o ob e t new : d_obj D !! o = Some ob -> e ∈ ob_events ob ->
      ~ (mainE D o ob e /\ ends t = true) ->
      (forall o, q s' o = q s o) -> s_log s' = OTrans e t :: new ++ s_log s -> Forall dull new -> qstep s s'
  | qs_end o ob e t new : d_obj D !! o = Some ob -> e ∈ ob_events ob -> mainE D o ob e -> ends t = true ->
      q s' o = [] -> (forall o', o <> o' -> q s' o' = q s o') ->
      s_log s' = new ++ OTrans e t :: s_log s -> Forall dull new -> qstep s s'.

Local Ltac same := intros o'; unfold q, sched; sts; try (destruct (decide _) as [->|]); done.
Local Ltac quiet0 := apply (qs_quiet _ _ []); [same | done | constructor].

Lemma bstep_qstep s s' : bstep D s s' -> qstep s s'.
Proof.
  intros Hst. destruct Hst as [s s' Hm| | |].
  - destruct Hm; try (by quiet0).
    + apply (qs_quiet _ _ [OBegin a]); [same|done|by repeat constructor].
    + eapply (qs_sched _ _ o ob (mkAct e t None v "" "") d); [done| | |done].
      * unfold q, sched. sts. by rewrite decide_True.
      * intros o' Hne. unfold q, sched. sts. by rewrite decide_False.
    + eapply (qs_erase _ _ o ob i); [done|done|done| | |done].
      * unfold q. sts. by rewrite decide_True.
      * intros o' Hne. unfold q. sts. by rewrite decide_False.
    + eapply (qs_shift _ _ o ob begin i); [done|done|done|done|done| | |done].
      * unfold q. sts. by rewrite decide_True.
      * intros o' Hne. unfold q. sts. by rewrite decide_False.
    + eapply (qs_trans _ _ (ev_obj ev) ob e t []); [done|done|tauto|same|done|constructor].
    + eapply (qs_trans _ _ o ob e t []); [done|done| |same|done|constructor].
      intros [_ ?]. by destruct H2 as [-> | ->].
    + destruct (doStart_ok _ _ _ _ _ H H3) as (E1 & E2 & E3).
      eapply (qs_trans _ _ o ob e START []); [done|done|by intros [_ ?]| |by rewrite E2|constructor].
      intros o'. unfold q. rewrite E3. done.
    + pose proof (createPlayer_ok _ _ _ _ H3) as F. destruct F.
      destruct (doStart_ok _ _ _ _ _ H H4) as (E1 & E2 & E3).
      eapply (qs_trans _ _ o ob (ob_lambda ob) START [OPlayer o true]); [done|done|by intros [_ ?]| |by rewrite E2; cbn; rewrite cf_log|by repeat constructor].
      intros o'. unfold q. rewrite E3. cbn. sts. destruct (decide (o' = o)) as [->|]; [done|]. by rewrite cf_other.
    + destruct (doStop_ok _ _ _ _ _ H H5) as (E1 & E2 & E3).
      eapply (qs_end _ _ o ob e t []); [done|done|done|by destruct H2 as [-> | ->]| | |by rewrite E1|constructor].
      * unfold q. rewrite E3. cbn. by rewrite decide_True.
      * intros o' Hne. unfold q. rewrite E3. cbn. by rewrite decide_False.
    + destruct (mediaDoStop_ok _ _ _ (commit _ t s) _ H H4 H5) as (E1 & E2 & E3).
      eapply (qs_end _ _ o ob (ob_lambda ob) t [OPlayer o false]);
        [done|done|by left|by destruct H2 as [-> | ->]| | |by rewrite E1|by repeat constructor].
      * unfold q. rewrite E3. cbn. by rewrite decide_True.
      * intros o' Hne. unfold q. rewrite E3. cbn. by rewrite decide_False.
  - apply (qs_quiet _ _ [OKey o k p]); [same|done|by repeat constructor].
  - quiet0.
  - quiet0.
Qed.

(** ** Counting. *)
Definition live (a : action) (l : list (action * N)) : nat :=
  length (List.filter (fun ax => bool_decide (fst ax = a) && negb (snd ax =? TIME_NONE)%N)%bool l).
Definition countA (a : action) (l : list action) : nat :=
  length (List.filter (fun x => bool_decide (x = a)) l).

Lemma live_app a l1 l2 : live a (l1 ++ l2) = live a l1 + live a l2.
Proof. unfold live. by rewrite filter_app, app_length. Qed.
Lemma live_cons a b x l : live a ((b, x) :: l) = (if (bool_decide (b = a) && negb (x =? TIME_NONE)%N)%bool then 1 else 0) + live a l.
Proof. unfold live. cbn [List.filter fst snd]. by destruct (_ && _)%bool. Qed.
Lemma live_delete a i l : live a (delete i l) <= live a l.
Proof.
  revert i. induction l as [|[b x] l IH]; intros [|i]; try done.
  - change (delete 0 ((b, x) :: l)) with l. rewrite live_cons. lia.
  - change (delete (S i) ((b, x) :: l)) with ((b, x) :: delete i l). rewrite !live_cons. specialize (IH i). lia.
Qed.
Lemma tsub_valid x b : x <> TIME_NONE -> (b <= x)%N -> (x < W64)%N -> tsub x b <> TIME_NONE.
Proof.
  unfold tsub, TIME_NONE, W64. intros H1 H2 H3.
  replace (x + 18446744073709551616 - b)%N with ((x - b) + 1 * 18446744073709551616)%N by lia.
  rewrite N.mod_add by done. rewrite N.mod_small by lia. lia.
Qed.
Lemma live_shift a b i l a0 x0 : l !! i = Some (a0, x0) -> x0 <> TIME_NONE ->
  live a (alter (fun ax => (fst ax, tsub (snd ax) b)) i l) <= live a l.
Proof.
  revert i. induction l as [|[c x] l IH]; intros [|i] H Hx0; try done.
  - change (alter ?f 0 ((c, x) :: l)) with (f (c, x) :: l). cbv beta. rewrite !live_cons. cbn [fst snd]. injection H as -> ->. rename Hx0 into Hx.
    destruct (bool_decide (a0 = a)); cbn [andb]; [|lia].
    apply N.eqb_neq in Hx. rewrite Hx. cbn [negb]. destruct (negb _); lia.
  - change (alter ?f (S i) ((c, x) :: l)) with ((c, x) :: alter f i l). rewrite !live_cons.
    specialize (IH i H Hx0). lia.
Qed.
Lemma live_purge a l : live a (purge l) = live a l.
Proof.
  unfold purge. induction l as [|[b x] l IH]; cbn [List.filter snd]; [done|].
  destruct (x =? TIME_NONE)%N eqn:E; cbn [negb]; rewrite !live_cons, IH, ?E; cbn [negb]; [|done].
  by rewrite andb_false_r.
Qed.
Lemma live_mark a now l : now <> TIME_NONE -> (now < W64)%N ->
  live a (mark now l) + countA a (due now l) = live a l.
Proof.
  intros Hn Hw. unfold mark, due, countA. induction l as [|[b x] l IH]; cbn [map List.filter fst snd]; [done|].
  rewrite live_cons. destruct (x <=? now)%N eqn:E; cbn [map List.filter].
  - rewrite live_cons. rewrite N.eqb_refl. cbn [negb]. rewrite andb_false_r.
    apply N.leb_le in E. assert (Hx : (x =? TIME_NONE)%N = false).
    { apply N.eqb_neq. unfold TIME_NONE, W64 in *. lia. }
    rewrite Hx. cbn [negb fst]. rewrite andb_true_r. destruct (bool_decide (b = a)); cbn [length]; lia.
  - rewrite live_cons. lia.
Qed.

Lemma timesQueued_dull o a new h : Forall dull new -> timesQueued o a (new ++ h) = timesQueued o a h.
Proof. induction 1 as [|x l Hx _ IH]; cbn; [done|]. by destruct x. Qed.
Lemma timesFired_dull o a new h : Forall dull new -> timesFired o a (new ++ h) = timesFired o a h.
Proof. induction 1 as [|x l Hx _ IH]; cbn; [done|]. by destruct x. Qed.
Lemma totalTicks_dull new h : Forall dull new -> totalTicks (new ++ h) = totalTicks h.
Proof. induction 1 as [|x l Hx _ IH]; cbn; [done|]. by destruct x. Qed.
Lemma trigsOf_dull o new h : Forall dull new -> trigsOf o (new ++ h) = trigsOf o h.
Proof. induction 1 as [|x l Hx _ IH]; cbn; [done|]. by destruct x. Qed.
Lemma schedSince_dull o a x new h : Forall dull new -> schedSince D o a x (new ++ h) <-> schedSince D o a x h.
Proof. induction 1 as [|y l Hx _ IH]; cbn [app schedSince]; [done|]. by destruct y. Qed.
Lemma dueAtTick_dull o a new h : Forall dull new -> dueAtTick D o a (new ++ h) <-> dueAtTick D o a h.
Proof. induction 1 as [|y l Hx _ IH]; cbn; [done|]. by destruct y. Qed.
Lemma firedOnTime_dull o new h : Forall dull new -> firedOnTime D o (new ++ h) <-> firedOnTime D o h.
Proof. induction 1 as [|y l Hx _ IH]; cbn; [done|]. by destruct y. Qed.

Definition Base (s : st) : Prop := SelInv D s /\ QInv D s /\ ClockInv D s.
Lemma Base_step s s' : Base s -> astep D s s' -> Base s'.
Proof.
  intros (H1 & H2 & H3) Hst. split; [by eapply SelInv_step|]. split; [by eapply QInv_step|].
  eapply clock_step; [exact WF|exact H3|]. by eapply astep_pstep.
Qed.
Lemma Base_bstep s s' : Base s -> bstep D s s' -> Base s'.
Proof.
  intros HB Hst. eapply Base_step; [exact HB|].
  destruct Hst; [by constructor|apply as_key|apply as_size|by eapply as_links].
Qed.
Lemma Base_init s : init_ok D s -> Base s.
Proof.
  intros Hin. split; [|split].
  - intros o ob c Ho Hc. by rewrite (in_selected _ _ Hin) in Hc.
  - intros o ob a x Ho Hc. rewrite (in_delayed _ _ Hin) in Hc. by apply elem_of_nil in Hc.
  - by apply clock_init.
Qed.

(** Pending actions: those of list [l] have been marked but not yet fired. *)
Definition pend (o : oid) (l : list action) (o' : oid) (a : action) : nat :=
  if decide (o' = o) then countA a l else 0.
Definition Once (o : oid) (l : list action) (s : st) : Prop :=
  Base s /\ ((totalTicks (s_log s) < TIME_NONE)%N -> forall o' a,
    timesFired o' a (s_log s) + live a (q s o') + pend o l o' a <= timesQueued o' a (s_log s)).

Lemma Once_bstep o l s s' : Once o l s -> bstep D s s' -> Once o l s'.
Proof.
  intros [HB H] Hst. split; [by eapply Base_bstep|]. apply bstep_qstep in Hst. intros Ht o' a.
  destruct Hst as [new Hq Hl Hd|o1 ob a1 x Ho Hq Hq' Hl|o1 ob i a1 x Ho Hsk Hi Hq Hq' Hl|o1 ob b i a1 x Ho Hsk Hi Hx Hb Hq Hq' Hl
    |o1 ob e t new Ho He Hn Hq Hl Hd|o1 ob e t new Ho He Hm Hn Hq Hq' Hl Hd].
  - rewrite Hl in *. rewrite totalTicks_dull in Ht by done. rewrite Hq, timesFired_dull, timesQueued_dull by done. by apply H.
  - rewrite Hl in *. cbn [totalTicks timesFired timesQueued] in *. specialize (H Ht o' a).
    destruct (decide (o1 = o')) as [->|Hne].
    + rewrite Hq, live_app, live_cons. change (live a []) with 0.
      destruct (decide (a1 = a)) as [->|Hna].
      * rewrite !bool_decide_true by done. cbn [andb]. destruct (negb _); lia.
      * rewrite !bool_decide_false by tauto. cbn [andb]. lia.
    + rewrite Hq' by done. lia.
  - rewrite Hl in *. cbn [totalTicks timesFired timesQueued] in *. specialize (H Ht o' a). destruct (decide (o1 = o')) as [->|Hne]; [|by rewrite Hq'].
    rewrite Hq. pose proof (live_delete a i (q s o')). lia.
  - rewrite Hl in *. cbn [totalTicks timesFired timesQueued] in *. specialize (H Ht o' a). destruct (decide (o1 = o')) as [->|Hne]; [|by rewrite Hq'].
    rewrite Hq. pose proof (live_shift a b i (q s o') _ _ Hi Hx). lia.
  - rewrite Hl in *. cbn [totalTicks timesFired timesQueued] in *. rewrite totalTicks_dull in Ht by done.
    rewrite Hq, timesFired_dull, timesQueued_dull by done. by apply H.
  - rewrite Hl in *. rewrite totalTicks_dull in Ht by done. rewrite timesFired_dull, timesQueued_dull by done.
    cbn [totalTicks timesFired timesQueued] in *. specialize (H Ht o' a).
    destruct (decide (o1 = o')) as [->|Hne]; [|by rewrite Hq'].
    rewrite Hq. unfold live at 1. cbn. lia.
Qed.
Lemma Once_weak o l o2 s : Once o l s -> Once o2 [] s.
Proof.
  intros [HB H]. split; [done|]. intros Ht o' a. specialize (H Ht o' a). unfold pend at 1.
  destruct (decide _); cbn; lia.
Qed.

Definition keepsI (I : st -> Prop) {A} (m : ME A) : Prop := forall s, I s -> pwp m (fun _ s' => I s') s.

Lemma since_total o h n : sinceStart D o h = Some n -> (n <= totalTicks h)%N.
Proof.
  revert n. induction h as [|x h IH]; intros n; cbn; [done|].
  destruct x; try (intros Hx; apply IH in Hx; lia).
  - destruct (mainb D o e); [|intros Hx; apply IH in Hx; lia].
    destruct t; try done; try (intros Hx; apply IH in Hx; lia). intros [= <-]. lia.
  - destruct (_ && _)%bool; [|intros Hx; apply IH in Hx; lia].
    destruct (sinceStart D o h) as [m|]; [|done]. cbn. intros [= <-]. specialize (IH m eq_refl). lia.
Qed.
Lemma clock_bound s o ob : ClockInv D s -> d_obj D !! o = Some ob ->
  (totalTicks (s_log s) < TIME_NONE)%N ->
  o_time (ostOf s o) = default TIME_NONE (sinceStart D o (s_log s)).
Proof.
  intros HC Ho Ht. destruct (HC o ob Ho) as [_ ->].
  destruct (sinceStart D o (s_log s)) as [n|] eqn:E; [|done].
  apply since_total in E. cbn. apply N.mod_small. unfold TIME_NONE, W64 in *. lia.
Qed.

(** The tick of one object, generically: [J l] holds while the actions [l] are
    still to be triggered. *)
Lemma tick_generic (J : list action -> st -> Prop) o ob d n s :
  d_obj D !! o = Some ob ->
  (forall l s, J l s -> Base s) ->
  (forall l s s', J l s -> bstep D s s' -> J l s') ->
  (forall a l s, J (a :: l) s -> J l (log (OTrig o a) s)) ->
  (forall l s, J l s -> J [] s) ->
  (forall s, J [] s -> J [] (upd_ob o (fun x => os_set_delayed (purge (o_delayed x)) x) s)) ->
  J [] s ->
  (evState s (ob_lambda ob) <> OCCURRING -> J [] (tickState D o ob d s)) ->
  (evState s (ob_lambda ob) = OCCURRING -> tvalid (o_time (ostOf s o)) = true ->
     J (due (tadd (o_time (ostOf s o)) d) (q s o)) (tickState D o ob d s)) ->
  pwp (objTick D n o d) (fun _ s' => J [] s') s.
Proof.
  intros Ho HJB HJs HJt HJw HJp Hs Hno Hoc.
  assert (Hrun : forall l s, valid_acts D l -> J l s -> pwp (run_triggered D n o l) (fun _ s' => J [] s') s).
  { induction l as [|a l IH]; intros s1 Hv Hs1; cbn [run_triggered]; [by w1|].
    w1. w1. w1. eapply wp_mono.
    - eapply (keeps_eval D rank WF (J l)).
      + intros s2 H2. by apply (HJB _ _ H2).
      + intros s2 H2. by apply (HJB _ _ H2).
      + intros s2 s3. apply HJs.
      + apply Hv. left.
      + by apply HJt.
    - intros k s2 Hs2. cbv beta in Hs2 |- *. w1. eapply (pwp_isOccurring D); [done|]. cbv beta.
      w1; [|w1; by eapply HJw]. apply IH; [|done]. intros x Hx. apply Hv. by right. }
  unfold objTick. w1. w1. w1. eapply (pwp_isOccurring D); [done|]. cbv beta. sts. unfold tickState in Hno, Hoc.
  destruct (decide (evState s (ob_lambda ob) = OCCURRING)) as [E|E].
  - rewrite bool_decide_true by done. w1. w1. w1. w1. w1. w1. w1. w1. w1. w1. w1.
    sts_in H. sts. rewrite decide_True by done. cbn [os_set_time o_delayed].
    eapply wp_mono.
    { apply Hrun; [|by apply Hoc]. apply due_valid. intros a x Hin.
      destruct (HJB _ _ Hs) as (_ & HQ & _). exact (HQ o ob a x Ho Hin). }
    intros fin s1 Hs1. cbv beta in Hs1 |- *. w1; [|by w1]. w1. by apply HJp.
  - rewrite bool_decide_false by done. w1. by apply Hno.
Qed.

Lemma tadd_bound s o ob d : ClockInv D s -> d_obj D !! o = Some ob ->
  tvalid (o_time (ostOf s o)) = true -> evState s (ob_lambda ob) = OCCURRING ->
  (totalTicks (OTick o d :: s_log s) < TIME_NONE)%N ->
  exists n, sinceStart D o (OTick o d :: s_log s) = Some n /\ tadd (o_time (ostOf s o)) d = n /\ (n < TIME_NONE)%N.
Proof.
  intros HC Ho Hv He Ht. cbn [totalTicks] in Ht.
  pose proof (clock_bound s o ob HC Ho ltac:(lia)) as Hc. cbn [sinceStart].
  destruct (HC o ob Ho) as [Hs _]. rewrite <- Hs, He, !bool_decide_true by done. cbn [andb].
  destruct (sinceStart D o (s_log s)) as [m|] eqn:E.
  - cbn in Hc |- *. apply since_total in E. exists (m + d)%N. split; [done|].
    rewrite Hc. unfold tadd. rewrite N.mod_small; unfold TIME_NONE, W64 in *; lia.
  - cbn in Hc. unfold tvalid in Hv. rewrite Hc in Hv. by rewrite N.eqb_refl in Hv.
Qed.

Lemma Once_objTick n o d o2 : keepsI (Once o2 []) (objTick D n o d).
Proof.
  intros s Hs. destruct (d_obj D !! o) as [ob|] eqn:Ho.
  2:{ unfold objTick. w1. w1. w1. unfold isOccurring, objState. w1. w1. apply wp_getO; [done|]. intros ob' Ho'. congruence. }
  apply (Once_weak _ _ o) in Hs.
  eapply wp_mono; [eapply (tick_generic (Once o) o ob d n s); eauto|].
  - intros l s1 [H _]. done.
  - intros l s1 s2 H1 H2. by eapply Once_bstep.
  - intros a l s1 [HB H]. split; [eapply Base_step; [exact HB|apply as_trig]|].
    cbn [log s_log]. cbn [totalTicks timesFired timesQueued]. intros Ht o' a'. specialize (H Ht o' a').
    unfold pend in H |- *. change (q (log (OTrig o a) s1) o') with (q s1 o').
    destruct (decide (o' = o)) as [->|Hne].
    + unfold countA in H |- *. cbn [List.filter] in H. destruct (decide (a = a')) as [->|Hna].
      * rewrite bool_decide_true in H by done. rewrite bool_decide_true by done. cbn [length] in H. lia.
      * rewrite bool_decide_false in H by done. rewrite bool_decide_false by tauto. lia.
    + rewrite bool_decide_false by naive_solver. lia.
  - intros l s1. apply Once_weak.
  - intros s1 [HB H]. split; [eapply Base_step; [exact HB|by eapply as_purge]|].
    sts. intros Ht o' a. specialize (H Ht o' a). unfold q in *. sts.
    destruct (decide (o = o')) as [->|Hne]; [|done]. cbn [os_set_delayed o_delayed].
    rewrite live_purge. done.
  - intros Hne. destruct Hs as [HB H]. split; [eapply Base_step; [exact HB|by eapply as_tick]|].
    rewrite tick_log. cbn [totalTicks timesFired timesQueued]. intros Ht o' a.
    specialize (H ltac:(lia) o' a). unfold q in *. rewrite tick_ob, decide_False by tauto. done.
  - intros Hoc Hv. destruct Hs as [HB H]. split; [eapply Base_step; [exact HB|by eapply as_tick]|].
    rewrite tick_log. intros Ht o' a. assert (Ht' := Ht). cbn [totalTicks timesFired timesQueued] in *.
    specialize (H ltac:(lia) o' a). unfold q in *. rewrite tick_ob.
    destruct HB as (_ & _ & HC).
    destruct (tadd_bound s o ob d HC Ho Hv Hoc Ht) as (m & _ & Em & Hm).
    unfold pend in *. destruct (decide (o = o')) as [->|Hne].
    + rewrite decide_True by done. rewrite decide_True in H by done. cbn [os_set_delayed o_delayed]. rewrite decide_True by done.
      rewrite Em. pose proof (live_mark a m (o_delayed (ostOf s o'))) as HL.
      unfold TIME_NONE, W64 in *. change (countA a []) with 0 in H.
      specialize (HL ltac:(lia) ltac:(lia)). lia.
    + rewrite decide_False by tauto. rewrite decide_False by congruence.
      rewrite decide_False in H by congruence. done.
  - intros [] s' H'. cbv beta in H'. by eapply Once_weak.
Qed.

Theorem at_most_once s : reach D s -> (totalTicks (s_log s) < TIME_NONE)%N ->
  forall o a, timesFired o a (s_log s) <= timesQueued o a (s_log s).
Proof.
  intros Hr Ht o a. cut (Once o [] s).
  { intros [_ H]. specialize (H Ht o a). lia. }
  clear Ht. revert s Hr.
  apply (from_inv0 D rank WF (Once o [])).
  - intros s [(H & _) _]; done.
  - intros s [(_ & H & _) _]; done.
  - intros s s'. apply Once_bstep.
  - intros n o' d. apply Once_objTick.
  - intros s Hi. split; [by apply Base_init|]. intros Ht o' a'. unfold q. rewrite (in_delayed _ _ Hi), (in_log _ _ Hi).
    unfold pend. cbn. by destruct (decide _).
Qed.
End Queue.

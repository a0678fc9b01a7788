(** Props_Delay.v -- property C04: delayed actions.  Vocabulary: Spec.v. *)
From Verif Require Import FactsDelay.
Open Scope string_scope.
Open Scope list_scope.

(** C04.  Histories shorter than 2^64 - 1 ns of play time.
    An action falls due at most as often as it was queued. *)
Theorem C04_at_most_once : forall D, wf_doc D -> forall s, reach D s -> (totalTicks (s_log s) < TIME_NONE)%N ->
  forall o a, timesFired o a (s_log s) <= timesQueued o a (s_log s).
Proof. exact f_C04_once. Qed.
Print Assumptions C04_at_most_once.
(** An action falls due during a tick of its object, one that brought the clock of
    the object to the deadline or beyond, and the object did not end in between. *)
Theorem C04_never_early : forall D, wf_doc D -> forall s, reach D s -> (totalTicks (s_log s) < TIME_NONE)%N ->
  forall o ob, d_obj D !! o = Some ob -> firedOnTime D o (s_log s).
Proof. exact f_C04_early. Qed.
Print Assumptions C04_never_early.
(** The queue of an object is in the order in which the actions were queued. *)
Theorem C04_queue_in_order : forall D, wf_doc D -> forall s, reach D s ->
  forall o ob, d_obj D !! o = Some ob -> map fst (o_delayed (ostOf s o)) `sublist_of` schedsOf o (s_log s).
Proof. exact f_C04_order. Qed.
Print Assumptions C04_queue_in_order.
(** At a tick, the queued actions whose deadline is reached fall due, in queue
    order: all of them, or those up to the one after which the object no longer occurs. *)
Theorem C04_due_at_tick_partial : forall D, wf_doc D -> forall s, reach D s ->
  forall n o ob d s', d_obj D !! o = Some ob -> evState s (ob_lambda ob) = OCCURRING ->
  objTick D n o d s = Ok tt s' -> (d + totalTicks (s_log s) < TIME_NONE)%N ->
  exists clock fired lost,
    sinceStart D o (OTick o d :: s_log s) = Some clock /\
    fired ++ lost = map fst (List.filter (fun ax => (snd ax <=? clock)%N) (o_delayed (ostOf s o))) /\
    trigsOf o (s_log s') = trigsOf o (s_log s) ++ fired /\
    (lost <> [] -> evState s' (ob_lambda ob) <> OCCURRING).
Proof. exact f_C04_tick. Qed.
Print Assumptions C04_due_at_tick_partial.
(** A queued action stays in the queue, with its deadline, whatever happens, until
    its deadline is reached or its object ends or starts at an anchor. *)
Theorem C04_not_forgotten : forall D, wf_doc D -> forall s0, reach D s0 ->
  forall o ob a x, d_obj D !! o = Some ob -> (a, x) ∈ o_delayed (ostOf s0 o) -> x <> TIME_NONE ->
  forall s h, from D (fun s => s = s0) s -> s_log s = h ++ s_log s0 -> (totalTicks (s_log s) < TIME_NONE)%N ->
  waiting D o x h (s_log s0) -> (a, x) ∈ o_delayed (ostOf s o).
Proof. exact f_C04_kept. Qed.
Print Assumptions C04_not_forgotten.
(** The remaining case is real: an action whose deadline has passed, on an object
    that has not ended and occurs, was never carried out and is no longer queued. *)
Theorem C04_refuted : exists D s o ob a x, wf_doc D /\ reach D s /\ d_obj D !! o = Some ob /\
  evState s (ob_lambda ob) = OCCURRING /\ schedSince D o a x (s_log s) /\
  (exists n, sinceStart D o (s_log s) = Some n /\ (x < n)%N) /\
  timesFired o a (s_log s) = 0 /\ o_delayed (ostOf s o) = [].
Proof. exact f_C04_lost. Qed.
Print Assumptions C04_refuted.

(** Two actions queued on the root (stop of media 4 after 5 s, start of ports): one
    waits, then falls due at the tick that reaches 5 s. *)
Example C04_nonvacuous : exists s s', reach demo s /\ from demo (fun x => x = s) s' /\
  o_delayed (ostOf s 1) = [(mkAct 104 STOP None "" "" "", (1 + sec 5)%N)] /\
  timesFired 1 (mkAct 104 STOP None "" "" "") (s_log s) = 0 /\
  timesFired 1 (mkAct 104 STOP None "" "" "") (s_log s') = 1 /\
  evState s 104 = OCCURRING /\ evState s' 104 = SLEEPING /\ (totalTicks (s_log s') < TIME_NONE)%N.
Proof.
  destruct (check_reach demo demo0 (play ++ [CTick 1 1; CTick 1 (sec 4)]) (fun s =>
    bool_decide (o_delayed (ostOf s 1) = [(mkAct 104 STOP None "" "" "", (1 + sec 5)%N)])
    && (timesFired 1 (mkAct 104 STOP None "" "" "") (s_log s) =? 0)%nat && stb s 104 OCCURRING
    && run_is (sendTick demo 60 1 (sec 1) s) (fun _ s' =>
         (timesFired 1 (mkAct 104 STOP None "" "" "") (s_log s') =? 1)%nat && stb s' 104 SLEEPING
         && (totalTicks (s_log s') <? TIME_NONE)%N))%bool) as (s & Hr & Hs);
    [apply demo_init|vm_compute; reflexivity|].
  unfold stb in Hs. splitb Hs.
  match goal with HH : run_is _ _ = true |- _ => apply run_is_ok in HH as ([] & s' & E & Hs') end.
  splitb Hs'. exists s, s'. split; [exact Hr|]. split.
  { eapply r_tick; [|exact E]. apply r_init. reflexivity. }
  repeat (split; [assumption|]). apply N.ltb_lt. assumption.
Qed.

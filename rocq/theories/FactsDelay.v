(** FactsDelay.v -- the statements of Props_Delay.v, proved. *)
From Verif Require Export Delay Witness.
Open Scope string_scope.
Open Scope list_scope.

Lemma f_C04_once : forall D, wf_doc D -> forall s, reach D s -> (totalTicks (s_log s) < TIME_NONE)%N ->
  forall o a, timesFired o a (s_log s) <= timesQueued o a (s_log s).
Proof. intros D [rank WF]. apply (at_most_once D rank WF). Qed.
Lemma f_C04_early : forall D, wf_doc D -> forall s, reach D s -> (totalTicks (s_log s) < TIME_NONE)%N ->
  forall o ob, d_obj D !! o = Some ob -> firedOnTime D o (s_log s).
Proof. intros D [rank WF] s Hr Ht o ob Ho. by eapply (never_early D rank WF). Qed.
Lemma f_C04_order : forall D, wf_doc D -> forall s, reach D s ->
  forall o ob, d_obj D !! o = Some ob -> map fst (o_delayed (ostOf s o)) `sublist_of` schedsOf o (s_log s).
Proof. intros D [rank WF] s Hr o ob Ho. by eapply (order_reach D rank WF). Qed.
Lemma f_C04_tick : forall D, wf_doc D -> forall s, reach D s ->
  forall n o ob d s', d_obj D !! o = Some ob -> evState s (ob_lambda ob) = OCCURRING ->
  objTick D n o d s = Ok tt s' -> (d + totalTicks (s_log s) < TIME_NONE)%N ->
  exists clock fired lost,
    sinceStart D o (OTick o d :: s_log s) = Some clock /\
    fired ++ lost = map fst (List.filter (fun ax => (snd ax <=? clock)%N) (o_delayed (ostOf s o))) /\
    trigsOf o (s_log s') = trigsOf o (s_log s) ++ fired /\
    (lost <> [] -> evState s' (ob_lambda ob) <> OCCURRING).
Proof.
  intros D [rank WF] s Hr n o ob d s' Ho Hoc E Ht.
  destruct (tick_exact D rank WF n o ob d s s' Hr Ho Hoc E) as (l1 & l2 & H1 & H2 & H3).
  assert (Hv : tvalid (o_time (ostOf s o)) = true).
  { enough (HW : pwp (objTick D n o d) (fun _ _ => tvalid (o_time (ostOf s o)) = true) s) by exact (wp_ok _ _ _ _ _ HW _ _ E).
    unfold objTick. w1. w1. w1. eapply (pwp_isOccurring D); [done|]. cbv beta. sts.
    rewrite bool_decide_true by done. w1. w1. w1. w1. sts_in H. rewrite H. unfold wp. by case_match. }
  destruct (tadd_bound D s o ob d (clockInv_reach D rank WF s Hr) Ho Hv Hoc) as (m & Em & Et & Hm); [done|].
  exists m, l1, l2. split; [done|]. split; [|done]. rewrite <- H1, Et. done.
Qed.
Lemma f_C04_kept : forall D, wf_doc D -> forall s0, reach D s0 ->
  forall o ob a x, d_obj D !! o = Some ob -> (a, x) ∈ o_delayed (ostOf s0 o) -> x <> TIME_NONE ->
  forall s h, from D (fun s => s = s0) s -> s_log s = h ++ s_log s0 -> (totalTicks (s_log s) < TIME_NONE)%N ->
  waiting D o x h (s_log s0) -> (a, x) ∈ o_delayed (ostOf s o).
Proof.
  intros D [rank WF] s0 Hr o ob a x Ho Hin Hx s h Hf Hl Ht Hw.
  exact (not_forgotten D rank WF s0 s o ob a x h Hr Ho Hin Hx Hf Hl Ht Hw).
Qed.
Lemma f_C04_lost : exists D s o ob a x, wf_doc D /\ reach D s /\ d_obj D !! o = Some ob /\
  evState s (ob_lambda ob) = OCCURRING /\ schedSince D o a x (s_log s) /\
  (exists n, sinceStart D o (s_log s) = Some n /\ (x < n)%N) /\
  timesFired o a (s_log s) = 0 /\ o_delayed (ostOf s o) = [].
Proof.
  set (a := mkAct 104 STOP None "" "" "").
  destruct (check_reach w_lost (init [] []) w_lost_calls (fun s =>
    stb s 103 OCCURRING && schedSinceb w_lost 3 a (sec 1) (s_log s)
    && bool_decide (sinceStart w_lost 3 (s_log s) = Some (sec 6))
    && (timesFired 3 a (s_log s) =? 0)%nat && bool_decide (o_delayed (ostOf s 3) = []))%bool) as (s & Hr & Hs);
    [apply init_init|vm_compute; reflexivity|].
  unfold stb in Hs. splitb Hs. exists w_lost, s, 3%positive.
  eexists _, a, (sec 1). split; [apply w_lost_wf|]. split; [exact Hr|]. split; [reflexivity|].
  cbn [ob_lambda ctx]. split; [assumption|]. split; [apply schedSinceb_spec; assumption|].
  split; [|split; assumption]. exists (sec 6). split; [assumption|done].
Qed.

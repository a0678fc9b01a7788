(** Props_Pres.v -- properties C01, C02, C03, C07: presentations, players, clocks
    and the natural end of contexts.  Vocabulary: Spec.v; reachable states: Reach.v. *)
From Verif Require Import FactsPres.
Open Scope string_scope.
Open Scope list_scope.

(** C01.  [tr D n e t s]: event [e] of document [D] is asked for transition [t] in state [s]. *)
Theorem C01_event_state_machine : forall D, wf_doc D -> forall n e ev t s b s',
  d_evt D !! e = Some ev -> tr D n e t s = Ok b s' ->
  (~ allowed (evState s e) t -> b = false /\ s' = s) /\
  (b = true -> allowed (evState s e) t /\ evState s' e = resulting t).
Proof. exact f_C01. Qed.
Print Assumptions C01_event_state_machine.
(** An illegal request terminates, does not abort and changes nothing. *)
Theorem C01_illegal_request : forall D n e ev t s,
  d_evt D !! e = Some ev -> ~ allowed (evState s e) t -> tr D (S n) e t s = Ok false s.
Proof. exact f_C01_illegal. Qed.
Print Assumptions C01_illegal_request.
Example C01_nonvacuous : exists s', tr demo 60 103 START demo0 = Ok true s' /\ evState s' 103 = OCCURRING
  /\ (exists s2, tr demo 60 103 STOP s' = Ok true s2 /\ evState s2 103 = SLEEPING) /\ ~ allowed (evState s' 103) RESUME.
Proof.
  destruct (run_is_ok (tr demo 60 103 START demo0) (fun b s' => b && stb s' 103 OCCURRING &&
     run_is (tr demo 60 103 STOP s') (fun b s2 => b && stb s2 103 SLEEPING))%bool) as (b & s' & E & H);
    [vm_compute; reflexivity|].
  unfold stb in H. splitb H. match goal with HH : run_is _ _ = true |- _ => apply run_is_ok in HH as (b2 & s2 & E2 & H2) end.
  unfold stb in H2. splitb H2. rewrite H in E. rewrite H2 in E2. exists s'.
  split; [exact E|]. split; [assumption|].
  split; [exists s2; split; assumption|]. match goal with HH : evState s' _ = _ |- _ => rewrite HH end. discriminate.
Qed.

(** C02. *)
Theorem C02_player_iff_active : forall D, wf_doc D -> forall s, reach D s ->
  forall o ob, d_obj D !! o = Some ob -> is_media (ob_kind ob) = true ->
  (o_player (ostOf s o) <> None <-> evState s (ob_lambda ob) <> SLEEPING).
Proof. exact f_C02. Qed.
Print Assumptions C02_player_iff_active.
(** Creations and deletions of the player of an object alternate, creation first. *)
Theorem C02_create_delete_alternate : forall D, wf_doc D -> forall s, reach D s ->
  forall o, alternating (playerHist o (s_log s)).
Proof. exact f_C02_hist. Qed.
Print Assumptions C02_create_delete_alternate.
Example C02_nonvacuous : exists s, reach demo s /\ playerHist 3 (s_log s) = [false; true] /\
  playerHist 4 (s_log s) = [true] /\ evState s 104 = OCCURRING.
Proof.
  destruct (check_reach demo demo0 (play ++ [CTick 1 1; CAct (act 103 STOP)])
   (fun s => bool_decide (playerHist 3 (s_log s) = [false; true]) && bool_decide (playerHist 4 (s_log s) = [true])
      && bool_decide (evState s 104 = OCCURRING))%bool) as (s & Hr & Hs); [apply demo_init|vm_compute; reflexivity|].
  splitb Hs. exists s. repeat (split; [assumption|]). assumption.
Qed.

(** C03, media: the clock is the sum of the increments received since the last
    start, and there is no clock exactly while the media sleeps. *)
Theorem C03_media_clock : forall D, wf_doc D -> forall s, reach D s ->
  forall o ob, d_obj D !! o = Some ob -> is_media (ob_kind ob) = true ->
  match sinceStart D o (s_log s) with
  | Some n => evState s (ob_lambda ob) <> SLEEPING /\ o_time (ostOf s o) = (n mod 2 ^ 64)%N
  | None => evState s (ob_lambda ob) = SLEEPING /\ o_time (ostOf s o) = TIME_NONE
  end.
Proof. exact f_C03_media. Qed.
Print Assumptions C03_media_clock.
(** C03, any object; missing: histories in which the object is paused or resumed
    after a nested link has already stopped it (see [C03_refuted]). *)
Theorem C03_object_clock_partial : forall D, wf_doc D -> forall s, reach D s ->
  forall o ob, d_obj D !! o = Some ob -> regular D o (s_log s) ->
  evState s (ob_lambda ob) <> SLEEPING ->
  exists n, sinceStart D o (s_log s) = Some n /\ o_time (ostOf s o) = (n mod 2 ^ 64)%N.
Proof. exact f_C03_all. Qed.
Print Assumptions C03_object_clock_partial.
Theorem C03_refuted : exists D s o ob, wf_doc D /\ reach D s /\ d_obj D !! o = Some ob /\
  evState s (ob_lambda ob) = OCCURRING /\ o_time (ostOf s o) = TIME_NONE.
Proof. exact f_C03_refuted. Qed.
Print Assumptions C03_refuted.
Example C03_nonvacuous : exists s, reach demo s /\ sinceStart demo 3 (s_log s) = Some (sec 3) /\
  sinceStart demo 5 (s_log s) = Some 7%N /\ regular demo 5 (s_log s) /\ evState s 105 = OCCURRING.
Proof.
  destruct (check_reach demo demo0 (play ++ [CTick 1 1; CTick 5 7; CTick 3 (sec 2); CAct (act 103 PAUSE);
     CTick 3 (sec 9); CAct (act 103 RESUME); CTick 3 (sec 1)])
    (fun s => bool_decide (sinceStart demo 3 (s_log s) = Some (sec 3)) && bool_decide (sinceStart demo 5 (s_log s) = Some 7%N)
       && regularb demo 5 (s_log s) && bool_decide (evState s 105 = OCCURRING))%bool) as (s & Hr & Hs);
    [apply demo_init|vm_compute; reflexivity|].
  splitb Hs. exists s. repeat (split; [assumption|]). assumption.
Qed.

(** C07.  The counter a context keeps is exactly the number of starts minus the
    number of ends of its children. *)
Theorem C07_counter_is_starts_minus_ends : forall D, wf_doc D -> forall s, reach D s ->
  forall p pb, d_obj D !! p = Some pb -> ob_kind pb = KContext ->
  o_awake (ostOf s p) = sumZ (fun c => runs D c (s_log s)) (ob_children pb).
Proof. exact f_C07_starts_minus_ends. Qed.
Print Assumptions C07_counter_is_starts_minus_ends.
(** ... which is the number of active children; missing: children with an
    irregular history, where it is false (see [C07_refuted]). *)
Theorem C07_counter_is_active_children_partial : forall D, wf_doc D -> forall s, reach D s ->
  forall p pb, d_obj D !! p = Some pb -> ob_kind pb = KContext ->
  (forall c, c ∈ ob_children pb -> regular D c (s_log s)) ->
  o_awake (ostOf s p) = Z.of_nat (countActive D s (ob_children pb)).
Proof. exact f_C07_count. Qed.
Print Assumptions C07_counter_is_active_children_partial.
(** At the end of its tick ([s1]: its due actions have been carried out) a context
    evaluates its own stop if no child is active -- for the root context: if only
    one, the settings, is -- and does nothing more otherwise. *)
Theorem C07_natural_end_partial : forall D, wf_doc D -> forall s, reach D s ->
  forall n o ob d s', d_obj D !! o = Some ob -> ob_kind ob = KContext ->
  sendTick D n o d s = Ok tt s' ->
  exists s1, objTick D n o d s = Ok tt s1 /\
    ((forall c, c ∈ ob_children ob -> regular D c (s_log s1)) ->
     let k := countActive D s1 (ob_children ob) in
     if (Nat.eqb k 0 || (bool_decide (ob_parent ob = None) && Nat.eqb k 1))%bool
     then exists k, evalAction D n (mkAct (ob_lambda ob) STOP None "" "" "") s1 = Ok k s'
     else s' = s1).
Proof. exact f_C07_end. Qed.
Print Assumptions C07_natural_end_partial.
(** A context all of whose children sleep and that no tick can end (finding 4). *)
Theorem C07_refuted : exists D s p pb, wf_doc D /\ reach D s /\ d_obj D !! p = Some pb /\
  ob_kind pb = KContext /\ ob_parent pb <> None /\ evState s (ob_lambda pb) = OCCURRING /\
  countActive D s (ob_children pb) = 0 /\
  forall n d, exists s', sendTick D n p d s = Ok tt s' /\ evState s' (ob_lambda pb) = OCCURRING.
Proof. exact f_C07_refuted. Qed.
Print Assumptions C07_refuted.
Example C07_nonvacuous : exists s s', reach demo s /\ sendTick demo 60 5 7 s = Ok tt s' /\
  evState s 105 = OCCURRING /\ evState s' 105 = SLEEPING /\ regular demo 6 (s_log s) /\ countActive demo s [6%positive] = 0.
Proof.
  destruct (check_reach demo demo0 (play ++ [CTick 1 1; CTick 5 7; CAct (act 106 STOP)])
    (fun s => run_is (sendTick demo 60 5 7 s) (fun _ s' => bool_decide (evState s 105 = OCCURRING) &&
        bool_decide (evState s' 105 = SLEEPING) && regularb demo 6 (s_log s) && (countActive demo s [6%positive] =? 0)%nat)%bool))
    as (s & Hr & Hs); [apply demo_init|vm_compute; reflexivity|].
  apply run_is_ok in Hs as ([] & s' & E & Hs). splitb Hs. exists s, s'. repeat (split; [assumption|]). assumption.
Qed.

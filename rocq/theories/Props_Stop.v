(** Props_Stop.v -- properties C05 and C06: stopping, pausing and resuming
    compositions.  Vocabulary: StopSpec.v (and [inside], InterSpec.v). *)
From Verif Require Import FactsStop.
Open Scope string_scope.
Open Scope list_scope.

(** C05.  Partial: documents without switches and without links that react to pauses
    or resumptions.  When an active context is stopped or aborted, every object in it, at
    any depth, sleeps; media in it have no player and no clock; and objects that
    were active have no occurring event, no clock and nothing scheduled. *)
Theorem C05_stop_content_partial : forall D, wf_doc D -> noSwitch D -> noHoldLinks D -> forall s, reach D s ->
  forall n o ob t b s', d_obj D !! o = Some ob -> ob_kind ob = KContext -> activeObj D s o ->
  t = STOP \/ t = ABORT -> tr D n (ob_lambda ob) t s = Ok b s' ->
  forall x xb, inside D o x -> d_obj D !! x = Some xb ->
    evState s' (ob_lambda xb) = SLEEPING /\
    (is_media (ob_kind xb) = true -> o_player (ostOf s' x) = None /\ o_time (ostOf s' x) = TIME_NONE) /\
    (activeObj D s x -> asleep D s' x).
Proof. exact f_C05. Qed.
Print Assumptions C05_stop_content_partial.
(** Every document: what is on stage below the stopped object is put to sleep. *)
Theorem C05_stop_stage : forall D, wf_doc D -> forall s n o ob t b s', t = STOP \/ t = ABORT ->
  d_obj D !! o = Some ob -> activeObj D s o -> tr D n (ob_lambda ob) t s = Ok b s' ->
  forall x, below D s o x -> activeObj D s x -> asleep D s' x.
Proof. exact f_C05_stage. Qed.
Print Assumptions C05_stop_stage.
(** Stopping an object never aborts and always returns. *)
Theorem C05_stop_returns : forall D, wf_doc D -> forall s o ob t, reach D s -> t = STOP \/ t = ABORT -> d_obj D !! o = Some ob ->
  exists N, forall n, N <= n -> exists b s', tr D n (ob_lambda ob) t s = Ok b s'.
Proof. exact f_C05_total. Qed.
Print Assumptions C05_stop_returns.
(** In general the claim is false of the code. *)
Theorem C05_refuted : exists D s s' o ob x xb, wf_doc D /\ reach D s /\ d_obj D !! o = Some ob /\ ob_kind ob = KContext /\
  evState s (ob_lambda ob) = OCCURRING /\ tr D 60 (ob_lambda ob) STOP s = Ok true s' /\
  inside D o x /\ d_obj D !! x = Some xb /\ is_media (ob_kind xb) = true /\
  evState s' (ob_lambda xb) = OCCURRING /\ o_player (ostOf s' x) <> None.
Proof. exact f_C05_refuted. Qed.
Print Assumptions C05_refuted.
Example C05_nonvacuous : exists s, wf_doc w_nested /\ noSwitch w_nested /\ noHoldLinks w_nested /\ reach w_nested s /\
  evState s 103 = OCCURRING /\ evState s 105 = OCCURRING /\ evState s 130 = OCCURRING /\
  exists s', tr w_nested 60 103 STOP s = Ok true s' /\ evState s' 105 = SLEEPING /\ evState s' 130 = SLEEPING.
Proof.
  destruct (check_reach w_nested (init [] []) nested_play (fun s => 
     stb s 103 OCCURRING && stb s 105 OCCURRING && stb s 130 OCCURRING && run_is (tr w_nested 60 103 STOP s) (fun b s1 => b && stb s1 105 SLEEPING && stb s1 130 SLEEPING))%bool)
    as (s & Hr & Hs); [apply init_init|vm_compute; reflexivity|].
  unfold stb in Hs. splitb Hs. match goal with HH : run_is _ _ = true |- _ => apply run_is_ok in HH as (b & s1 & E & Hz) end.
  splitb Hz. rewrite Hz in E. exists s. split; [apply w_nested_wf|]. split; [apply w_nested_quiet|]. split; [apply w_nested_quiet|].
  split; [exact Hr|]. split; [hyp|]. split; [hyp|]. split; [hyp|]. exists s1. split; [exact E|]. split; hyp.
Qed.

(** C06.  Partial: same documents.  Pausing (resuming) an object succeeds iff it occurs
    (is paused), and pauses (resumes) exactly the occurring (paused) presentations and anchors
    of the objects in it that are reached through occurring (paused) contexts. *)
Theorem C06_pause_resume_partial : forall D, wf_doc D -> noSwitch D -> noHoldLinks D -> forall s n o ob t b s', 
  d_obj D !! o = Some ob -> t = PAUSE \/ t = RESUME -> tr D n (ob_lambda ob) t s = Ok b s' ->
  (b = true <-> evState s (ob_lambda ob) = heldFrom t) /\
  (forall e, movesWith D s (heldFrom t) o e -> evState s' e = target t) /\
  (forall e, ~ movesWith D s (heldFrom t) o e -> evState s' e = evState s e).
Proof. exact f_C06. Qed.
Print Assumptions C06_pause_resume_partial.
(** Pausing and then resuming makes them occur again, and changes nothing else except
    that what was already paused may occur. *)
Theorem C06_round_trip_partial : forall D, wf_doc D -> noSwitch D -> noHoldLinks D -> forall s n1 n2 o ob b1 s1 b2 s2,
  d_obj D !! o = Some ob -> evState s (ob_lambda ob) = OCCURRING ->
  tr D n1 (ob_lambda ob) PAUSE s = Ok b1 s1 -> tr D n2 (ob_lambda ob) RESUME s1 = Ok b2 s2 ->
  b1 = true /\ b2 = true /\
  (forall e, movesWith D s OCCURRING o e -> evState s1 e = PAUSED /\ evState s2 e = OCCURRING) /\
  (forall e, evState s e <> PAUSED -> evState s2 e = evState s e).
Proof. exact f_C06_round. Qed.
Print Assumptions C06_round_trip_partial.
(** A switch does not restore its selected component. *)
Theorem C06_refuted_switch : exists D s s1 s2 o ob x xb, wf_doc D /\ reach D s /\ d_obj D !! o = Some ob /\ ob_kind ob = KSwitch /\
  o_selected (ostOf s o) = Some x /\ d_obj D !! x = Some xb /\ evState s (ob_lambda ob) = OCCURRING /\ evState s (ob_lambda xb) = OCCURRING /\
  tr D 60 (ob_lambda ob) PAUSE s = Ok true s1 /\ tr D 60 (ob_lambda ob) RESUME s1 = Ok true s2 /\
  evState s2 (ob_lambda ob) = OCCURRING /\ evState s2 (ob_lambda xb) = PAUSED.
Proof. exact f_C06_refuted_switch. Qed.
Print Assumptions C06_refuted_switch.
(** Even without switches, an occurring media in a paused context in the context being
    paused goes on. *)
Theorem C06_refuted_nested : exists D s s1 o ob x xb, wf_doc D /\ noSwitch D /\ noHoldLinks D /\ reach D s /\ d_obj D !! o = Some ob /\
  inside D o x /\ d_obj D !! x = Some xb /\ is_media (ob_kind xb) = true /\ evState s (ob_lambda xb) = OCCURRING /\
  tr D 60 (ob_lambda ob) PAUSE s = Ok true s1 /\ evState s1 (ob_lambda xb) = OCCURRING.
Proof. exact f_C06_refuted_nested. Qed.
Print Assumptions C06_refuted_nested.
Example C06_nonvacuous : exists s, wf_doc w_nested /\ noSwitch w_nested /\ noHoldLinks w_nested /\ reach w_nested s /\
  movesWith w_nested s OCCURRING 3 130 /\
  exists s1 s2, tr w_nested 60 103 PAUSE s = Ok true s1 /\ tr w_nested 60 103 RESUME s1 = Ok true s2 /\
   evState s1 130 = PAUSED /\ evState s1 101 = OCCURRING /\ evState s2 130 = OCCURRING.
Proof.
  destruct (check_reach w_nested (init [] []) nested_play (fun s => 
     stb s 103 OCCURRING && stb s 104 OCCURRING && stb s 105 OCCURRING && stb s 130 OCCURRING && run_is (tr w_nested 60 103 PAUSE s) (fun b s1 => b && stb s1 130 PAUSED && stb s1 101 OCCURRING &&
        run_is (tr w_nested 60 103 RESUME s1) (fun b s2 => b && stb s2 130 OCCURRING)))%bool)
    as (s & Hr & Hs); [apply init_init|vm_compute; reflexivity|].
  unfold stb in Hs. splitb Hs. match goal with HH : run_is _ _ = true |- _ => apply run_is_ok in HH as (b & s1 & E & Hz) end.
  splitb Hz. rewrite Hz in E. match goal with HH : run_is _ _ = true |- _ => apply run_is_ok in HH as (b2 & s2 & E2 & Hy) end.
  splitb Hy. rewrite Hy in E2. exists s. split; [apply w_nested_wf|]. split; [apply w_nested_quiet|]. split; [apply w_nested_quiet|].
  split; [exact Hr|]. split.
  - exists 5%positive. split.
    + eapply hd_child; [eapply hd_child; [eapply hd_self; [reflexivity|change (evState s 103 = OCCURRING); hyp]|reflexivity|reflexivity|left|reflexivity|change (evState s 104 = OCCURRING); hyp]
        |reflexivity|reflexivity|left|reflexivity|change (evState s 105 = OCCURRING); hyp].
    + split; [|hyp]. eexists. split; [reflexivity|]. right. split; [reflexivity|]. split; [right; left|]. eexists. split; reflexivity.
  - exists s1, s2. split; [exact E|]. split; [exact E2|]. split; [hyp|]. split; hyp.
Qed.

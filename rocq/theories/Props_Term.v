(** Props_Term.v -- property C11: termination.  Vocabulary: TermSpec.v.  [NoFuel]
    means that the call did not return within [n] nested steps. *)
From Verif Require Import FactsTerm.
Open Scope string_scope.
Open Scope list_scope.

(** C11.  If no cycle of triggers can be reached from action [a], there is a number of
    steps that suffices to evaluate [a] in every reachable state; giving more changes
    nothing. *)
Theorem C11_evaluation_terminates : forall D, wf_doc D -> forall a, valid_evt D (ac_evt a) ->
  acyclicFrom D (ac_evt a, ac_tr a) ->
  exists n0, forall s, reach D s ->
    evalAction D n0 a s <> NoFuel /\ forall n, n0 <= n -> evalAction D n a s = evalAction D n0 a s.
Proof. exact f_C11. Qed.
Print Assumptions C11_evaluation_terminates.
(** C11 for the calls of the formatter: on a document without trigger cycles, start,
    stop, ticks and keys return, within a number of steps that depends on the document
    only. *)
Theorem C11_api_terminates : forall D, wf_doc D -> noCycle D -> exists n0, forall n, n0 <= n -> forall f, freach f ->
  (forall s, f_doc f = Some (D, s) ->
     (forall d, ftick n0 d f <> NoFuel /\ ftick n d f = ftick n0 d f) /\
     (forall k p, fkey n0 k p f <> NoFuel /\ fkey n k p f = fkey n0 k p f) /\
     (fstop n0 f <> NoFuel /\ fstop n f = fstop n0 f)) /\
  (forall F s, goodFile F -> F (f_w f) (f_h f) (f_focus f) = Some (D, s) ->
     fstart n0 F f <> NoFuel /\ fstart n F f = fstart n0 F f).
Proof. exact f_C11_api. Qed.
Print Assumptions C11_api_terminates.
(** The hypothesis is needed: two links that trigger each other never end. *)
Theorem C11_cycle_diverges : exists D a s, wf_doc D /\ reach D s /\ valid_evt D (ac_evt a) /\
  forall n, evalAction D n a s = NoFuel.
Proof. exact f_C11_cycle. Qed.
Print Assumptions C11_cycle_diverges.
(** The document [demo] (links, switch port, anchor) has triggers, and no cycle. *)
Example C11_nonvacuous : wf_doc demo /\ noCycle demo /\ acyclicFrom demo (103%positive, START) /\
  valid_evt demo 103 /\ causes demo (103%positive, START) (104%positive, START).
Proof.
  split; [apply demo_wf|]. split; [apply demo_noCycle|]. split; [intros y _; apply demo_noCycle|]. split; [by eexists|].
  eapply (ca_link demo 1%positive _ [cond 103 START] [act 104 START; actd 104 STOP "5s"] (cond 103 START) (act 104 START));
    [reflexivity|left|left|left|]. exists demo0. vm_compute. reflexivity.
Qed.

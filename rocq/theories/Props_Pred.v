(** Props_Pred.v -- properties C12 and C13.  Vocabulary: PredSpec.v. *)
From Verif Require Import FactsPred Examples Witness.
Open Scope string_scope.
Open Scope list_scope.

(** C12.  Evaluating a predicate does not change the document, and gives its
    classical truth value over the current values of the references in it. *)
Theorem C12_truth_value : forall D p s b s', evalPredicate D p s = Ok b s' ->
  s' = s /\ (b = true <-> holds (evalPropertyRef D s) p).
Proof. exact evalPredicate_ok. Qed.
Print Assumptions C12_truth_value.
(** It has a value whenever the predicate is free of negation. *)
Theorem C12_defined_partial : forall D p s, negFree p -> exists b, evalPredicate D p s = Ok b s.
Proof. exact evalPredicate_defined. Qed.
Print Assumptions C12_defined_partial.
(** Evaluating a negation aborts the program, whatever is negated. *)
Theorem C12_refuted : forall D s cs, exists pos, evalPredicate D (PNeg cs) s = Crash (CAssert pos).
Proof. intros D s cs. eexists. reflexivity. Qed.
Print Assumptions C12_refuted.
Example C12_nonvacuous : exists s, reach demo s /\
  evalPredicate demo (PAnd [POr [PAtom "$a.x" TLT "1"; PFalsum]; PAtom "$alias_a.x" TEQ "0"; PAnd []]) s = Ok true s /\
  evalPredicate demo (PAtom "10" TLT "9") s = Ok true s.
Proof.
  destruct (check_reach demo demo0 play (fun s =>
    bool_decide (eval_pred (evalPropertyRef demo s) (PAnd [POr [PAtom "$a.x" TLT "1"; PFalsum]; PAtom "$alias_a.x" TEQ "0"; PAnd []]) = Some true)
    && bool_decide (eval_pred (evalPropertyRef demo s) (PAtom "10" TLT "9") = Some true))%bool) as (s & Hr & Hs);
    [apply demo_init|vm_compute; reflexivity|].
  splitb Hs. exists s. split; [exact Hr|]. unfold evalPredicate. rewrite Hs, Hs0. done.
Qed.

(** C13.  A string has a value as a reference only if it is "$i.name", [i] free of
    dots, and the value is the property [name] of an object known as [i]. *)
Theorem C13_value : forall D s ref v, evalPropertyRef D s ref = Some v ->
  exists i name o, isRef ref i name /\ knownAs D o i /\ v = propOf s o name.
Proof. exact ref_some. Qed.
Print Assumptions C13_value.
(** Any other string has none, and only those. *)
Theorem C13_no_value : forall D s ref,
  (forall i name o, isRef ref i name -> ~ knownAs D o i) <-> evalPropertyRef D s ref = None.
Proof. exact ref_none. Qed.
Print Assumptions C13_no_value.
(** The decomposition of a reference is unique. *)
Theorem C13_unique : forall ref i name i' name', isRef ref i name -> isRef ref i' name' -> i = i' /\ name = name'.
Proof. exact isRef_unique. Qed.
Print Assumptions C13_unique.
Example C13_nonvacuous : exists s, reach demo s /\ isRef "$alias_a.x" "alias_a" "x" /\ knownAs demo 3 "alias_a" /\
  evalPropertyRef demo s "$alias_a.x" = Some "0" /\ evalPropertyRef demo s "$nobody.x" = None /\ evalPropertyRef demo s "a.x" = None.
Proof.
  destruct (check_reach demo demo0 play (fun s =>
    bool_decide (evalPropertyRef demo s "$alias_a.x" = Some "0") && bool_decide (evalPropertyRef demo s "$nobody.x" = None)
    && bool_decide (evalPropertyRef demo s "a.x" = None))%bool) as (s & Hr & Hs);
    [apply demo_init|vm_compute; reflexivity|].
  splitb Hs. exists s. split; [exact Hr|]. split; [split; [reflexivity|]|].
  { cbn. intros H. repeat destruct H as [H|H]; discriminate || exact H. }
  split; [|auto]. apply lookup_known. vm_compute. reflexivity.
Qed.

(** C33.  Cloning a predicate, on the heap (PredHeap.v): [den h p t F] means that in
    heap [h] pointer [p] spells formula [t] with the nodes [F].  The clone spells the
    same formula with new nodes; the original is untouched; whatever happens to the
    nodes of one of them does not affect the other; nothing else changes. *)
Theorem C33_clone : forall h p t F k, den h p t F -> pdepth t <= k ->
  exists q h' G, pclone k p h = Ok q h' /\ den h' q t G /\ den h' p t F /\ G ## F /\
    parentOf h' q = Some None /\ (forall x, x ∉ G -> h' !! x = h !! x) /\
    (forall h2, (forall x, x ∉ G -> h2 !! x = h' !! x) -> den h2 p t F) /\
    (forall h2, (forall x, x ∉ F -> h2 !! x = h' !! x) -> den h2 q t G).
Proof. exact f_C33_clone. Qed.
Print Assumptions C33_clone.
(** Predicates that spell the same formula print and evaluate identically. *)
Theorem C33_same_behaviour : forall h p q t F G k rf, den h p t F -> den h q t G -> pdepth t <= k ->
  ptoString k p h = Ok (pred_str t) h /\ ptoString k q h = ptoString k p h /\ peval rf k q h = peval rf k p h /\
  (forall b, peval rf k p h = Ok b h <-> eval_pred rf t = Some b).
Proof. exact f_C33_same. Qed.
Print Assumptions C33_same_behaviour.
(** Deleting a predicate releases all of its nodes, each once, and nothing else. *)
Theorem C33_delete : forall h p t F k, den h p t F -> pdepth t <= k ->
  exists h', pdelete k p h = Ok tt h' /\ (forall x, x ∈ F -> h' !! x = None) /\ (forall x, x ∉ F -> h' !! x = h !! x).
Proof. exact f_C33_delete. Qed.
Print Assumptions C33_delete.
(** or($a.x == '1', true), built by the constructors, and its clone. *)
Example C33_nonvacuous : 
  let m := do p <- pnew TyOr; do a <- pnew TyAtom; setTest a "$a.x" TEQ "1" ;; addChild p a ;;
           do b <- pnew TyVerum; addChild p b ;; do q <- pclone 2 p; do s <- ptoString 2 q; ret (p, q, s) in
  match m ∅ with
  | Ok (p, q, s) h => bool_decide (p <> q) && String.eqb s "or($a.x=='1', true)" && (size h =? 6)%nat
  | _ => false
  end = true.
Proof. vm_compute. reflexivity. Qed.
Example C33_den : den {[ 1%positive := mkP TyAnd "" TEQ "" [2%positive] None; 2%positive := mkP TyVerum "" TEQ "" [] (Some 1%positive) ]}
   1%positive (PAnd [PVerum]) ({[1%positive]} ∪ ({[2%positive]} ∪ ∅)).
Proof.
  eapply den_and; [reflexivity|reflexivity| |set_solver]. cbn. constructor; [|constructor|set_solver].
  eapply den_verum; reflexivity.
Qed.

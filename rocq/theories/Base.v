(** Base.v -- outcomes, the state/crash/fuel monad, 64-bit time.

    Nothing in this file is ginga-specific except the encoding of
    GINGA_TIME_NONE (lib/aux-ginga.h:123, i.e. GST_CLOCK_TIME_NONE). *)
From Coq Require Export List String Ascii Lia.
From stdpp Require Export base gmap strings list numbers.
Export ListNotations.
Open Scope list_scope.

(** ** Crashes.  The string is the source position of the failing check. *)
Inductive crash : Type :=
  | CAssert (pos : string)   (* g_assert, g_assert_nonnull, g_assert_not_reached *)
  | CError  (pos : string)   (* ERROR = g_error: logs and aborts (aux-ginga.h:111) *)
  | CUB     (pos : string).  (* C++ undefined behaviour *)

Inductive outcome (S A : Type) : Type :=
  | Ok (a : A) (s : S)
  | Crash (c : crash)
  | NoFuel.                  (* artefact of fuel, never a C++ behaviour *)
Arguments Ok {S A} a s.
Arguments Crash {S A} c.
Arguments NoFuel {S A}.

Definition M (S A : Type) : Type := S -> outcome S A.

Definition ret {S A} (a : A) : M S A := fun s => Ok a s.
Definition bind {S A B} (m : M S A) (f : A -> M S B) : M S B :=
  fun s => match m s with
           | Ok a s' => f a s'
           | Crash c => Crash c
           | NoFuel => NoFuel
           end.
Definition get {S} : M S S := fun s => Ok s s.
Definition gets {S A} (f : S -> A) : M S A := fun s => Ok (f s) s.
Definition modify {S} (f : S -> S) : M S unit := fun s => Ok tt (f s).
Definition crashm {S A} (c : crash) : M S A := fun _ => Crash c.
Definition nofuel {S A} : M S A := fun _ => NoFuel.
Definition assertm {S} (b : bool) (pos : string) : M S unit :=
  if b then ret tt else crashm (CAssert pos).
Definition ofoption {S A} (o : option A) (c : crash) : M S A :=
  match o with Some a => ret a | None => crashm c end.
Definition whenm {S} (b : bool) (m : M S unit) : M S unit :=
  if b then m else ret tt.

Declare Scope m_scope.
Delimit Scope m_scope with M.
Notation "'do' x <- m ; f" := (bind m (fun x => f))
  (at level 200, x pattern, m at level 100, f at level 200, right associativity) : m_scope.
Notation "m ;; f" := (bind m (fun _ => f))
  (at level 100, f at level 200, right associativity) : m_scope.
Open Scope m_scope.

Fixpoint foreach {S A} (f : A -> M S unit) (l : list A) : M S unit :=
  match l with
  | [] => ret tt
  | x :: l => f x ;; foreach f l
  end.

(** ** Time: GstClockTime is guint64, arithmetic modulo 2^64. *)
Open Scope N_scope.
Definition W64 : N := 18446744073709551616.
Definition TIME_NONE : N := 18446744073709551615.   (* aux-ginga.h:123 *)
Definition SECOND : N := 1000000000.                (* aux-ginga.h:127 *)
Definition tadd (a b : N) : N := (a + b) mod W64.
Definition tsub (a b : N) : N := (a + W64 - b) mod W64.
Definition tvalid (t : N) : bool := negb (N.eqb t TIME_NONE). (* aux-ginga.h:124 *)
Close Scope N_scope.

(** ** A weakest precondition with a choice of what crashing and running out of
    fuel mean: [wp True True] is partial correctness, [wp False False] total. *)
Definition wp {S A} (cr nf : Prop) (m : M S A) (Q : A -> S -> Prop) (s : S) : Prop :=
  match m s with
  | Ok a s' => Q a s'
  | Crash _ => cr
  | NoFuel => nf
  end.

Section wp_rules.
  Context {S : Type} (cr nf : Prop).
  Local Notation wp := (wp cr nf).

  Lemma wp_mono {A} (m : M S A) (P Q : A -> S -> Prop) s :
    wp m P s -> (forall a s', P a s' -> Q a s') -> wp m Q s.
  Proof. unfold Base.wp. destruct (m s); auto. Qed.
  Lemma wp_ret {A} (a : A) (Q : A -> S -> Prop) s : Q a s -> wp (ret a) Q s.
  Proof. exact id. Qed.
  Lemma wp_bind {A B} (m : M S A) (f : A -> M S B) (Q : B -> S -> Prop) s :
    wp m (fun a s' => wp (f a) Q s') s -> wp (bind m f) Q s.
  Proof. unfold Base.wp, bind. destruct (m s); auto. Qed.
  Lemma wp_get (Q : S -> S -> Prop) s : Q s s -> wp get Q s.
  Proof. exact id. Qed.
  Lemma wp_gets {A} (f : S -> A) (Q : A -> S -> Prop) s : Q (f s) s -> wp (gets f) Q s.
  Proof. exact id. Qed.
  Lemma wp_modify (f : S -> S) (Q : unit -> S -> Prop) s : Q tt (f s) -> wp (modify f) Q s.
  Proof. exact id. Qed.
  Lemma wp_crash {A} c (Q : A -> S -> Prop) s : cr -> wp (crashm c) Q s.
  Proof. exact id. Qed.
  Lemma wp_nofuel {A} (Q : A -> S -> Prop) s : nf -> wp nofuel Q s.
  Proof. exact id. Qed.
  Lemma wp_assert b pos (Q : unit -> S -> Prop) s :
    (b = false -> cr) -> (b = true -> Q tt s) -> wp (assertm b pos) Q s.
  Proof. destruct b; unfold Base.wp, assertm; cbn; auto. Qed.
  Lemma wp_ofoption {A} (o : option A) c (Q : A -> S -> Prop) s :
    (o = None -> cr) -> (forall a, o = Some a -> Q a s) -> wp (ofoption o c) Q s.
  Proof. destruct o; unfold Base.wp, ofoption; cbn; auto. Qed.
  Lemma wp_when b (m : M S unit) (Q : unit -> S -> Prop) s :
    (b = true -> wp m Q s) -> (b = false -> Q tt s) -> wp (whenm b m) Q s.
  Proof. intros H1 H2. destruct b; [exact (H1 eq_refl) | exact (H2 eq_refl)]. Qed.
  Lemma wp_if {A} (b : bool) (m1 m2 : M S A) (Q : A -> S -> Prop) s :
    (b = true -> wp m1 Q s) -> (b = false -> wp m2 Q s) -> wp (if b then m1 else m2) Q s.
  Proof. destruct b; auto. Qed.

  (** Loop rule with an invariant indexed by the elements left. *)
  Lemma wp_foreach {A} (f : A -> M S unit) (l : list A) (I : list A -> S -> Prop)
      (Q : unit -> S -> Prop) s :
    I l s ->
    (forall x l' s', (exists p, l = p ++ x :: l') -> I (x :: l') s' ->
        wp (f x) (fun _ => I l') s') ->
    (forall s', I [] s' -> Q tt s') ->
    wp (foreach f l) Q s.
  Proof.
    intros HI Hstep Hend.
    assert (Hgen : forall l2 l1 s', l = l1 ++ l2 -> I l2 s' -> wp (foreach f l2) Q s').
    { induction l2 as [|x l2 IH]; intros l1 s' Heq HI'; cbn [foreach].
      - apply wp_ret. auto.
      - apply wp_bind. eapply wp_mono.
        + apply Hstep; [exists l1; exact Heq | exact HI'].
        + intros [] s'' HI''. apply (IH (l1 ++ [x])); [|exact HI''].
          rewrite <- app_assoc. exact Heq. }
    apply (Hgen l []); auto.
  Qed.
  Lemma wp_foreach_inv {A} (f : A -> M S unit) (l : list A) (I : S -> Prop)
      (Q : unit -> S -> Prop) s :
    I s ->
    (forall x s', x ∈ l -> I s' -> wp (f x) (fun _ => I) s') ->
    (forall s', I s' -> Q tt s') ->
    wp (foreach f l) Q s.
  Proof.
    intros HI Hstep Hend. apply (wp_foreach f l (fun _ => I)); auto.
    intros x l' s' [p ->] Hs'. apply Hstep; [|exact Hs'].
    apply elem_of_app; right; left.
  Qed.
End wp_rules.

Lemma foreach_app {S A} (f : A -> M S unit) (l1 l2 : list A) s :
  foreach f (l1 ++ l2) s = bind (foreach f l1) (fun _ => foreach f l2) s.
Proof.
  revert s. induction l1 as [|x l1 IH]; intros s; cbn.
  - reflexivity.
  - unfold bind. destruct (f x s) as [[] s'| |]; auto.
    rewrite IH. reflexivity.
Qed.

(** Predicate.v -- predicates (lib/Predicate.cpp, lib/Predicate.h) and their
    evaluation (Document::evalPredicate, lib/Document.cpp:426-538). *)
From Verif Require Export Str.
Open Scope string_scope.

(** Predicate.h:38-46. *)
Inductive ptest : Type := TEQ | TNE | TLT | TLE | TGT | TGE.

(** Predicate.h:28-36; children of connectives are kept in a list, NEGATION
    included (Predicate.h:74).  The parent pointer is not represented. *)
Inductive npred : Type :=
  | PFalsum
  | PVerum
  | PAtom (left : string) (test : ptest) (right : string)
  | PNeg (cs : list npred)
  | PAnd (cs : list npred)
  | POr (cs : list npred).

(** Induction principle that goes through the child lists. *)
Section pred_ind'.
  Variable P : npred -> Prop.
  Hypothesis Hf : P PFalsum.
  Hypothesis Ht : P PVerum.
  Hypothesis Ha : forall l t r, P (PAtom l t r).
  Hypothesis Hn : forall cs, Forall P cs -> P (PNeg cs).
  Hypothesis Hc : forall cs, Forall P cs -> P (PAnd cs).
  Hypothesis Hd : forall cs, Forall P cs -> P (POr cs).
  Fixpoint pred_ind' (p : npred) : P p :=
    let all := fix all (cs : list npred) : Forall P cs :=
      match cs with
      | [] => @List.Forall_nil _ P
      | c :: cs => @List.Forall_cons _ P c cs (pred_ind' c) (all cs)
      end in
    match p with
    | PFalsum => Hf
    | PVerum => Ht
    | PAtom l t r => Ha l t r
    | PNeg cs => Hn cs (all cs)
    | PAnd cs => Hc cs (all cs)
    | POr cs => Hd cs (all cs)
    end.
End pred_ind'.

#[global] Instance ptest_eq_dec : EqDecision ptest. Proof. solve_decision. Defined.
Fixpoint npred_eqb (p q : npred) : bool :=
  let go := fix go (l1 l2 : list npred) : bool :=
    match l1, l2 with
    | [], [] => true
    | x :: l1, y :: l2 => npred_eqb x y && go l1 l2
    | _, _ => false
    end in
  match p, q with
  | PFalsum, PFalsum | PVerum, PVerum => true
  | PAtom l t r, PAtom l' t' r' => String.eqb l l' && bool_decide (t = t') && String.eqb r r'
  | PNeg l1, PNeg l2 | PAnd l1, PAnd l2 | POr l1, POr l2 => go l1 l2
  | _, _ => false
  end.
Lemma npred_eqb_spec p : forall q, npred_eqb p q = true <-> p = q.
Proof.
  assert (Hgo : forall cs, Forall (fun p => forall q, npred_eqb p q = true <-> p = q) cs ->
    forall l2, (fix go (l1 l2 : list npred) : bool :=
      match l1, l2 with
      | [], [] => true
      | x :: l1, y :: l2 => npred_eqb x y && go l1 l2
      | _, _ => false
      end) cs l2 = true <-> cs = l2).
  { induction 1 as [|x l Hx Hl IH]; intros [|y l2]; try (split; congruence).
    rewrite andb_true_iff, Hx, IH. split; [intros [-> ->]; done | intros [= -> ->]; done]. }
  induction p using pred_ind'; intros []; cbn [npred_eqb]; try (split; congruence).
  - rewrite !andb_true_iff, !String.eqb_eq, bool_decide_eq_true. split; [intros [[-> ->] ->]; done|].
    intros [= -> -> ->]; done.
  - rewrite Hgo by done. split; congruence.
  - rewrite Hgo by done. split; congruence.
  - rewrite Hgo by done. split; congruence.
Qed.
#[global] Instance npred_eq_dec : EqDecision npred.
Proof.
  intros p q. destruct (npred_eqb p q) eqn:E; [left; by apply npred_eqb_spec|].
  right. intros H%npred_eqb_spec. congruence.
Defined.

(** The comparison of Document.cpp:470-498, on std::string operators. *)
Definition eval_test (l : string) (t : ptest) (r : string) : bool :=
  match t with
  | TEQ => String.eqb l r
  | TNE => negb (String.eqb l r)
  | TLT => str_lt l r
  | TLE => str_le l r
  | TGT => str_lt r l
  | TGE => str_le r l
  end.

(** An operand: Document.cpp:448-468.  [rf] is evalPropertyRef ([None] = false). *)
Definition operand (rf : string -> option string) (s : string) : string :=
  if Ascii.eqb (char0 s) "$" then default s (rf s) else s.

(** Document::evalPredicate, Document.cpp:426-538.  [None]: NEGATION reaches
    g_assert_not_reached (line 504).  Note the short-circuit in and/or. *)
Fixpoint eval_pred (rf : string -> option string) (p : npred) : option bool :=
  match p with
  | PFalsum => Some false
  | PVerum => Some true
  | PAtom l t r => Some (eval_test (operand rf l) t (operand rf r))
  | PNeg _ => None
  | PAnd cs =>
    (fix go (cs : list npred) : option bool :=
       match cs with
       | [] => Some true
       | c :: cs => match eval_pred rf c with
                    | Some true => go cs
                    | Some false => Some false
                    | None => None
                    end
       end) cs
  | POr cs =>
    (fix go (cs : list npred) : option bool :=
       match cs with
       | [] => Some false
       | c :: cs => match eval_pred rf c with
                    | Some false => go cs
                    | Some true => Some true
                    | None => None
                    end
       end) cs
  end.

(** Predicate::toString, Predicate.cpp:44-115. *)
Definition test_str (t : ptest) : string :=
  match t with TEQ => "==" | TNE => "!=" | TLT => "<" | TLE => "<=" | TGT => ">" | TGE => ">=" end.
Definition quote_operand (s : string) : string :=
  if Ascii.eqb (char0 s) "$" then s else "'" ++ s ++ "'".
Fixpoint pred_str (p : npred) : string :=
  let args := fix args (cs : list npred) : string :=
    match cs with
    | [] => ""
    | [c] => pred_str c
    | c :: cs => pred_str c ++ ", " ++ args cs
    end in
  match p with
  | PFalsum => "false"
  | PVerum => "true"
  | PAtom l t r => quote_operand l ++ test_str t ++ quote_operand r
  | PNeg cs => "not(" ++ args cs ++ ")"
  | PAnd cs => "and(" ++ args cs ++ ")"
  | POr cs => "or(" ++ args cs ++ ")"
  end.

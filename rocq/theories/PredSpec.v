(** PredSpec.v -- what predicates and property references mean. *)
From Verif Require Export Engine.
Open Scope string_scope.
Open Scope list_scope.

(** [lex a b]: [a] comes strictly before [b] in byte-wise dictionary order. *)
Inductive lex : string -> string -> Prop :=
  | lex_nil c b : lex "" (String c b)
  | lex_lt c d a b : (N_of_ascii c < N_of_ascii d)%N -> lex (String c a) (String d b)
  | lex_eq c a b : lex a b -> lex (String c a) (String c b).

(** Comparison of two values. *)
Definition compares (a : string) (t : ptest) (b : string) : Prop :=
  match t with
  | TEQ => a = b
  | TNE => a <> b
  | TLT => lex a b
  | TLE => a = b \/ lex a b
  | TGT => lex b a
  | TGE => a = b \/ lex b a
  end.

(** Value of an operand, given the value of property references ([None]: the
    string is not a reference to an existing object). *)
Definition valueOf (rf : string -> option string) (x : string) : string :=
  match rf x with Some v => v | None => x end.

(** Classical truth of a formula. *)
Fixpoint holds (rf : string -> option string) (p : npred) : Prop :=
  match p with
  | PFalsum => False
  | PVerum => True
  | PAtom l t r => compares (valueOf rf l) t (valueOf rf r)
  | PNeg cs => ~ (fix all (cs : list npred) : Prop :=
                    match cs with [] => True | c :: cs => holds rf c /\ all cs end) cs
  | PAnd cs => (fix all (cs : list npred) : Prop :=
                  match cs with [] => True | c :: cs => holds rf c /\ all cs end) cs
  | POr cs => (fix any (cs : list npred) : Prop :=
                  match cs with [] => False | c :: cs => holds rf c \/ any cs end) cs
  end.
(** No negation in the formula. *)
Fixpoint negFree (p : npred) : Prop :=
  match p with
  | PNeg _ => False
  | PAnd cs | POr cs => (fix all (cs : list npred) : Prop :=
                  match cs with [] => True | c :: cs => negFree c /\ all cs end) cs
  | _ => True
  end.

(** The reference "$i.name", the id reaching to the first dot. *)
Definition isRef (ref i name : string) : Prop :=
  ref = ("$" ++ i ++ "." ++ name)%string /\ ~ In "."%char (list_ascii_of_string i).
(** Object [o] of the document has id [i]; has alias [i]. *)
Definition idOf (D : doc) (o : oid) (i : string) : Prop :=
  o ∈ d_objs D /\ exists ob, d_obj D !! o = Some ob /\ ob_id ob = i.
Definition aliasOf (D : doc) (o : oid) (i : string) : Prop :=
  o ∈ d_objs D /\ exists ob c, d_obj D !! o = Some ob /\ (i, c) ∈ ob_aliases ob.
(** [o] is an object known as [i]: by its id, or, if [i] is nobody's id, by an alias. *)
Definition knownAs (D : doc) (o : oid) (i : string) : Prop :=
  idOf D o i \/ ((forall o', ~ idOf D o' i) /\ aliasOf D o i).

(** [None] means no predicate: always true. *)
Definition holdsOpt (D : doc) (s : st) (p : option npred) : Prop :=
  match p with None => True | Some p => holds (evalPropertyRef D s) p end.

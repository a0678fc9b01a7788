(** DecSpec.v -- the number a decimal literal denotes, for C26 and C46.  Nothing here refers
    to the parsing functions of the model. *)
From Verif Require Export ParseSpec.
From Coq Require Export QArith Qpower Qabs.
Open Scope string_scope.
Open Scope list_scope.

(** An exponent: nothing, or e or E, a sign and digits. *)
Definition exponentOf (s : string) (e : Z) : Prop :=
  (s = "" /\ e = 0%Z) \/
  exists c sg ds, (c = "e" \/ c = "E") /\ digits ds /\ s = (c ++ sg ++ numeral ds)%string /\
    (((sg = "" \/ sg = "+") /\ e = Z.of_N (value ds)) \/ (sg = "-" /\ e = (- Z.of_N (value ds))%Z)).
(** A fraction: nothing, or a point and digits. *)
Definition fractionOf (s : string) (f : list N) : Prop :=
  Forall (fun d => d < 10)%N f /\ ((s = "" /\ f = []) \/ s = ("." ++ numeral f)%string).
(** The literal a.f e x denotes af times ten to the x minus the number of digits of f. *)
Definition decimalOf (s : string) (q : Q) : Prop :=
  exists a fs f xs e, digits a /\ fractionOf fs f /\ exponentOf xs e /\ s = (numeral a ++ fs ++ xs)%string /\
    (q == inject_Z (Z.of_N (value (a ++ f))) * Qpower 10 (e - Z.of_nat (List.length f)))%Q.

(** An integer at the start of a string: white space, a sign, digits; what follows is not a
    digit. *)
Definition integerAt (s : string) (z : Z) : Prop :=
  exists w sg ds rest, s = (w ++ sg ++ numeral ds ++ rest)%string /\ blank w /\ digits ds /\
    (forall c r, rest = String c r -> ~ isDigit c) /\
    (((sg = "" \/ sg = "+") /\ z = Z.of_N (value ds)) \/ (sg = "-" /\ z = (- Z.of_N (value ds))%Z)).
(** Equality but for the case of the letters. *)
Definition sameLetter (a b : ascii) : Prop :=
  a = b \/ (N_of_ascii a + 32 = N_of_ascii b /\ 65 <= N_of_ascii a <= 90)%N \/ (N_of_ascii b + 32 = N_of_ascii a /\ 65 <= N_of_ascii b <= 90)%N.
Definition sameWord (s t : string) : Prop := Forall2 sameLetter (chars s) (chars t).

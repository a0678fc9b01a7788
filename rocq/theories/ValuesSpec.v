(** ValuesSpec.v -- vocabulary of C31 and C32. *)
From Verif Require Import ParseSpec.
From Verif Require Export Parser.
Open Scope string_scope.
Open Scope list_scope.

(** ** C31: what an attribute of a connector denotes in a link.  [binds], [links]: the
    parameters given by the bind and by the link; [props]: the properties bound to roles the
    connector does not have. *)
Definition isPlain (s : string) : Prop := forall n, s <> ("$" ++ n)%string.
Inductive denotes (binds links props : string -> option string) : string -> string -> Prop :=
| D_plain s : isPlain s -> denotes binds links props s s
| D_param n v : (binds n = Some v \/ (binds n = None /\ links n = Some v)) -> isPlain v -> denotes binds links props ("$" ++ n) v
| D_property n m v w : (binds n = Some v \/ (binds n = None /\ links n = Some v)) -> v = ("$" ++ m)%string -> props m = Some w -> denotes binds links props ("$" ++ n) w
| D_unbound n m v : (binds n = Some v \/ (binds n = None /\ links n = Some v)) -> v = ("$" ++ m)%string -> props m = None -> denotes binds links props ("$" ++ n) v
| D_unknown n : binds n = None -> links n = None -> denotes binds links props ("$" ++ n) "".

(** ** C32: attribute [n] is the percentage [p]; rectangle [r] lies in [q], up to [d] pixels. *)
Definition pct (n : string) (a : smapT) (p : N) : Prop := exists ds, digits ds /\ value ds = p /\ sget n a = Some (numeral ds ++ "%")%string.
Definition insideBy (d : Z) (r q : rect) : Prop :=
  (r_x q - d <= r_x r)%Z /\ (0 <= r_w r)%Z /\ (r_x r + r_w r <= r_x q + r_w q + d)%Z /\
  (r_y q - d <= r_y r)%Z /\ (0 <= r_h r)%Z /\ (r_y r + r_h r <= r_y q + r_h q + d)%Z.

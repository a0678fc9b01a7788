(** UserSpec.v -- histories of a user-data container (C23). *)
From Verif Require Export UserData.
Open Scope string_scope.
Open Scope list_scope.

(** A call of setData: key, value (null pointer: None), clean-up function. *)
Definition call : Type := (string * option uval * option ufn)%type.
(** What the last call for [key] attached, if it attached a value. *)
Definition lastFor (h : list call) (key : string) : option (uval * option ufn) :=
  foldl (fun acc c => match c with (k, v, f) => if String.eqb k key then (fun v => (v, f)) <$> v else acc end) None h.
(** The values attached with a clean-up function in a history. *)
Definition owed (h : list call) : list (ufn * uval) :=
  omap (fun c => match c with (_, Some v, Some f) => Some (f, v) | _ => None end) h.
(** The calls of history [h], from an empty container, give container [u]. *)
Inductive history : list call -> udata -> Prop :=
  | h_new : history [] unew
  | h_set h u k v f b u' : history h u -> usetData k v f u = Ok b u' -> history (h ++ [(k, v, f)]) u'.
(** The clean-up owed for [key]. *)
Definition cleanupFor (x : option (uval * option ufn)) : list (ufn * uval) :=
  match x with Some (v, Some f) => [(f, v)] | _ => [] end.

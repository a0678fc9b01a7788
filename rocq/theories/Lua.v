(** Lua.v -- the values a Lua script may return, as the C API of Lua shows them.

    Simplifications: a table is the list of its entries in the order in which [lua_next]
    visits them; tables are finite trees (a table that contains itself, or a metatable, is
    not represented); a number is represented by the text [lua_tolstring] turns it into. *)
From Coq Require Export ZArith.
From Verif Require Export Str.
Open Scope string_scope.
Open Scope list_scope.

Inductive lkey : Type :=
  | KInt (n : Z) | KFloat | KStr (s : string)
  | KOther.                                    (* a boolean, a table, a function... *)
Inductive lval : Type :=
  | VBool (b : bool)
  | VNum (text : string)
  | VStr (s : string)
  | VTab (l : list (lkey * lval))
  | VOther.                                    (* a function, a userdata, a thread *)

(** The entry of a table under an integer (lua_rawgeti) or a string (lua_getfield); [None]
    is nil. *)
Definition intKey (n : Z) (k : lkey) : bool := match k with KInt m => Z.eqb m n | _ => false end.
Definition strKey (s : string) (k : lkey) : bool := match k with KStr r => String.eqb r s | _ => false end.
Definition item (l : list (lkey * lval)) (n : Z) : option lval := snd <$> List.find (fun x => intKey n (fst x)) l.
Definition field (l : list (lkey * lval)) (s : string) : option lval := snd <$> List.find (fun x => strKey s (fst x)) l.
(** The C string of a value (lua_tolstring): strings and numbers have one. *)
Definition text (v : lval) : option string :=
  match v with VStr s => Some (cstr s) | VNum s => Some (cstr s) | _ => None end.

(** How deep tables are nested. *)
Fixpoint depth (v : lval) : nat :=
  match v with
  | VTab l => S ((fix go (l : list (lkey * lval)) : nat := match l with [] => O | x :: r => Nat.max (depth (snd x)) (go r) end) l)
  | _ => O
  end.

(** UserData.v -- the user-data containers of documents and parser elements.
    Source: lib/aux-ginga.cpp:763-801 (UserData), lib/aux-ginga.h:201-213. *)
From Verif Require Export Base.
Open Scope string_scope.
Open Scope list_scope.

(** Pointers to values and clean-up functions. *)
Definition uval : Type := positive.
Definition ufn : Type := positive.
(** A container, and the log of the calls of clean-up functions made so far (most
    recent last): which function was called, on which value. *)
Record udata : Type := mkU { u_map : gmap string (uval * option ufn); u_cleaned : list (ufn * uval) }.
Definition MU := M udata.

(** UserData::UserData, aux-ginga.cpp:763-765. *)
Definition unew : udata := mkU ∅ [].
(** UserData::getData, aux-ginga.cpp:774-782: the result and the value stored through
    the second argument (unless it is null). *)
Definition ugetData (key : string) : MU (option uval) :=
  gets (fun u => fst <$> u_map u !! key).
(** Calling a clean-up function (it is assumed not to use the container). *)
Definition uclean (f : option ufn) (v : uval) (u : udata) : udata :=
  match f with Some f => mkU (u_map u) (u_cleaned u ++ [(f, v)]) | None => u end.
(** UserData::setData, aux-ginga.cpp:784-801.  [value = None] is the null pointer;
    [_udata.erase (it)] with [it = end ()] is undefined. *)
Definition usetData (key : string) (value : option uval) (fn : option ufn) : MU bool := fun u =>
  let it := u_map u !! key in
  let u := match it with Some (w, f) => uclean f w u | None => u end in
  match value with
  | None =>
    match it with
    | None => Crash (CUB "aux-ginga.cpp:793")
    | Some _ => Ok false (mkU (delete key (u_map u)) (u_cleaned u))
    end
  | Some v =>
    Ok (match it with None => true | Some _ => false end)
       (mkU (<[key := (v, fn)]> (u_map u)) (u_cleaned u))
  end.
(** UserData::~UserData, aux-ginga.cpp:767-772: every entry, in some order ([std::map]
    visits keys in ascending order; the order of [map_to_list] stands for it). *)
Definition udestroy (u : udata) : list (ufn * uval) :=
  u_cleaned (foldl (fun u kv => uclean (snd (snd kv)) (fst (snd kv)) u) u (map_to_list (u_map u))).

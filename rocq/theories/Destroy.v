(** Destroy.v -- the destruction of a document, with memory: what is deleted is no longer
    there, and touching it crashes.

    Document.cpp:67-70, Context.cpp:34-52, Switch.cpp:32-37, Media.cpp:36-39,
    MediaSettings.cpp:35-37, Composition.cpp:29-31, Object.cpp:44-48, Event.cpp:37-39.
    Not modelled: the deletion of the predicates of links and rules, which are copies of their
    own (C33; Parser.cpp:1872-1930 and 2551, ParserLua.cpp:728-745). *)
From Verif Require Export StopSpec.
Open Scope string_scope.
Open Scope list_scope.

(** The memory: the objects and events not yet deleted, the state of the presentation, and
    (ghost) the objects deleted, the last first. *)
Record heap : Type := mkHeap { h_obj : gmap oid obj; h_evt : gmap eid evt; h_st : st; h_gone : list oid }.
Notation MH := (M heap).
Definition h_set_st (s : st) (h : heap) : heap := mkHeap (h_obj h) (h_evt h) s (h_gone h).
Definition heapOf (D : doc) (s : st) : heap := mkHeap (d_obj D) (d_evt D) s [].
(** The document as the destructors see it: its objects and events are those still in memory;
    its own fields (the sets of objects, the settings) are those of [D]. *)
Definition docIn (D : doc) (h : heap) : doc := mkDoc (h_obj h) (h_evt h) (d_objs D) (d_medias D) (d_root D) (d_settings D) (d_ext D).
Definition inHeap {A} (D : doc) (m : doc -> ME A) : MH A := fun h =>
  match m (docIn D h) (h_st h) with Ok a s => Ok a (h_set_st s h) | Crash c => Crash c | NoFuel => NoFuel end.
(** Object::~Object, Object.cpp:44-48: the events ([_events] is a set), then the object. *)
Definition freeObject (o : oid) : MH unit :=
  do h <- get;
  match h_obj h !! o with
  | None => crashm (CUB "object freed twice")
  | Some ob =>
    if forallb (fun e => bool_decide (is_Some (h_evt h !! e))) (ob_events ob)
    then modify (fun h => mkHeap (delete o (h_obj h)) (foldr delete (h_evt h) (ob_events ob)) (h_st h) (o :: h_gone h))
    else crashm (CUB "event freed twice")
  end.
(** delete o.  [k] bounds the depth of the tree, [n] that of the transitions. *)
Fixpoint deleteObject (D : doc) (n k : nat) (o : oid) : MH unit :=
  match k with
  | O => nofuel
  | S k =>
    do h <- get;
    match h_obj h !! o with
    | None => crashm (CUB "deleted object used")
    | Some ob =>
      match ob_kind ob with
      | KContext => inHeap D (fun D => tr D n (ob_lambda ob) STOP) ;; foreach (deleteObject D n k) (ob_children ob)
      | KSwitch => ret tt                         (* the children stay: Switch.cpp:32-37 *)
      | KMedia | KSettings => inHeap D (fun D => mediaDoStop D o)
      end ;;
      freeObject o
    end
  end.

(** ** Vocabulary of C51. *)
(** The objects in the care of [a]: itself and the children of the contexts among them. *)
Inductive caredBy (D : doc) (a : oid) : oid -> Prop :=
  | cb_self : caredBy D a a
  | cb_child p pb c : caredBy D a p -> d_obj D !! p = Some pb -> ob_kind pb = KContext -> c ∈ ob_children pb -> caredBy D a c.

(** BuildSpec.v -- vocabulary of C21, C22 and C40: documents built by any sequence of
    construction operations. *)
From Verif Require Export Builder.
Open Scope string_scope.
Open Scope list_scope.

(** The construction operations, with arbitrary arguments. *)
Inductive bop : Type :=
  | BNew (k : kind) (i : string)                     (* new Context/Switch/Media/MediaSettings (i) *)
  | BAdd (o : oid)                                   (* doc->addObject (o) *)
  | BChild (c o : oid)                               (* c->addChild (o) *)
  | BAlias (o : oid) (a : string) (p : option oid)   (* o->addAlias (a, p) *)
  | BAttribution (o : oid) (i : string)
  | BPresentation (o : oid) (i : string) (b e : N)
  | BLabelled (o : oid) (i l : string)               (* addPresentationEvent (id, label) *)
  | BSelection (o : oid) (i : string)
  | BLookAt (o : oid) (i : string)
  | BPort (c : oid) (e : eid)
  | BLink (c : oid) (conds acts : list action)
  | BRule (c o : oid) (p : npred)
  | BSwitchPort (c : oid) (i : string) (l : list eid)
  | BProperty (o : oid) (n v : string)
  | BParameter (e : eid) (n v : string).
Definition bexec (op : bop) : MG unit :=
  match op with
  | BNew k i => newObject k i ;; ret tt
  | BAdd o => addObject o ;; ret tt
  | BChild c o => addChild c o
  | BAlias o a p => addAlias o a p
  | BAttribution o i => addAttributionEvent o i
  | BPresentation o i b e => addPresentationEvent o i b e
  | BLabelled o i l => addPresentationLabel o i l
  | BSelection o i => addSelectionEvent o i
  | BLookAt o i => addLookAtEvent o i
  | BPort c e => addPort c e
  | BLink c conds acts => addLink c conds acts
  | BRule c o p => addRule c o p
  | BSwitchPort c i l => addSwitchPort c i l
  | BProperty o n v => gsetProperty o n v
  | BParameter e n v => gsetParameter e n v
  end.
(** What a program that did not abort may have built: a new document, then any operations,
    for any memory allocator. *)
Inductive built : graph -> Prop :=
  | b_new addr focus g : newDocument (emptyGraph addr focus) = Ok tt g -> built g
  | b_op g op g' : built g -> bexec op g = Ok tt g' -> built g'.

Definition inDocument (g : graph) (o : oid) : Prop := o ∈ g_objs g.
Definition withId (g : graph) (o : oid) (i : string) : Prop := exists ob, g_obj g !! o = Some ob /\ ob_id ob = i.
Definition withAlias (g : graph) (o : oid) (i : string) : Prop := exists ob p, g_obj g !! o = Some ob /\ (i, p) ∈ ob_aliases ob.
(** Object [o] holds event [e], of type [t] and id [i]. *)
Definition holds (g : graph) (o : oid) (e : eid) (t : etype) (i : string) : Prop :=
  exists ob ev, g_obj g !! o = Some ob /\ e ∈ ob_events ob /\ g_evt g !! e = Some ev /\ ev_type ev = t /\ ev_id ev = i /\ ev_obj ev = o.

(** What objects of the document refer to is in the document too: events of ports, links
    and switch ports, compositions of aliases; and rules name components of their switch. *)
Definition evtInDoc (g : graph) (e : eid) : Prop := exists ev, g_evt g !! e = Some ev /\ inDocument g (ev_obj ev).
Record closedRefs (g : graph) : Prop := mkClosed {
  cr_ports : forall o ob e, inDocument g o -> g_obj g !! o = Some ob -> e ∈ ob_ports ob -> evtInDoc g e;
  cr_links : forall o ob cs acts a, inDocument g o -> g_obj g !! o = Some ob -> (cs, acts) ∈ ob_links ob -> a ∈ cs \/ a ∈ acts -> evtInDoc g (ac_evt a);
  cr_swports : forall o ob n l e, inDocument g o -> g_obj g !! o = Some ob -> (n, l) ∈ ob_swports ob -> e ∈ l -> evtInDoc g e;
  cr_rules : forall o ob c p, inDocument g o -> g_obj g !! o = Some ob -> (c, p) ∈ ob_rules ob -> c ∈ ob_children ob;
  cr_aliases : forall o ob i c, inDocument g o -> g_obj g !! o = Some ob -> (i, Some c) ∈ ob_aliases ob -> inDocument g c
}.

(** Builder.v -- building documents: the constructors of objects and events and the
    operations that put them together.
    Sources: lib/Document.cpp, lib/Object.cpp, lib/Composition.cpp, lib/Context.cpp,
    lib/Switch.cpp, lib/Media.cpp, lib/MediaSettings.cpp, lib/Event.cpp.

    Pointers are numbers drawn from a counter.  [std::set] of pointers iterate in address
    order; the address of a pointer is given by an arbitrary function [g_addr], so that
    results hold for every allocator.  Memory is never reclaimed while a document is being
    built. *)
From Verif Require Export Engine.
Open Scope string_scope.
Open Scope list_scope.

(** A heap of objects and events, and one document. *)
Record graph : Type := mkG {
  g_addr : positive -> positive;           (* ghost: addresses *)
  g_next : positive;                       (* ghost: next pointer *)
  g_obj : gmap oid obj;                    (* every object created so far *)
  g_evt : gmap eid evt;                    (* every event created so far *)
  g_props : gmap oid (gmap string string); (* Object::_properties *)
  g_params : gmap eid (gmap string string);(* Event::_parameters *)
  g_focus : string;                        (* static Player::_currentFocus *)
  g_objs : list oid;                       (* Document::_objects, in iteration order *)
  g_byid : gmap string oid;                (* Document::_objectsById *)
  g_medias : list oid;                     (* Document::_medias, in iteration order *)
  g_root : option oid;                     (* Document::_root *)
  g_settings : option oid }.               (* Document::_settings *)
Notation MG := (M graph).

Definition g_set_next x g := mkG (g_addr g) x (g_obj g) (g_evt g) (g_props g) (g_params g) (g_focus g) (g_objs g) (g_byid g) (g_medias g) (g_root g) (g_settings g).
Definition g_set_obj x g := mkG (g_addr g) (g_next g) x (g_evt g) (g_props g) (g_params g) (g_focus g) (g_objs g) (g_byid g) (g_medias g) (g_root g) (g_settings g).
Definition g_set_evt x g := mkG (g_addr g) (g_next g) (g_obj g) x (g_props g) (g_params g) (g_focus g) (g_objs g) (g_byid g) (g_medias g) (g_root g) (g_settings g).
Definition g_set_props x g := mkG (g_addr g) (g_next g) (g_obj g) (g_evt g) x (g_params g) (g_focus g) (g_objs g) (g_byid g) (g_medias g) (g_root g) (g_settings g).
Definition g_set_params x g := mkG (g_addr g) (g_next g) (g_obj g) (g_evt g) (g_props g) x (g_focus g) (g_objs g) (g_byid g) (g_medias g) (g_root g) (g_settings g).
Definition g_set_focus x g := mkG (g_addr g) (g_next g) (g_obj g) (g_evt g) (g_props g) (g_params g) x (g_objs g) (g_byid g) (g_medias g) (g_root g) (g_settings g).
Definition g_set_doc objs byid medias g := mkG (g_addr g) (g_next g) (g_obj g) (g_evt g) (g_props g) (g_params g) (g_focus g) objs byid medias (g_root g) (g_settings g).
Definition g_set_root x g := mkG (g_addr g) (g_next g) (g_obj g) (g_evt g) (g_props g) (g_params g) (g_focus g) (g_objs g) (g_byid g) (g_medias g) x (g_settings g).
Definition g_set_settings x g := mkG (g_addr g) (g_next g) (g_obj g) (g_evt g) (g_props g) (g_params g) (g_focus g) (g_objs g) (g_byid g) (g_medias g) (g_root g) x.

(** Inserting a pointer into a [std::set]. *)
Fixpoint sins (a : positive -> positive) (x : positive) (l : list positive) : list positive :=
  match l with
  | [] => [x]
  | y :: r => if (a x <? a y)%positive then x :: l else y :: sins a x r
  end.

Definition ob_set_parent x ob := mkObj (ob_kind ob) (ob_id ob) x (ob_aliases ob) (ob_lambda ob) (ob_events ob) (ob_children ob) (ob_ports ob) (ob_links ob) (ob_rules ob) (ob_swports ob).
Definition ob_set_aliases x ob := mkObj (ob_kind ob) (ob_id ob) (ob_parent ob) x (ob_lambda ob) (ob_events ob) (ob_children ob) (ob_ports ob) (ob_links ob) (ob_rules ob) (ob_swports ob).
Definition ob_set_events x ob := mkObj (ob_kind ob) (ob_id ob) (ob_parent ob) (ob_aliases ob) (ob_lambda ob) x (ob_children ob) (ob_ports ob) (ob_links ob) (ob_rules ob) (ob_swports ob).
Definition ob_set_children x ob := mkObj (ob_kind ob) (ob_id ob) (ob_parent ob) (ob_aliases ob) (ob_lambda ob) (ob_events ob) x (ob_ports ob) (ob_links ob) (ob_rules ob) (ob_swports ob).
Definition ob_set_ports x ob := mkObj (ob_kind ob) (ob_id ob) (ob_parent ob) (ob_aliases ob) (ob_lambda ob) (ob_events ob) (ob_children ob) x (ob_links ob) (ob_rules ob) (ob_swports ob).
Definition ob_set_linksl x ob := mkObj (ob_kind ob) (ob_id ob) (ob_parent ob) (ob_aliases ob) (ob_lambda ob) (ob_events ob) (ob_children ob) (ob_ports ob) x (ob_rules ob) (ob_swports ob).
Definition ob_set_rules x ob := mkObj (ob_kind ob) (ob_id ob) (ob_parent ob) (ob_aliases ob) (ob_lambda ob) (ob_events ob) (ob_children ob) (ob_ports ob) (ob_links ob) x (ob_swports ob).
Definition ob_set_swports x ob := mkObj (ob_kind ob) (ob_id ob) (ob_parent ob) (ob_aliases ob) (ob_lambda ob) (ob_events ob) (ob_children ob) (ob_ports ob) (ob_links ob) (ob_rules ob) x.

(** Dereferencing a pointer to an object or an event. *)
Definition gobj (o : oid) : MG obj := fun g => ofoption (g_obj g !! o) (CUB "dangling object") g.
Definition gevt (e : eid) : MG evt := fun g => ofoption (g_evt g !! e) (CUB "dangling event") g.
(** Updating the fields of an object. *)
Definition oupd (o : oid) (f : obj -> obj) : MG unit := do ob <- gobj o; modify (fun g => g_set_obj (<[o := f ob]> (g_obj g)) g).
(** [new]: a pointer not yet in use. *)
Definition galloc : MG positive := fun g => Ok (g_next g) (g_set_next (Pos.succ (g_next g)) g).

(** Object::getEvent, Object.cpp:201-208 (and getAttributionEvent,
    getPresentationEvent, getSelectionEvent, getLookAtEvent, 210-214, 228-232, 269-273,
    287-291). *)
Definition isEvt (g : graph) (t : etype) (i : string) (e : eid) : bool :=
  match g_evt g !! e with Some ev => bool_decide (ev_type ev = t) && String.eqb (ev_id ev) i | None => false end.
Definition getEvent (o : oid) (t : etype) (i : string) : MG (option eid) :=
  do ob <- gobj o; gets (fun g => List.find (isEvt g t i) (ob_events ob)).
(** Object::getPresentationEventByLabel, Object.cpp:234-241. *)
Definition isLabelled (g : graph) (l : string) (e : eid) : bool :=
  match g_evt g !! e with Some ev => bool_decide (ev_type ev = PRESENTATION) && String.eqb (ev_label ev) l | None => false end.
Definition getByLabel (o : oid) (l : string) : MG (option eid) :=
  do ob <- gobj o; gets (fun g => List.find (isLabelled g l) (ob_events ob)).

(** The part common to Object::addAttributionEvent (216-226), addPresentationEvent
    (243-255 and 257-267), addSelectionEvent (275-285), addLookAtEvent (293-302):
    Event::Event (Event.cpp:26-35), setInterval (Event.cpp:142-147), setLabel
    (161-165), insertion in [_events]. *)
Definition addEvent (o : oid) (t : etype) (i : string) (b e : N) (label : string) : MG unit :=
  do old <- getEvent o t i;
  match old with
  | Some _ => ret tt
  | None =>
    do x <- galloc;
    modify (fun g => g_set_evt (<[x := mkEvt t o i b e label]> (g_evt g)) g) ;;
    do g <- get;
    oupd o (fun ob => ob_set_events (sins (g_addr g) x (ob_events ob)) ob)
  end.
Definition addAttributionEvent (o : oid) (i : string) : MG unit := addEvent o ATTRIBUTION i 0 TIME_NONE "".
Definition addPresentationEvent (o : oid) (i : string) (b e : N) : MG unit := addEvent o PRESENTATION i b e "".
Definition addPresentationLabel (o : oid) (i l : string) : MG unit := addEvent o PRESENTATION i 0 TIME_NONE l.
Definition addSelectionEvent (o : oid) (i : string) : MG unit := addEvent o SELECTION i 0 TIME_NONE "".
Definition addLookAtEvent (o : oid) (i : string) : MG unit := addEvent o LOOKAT i 0 TIME_NONE "".

(** Object::Object (Object.cpp:33-42), Composition, Context, Switch and Media
    constructors (Composition.cpp:24-26, Context.cpp:28-32, Switch.cpp:28-31,
    Media.cpp:29-32), MediaSettings::MediaSettings (MediaSettings.cpp:28-33). The object
    is in no document and has no parent. *)
Definition newObject (k : kind) (i : string) : MG oid :=
  do o <- galloc;
  do x <- galloc;
  modify (fun g => g_set_evt (<[x := mkEvt PRESENTATION o "@lambda" 0 TIME_NONE ""]> (g_evt g)) g) ;;
  modify (fun g => g_set_obj (<[o := mkObj k i None [] x [x] [] [] [] [] []]> (g_obj g)) g) ;;
  whenm (bool_decide (k = KSettings))
    (modify (fun g => g_set_props (<[o := {["type" := "application/x-ginga-settings"]}]> (g_props g)) g) ;;
     addAttributionEvent o "service.currentFocus") ;;
  ret o.

(** Object::setProperty (Object.cpp:336-341), Media::setProperty (Media.cpp:58-72) while
    the media has no player, MediaSettings::setProperty (MediaSettings.cpp:49-56). *)
Definition gsetProperty (o : oid) (n v : string) : MG unit :=
  do ob <- gobj o;
  whenm (bool_decide (ob_kind ob = KSettings) && String.eqb n "service.currentFocus") (modify (g_set_focus v)) ;;
  modify (fun g => g_set_props (<[o := <[n := v]> (g_props g !!! o)]> (g_props g)) g).
(** Object::getProperty, Object.cpp:327-334. *)
Definition ggetProperty (o : oid) (n : string) : MG string := gets (fun g => default "" ((g_props g !!! o) !! n)).
(** Event::setParameter, Event.cpp:173-179. *)
Definition gsetParameter (e : eid) (n v : string) : MG unit :=
  gevt e ;; modify (fun g => g_set_params (<[e := <[n := v]> (g_params g !!! e)]> (g_params g)) g).

(** Object::hasAlias, Object.cpp:180-187. *)
Definition ghasAlias (ob : obj) (a : string) : bool := existsb (fun x => String.eqb (fst x) a) (ob_aliases ob).
(** Object::addAlias, Object.cpp:189-195 (tryinsert: aux-ginga.h:79-81). *)
Definition addAlias (o : oid) (a : string) (p : option oid) : MG unit :=
  oupd o (fun ob => if bool_decide ((a, p) ∈ ob_aliases ob) then ob else ob_set_aliases (ob_aliases ob ++ [(a, p)]) ob).

(** Document::getObjectById, Document.cpp:96-103. *)
Definition glookupId (i : string) : MG (option oid) := gets (fun g => g_byid g !! i).
(** Document::getObjectByIdOrAlias, Document.cpp:110-120. *)
Definition aliasIn (g : graph) (i : string) (o : oid) : bool :=
  match g_obj g !! o with Some ob => ghasAlias ob i | None => false end.
Definition glookup (i : string) : MG (option oid) :=
  gets (fun g => match g_byid g !! i with Some o => Some o | None => List.find (aliasIn g i) (g_objs g) end).
(** Composition::getChildById, Composition.cpp:38-45; getChildByIdOrAlias, 47-57. *)
Definition idIs (g : graph) (i : string) (o : oid) : bool :=
  match g_obj g !! o with Some ob => String.eqb (ob_id ob) i | None => false end.
Definition getChildById (c : oid) (i : string) : MG (option oid) :=
  do cb <- gobj c; gets (fun g => List.find (idIs g i) (ob_children cb)).
Definition getChildByIdOrAlias (c : oid) (i : string) : MG (option oid) :=
  do cb <- gobj c;
  gets (fun g => match List.find (idIs g i) (ob_children cb) with
    | Some o => Some o | None => List.find (aliasIn g i) (ob_children cb) end).

(** The document of an object is not null (Object::_doc): there is one document only. *)
Definition inDoc (g : graph) (o : oid) : bool := bool_decide (o ∈ g_objs g).
(** Document::addObject, Document.cpp:131-180. The sets of contexts, switches and remote
    medias are only used by code that is not modelled. *)
Definition addObject (o : oid) : MG bool :=
  do ob <- gobj o;
  do g <- get;
  do other <- glookup (ob_id ob);
  if inDoc g o || match other with Some _ => true | None => false end then ret false else
  assertm (negb (match g_settings g with Some _ => true | None => false end && bool_decide (ob_kind ob = KSettings))) "Document.cpp:144" ;;
  modify (fun g => g_set_doc (sins (g_addr g) o (g_objs g)) (<[ob_id ob := o]> (g_byid g))
    (if is_media (ob_kind ob) then sins (g_addr g) o (g_medias g) else g_medias g) g) ;;
  ret true.

(** Composition::addChild, Composition.cpp:59-68; initParent, Object.cpp:76-82. Calling it
    on something else than a composition is ruled out by the C++ types. *)
Definition isComp (k : kind) : bool := match k with KContext | KSwitch => true | _ => false end.
Definition addChild (c o : oid) : MG unit :=
  do cb <- gobj c;
  do ob <- gobj o;
  if bool_decide (o ∈ ob_children cb) then ret tt else
  if negb (isComp (ob_kind cb)) then crashm (CUB "not a composition") else
  do g <- get;
  oupd c (fun cb => ob_set_children (sins (g_addr g) o (ob_children cb)) cb) ;;
  do ob <- gobj o;
  assertm (match ob_parent ob with None => true | Some _ => false end) "Object.cpp:80" ;;
  oupd o (ob_set_parent (Some c)) ;;
  if negb (inDoc g c) then crashm (CUB "Composition.cpp:66") else
  do b <- addObject o;
  assertm b "Composition.cpp:66".

(** Context::addPort, Context.cpp:347-352. *)
Definition addPort (c : oid) (e : eid) : MG unit :=
  oupd c (fun cb => if bool_decide (e ∈ ob_ports cb) then cb else ob_set_ports (ob_ports cb ++ [e]) cb).
(** Context::addLink, Context.cpp:360-366. *)
Definition addLink (c : oid) (conds acts : list action) : MG unit :=
  assertm (match conds with [] => false | _ => true end) "Context.cpp:363" ;;
  assertm (match acts with [] => false | _ => true end) "Context.cpp:364" ;;
  oupd c (fun cb => ob_set_linksl (ob_links cb ++ [(conds, acts)]) cb).
(** Switch::addRule, Switch.cpp:222-228. *)
Definition addRule (c o : oid) (p : npred) : MG unit := oupd c (fun cb => ob_set_rules (ob_rules cb ++ [(o, p)]) cb).
(** Switch::addSwitchPort, Switch.cpp:236-245.  [_switchPorts] is a [std::map]: an entry
    with the same key is replaced. *)
Fixpoint passign {A} (k : string) (v : A) (l : list (string * A)) : list (string * A) :=
  match l with
  | [] => [(k, v)]
  | (k', v') :: r => if String.eqb k' k then (k, v) :: r else (k', v') :: passign k v r
  end.
Definition addSwitchPort (c : oid) (i : string) (evts : list eid) : MG unit :=
  addPresentationLabel c i i ;;
  oupd c (fun cb => ob_set_swports (passign i evts (ob_swports cb)) cb).

(** Document::Document, Document.cpp:39-50. *)
Definition emptyGraph (addr : positive -> positive) (focus : string) : graph :=
  mkG addr 1 ∅ ∅ ∅ ∅ focus [] ∅ [] None None.
Definition newDocument : MG unit :=
  do r <- newObject KContext "__root__";
  modify (g_set_root (Some r)) ;;
  do b <- addObject r;
  assertm b "Document.cpp:45" ;;
  do s <- newObject KSettings "__settings__";
  addChild r s ;;
  modify (g_set_settings (Some s)).

(** The document handed to the formatter, and the state in which it starts: the objects
    and events outside the document are unreachable from it. *)
Definition docOf (g : graph) (X : ext) : doc :=
  mkDoc (filter (fun x => fst x ∈ g_objs g) (g_obj g))
        (filter (fun x => ev_obj (snd x) ∈ g_objs g) (g_evt g))
        (g_objs g) (g_medias g) (default 1%positive (g_root g)) (default 1%positive (g_settings g)) X.
Definition stOf (g : graph) (w h : Z) : st :=
  mkSt ((fun p => mkES SLEEPING p) <$> g_params g)
       ((fun p => mkOS TIME_NONE p [] 0 true None None) <$> g_props g)
       (g_focus g) None w h [].

(** PortSpec.v -- vocabulary of C49 and C50: what the ports of contexts, the switchPorts and
    the rules of switches of a document mean. *)
From Verif Require Export CompileSpec.
From Verif Require Import LtabSpec.
Open Scope string_scope.
Open Scope list_scope.

(** ** What a port of context [c], or a mapping of switch [c], leads to: the component as a
    whole; one of its interfaces, that is an anchor or a property of a media, a property of a
    context, a switchPort of a switch; or what a port of a context leads to. *)
Definition interfaceType (k : kind) (t : etype) : Prop :=
  match k with
  | KMedia | KSettings => t = PRESENTATION \/ t = ATTRIBUTION
  | KContext => t = ATTRIBUTION
  | KSwitch => t = PRESENTATION
  end.
Inductive leadsTo (g : graph) (doc : xml) : oid -> xml -> eid -> Prop :=
| Lt_whole c b i o ob : aget "component" (x_attrs b) = Some i -> componentOf g c i o -> g_obj g !! o = Some ob ->
    aget "interface" (x_attrs b) = None -> leadsTo g doc c b (ob_lambda ob)
| Lt_interface c b i o ob n e ev : aget "component" (x_attrs b) = Some i -> componentOf g c i o -> g_obj g !! o = Some ob ->
    aget "interface" (x_attrs b) = Some n -> e ∈ ob_events ob -> g_evt g !! e = Some ev -> ev_obj ev = o -> ev_id ev = n -> interfaceType (ob_kind ob) (ev_type ev) -> leadsTo g doc c b e
| Lt_port c b i o ob n x' p e : aget "component" (x_attrs b) = Some i -> componentOf g c i o -> g_obj g !! o = Some ob -> ob_kind ob = KContext -> o <> c ->
    aget "interface" (x_attrs b) = Some n -> x' ∈ elementsOf doc -> objectOf g x' o -> p ∈ x_kids x' -> x_tag p = "port" -> aget "id" (x_attrs p) = Some n ->
    leadsTo g doc o p e -> leadsTo g doc c b e.

(** ** The ports and switchPorts, each with the element it is in: those of the elements inside
    first. *)
Fixpoint portsOf (x : xml) : list (xml * xml) := flat_map portsOf (x_kids x) ++ map (pair x) (List.filter (tagIs "port") (x_kids x)).
Fixpoint switchPortsOf (x : xml) : list (xml * xml) := flat_map switchPortsOf (x_kids x) ++ map (pair x) (List.filter (tagIs "switchPort") (x_kids x)).
Definition mappingsOf (y : xml) : list xml := List.filter (tagIs "mapping") (x_kids y).

(** Port [p] of element [x'] is port [snd q] of object [fst q]. *)
Definition compiledPort (g : graph) (doc : xml) (p : xml * xml) (q : oid * eid) : Prop := objectOf g (fst p) (fst q) /\ leadsTo g doc (fst q) (snd p) (snd q).
(** The ports of the objects are those of the document, in their order, each once, and no others. *)
Definition portsCompiled (g : graph) (doc : xml) : Prop := exists L, Forall2 (compiledPort g doc) (portsOf doc) L /\
  forall o ob, g_obj g !! o = Some ob -> ob_ports ob = noRepeat [] (map snd (List.filter (fun q => bool_decide (fst q = o)) L)).
(** SwitchPort [p] of element [x'] is entry [snd q] of object [fst q]: its id and what its
    mappings lead to. *)
Definition compiledSwitchPort (g : graph) (doc : xml) (p : xml * xml) (q : oid * (string * list eid)) : Prop :=
  objectOf g (fst p) (fst q) /\ aget "id" (x_attrs (snd p)) = Some (fst (snd q)) /\ Forall2 (leadsTo g doc (fst q)) (mappingsOf (snd p)) (snd (snd q)).
Definition switchPortsCompiled (g : graph) (doc : xml) : Prop := exists L, Forall2 (compiledSwitchPort g doc) (switchPortsOf doc) L /\
  forall o ob, g_obj g !! o = Some ob -> ob_swports ob = map snd (List.filter (fun q => bool_decide (fst q = o)) L).

(** A component of a composition that is written in it: a context, a switch, or a media that
    stands for itself. *)
Definition plainComponent (z : xml) : Prop := x_tag z = "context" \/ x_tag z = "switch" \/ (x_tag z = "media" /\ aget "refer" (x_attrs z) = None /\ ~ settingsElement z).
(** If a component of that name is written in [y], whose object is [c], then [o] is in [c]. *)
Definition ownTarget (g : graph) (y : xml) (c : oid) (i : string) (o : oid) : Prop :=
  (exists z, z ∈ x_kids y /\ plainComponent z /\ aget "id" (x_attrs z) = Some i) -> exists cb, g_obj g !! c = Some cb /\ o ∈ ob_children cb.

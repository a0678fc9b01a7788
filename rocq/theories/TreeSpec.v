(** TreeSpec.v -- vocabulary of C45: the objects and events that the elements of a document
    become. *)
From Verif Require Export ParserSpec BuildSpec.
From Verif Require Import ParseSpec Parser.
Open Scope string_scope.
Open Scope list_scope.

(** An object goes by a name: its id or one of its aliases. *)
Definition goesBy (ob : obj) (i : string) : Prop := ob_id ob = i \/ exists p, (i, p) ∈ ob_aliases ob.
Definition aMedia (k : kind) : Prop := k = KMedia \/ k = KSettings.

(** The object an element stands for: the document itself and its body are the root context;
    a context, a switch, a media is an object of its own, with its id; a settings media is
    the settings object; a media that refers to another one is that other one. *)
Record objectOf (g : graph) (x : xml) (o : oid) : Prop := mkOf {
  of_root : x_tag x = "ncl" \/ x_tag x = "body" -> g_root g = Some o;
  of_context : x_tag x = "context" -> exists ob, g_obj g !! o = Some ob /\ ob_kind ob = KContext /\ aget "id" (x_attrs x) = Some (ob_id ob);
  of_switch : x_tag x = "switch" -> exists ob, g_obj g !! o = Some ob /\ ob_kind ob = KSwitch /\ aget "id" (x_attrs x) = Some (ob_id ob);
  of_media : x_tag x = "media" -> aget "refer" (x_attrs x) = None -> ~ settingsElement x ->
    exists ob, g_obj g !! o = Some ob /\ ob_kind ob = KMedia /\ aget "id" (x_attrs x) = Some (ob_id ob);
  of_settings : settingsElement x -> exists ob, g_obj g !! o = Some ob /\ ob_kind ob = KSettings;
  of_refer : forall r, refersTo x r -> exists ob, g_obj g !! o = Some ob /\ aMedia (ob_kind ob) /\ goesBy ob r
}.

(** The times of an anchor, in nanoseconds. *)
Definition timeIs (v : option string) (missing t : N) : Prop := match v with None => t = missing | Some s => try_parse_time s = TOk t end.
Definition anchorOf (y : xml) (ev : evt) : Prop :=
  match aget "label" (x_attrs y) with
  | Some (String _ _ as l) => ev_label ev = l /\ ev_begin ev = 0%N /\ ev_end ev = TIME_NONE /\ aget "begin" (x_attrs y) = None /\ aget "end" (x_attrs y) = None
  | _ => ev_label ev = "" /\ timeIs (aget "begin" (x_attrs y)) 0%N (ev_begin ev) /\ timeIs (aget "end" (x_attrs y)) TIME_NONE (ev_end ev)
  end.

(** Child [y] of the element that stands for object [o] is in its place: a component is a
    child of the composition, a media that stands for another object has its name there, an
    anchor is a presentation event of the media, with its times, and a property is an
    attribution event. *)
Record inPlace (g : graph) (o : oid) (y : xml) : Prop := mkPlace {
  pl_body : x_tag y = "body" -> objectOf g y o;
  pl_component : x_tag y = "context" \/ x_tag y = "switch" \/ (x_tag y = "media" /\ aget "refer" (x_attrs y) = None /\ ~ settingsElement y) ->
    exists c cb ob, objectOf g y c /\ g_obj g !! c = Some cb /\ ob_parent cb = Some o /\ g_obj g !! o = Some ob /\ c ∈ ob_children ob;
  pl_reference : settingsElement y \/ (exists r, refersTo y r) ->
    exists c cb i, objectOf g y c /\ g_obj g !! c = Some cb /\ aget "id" (x_attrs y) = Some i /\ (i, Some o) ∈ ob_aliases cb;
  pl_area : x_tag y = "area" -> exists e ev ob i, aget "id" (x_attrs y) = Some i /\ g_obj g !! o = Some ob /\ e ∈ ob_events ob /\ g_evt g !! e = Some ev /\
    ev_obj ev = o /\ ev_type ev = PRESENTATION /\ ev_id ev = i /\ anchorOf y ev;
  pl_property : x_tag y = "property" -> exists e ev ob n, aget "name" (x_attrs y) = Some n /\ g_obj g !! o = Some ob /\ e ∈ ob_events ob /\ g_evt g !! e = Some ev /\
    ev_obj ev = o /\ ev_type ev = ATTRIBUTION /\ ev_id ev = n
}.
(** The elements that stand for objects. *)
Definition standing (x : xml) : Prop := x_tag x = "ncl" \/ x_tag x = "body" \/ x_tag x = "context" \/ x_tag x = "switch" \/ x_tag x = "media".
Definition mirrored (g : graph) (x : xml) : Prop := forall x', x' ∈ elementsOf x -> standing x' -> exists o, objectOf g x' o /\ forall y, y ∈ x_kids x' -> inPlace g o y.

(** ParserSpec.v -- vocabulary of C41 to C45: what an NCL document is, and what a user
    expects the parser to make of it. *)
From Verif Require Export Syntax.
Open Scope string_scope.
Open Scope list_scope.

(** ** The grammar (C43). *)
(** The elements each element may contain. *)
Definition content : list (string * list string) := [
  ("ncl", ["head"; "body"]);
  ("head", ["regionBase"; "descriptorBase"; "connectorBase"; "ruleBase"; "transitionBase"; "fontBase"]);
  ("regionBase", ["region"; "importBase"]); ("region", ["region"]);
  ("descriptorBase", ["descriptor"; "importBase"]); ("descriptor", ["descriptorParam"]); ("descriptorParam", []);
  ("connectorBase", ["causalConnector"; "importBase"]);
  ("causalConnector", ["connectorParam"; "compoundCondition"; "simpleCondition"; "compoundAction"; "simpleAction"]);
  ("connectorParam", []); ("compoundCondition", ["compoundCondition"; "simpleCondition"; "compoundStatement"; "assessmentStatement"]);
  ("simpleCondition", []); ("compoundAction", ["compoundAction"; "simpleAction"]); ("simpleAction", []);
  ("compoundStatement", ["compoundStatement"; "assessmentStatement"]); ("assessmentStatement", ["attributeAssessment"; "valueAssessment"]);
  ("attributeAssessment", []); ("valueAssessment", []);
  ("ruleBase", ["compositeRule"; "rule"; "importBase"]); ("compositeRule", ["compositeRule"; "rule"]); ("rule", []);
  ("transitionBase", ["transition"; "importBase"]); ("transition", []); ("importBase", []);
  ("fontBase", ["font"; "importBase"]); ("font", []);
  ("body", ["context"; "port"; "switch"; "media"; "property"; "link"]);
  ("context", ["context"; "port"; "switch"; "media"; "property"; "link"]);
  ("port", []); ("switch", ["context"; "switch"; "switchPort"; "bindRule"; "defaultComponent"; "media"]);
  ("switchPort", ["mapping"]); ("mapping", []); ("bindRule", []); ("defaultComponent", []);
  ("media", ["area"; "property"]); ("area", []); ("property", []);
  ("link", ["linkParam"; "bind"]); ("linkParam", []); ("bind", ["bindParam"]); ("bindParam", [])].
(** The attributes each element must have, may have, and those that must be names. *)
Definition attributes : list (string * (list string * list string * list string)) := [
  ("ncl", ([], ["id"; "title"; "schemaLocation"; "xmlns"], ["id"])); ("head", ([], [], []));
  ("regionBase", ([], ["id"; "device"; "region"], ["id"]));
  ("region", (["id"], ["title"; "left"; "right"; "top"; "bottom"; "height"; "width"; "zIndex"], ["id"]));
  ("descriptorBase", ([], ["id"], ["id"]));
  ("descriptor", (["id"], ["player"; "explicitDur"; "region"; "freeze"; "moveLeft"; "moveRight"; "moveUp"; "moveDown"; "focusIndex"; "focusBorderColor";
     "focusBorderWidth"; "focusBorderTransparency"; "focusSrc"; "focusSelSrc"; "selBorderColor"; "transIn"; "transOut"; "left"; "right"; "top"; "bottom";
     "height"; "width"; "zIndex"], ["id"; "region"]));
  ("descriptorParam", (["name"; "value"], [], ["name"])); ("connectorBase", ([], ["id"], ["id"])); ("causalConnector", (["id"], [], ["id"]));
  ("connectorParam", ([], ["name"; "type"], ["name"])); ("compoundCondition", ([], ["operator"; "delay"], []));
  ("simpleCondition", (["role"], ["eventType"; "key"; "transition"; "delay"; "min"; "max"; "qualifier"], ["role"]));
  ("compoundAction", ([], ["operator"; "delay"], []));
  ("simpleAction", (["role"], ["eventType"; "actionType"; "duration"; "value"; "delay"; "min"; "max"; "qualifier"; "repeat"; "repeatDelay"; "by"], ["role"]));
  ("compoundStatement", (["operator"], ["isNegated"], [])); ("assessmentStatement", (["comparator"], [], []));
  ("attributeAssessment", (["role"], ["eventType"; "key"; "attributeType"; "offset"], ["role"])); ("valueAssessment", (["value"], [], []));
  ("ruleBase", ([], ["id"], ["id"])); ("compositeRule", (["id"; "operator"], [], ["id"])); ("rule", (["id"; "var"; "comparator"; "value"], [], ["id"; "var"]));
  ("transitionBase", ([], ["id"], ["id"]));
  ("transition", (["id"; "type"], ["subtype"; "dur"; "startProgress"; "endProgress"; "direction"; "fadeColor"; "horzRepeat"; "vertRepeat"; "borderWidth"; "borderColor"], ["id"; "type"; "subtype"]));
  ("importBase", (["alias"; "documentURI"], ["region"; "baseId"], ["alias"])); ("fontBase", ([], [], []));
  ("font", (["fontFamily"; "src"], ["fontStyle"; "fontWeight"], []));
  ("body", ([], ["id"], ["id"])); ("context", (["id"], ["refer"], ["id"; "refer"]));
  ("port", (["id"; "component"], ["interface"], ["id"; "component"; "interface"])); ("switch", (["id"], ["refer"], ["id"; "refer"]));
  ("switchPort", (["id"], [], ["id"])); ("mapping", (["component"], ["interface"], ["component"; "interface"]));
  ("bindRule", (["constituent"; "rule"], [], ["constituent"; "rule"])); ("defaultComponent", (["component"], [], ["component"]));
  ("media", (["id"], ["src"; "type"; "descriptor"; "refer"; "instance"], ["id"; "descriptor"; "refer"])); ("area", (["id"], ["begin"; "end"; "label"], ["id"]));
  ("property", (["name"], ["value"], ["name"])); ("link", (["xconnector"], ["id"], ["id"; "xconnector"])); ("linkParam", (["name"; "value"], [], ["name"]));
  ("bind", (["role"; "component"], ["interface"], ["role"; "component"; "interface"])); ("bindParam", (["name"; "value"], [], ["name"]))].
(** A name: a non-empty string of letters, digits and a few signs (XML has no NUL). *)
Definition nameChars : string := "ABCDEFGHIJKLMNOPQRSTUVWXYZabcdefghijklmnopqrstuvwxyz0123456789-_:.#".
Definition aName (v : string) : Prop := v <> "" /\ forall c, c ∈ list_ascii_of_string (cstr v) -> c ∈ list_ascii_of_string nameChars.
Inductive Valid : xml -> Prop := | V tag attrs kids req opt names inside :
  (tag, (req, opt, names)) ∈ attributes -> (tag, inside) ∈ content ->
  (forall n, n ∈ req -> is_Some (aget n attrs)) ->
  (forall n v, (n, v) ∈ attrs -> n ∈ req \/ n ∈ opt) ->
  (forall n v, n ∈ names -> aget n attrs = Some v -> aName v) ->
  (forall k, k ∈ kids -> x_tag k ∈ inside) -> Forall Valid kids ->
  Valid (XElt tag attrs kids).

(** ** Identifiers (C44): the ids of a document, in document order. *)
Fixpoint idsOf (x : xml) : list string :=
  match x with XElt _ attrs kids => match aget "id" attrs with Some i => [i] | None => [] end ++ flat_map idsOf kids end.

(** ** C41: the elements of a document in document order; the media elements that stand for
    the settings object. *)
Fixpoint elementsOf (x : xml) : list xml := x :: flat_map elementsOf (x_kids x).
Definition refersTo (x : xml) (i : string) : Prop := x_tag x = "media" /\ aget "refer" (x_attrs x) = Some i.
Definition settingsElement (x : xml) : Prop := x_tag x = "media" /\ aget "refer" (x_attrs x) = None /\
  (aget "type" (x_attrs x) = Some "application/x-ginga-settings" \/ aget "type" (x_attrs x) = Some "application/x-ncl-settings").
(** No settings element is named like the root or referred to by an earlier element. *)
Definition settingsPlain (x : xml) : Prop := forall before y after i, elementsOf x = before ++ y :: after -> settingsElement y -> aget "id" (x_attrs y) = Some i ->
  i <> "__root__" /\ forall z, z ∈ before -> ~ refersTo z i.

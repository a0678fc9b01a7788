(** ParseDoc.v -- a document used in the examples about the parser. *)
From Verif Require Import Parser.
Open Scope string_scope.
Open Scope list_scope.

Definition el (t : string) (a : list (string * string)) (k : list xml) : xml := XElt t a k.
Definition env0 : penv := mkEnv "file:///d/main.ncl" (fun _ u => u)
  (fun u => if String.eqb u "base.ncl" then
     Some (el "ncl" [("id", "lib")] [el "head" [] [el "connectorBase" [] [
       el "causalConnector" [("id", "onEndStart")] [
         el "simpleCondition" [("role", "onEnd")] []; el "simpleAction" [("role", "start"); ("delay", "$d")] []]]]])
   else None)
  (fun s => Some ("file:///d/" ++ s)%string) (fun _ => true) (fun _ => "{}") (fun _ _ => "0%") (fun _ => 0%Z).
Definition doc1 : xml := el "ncl" [("id", "doc")] [
  el "head" [] [
    el "regionBase" [] [el "region" [("id", "rg"); ("left", "25%"); ("width", "50%")] [el "region" [("id", "rg2"); ("top", "50%"); ("height", "50%")] []]];
    el "descriptorBase" [] [el "descriptor" [("id", "ds"); ("region", "rg2"); ("explicitDur", "10s")] [el "descriptorParam" [("name", "transparency"); ("value", "30%")] []]];
    el "ruleBase" [] [el "rule" [("id", "r1"); ("var", "lang"); ("comparator", "eq"); ("value", "pt")] [];
      el "compositeRule" [("id", "r2"); ("operator", "and")] [el "rule" [("id", "r3"); ("var", "lang"); ("comparator", "ne"); ("value", "fr")] []]];
    el "connectorBase" [] [
      el "importBase" [("alias", "b"); ("documentURI", "base.ncl")] [];
      el "causalConnector" [("id", "onKey")] [
        el "connectorParam" [("name", "k")] [];
        el "compoundCondition" [("operator", "and")] [
          el "simpleCondition" [("role", "onSelection"); ("key", "$k")] [];
          el "assessmentStatement" [("comparator", "eq")] [el "attributeAssessment" [("role", "var")] []; el "valueAssessment" [("value", "$lim")] []]];
        el "compoundAction" [("operator", "seq")] [
          el "simpleAction" [("role", "stop")] [];
          el "simpleAction" [("role", "set"); ("value", "$v")] []]]]];
  el "body" [("id", "bd")] [
    el "port" [("id", "p0"); ("component", "m1")] [];
    el "port" [("id", "p1"); ("component", "c1"); ("interface", "cp")] [];
    el "media" [("id", "m1"); ("src", "a.png"); ("descriptor", "ds")] [el "area" [("id", "ar"); ("begin", "2s"); ("end", "5s")] []; el "property" [("name", "top"); ("value", "3")] []];
    el "media" [("id", "st"); ("type", "application/x-ginga-settings")] [el "property" [("name", "lang"); ("value", "pt")] []];
    el "media" [("id", "m2r"); ("refer", "m2")] [];
    el "context" [("id", "c1")] [
      el "port" [("id", "cp"); ("component", "m2"); ("interface", "a2")] [];
      el "media" [("id", "m2"); ("src", "b.mp4")] [el "area" [("id", "a2"); ("begin", "1s")] []]];
    el "switch" [("id", "sw")] [
      el "switchPort" [("id", "sp")] [el "mapping" [("component", "m3")] []; el "mapping" [("component", "m4")] []];
      el "bindRule" [("constituent", "m3"); ("rule", "r1")] []; el "defaultComponent" [("component", "m4")] [];
      el "media" [("id", "m3"); ("src", "c.png")] []; el "media" [("id", "m4")] []];
    el "link" [("xconnector", "onKey")] [
      el "linkParam" [("name", "k"); ("value", "RED")] [];
      el "bind" [("role", "onSelection"); ("component", "m1")] [];
      el "bind" [("role", "var"); ("component", "st"); ("interface", "lang")] [el "bindParam" [("name", "lim"); ("value", "en")] []];
      el "bind" [("role", "get"); ("component", "m1"); ("interface", "top")] [];
      el "bind" [("role", "stop"); ("component", "m1"); ("interface", "ar")] [];
      el "bind" [("role", "set"); ("component", "m1"); ("interface", "top")] [el "bindParam" [("name", "v"); ("value", "$get")] []]];
    el "link" [("xconnector", "b#onEndStart")] [
      el "bind" [("role", "onEnd"); ("component", "m1")] [];
      el "bind" [("role", "start"); ("component", "sw"); ("interface", "sp")] [el "bindParam" [("name", "d"); ("value", "2s")] []]]]].
Definition run (x : xml) : pres unit := parse env0 30 id "" 0 100 100 x.
Definition outcomeOf (r : pres unit) : option (list (oid * kind * string * option oid * list (string * option oid) * list eid * list (list action * list action) * list (oid * npred) * list (string * list eid))) + perr + crash :=
  match r with
  | POk _ s => inl (inl (Some (map (fun x => (fst x, ob_kind (snd x), ob_id (snd x), ob_parent (snd x), ob_aliases (snd x), ob_ports (snd x), ob_links (snd x), ob_rules (snd x), ob_swports (snd x))) (map_to_list (g_obj (p_graph s))))))
  | PErr e => inl (inr e) | PCrash c => inr c | PNoFuel => inl (inl None) end.

(** Syntax.v -- the NCL grammar as the parser knows it: the tables of lib/Parser.cpp, and
    documents as trees of elements. *)
From Verif Require Export Builder Num.
Open Scope string_scope.
Open Scope list_scope.

(** What libxml makes of a document (xmlReadFile, xmlReadMemory): only element nodes are
    kept, the parser skips the others (Parser.cpp:83, 2121).  Attribute names in one element
    are distinct in any XML document; here the first one counts, as for xmlGetProp. *)
Inductive xml : Type := XElt (tag : string) (attrs : list (string * string)) (kids : list xml).
Definition x_tag (x : xml) := match x with XElt t _ _ => t end.
Definition x_attrs (x : xml) := match x with XElt _ a _ => a end.
Definition x_kids (x : xml) := match x with XElt _ _ k => k end.
(** xmlGetPropAsString, Parser.cpp:64-74. *)
Fixpoint aget (n : string) (l : list (string * string)) : option string :=
  match l with [] => None | (k, v) :: r => if String.eqb k n then Some v else aget n r end.

(** Flags of attributes, Parser.cpp:381-407. *)
Record aflags : Type := mkAF { af_nonempty : bool; af_required : bool; af_id : bool; af_idref : bool; af_name : bool; af_unique : bool }.
Definition A0 := mkAF false false false false false false.
Definition A_REQ := mkAF false true false false false false.          (* ATTR_REQUIRED *)
Definition A_NAME := mkAF true false false false true false.          (* ATTR_NONEMPTY_NAME *)
Definition A_REQNAME := mkAF true true false false true false.        (* ATTR_REQUIRED_NONEMPTY_NAME *)
Definition A_ID := mkAF true true true false true true.               (* ATTR_ID *)
Definition A_OPTID := mkAF true false true false true true.           (* ATTR_OPT_ID *)
Definition A_IDREF := mkAF true true false true true false.           (* ATTR_IDREF *)
Definition A_OPTIDREF := mkAF true false false true true false.       (* ATTR_OPT_IDREF *)

(** Push and pop functions. *)
Inductive pushk : Type := PuNone | PuNcl | PuRegion | PuDescParam | PuConnector | PuCompound | PuSimple | PuStatement
  | PuAssess | PuRule | PuImport | PuContext | PuPort | PuSwitch | PuSwitchPort | PuMapping | PuBindRule | PuMedia
  | PuArea | PuProperty | PuLink | PuLinkParam | PuBind | PuFont.
Inductive popk : Type := PoNone | PoNcl | PoRegion | PoConnector | PoStatement | PoAssess | PoContext | PoSwitch | PoMedia.
(** ParserSyntaxElt, Parser.cpp:367-376. *)
Record syn : Type := mkSyn { sy_push : pushk; sy_pop : popk; sy_cache : bool; sy_genid : bool; sy_parents : list string; sy_attrs : list (string * aflags) }.

Definition n0 (l : list string) : list (string * aflags) := map (fun x => (x, A0)) l.
(** parser_syntax_table, Parser.cpp:437-856.  A [std::map] from tags; here a list. *)
Definition syntax : list (string * syn) := [
  ("ncl", mkSyn PuNcl PoNcl false false [] (("id", A_OPTID) :: n0 ["title"; "schemaLocation"; "xmlns"]));
  ("head", mkSyn PuNone PoNone false false ["ncl"] []);
  ("regionBase", mkSyn PuNone PoNone true false ["head"] (("id", A_OPTID) :: n0 ["device"; "region"]));
  ("region", mkSyn PuRegion PoRegion true false ["region"; "regionBase"]
    (("id", A_ID) :: n0 ["title"; "left"; "right"; "top"; "bottom"; "height"; "width"; "zIndex"]));
  ("descriptorBase", mkSyn PuNone PoNone true false ["head"] [("id", A_OPTID)]);
  ("descriptor", mkSyn PuNone PoNone true false ["descriptorBase"]
    ([("id", A_ID); ("player", A0); ("explicitDur", A0); ("region", A_OPTIDREF)] ++
     n0 ["freeze"; "moveLeft"; "moveRight"; "moveUp"; "moveDown"; "focusIndex"; "focusBorderColor"; "focusBorderWidth";
         "focusBorderTransparency"; "focusSrc"; "focusSelSrc"; "selBorderColor"; "transIn"; "transOut";
         "left"; "right"; "top"; "bottom"; "height"; "width"; "zIndex"]));
  ("descriptorParam", mkSyn PuDescParam PoNone false false ["descriptor"] [("name", A_REQNAME); ("value", A_REQ)]);
  ("connectorBase", mkSyn PuNone PoNone true false ["head"] [("id", A_OPTID)]);
  ("causalConnector", mkSyn PuConnector PoConnector true false ["connectorBase"] [("id", A_ID)]);
  ("connectorParam", mkSyn PuNone PoNone false false ["causalConnector"] [("name", A_NAME); ("type", A0)]);
  ("compoundCondition", mkSyn PuCompound PoNone true false ["causalConnector"; "compoundCondition"] (n0 ["operator"; "delay"]));
  ("simpleCondition", mkSyn PuSimple PoNone false false ["causalConnector"; "compoundCondition"]
    (("role", A_REQNAME) :: n0 ["eventType"; "key"; "transition"; "delay"; "min"; "max"; "qualifier"]));
  ("compoundAction", mkSyn PuNone PoNone false false ["causalConnector"; "compoundAction"] (n0 ["operator"; "delay"]));
  ("simpleAction", mkSyn PuSimple PoNone false false ["causalConnector"; "compoundAction"]
    (("role", A_REQNAME) :: n0 ["eventType"; "actionType"; "duration"; "value"; "delay"; "min"; "max"; "qualifier"; "repeat"; "repeatDelay"; "by"]));
  ("compoundStatement", mkSyn PuStatement PoStatement true false ["compoundCondition"; "compoundStatement"] [("operator", A_REQ); ("isNegated", A0)]);
  ("assessmentStatement", mkSyn PuNone PoAssess true false ["compoundCondition"; "compoundStatement"] [("comparator", A_REQ)]);
  ("attributeAssessment", mkSyn PuAssess PoNone false false ["assessmentStatement"]
    (("role", A_REQNAME) :: n0 ["eventType"; "key"; "attributeType"; "offset"]));
  ("valueAssessment", mkSyn PuAssess PoNone false false ["assessmentStatement"] [("value", A_REQ)]);
  ("ruleBase", mkSyn PuNone PoNone true false ["head"] [("id", A_OPTID)]);
  ("compositeRule", mkSyn PuRule PoNone true false ["ruleBase"; "compositeRule"] [("id", A_ID); ("operator", A_REQ)]);
  ("rule", mkSyn PuRule PoNone true false ["ruleBase"; "compositeRule"] [("id", A_ID); ("var", A_REQNAME); ("comparator", A_REQ); ("value", A_REQ)]);
  ("transitionBase", mkSyn PuNone PoNone true false ["head"] [("id", A_OPTID)]);
  ("transition", mkSyn PuNone PoNone true false ["transitionBase"]
    ([("id", A_ID); ("type", A_REQNAME); ("subtype", A_NAME)] ++
     n0 ["dur"; "startProgress"; "endProgress"; "direction"; "fadeColor"; "horzRepeat"; "vertRepeat"; "borderWidth"; "borderColor"]));
  ("importBase", mkSyn PuImport PoNone true false ["connectorBase"; "descriptorBase"; "regionBase"; "ruleBase"; "transitionBase"; "fontBase"]
    [("alias", A_REQNAME); ("documentURI", A_REQ); ("region", A0); ("baseId", A0)]);
  ("fontBase", mkSyn PuNone PoNone true false ["head"] []);
  ("font", mkSyn PuFont PoNone true false ["fontBase"] [("fontFamily", A_REQ); ("src", A_REQ); ("fontStyle", A0); ("fontWeight", A0)]);
  ("body", mkSyn PuContext PoContext true false ["ncl"] [("id", A_OPTID)]);
  ("context", mkSyn PuContext PoContext true false ["body"; "context"; "switch"] [("id", A_ID); ("refer", A_OPTIDREF)]);
  ("port", mkSyn PuPort PoNone true false ["body"; "context"] [("id", A_ID); ("component", A_IDREF); ("interface", A_OPTIDREF)]);
  ("switch", mkSyn PuSwitch PoSwitch true false ["body"; "context"; "switch"] [("id", A_ID); ("refer", A_OPTIDREF)]);
  ("switchPort", mkSyn PuSwitchPort PoNone true false ["switch"] [("id", A_ID)]);
  ("mapping", mkSyn PuMapping PoNone true false ["switchPort"] [("component", A_IDREF); ("interface", A_OPTIDREF)]);
  ("bindRule", mkSyn PuBindRule PoNone true false ["switch"] [("constituent", A_IDREF); ("rule", A_IDREF)]);
  ("defaultComponent", mkSyn PuBindRule PoNone true false ["switch"] [("component", A_IDREF)]);
  ("media", mkSyn PuMedia PoMedia true false ["body"; "context"; "switch"]
    [("id", A_ID); ("src", A0); ("type", A0); ("descriptor", A_OPTIDREF); ("refer", A_OPTIDREF); ("instance", A0)]);
  ("area", mkSyn PuArea PoNone false false ["media"] [("id", A_ID); ("begin", A0); ("end", A0); ("label", A0)]);
  ("property", mkSyn PuProperty PoNone false false ["body"; "context"; "media"] [("name", A_REQNAME); ("value", A0)]);
  ("link", mkSyn PuLink PoNone true true ["body"; "context"] [("id", A_OPTID); ("xconnector", A_IDREF)]);
  ("linkParam", mkSyn PuLinkParam PoNone false false ["link"] [("name", A_REQNAME); ("value", A_REQ)]);
  ("bind", mkSyn PuBind PoNone true false ["link"] [("role", A_REQNAME); ("component", A_IDREF); ("interface", A_OPTIDREF)]);
  ("bindParam", mkSyn PuLinkParam PoNone false false ["bind"] [("name", A_REQNAME); ("value", A_REQ)]) ].

Definition look {A} (n : string) (l : list (string * A)) : option A :=
  match List.find (fun x => String.eqb (fst x) n) l with Some x => Some (snd x) | None => None end.
Definition mem (n : string) (l : list string) : bool := existsb (String.eqb n) l.
(** parser_syntax_table_index, Parser.cpp:859-867. *)
Definition synOf (tag : string) : option syn := look tag syntax.
(** parser_syntax_table_get_possible_children, Parser.cpp:870-879. *)
Definition possibleChild (tag child : string) : bool :=
  match synOf child with Some sy => mem tag (sy_parents sy) | None => false end.

(** parser_syntax_reserved_role_table, Parser.cpp:882-904. *)
Definition reservedRoles : list (string * (etype * trans)) := [
  ("onBegin", (PRESENTATION, START)); ("onEnd", (PRESENTATION, STOP)); ("onAbort", (PRESENTATION, ABORT));
  ("onPause", (PRESENTATION, PAUSE)); ("onResume", (PRESENTATION, RESUME));
  ("onBeginAttribution", (ATTRIBUTION, START)); ("onEndAttribution", (ATTRIBUTION, STOP));
  ("onSelection", (SELECTION, START)); ("onLookAt", (LOOKAT, START)); ("onLookAway", (LOOKAT, STOP));
  ("onBeginSelection", (SELECTION, START)); ("onEndSelection", (SELECTION, STOP));
  ("start", (PRESENTATION, START)); ("stop", (PRESENTATION, STOP)); ("abort", (PRESENTATION, ABORT));
  ("pause", (PRESENTATION, PAUSE)); ("resume", (PRESENTATION, RESUME)); ("set", (ATTRIBUTION, START)) ].
(** Parser.cpp:922-953. *)
Definition eventTypes : list (string * etype) := [("presentation", PRESENTATION); ("attribution", ATTRIBUTION); ("selection", SELECTION); ("lookat", LOOKAT)].
Definition transitions : list (string * trans) := [("start", START); ("starts", START); ("pause", PAUSE); ("pauses", PAUSE);
  ("resume", RESUME); ("resumes", RESUME); ("stop", STOP); ("stops", STOP); ("abort", ABORT); ("aborts", ABORT)].
Inductive conn : Type := CNeg | CAnd | COr.
#[global] Instance conn_eq_dec : EqDecision conn. Proof. solve_decision. Defined.
Definition connectives : list (string * conn) := [("not", CNeg); ("and", CAnd); ("or", COr)].
Definition comparators : list (string * ptest) := [("eq", TEQ); ("ne", TNE); ("lt", TLT); ("lte", TLE); ("gt", TGT); ("gte", TGE)].

(** xmlIsValidName, Parser.cpp:94-111 (on the C string). *)
Definition nameChar (c : ascii) : bool :=
  let n := nat_of_ascii c in
  ((48 <=? n) && (n <=? 57) || (65 <=? n) && (n <=? 90) || (97 <=? n) && (n <=? 122))%nat || mem (String c "") ["-"; "_"; ":"; "."; "#"].
Fixpoint forallStr (f : ascii -> bool) (s : string) : bool := match s with "" => true | String c r => f c && forallStr f r end.
Definition validName (s : string) : bool := forallStr nameChar (cstr s).

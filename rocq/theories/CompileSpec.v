(** CompileSpec.v -- vocabulary of C42: what the links of a document mean. *)
From Verif Require Export TreeSpec ValuesSpec.
From Verif Require Import PredSpec DecSpec.
Open Scope string_scope.
Open Scope list_scope.

(** ** Documents. *)
Definition tagIs (t : string) (y : xml) : bool := String.eqb (x_tag y) t.
Definition attrOf (n : string) (y : xml) : string := default "" (aget n (x_attrs y)).
(** The links, in document order, each with the element it is in. *)
Fixpoint linksOf (x : xml) : list (xml * xml) := flat_map (fun y => (if tagIs "link" y then [(x, y)] else []) ++ linksOf y) (x_kids x).
Definition bindsOf (y : xml) : list xml := List.filter (tagIs "bind") (x_kids y).
(** The parameters of a link or of a bind: of two with the same name the last one counts. *)
Definition isParam (n : string) (p : xml) : bool := (tagIs "linkParam" p || tagIs "bindParam" p) && String.eqb (attrOf "name" p) n.
Definition paramOf (y : xml) (n : string) : option string := option_map (attrOf "value") (List.last (map Some (List.filter (isParam n) (x_kids y))) None).
(** The roles of a connector, those of its tests, and the role a bind is for. *)
Definition isCondition (r : xml) : bool := tagIs "simpleCondition" r.
Definition rolesOf (cx : xml) : list xml := List.filter (fun r => isCondition r || tagIs "simpleAction" r) (elementsOf cx).
Definition testRoles (cx : xml) : list string := map (attrOf "role") (List.filter (tagIs "attributeAssessment") (elementsOf cx)).
(** The roles, each with the compound conditions around it, outermost first. *)
Fixpoint rolesIn (x : xml) : list (list xml * xml) :=
  (if isCondition x || tagIs "simpleAction" x then [([], x)] else []) ++ map (fun q => ((if tagIs "compoundCondition" x then [x] else []) ++ fst q, snd q)) (flat_map rolesIn (x_kids x)).
Definition roleIn (cx b : xml) : option (list xml * xml) := List.find (fun q => String.eqb (attrOf "role" (snd q)) (attrOf "role" b)) (rolesIn cx).
Definition roleFor (cx b : xml) : option xml := option_map snd (roleIn cx b).
Definition forCondition (cx b : xml) : bool := match roleFor cx b with Some r => isCondition r | None => false end.
Definition forAction (cx b : xml) : bool := match roleFor cx b with Some r => negb (isCondition r) | None => false end.

(** ** The meaning of roles (NCL 3.0, with the additions of this player): a condition or not,
    the type of event, the transition. *)
Definition reserved : list (string * (bool * etype * trans)) := [
  ("onBegin", (true, PRESENTATION, START)); ("onEnd", (true, PRESENTATION, STOP)); ("onAbort", (true, PRESENTATION, ABORT));
  ("onPause", (true, PRESENTATION, PAUSE)); ("onResume", (true, PRESENTATION, RESUME));
  ("onBeginAttribution", (true, ATTRIBUTION, START)); ("onEndAttribution", (true, ATTRIBUTION, STOP));
  ("onSelection", (true, SELECTION, START)); ("onBeginSelection", (true, SELECTION, START)); ("onEndSelection", (true, SELECTION, STOP));
  ("onLookAt", (true, LOOKAT, START)); ("onLookAway", (true, LOOKAT, STOP));
  ("start", (false, PRESENTATION, START)); ("stop", (false, PRESENTATION, STOP)); ("abort", (false, PRESENTATION, ABORT));
  ("pause", (false, PRESENTATION, PAUSE)); ("resume", (false, PRESENTATION, RESUME)); ("set", (false, ATTRIBUTION, START))].
Definition typeWords : list (string * etype) := [("presentation", PRESENTATION); ("attribution", ATTRIBUTION); ("selection", SELECTION); ("lookat", LOOKAT)].
Definition transitionWords : list (string * trans) := [("start", START); ("starts", START); ("stop", STOP); ("stops", STOP); ("abort", ABORT); ("aborts", ABORT);
  ("pause", PAUSE); ("pauses", PAUSE); ("resume", RESUME); ("resumes", RESUME)].
Definition transitionAttr (r : xml) : string := if isCondition r then "transition" else "actionType".
Definition meaning (r : xml) (ty : etype) (tr : trans) : Prop :=
  (attrOf "role" r, (isCondition r, ty, tr)) ∈ reserved \/
  (attrOf "role" r ∉ map fst reserved /\ exists v w, aget "eventType" (x_attrs r) = Some v /\ (v, ty) ∈ typeWords /\ aget (transitionAttr r) (x_attrs r) = Some w /\ (w, tr) ∈ transitionWords).

(** ** What a bind, a port or a mapping designates. *)
(** The component: the composition itself, one of its children, or a media. *)
Definition componentOf (g : graph) (c : oid) (i : string) (o : oid) : Prop :=
  exists cb ob, g_obj g !! c = Some cb /\ g_obj g !! o = Some ob /\ goesBy ob i /\ (o = c \/ o ∈ ob_children cb \/ aMedia (ob_kind ob)).
(** Its interface: an anchor or, if there is none of that name, a property of a media; a
    property of a context; a switchPort of a switch. *)
Definition isInterface (g : graph) (k : kind) (o : oid) (i : string) (ev : evt) : Prop :=
  match k with
  | KMedia | KSettings => ev_type ev = PRESENTATION \/ (ev_type ev = ATTRIBUTION /\ forall e' ev', g_evt g !! e' = Some ev' -> ev_obj ev' = o -> ev_type ev' = PRESENTATION -> ev_id ev' <> i)
  | KContext => ev_type ev = ATTRIBUTION
  | KSwitch => ev_type ev = PRESENTATION
  end.
Inductive designates (g : graph) (doc : xml) : oid -> xml -> eid -> Prop :=
| Ds_whole c b i o ob : aget "component" (x_attrs b) = Some i -> componentOf g c i o -> g_obj g !! o = Some ob ->
    aget "interface" (x_attrs b) = None -> designates g doc c b (ob_lambda ob)
| Ds_interface c b i o ob n e ev : aget "component" (x_attrs b) = Some i -> componentOf g c i o -> g_obj g !! o = Some ob ->
    aget "interface" (x_attrs b) = Some n -> e ∈ ob_events ob -> g_evt g !! e = Some ev -> ev_obj ev = o -> ev_id ev = n -> isInterface g (ob_kind ob) o n ev -> designates g doc c b e
| Ds_port c b i o ob n x' p e : aget "component" (x_attrs b) = Some i -> componentOf g c i o -> g_obj g !! o = Some ob -> ob_kind ob = KContext -> o <> c ->
    aget "interface" (x_attrs b) = Some n -> x' ∈ elementsOf doc -> objectOf g x' o -> p ∈ x_kids x' -> x_tag p = "port" -> aget "id" (x_attrs p) = Some n ->
    designates g doc o p e -> designates g doc c b e.
(** The name of a property, as it is used in values. *)
Definition nameOf (g : graph) (e : eid) (w : string) : Prop := exists ev ob, g_evt g !! e = Some ev /\ g_obj g !! ev_obj ev = Some ob /\
  w = (match ev_type ev with
    | PRESENTATION => if String.eqb (ev_id ev) "@lambda" then ob_id ob ++ "@lambda" else ob_id ob ++ "@" ++ ev_id ev
    | ATTRIBUTION => ob_id ob ++ "." ++ ev_id ev
    | SELECTION => ob_id ob ++ "<" ++ ev_id ev ++ ">"
    | LOOKAT => ob_id ob ++ "<lookat>"
    end)%string.
(** The interfaces that link [y] binds to roles that connector [cx] does not have: of two binds
    to the same role the last one counts. *)
Definition free (cx : xml) (m : string) : Prop := m ∉ map (attrOf "role") (rolesOf cx) /\ m ∉ testRoles cx.
Definition lastBind (l : list xml) (m : string) : option xml := List.last (map Some (List.filter (fun b => String.eqb (attrOf "role" b) m) l)) None.
Definition bound (g : graph) (doc : xml) (c : oid) (cx y : xml) (f : string -> option string) : Prop := forall m,
  match f m with
  | Some w => free cx m /\ exists b e n, lastBind (bindsOf y) m = Some b /\ designates g doc c b e /\ nameOf g e n /\ w = ("$" ++ n)%string
  | None => free cx m -> lastBind (bindsOf y) m = None
  end.

(** ** Statements. *)
Definition isStatement (y : xml) : bool := tagIs "compoundStatement" y || tagIs "assessmentStatement" y.
Definition statementsOf (y : xml) : list xml := List.filter isStatement (x_kids y).
Definition isOperand (y : xml) : bool := tagIs "attributeAssessment" y || tagIs "valueAssessment" y.
Definition operandsOf (y : xml) : list xml := List.filter isOperand (x_kids y).
Definition operandOf (y : xml) : string := if tagIs "attributeAssessment" y then ("$" ++ attrOf "role" y)%string else attrOf "value" y.
Definition comparatorWords : list (string * ptest) := [("eq", TEQ); ("ne", TNE); ("lt", TLT); ("lte", TLE); ("gt", TGT); ("gte", TGE)].
Definition connectiveWords : list (string * conn) := [("not", CNeg); ("and", CAnd); ("or", COr)].
Definition combined (c : conn) (l : list npred) : npred := match c with CNeg => PNeg l | CAnd => PAnd l | COr => POr l end.
Definition arity (c : conn) (n : nat) : Prop := match c with CNeg => n = 1%nat | _ => (2 <= n)%nat end.
Definition negated (y : xml) : Prop := exists v, aget "isNegated" (x_attrs y) = Some v /\ sameWord (cstr v) "true".
(** The formula a statement stands for, where "$r" is what is bound to role r. *)
Inductive states : xml -> npred -> Prop :=
| St_test y a b t : x_tag y = "assessmentStatement" -> operandsOf y = [a; b] -> (attrOf "comparator" y, t) ∈ comparatorWords -> states y (PAtom (operandOf a) t (operandOf b))
| St_plain y c l : x_tag y = "compoundStatement" -> ~ negated y -> (attrOf "operator" y, c) ∈ connectiveWords -> arity c (length l) -> Forall2 states (statementsOf y) l -> states y (combined c l)
| St_negated y c l : x_tag y = "compoundStatement" -> negated y -> (attrOf "operator" y, c) ∈ connectiveWords -> arity c (length l) -> Forall2 states (statementsOf y) l -> states y (PNeg [combined c l]).
(** References replaced by what they refer to. *)
Definition operandIn (t : string -> option string) (s : string) : string := match s with String "$" n => default s (t n) | _ => s end.
Fixpoint instance (t : string -> option string) (p : npred) : npred :=
  match p with
  | PFalsum => PFalsum | PVerum => PVerum
  | PAtom l c r => PAtom (operandIn t l) c (operandIn t r)
  | PNeg cs => PNeg (map (instance t) cs) | PAnd cs => PAnd (map (instance t) cs) | POr cs => POr (map (instance t) cs)
  end.
(** The binds to the roles of tests, and what references to them denote: the interface bound
    to the role (of two binds the last one counts), or a parameter of the first such bind that has it. *)
Definition testBinds (cx y : xml) : list xml := List.filter (fun b => bool_decide (attrOf "role" b ∈ testRoles cx) && negb (bool_decide (attrOf "role" b ∈ map (attrOf "role") (rolesOf cx)))) (bindsOf y).
Definition firstParam (l : list xml) (m : string) : option string := List.hd None (List.filter (fun o => match o with Some _ => true | None => false end) (map (fun b => paramOf b m) l)).
Definition tested (g : graph) (doc : xml) (c : oid) (cx y : xml) (t : string -> option string) : Prop := forall m,
  match lastBind (testBinds cx y) m with
  | Some b => exists e n, designates g doc c b e /\ nameOf g e n /\ t m = Some ("$" ++ n)%string
  | None => t m = firstParam (testBinds cx y) m
  end.
(** [o] is the conjunction of [l]; [None] stands for no condition. *)
Definition trueIn (rf : string -> option string) (o : option npred) : Prop := match o with Some p => holds rf p | None => True end.
Definition conjunction (o : option npred) (l : list npred) : Prop :=
  (o = None -> l = []) /\ (forall rf, trueIn rf o <-> List.Forall (holds rf) l) /\ ((match o with Some p => negFree p | None => True end) <-> List.Forall negFree l).
(** The predicate [o] of a condition with compound conditions [A] around it: all of their statements. *)
Definition guarded (t : string -> option string) (A : list xml) (o : option npred) : Prop :=
  exists l, Forall2 states (flat_map statementsOf A) l /\ conjunction o (map (instance t) l).

(** ** The condition or action [a] that bind [b] of link [y] to role [r] stands for. *)
Record compiledBind (g : graph) (doc : xml) (c : oid) (y : xml) (f : string -> option string) (b r : xml) (a : action) : Prop := mkCb {
  cb_event : exists e ev ty, designates g doc c b e /\ g_evt g !! e = Some ev /\ meaning r ty (ac_tr a) /\
    match ty with
    | PRESENTATION => ac_evt a = e /\ ev_type ev = PRESENTATION /\ ac_value a = ""
    | ATTRIBUTION => ac_evt a = e /\ ev_type ev = ATTRIBUTION /\ if isCondition r then ac_value a = "" else is_Some (aget "value" (x_attrs r)) /\ denotes (paramOf b) (paramOf y) f (attrOf "value" r) (ac_value a)
    | SELECTION => ev_id ev = "@lambda" /\ ev_type ev = PRESENTATION /\ exists ev', g_evt g !! ac_evt a = Some ev' /\ ev_type ev' = SELECTION /\ ev_obj ev' = ev_obj ev /\ ev_id ev' = ac_value a /\
        denotes (paramOf b) (paramOf y) f (attrOf "key" r) (ac_value a)
    | LOOKAT => ac_value a = "" /\ exists ev', g_evt g !! ac_evt a = Some ev' /\ ev_type ev' = LOOKAT /\ ev_obj ev' = ev_obj ev /\ ev_id ev' = ev_id ev
    end;
  cb_dur : if isCondition r then ac_dur a = "" else denotes (paramOf b) (paramOf y) f (attrOf "duration" r) (ac_dur a);
  cb_delay : if isCondition r then ac_delay a = "" else denotes (paramOf b) (paramOf y) f (attrOf "delay" r) (ac_delay a)
}.
Definition compiledBy (g : graph) (doc : xml) (c : oid) (cx y : xml) (f t : string -> option string) (b : xml) (a : action) : Prop :=
  exists A r, roleIn cx b = Some (A, r) /\ compiledBind g doc c y f b r a /\ if isCondition r then guarded t A (ac_pred a) else ac_pred a = None.
(** The link that element [y] in element [x'] becomes, if its connector is [cx]: one
    condition for each bind to a condition and one action for each bind to an action, in
    the order of the binds; every role is bound, those of tests too. *)
Definition compiledWith (g : graph) (doc : xml) (c : oid) (y cx : xml) (lk : list action * list action) : Prop :=
  exists f t, bound g doc c cx y f /\ tested g doc c cx y t /\
    Forall2 (compiledBy g doc c cx y f t) (List.filter (forCondition cx) (bindsOf y)) (fst lk) /\
    Forall2 (compiledBy g doc c cx y f t) (List.filter (forAction cx) (bindsOf y)) (snd lk) /\
    (forall r, r ∈ rolesOf cx -> exists b, b ∈ bindsOf y /\ attrOf "role" b = attrOf "role" r) /\
    forall m, m ∈ testRoles cx -> exists b, b ∈ testBinds cx y /\ attrOf "role" b = m.
Definition compiledLink (g : graph) (doc : xml) (p : xml * xml) (q : oid * (list action * list action)) : Prop :=
  objectOf g (fst p) (fst q) /\
  forall cx, cx ∈ elementsOf doc -> x_tag cx = "causalConnector" -> aget "id" (x_attrs cx) = aget "xconnector" (x_attrs (snd p)) -> compiledWith g doc (fst q) (snd p) cx (snd q).
(** The links of the objects are those of the document, and no others. *)
Definition linksCompiled (g : graph) (doc : xml) : Prop := exists L, Forall2 (compiledLink g doc) (linksOf doc) L /\
  forall o ob, g_obj g !! o = Some ob -> ob_links ob = map snd (List.filter (fun q => bool_decide (fst q = o)) L).

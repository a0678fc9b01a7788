(** Parser.v -- from an XML tree to a document: lib/Parser.cpp.

    Node pointers are numbers drawn in the order in which nodes are processed.  [std::map]
    from strings are association lists sorted by key, [std::set<string>] lists without
    order (only membership is used).  The data attached to elements ([ParserElt::_udata],
    [ParserState::_udata]) are optional fields. *)
From Verif Require Export Syntax.
Open Scope string_scope.
Open Scope list_scope.

(** ** Sorted maps. *)
Notation smapT := (list (string * string)).
Fixpoint sset {A} (k : string) (v : A) (l : list (string * A)) : list (string * A) :=
  match l with
  | [] => [(k, v)]
  | (k', v') :: r => if String.eqb k k' then (k, v) :: r else if str_lt k k' then (k, v) :: l else (k', v') :: sset k v r
  end.
Definition sget {A} (k : string) (l : list (string * A)) : option A := look k l.
(** std::map::insert: an existing key is left alone. *)
Definition sins0 {A} (k : string) (v : A) (l : list (string * A)) : list (string * A) :=
  match sget k l with Some _ => l | None => sset k v l end.

(** ** The environment: files, libxml, GLib, fontconfig, printf. *)
Record penv : Type := mkEnv {
  pe_uri : string;                          (* URL of the main document, "" if none *)
  pe_resolve : string -> string -> string;  (* xpathisabs, xpathbuild, xurifromsrc: base URI, import URI *)
  pe_file : string -> option xml;           (* xmlReadFile of an imported document *)
  pe_src : string -> option string;         (* xmlBuildURI, xurifromsrc on the src of a media; None: null pointer *)
  pe_font : smapT -> bool;                  (* FcConfigAppFontAddFile *)
  pe_trans : smapT -> string;               (* the text of a transition: Parser.cpp:2370-2408 reads one buffer that
                                               its own arguments overwrite, its value is unspecified *)
  pe_show : Z -> Z -> string;               (* "%g%%" of ((double) x / w) * 100. *)
  pe_odd : string -> Z }.                   (* parse_percent on literals outside the decimal grammar *)

(** ParserState::Error, Parser.cpp:181-195.  The messages are not modelled. *)
Inductive perr : Type := ENone | EUnknown | EMissingParent | EBadParent | EUnknownAttribute | EMissingAttribute | EBadAttribute
  | EMutuallyExcl | EUnknownChild | EMissingChild | EBadChild | EImport.

Notation nid := positive.
Notation pid := positive.
(** ParserConnRole, Parser.cpp:147-159.  [rl_parent] is [node->parent]; the predicate is
    recomputed for every bind (Parser.cpp:2580-2586) and is not stored here. *)
Record crole : Type := mkRole { rl_parent : option nid; rl_role : string; rl_type : etype; rl_trans : trans; rl_cond : bool;
  rl_dur : string; rl_delay : string; rl_key : string; rl_value : string }.
(** ParserElt, Parser.cpp:117-139.  ParserLinkBind (Parser.cpp:166-173) repeats attributes
    of the <bind> element; its parameters are kept in [el_params] of that element. *)
Record elt : Type := mkElt { el_tag : string; el_node : nid; el_up : option nid; el_attrs : smapT;
  el_ports : option (list string); el_rules : option (list (nid * option oid)); el_swports : option (list string);
  el_maps : option (list nid); el_binds : option (list nid); el_params : option smapT; el_ctx : option oid;
  el_roles : option (list crole); el_tests : option (list string); el_pred : option pid;
  el_left : option string; el_right : option string }.
Definition newElt tag n up attrs := mkElt tag n up attrs None None None None None None None None None None None None.
Definition el_set_attrs x e := mkElt (el_tag e) (el_node e) (el_up e) x (el_ports e) (el_rules e) (el_swports e) (el_maps e) (el_binds e) (el_params e) (el_ctx e) (el_roles e) (el_tests e) (el_pred e) (el_left e) (el_right e).
Definition el_set_ports x e := mkElt (el_tag e) (el_node e) (el_up e) (el_attrs e) (Some x) (el_rules e) (el_swports e) (el_maps e) (el_binds e) (el_params e) (el_ctx e) (el_roles e) (el_tests e) (el_pred e) (el_left e) (el_right e).
Definition el_set_rules x e := mkElt (el_tag e) (el_node e) (el_up e) (el_attrs e) (el_ports e) (Some x) (el_swports e) (el_maps e) (el_binds e) (el_params e) (el_ctx e) (el_roles e) (el_tests e) (el_pred e) (el_left e) (el_right e).
Definition el_set_swports x e := mkElt (el_tag e) (el_node e) (el_up e) (el_attrs e) (el_ports e) (el_rules e) (Some x) (el_maps e) (el_binds e) (el_params e) (el_ctx e) (el_roles e) (el_tests e) (el_pred e) (el_left e) (el_right e).
Definition el_set_maps x e := mkElt (el_tag e) (el_node e) (el_up e) (el_attrs e) (el_ports e) (el_rules e) (el_swports e) (Some x) (el_binds e) (el_params e) (el_ctx e) (el_roles e) (el_tests e) (el_pred e) (el_left e) (el_right e).
Definition el_set_binds x e := mkElt (el_tag e) (el_node e) (el_up e) (el_attrs e) (el_ports e) (el_rules e) (el_swports e) (el_maps e) (Some x) (el_params e) (el_ctx e) (el_roles e) (el_tests e) (el_pred e) (el_left e) (el_right e).
Definition el_set_params x e := mkElt (el_tag e) (el_node e) (el_up e) (el_attrs e) (el_ports e) (el_rules e) (el_swports e) (el_maps e) (el_binds e) (Some x) (el_ctx e) (el_roles e) (el_tests e) (el_pred e) (el_left e) (el_right e).
Definition el_set_ctx x e := mkElt (el_tag e) (el_node e) (el_up e) (el_attrs e) (el_ports e) (el_rules e) (el_swports e) (el_maps e) (el_binds e) (el_params e) (Some x) (el_roles e) (el_tests e) (el_pred e) (el_left e) (el_right e).
Definition el_set_roles x e := mkElt (el_tag e) (el_node e) (el_up e) (el_attrs e) (el_ports e) (el_rules e) (el_swports e) (el_maps e) (el_binds e) (el_params e) (el_ctx e) (Some x) (el_tests e) (el_pred e) (el_left e) (el_right e).
Definition el_set_tests x e := mkElt (el_tag e) (el_node e) (el_up e) (el_attrs e) (el_ports e) (el_rules e) (el_swports e) (el_maps e) (el_binds e) (el_params e) (el_ctx e) (el_roles e) (Some x) (el_pred e) (el_left e) (el_right e).
Definition el_set_pred x e := mkElt (el_tag e) (el_node e) (el_up e) (el_attrs e) (el_ports e) (el_rules e) (el_swports e) (el_maps e) (el_binds e) (el_params e) (el_ctx e) (el_roles e) (el_tests e) (Some x) (el_left e) (el_right e).
Definition el_set_left x e := mkElt (el_tag e) (el_node e) (el_up e) (el_attrs e) (el_ports e) (el_rules e) (el_swports e) (el_maps e) (el_binds e) (el_params e) (el_ctx e) (el_roles e) (el_tests e) (el_pred e) (Some x) (el_right e).
Definition el_set_right x e := mkElt (el_tag e) (el_node e) (el_up e) (el_attrs e) (el_ports e) (el_rules e) (el_swports e) (el_maps e) (el_binds e) (el_params e) (el_ctx e) (el_roles e) (el_tests e) (el_pred e) (el_left e) (Some x).

(** Predicates under construction: nodes with pointers to their children. *)
Inductive cell : Type := CellAtom (l : string) (t : ptest) (r : string) | CellConn (c : conn) (cs : list pid).

(** Rect (aux-ginga.h): x, y, width, height. *)
Record rect : Type := mkRect { r_x : Z; r_y : Z; r_w : Z; r_h : Z }.

(** ParserState, Parser.cpp:268-300, and the predicate nodes. *)
Record pst : Type := mkPst {
  p_graph : graph;                         (* _doc and the heap *)
  p_genid : N;                             (* _genid *)
  p_unique : list string;                  (* _unique *)
  p_cache : gmap nid elt;                  (* _eltCache *)
  p_order : list nid;                      (* _eltCacheByTag: the elements of one tag, in this order *)
  p_alias : list (string * string);        (* _aliasStack *)
  p_objs : list oid;                       (* _objStack, top first *)
  p_rects : list rect;                     (* _rectStack, top first *)
  p_refer : list (string * oid);           (* _referMap *)
  p_conn : option nid;                     (* _udata["conn-elt"] *)
  p_cells : gmap pid cell;
  p_next : positive;                       (* ghost: next node and predicate *)
  p_zorder : Z;                            (* static last_zorder of pushRegion *)
  p_odd : bool }.                          (* ghost: a settings media was referred to before it was met
                                              (Parser.cpp:3914 found a media), or bears the id of the root *)
Definition p_set_graph x s := mkPst x (p_genid s) (p_unique s) (p_cache s) (p_order s) (p_alias s) (p_objs s) (p_rects s) (p_refer s) (p_conn s) (p_cells s) (p_next s) (p_zorder s) (p_odd s).
Definition p_set_genid x s := mkPst (p_graph s) x (p_unique s) (p_cache s) (p_order s) (p_alias s) (p_objs s) (p_rects s) (p_refer s) (p_conn s) (p_cells s) (p_next s) (p_zorder s) (p_odd s).
Definition p_set_unique x s := mkPst (p_graph s) (p_genid s) x (p_cache s) (p_order s) (p_alias s) (p_objs s) (p_rects s) (p_refer s) (p_conn s) (p_cells s) (p_next s) (p_zorder s) (p_odd s).
Definition p_set_cache x s := mkPst (p_graph s) (p_genid s) (p_unique s) x (p_order s) (p_alias s) (p_objs s) (p_rects s) (p_refer s) (p_conn s) (p_cells s) (p_next s) (p_zorder s) (p_odd s).
Definition p_set_order x s := mkPst (p_graph s) (p_genid s) (p_unique s) (p_cache s) x (p_alias s) (p_objs s) (p_rects s) (p_refer s) (p_conn s) (p_cells s) (p_next s) (p_zorder s) (p_odd s).
Definition p_set_alias x s := mkPst (p_graph s) (p_genid s) (p_unique s) (p_cache s) (p_order s) x (p_objs s) (p_rects s) (p_refer s) (p_conn s) (p_cells s) (p_next s) (p_zorder s) (p_odd s).
Definition p_set_objs x s := mkPst (p_graph s) (p_genid s) (p_unique s) (p_cache s) (p_order s) (p_alias s) x (p_rects s) (p_refer s) (p_conn s) (p_cells s) (p_next s) (p_zorder s) (p_odd s).
Definition p_set_rects x s := mkPst (p_graph s) (p_genid s) (p_unique s) (p_cache s) (p_order s) (p_alias s) (p_objs s) x (p_refer s) (p_conn s) (p_cells s) (p_next s) (p_zorder s) (p_odd s).
Definition p_set_refer x s := mkPst (p_graph s) (p_genid s) (p_unique s) (p_cache s) (p_order s) (p_alias s) (p_objs s) (p_rects s) x (p_conn s) (p_cells s) (p_next s) (p_zorder s) (p_odd s).
Definition p_set_conn x s := mkPst (p_graph s) (p_genid s) (p_unique s) (p_cache s) (p_order s) (p_alias s) (p_objs s) (p_rects s) (p_refer s) x (p_cells s) (p_next s) (p_zorder s) (p_odd s).
Definition p_set_cells x s := mkPst (p_graph s) (p_genid s) (p_unique s) (p_cache s) (p_order s) (p_alias s) (p_objs s) (p_rects s) (p_refer s) (p_conn s) x (p_next s) (p_zorder s) (p_odd s).
Definition p_set_next x s := mkPst (p_graph s) (p_genid s) (p_unique s) (p_cache s) (p_order s) (p_alias s) (p_objs s) (p_rects s) (p_refer s) (p_conn s) (p_cells s) x (p_zorder s) (p_odd s).
Definition p_set_zorder x s := mkPst (p_graph s) (p_genid s) (p_unique s) (p_cache s) (p_order s) (p_alias s) (p_objs s) (p_rects s) (p_refer s) (p_conn s) (p_cells s) (p_next s) x (p_odd s).
Definition p_set_odd x s := mkPst (p_graph s) (p_genid s) (p_unique s) (p_cache s) (p_order s) (p_alias s) (p_objs s) (p_rects s) (p_refer s) (p_conn s) (p_cells s) (p_next s) (p_zorder s) x.

(** ** Outcomes: a value, an error reported to the caller, an abort. *)
Inductive pres (A : Type) : Type := POk (a : A) (s : pst) | PErr (e : perr) | PCrash (c : crash) | PNoFuel.
Arguments POk {A} a s. Arguments PErr {A} e. Arguments PCrash {A} c. Arguments PNoFuel {A}.
Definition P (A : Type) : Type := pst -> pres A.
Definition pret {A} (a : A) : P A := fun s => POk a s.
Definition pbind {A B} (m : P A) (f : A -> P B) : P B := fun s =>
  match m s with POk a s' => f a s' | PErr e => PErr e | PCrash c => PCrash c | PNoFuel => PNoFuel end.
Declare Scope p_scope.
Delimit Scope p_scope with P.
Notation "'let*' x := m 'in' f" := (pbind m (fun x => f)) (at level 200, x pattern, m at level 100, f at level 200, right associativity) : p_scope.
Notation "m ;;; f" := (pbind m (fun _ => f)) (at level 100, f at level 200, right associativity) : p_scope.
Open Scope p_scope.
Definition pgets {A} (f : pst -> A) : P A := fun s => POk (f s) s.
Definition pmod (f : pst -> pst) : P unit := fun s => POk tt (f s).
Definition pfail {A} (e : perr) : P A := fun _ => PErr e.
Definition pcrash {A} (c : crash) : P A := fun _ => PCrash c.
Definition passert (b : bool) (pos : string) : P unit := if b then pret tt else pcrash (CAssert pos).
Definition pwhen (b : bool) (m : P unit) : P unit := if b then m else pret tt.
Definition pcheck (b : bool) (e : perr) : P unit := if b then pret tt else pfail e.
(** g_assert (x is set). *)
Definition pof {A} (o : option A) (pos : string) : P A := match o with Some a => pret a | None => pcrash (CAssert pos) end.
Definition pofe {A} (o : option A) (e : perr) : P A := match o with Some a => pret a | None => pfail e end.
Fixpoint peach {A} (f : A -> P unit) (l : list A) : P unit := match l with [] => pret tt | x :: r => f x ;;; peach f r end.
Fixpoint pmap {A B} (f : A -> P B) (l : list A) : P (list B) :=
  match l with [] => pret [] | x :: r => let* y := f x in let* ys := pmap f r in pret (y :: ys) end.
(** Operations on the document being built. *)
Definition lift {A} (m : MG A) : P A := fun s =>
  match m (p_graph s) with Ok a g => POk a (p_set_graph g s) | Crash c => PCrash c | NoFuel => PNoFuel end.
Definition palloc : P positive := fun s => POk (p_next s) (p_set_next (Pos.succ (p_next s)) s).

(** ** Element cache, Parser.cpp:1360-1465. *)
(** eltCacheIndex. *)
Definition cacheIndex (n : nid) (pos : string) : P elt := fun s => pof (p_cache s !! n) pos s.
(** eltCacheIndexParent. *)
Definition cacheParent (e : elt) (pos : string) : P elt :=
  let* n := pof (el_up e) pos in cacheIndex n pos.
(** Changing an element that is in the cache. *)
Definition eupd (n : nid) (f : elt -> elt) : P unit :=
  let* e := cacheIndex n "element" in pmod (fun s => p_set_cache (<[n := f e]> (p_cache s)) s).
(** eltCacheIndexByTag, with one tag. *)
Definition tagged (s : pst) (tag : string) : list elt :=
  List.filter (fun e => String.eqb (el_tag e) tag) (omap (fun n => p_cache s !! n) (p_order s)).
(** eltCacheIndexById. *)
Definition attr (e : elt) (n : string) : option string := sget n (el_attrs e).
Definition hasId (i : string) (e : elt) : bool := match attr e "id" with Some j => String.eqb j i | None => false end.
Definition cacheById (tags : list string) (i : string) : P (option elt) :=
  pgets (fun s => List.find (hasId i) (List.concat (map (tagged s) tags))).
(** eltCacheAdd, under the assertion of Parser.cpp:2190. *)
Definition cacheAdd (e : elt) : P unit :=
  let* c := pgets p_cache in
  passert (match c !! el_node e with None => true | Some _ => false end) "Parser.cpp:2190" ;;;
  pmod (fun s => p_set_order (p_order s ++ [el_node e]) (p_set_cache (<[el_node e := e]> (p_cache s)) s)).
(** UDATA_GET, Parser.cpp:340-347. *)
Definition udata {A} (o : option A) : P A := pof o "Parser.cpp:343".
(** An attribute the syntax requires: g_assert (elt->getAttribute (name, &x)). *)
Definition pattr (e : elt) (n : string) : P string := pof (attr e n) n.
Definition attr0 (e : elt) (n : string) : string := default "" (attr e n).

(** aliasStackCombine, Parser.cpp:1471-1480. *)
Definition aliasCombine (l : list (string * string)) : string := fold_left (fun r x => (r ++ fst x ++ "#")%string) l "".

(** objStackPeek, Parser.cpp:1548-1551, under a cast to a kind of object. *)
Definition peek (ok : kind -> bool) (pos : string) : P oid :=
  let* l := pgets p_objs in
  match l with
  | [] => pcrash (CAssert pos)
  | o :: _ => let* ob := lift (gobj o) in passert (ok (ob_kind ob)) pos ;;; pret o
  end.
Definition opush (o : oid) : P unit := pmod (fun s => p_set_objs (o :: p_objs s) s).
Definition opop : P unit := pmod (fun s => p_set_objs (List.tl (p_objs s)) s).

(** ** Reference solving. *)
(** resolveComponent, Parser.cpp:1655-1696. *)
Definition resolveComponent (scope : oid) (e : elt) : P oid :=
  let* comp := pattr e (if String.eqb (el_tag e) "bindRule" then "constituent" else "component") in
  let* sb := lift (gobj scope) in
  if String.eqb comp (ob_id sb) || ghasAlias sb comp then pret scope else
  let* child := lift (getChildByIdOrAlias scope comp) in
  match child with
  | Some o => pret o
  | None => let* r := pgets p_refer in pofe (sget comp r) EBadAttribute
  end.
(** resolveInterface, Parser.cpp:1712-1806.  The fuel bounds the depth of nested ports. *)
Fixpoint resolveInterface (k : nat) (ctx : oid) (e : elt) : P eid :=
  match k with
  | O => fun _ => PNoFuel
  | S k =>
    let* o := resolveComponent ctx e in
    let* ob := lift (gobj o) in
    match attr e "interface" with
    | None => pret (ob_lambda ob)
    | Some i =>
      match ob_kind ob with
      | KMedia | KSettings =>
        let* r := lift (getEvent o PRESENTATION i) in
        match r with
        | Some x => pret x
        | None => let* r := lift (getEvent o ATTRIBUTION i) in pofe r EBadAttribute
        end
      | KContext =>
        if bool_decide (o = ctx) then let* r := lift (getEvent o ATTRIBUTION i) in pofe r EBadAttribute else
        let* pe := cacheById ["port"] i in
        match pe with
        | None => let* r := lift (getEvent o ATTRIBUTION i) in pofe r EBadAttribute
        | Some pe =>
          let* up := cacheParent pe "Parser.cpp:1767" in
          let* c := (if String.eqb (el_tag up) "body" then let* r := pgets (fun s => g_root (p_graph s)) in pof r "root"
                     else let* j := pattr up "id" in
                          let* c := lift (glookupId j) in
                          let* c := pof c "Parser.cpp:1778" in
                          let* cb := lift (gobj c) in
                          passert (bool_decide (ob_kind cb = KContext)) "Parser.cpp:1778" ;;; pret c) in
          let* cb := lift (gobj c) in
          pcheck (String.eqb (ob_id cb) (ob_id ob)) EBadAttribute ;;;
          resolveInterface k c pe
        end
      | KSwitch => let* r := lift (getEvent o PRESENTATION i) in pofe r EBadAttribute
      end
    end
  end.
(** resolveParameter, Parser.cpp:1821-1858. *)
Definition sref (s : string) : option string := match s with String "$" r => Some r | _ => None end.
Definition resolveParameter (ref : string) (binds links ghosts : smapT) : string :=
  match sref ref with
  | None => ref
  | Some name =>
    match (match sget name binds with Some v => Some v | None => sget name links end) with
    | None => ""
    | Some v =>
      match sref v with
      | None => v
      | Some n => match sget n ghosts with Some w => w | None => v end
      end
    end
  end.

(** ** Predicates. *)
Definition cellOf (p : pid) : P cell := fun s => pof (p_cells s !! p) "predicate" s.
Definition newCell (c : cell) : P pid :=
  let* p := palloc in pmod (fun s => p_set_cells (<[p := c]> (p_cells s)) s) ;;; pret p.
(** Predicate::addChild, Predicate.cpp:171-178. *)
Definition cellAdd (p c : pid) : P unit :=
  let* x := cellOf p in
  match x with
  | CellAtom _ _ _ => pcrash (CAssert "Predicate.cpp:174")
  | CellConn k cs => pmod (fun s => p_set_cells (<[p := CellConn k (cs ++ [c])]> (p_cells s)) s)
  end.
(** Predicate::clone, Predicate.cpp:117-133: the clone is the predicate as a tree (C33). *)
Definition mkConn (c : conn) (l : list npred) : npred := match c with CNeg => PNeg l | CAnd => PAnd l | COr => POr l end.
Fixpoint readPred (k : nat) (p : pid) : P npred :=
  match k with
  | O => fun _ => PNoFuel
  | S k =>
    let* x := cellOf p in
    match x with
    | CellAtom l t r => pret (PAtom l t r)
    | CellConn c cs => let* l := pmap (readPred k) cs in pret (mkConn c l)
    end
  end.
(** obtainPredicate, Parser.cpp:1872-1930: the predicates attached to the compound
    conditions around a simple condition, outermost first. *)
Fixpoint inherited (k : nat) (n : option nid) (acc : list pid) : P (list pid) :=
  match k with
  | O => fun _ => PNoFuel
  | S k =>
    let* n := pof n "Parser.cpp:1880" in
    let* e := cacheIndex n "Parser.cpp:1883" in
    if String.eqb (el_tag e) "causalConnector" then pret acc else
    passert (String.eqb (el_tag e) "compoundCondition") "Parser.cpp:1886" ;;;
    inherited k (el_up e) (match el_pred e with Some p => p :: acc | None => acc end)
  end.
Definition connKids (p : pid) : P (list pid) :=
  let* x := cellOf p in
  match x with CellConn CAnd cs => pret cs | _ => pcrash (CAssert "Parser.cpp:1901") end.
Definition obtainOne (k : nat) (p : pid) : P (option npred) :=
  let* cs := connKids p in
  match cs with
  | [] => pret None
  | [c] => let* x := readPred k c in pret (Some x)
  | _ => let* x := readPred k p in pret (Some x)
  end.
Definition obtainPredicate (k : nat) (r : crole) : P (option npred) :=
  let* l := inherited k (rl_parent r) [] in
  match l with
  | [] => pret None
  | [p] => obtainOne k p
  | _ => let* xs := pmap (obtainOne k) l in pret (Some (PAnd (omap id xs)))
  end.
(** solvePredicate, Parser.cpp:1945-1995. *)
Definition solveOperand (tr : smapT) (s : string) : string :=
  match sref s with Some n => default s (sget n tr) | None => s end.
Fixpoint solvePredicate (tr : smapT) (p : npred) : npred :=
  match p with
  | PFalsum => PFalsum | PVerum => PVerum
  | PAtom l t r => PAtom (solveOperand tr l) t (solveOperand tr r)
  | PNeg cs => PNeg (map (solvePredicate tr) cs)
  | PAnd cs => PAnd (map (solvePredicate tr) cs)
  | POr cs => POr (map (solvePredicate tr) cs)
  end.

(** ** checkNode, Parser.cpp:2010-2135. *)
Definition uniqueAdd (v : string) : P unit :=
  let* u := pgets p_unique in
  pcheck (negb (mem v u)) EBadAttribute ;;; pmod (fun s => p_set_unique (v :: p_unique s) s).
(** Decimal numerals. *)
Fixpoint decimal_go (k : nat) (n : N) (acc : string) : string :=
  match k with
  | O => acc
  | S k => let acc := String (ascii_of_N (48 + n mod 10)) acc in if (n <? 10)%N then acc else decimal_go k (n / 10) acc
  end.
Definition decimal (n : N) : string := decimal_go (S (N.to_nat (N.log2 n))) n "".
(** genId, Parser.cpp:1090-1095. *)
Definition genId : P string :=
  let* n := pgets p_genid in
  pmod (p_set_genid (n + 1)%N) ;;;
  let i := ("__unamed-" ++ decimal n ++ "__")%string in
  let* u := pgets p_unique in
  passert (negb (mem i u)) "Parser.cpp:1094" ;;; pret i.
(** One attribute of the syntax, Parser.cpp:2046-2103; [collect] is false when checkNode is
    given no attribute map (Parser.cpp:3494, 3506). *)
Definition checkAttr (collect : bool) (sy : syn) (given : list (string * string)) (a : string * aflags) : P (option (string * string)) :=
  let '(n, f) := a in
  match aget n given with
  | None =>
    if String.eqb n "id" && sy_genid sy then if collect then let* i := genId in pret (Some ("id", i)) else pret None
    else pcheck (negb (af_required f)) EMissingAttribute ;;; pret None
  | Some v =>
    pcheck (negb (af_nonempty f && String.eqb v "")) EBadAttribute ;;;
    pcheck (negb (af_name f) || validName v) EBadAttribute ;;;
    let* al := pgets p_alias in
    let v := if af_id f || af_idref f then (aliasCombine al ++ v)%string else v in
    pwhen (af_unique f) (uniqueAdd v) ;;;
    pret (Some (n, v))
  end.
Fixpoint checkAttrs (collect : bool) (sy : syn) (given : list (string * string)) (l : list (string * aflags)) (acc : smapT) : P smapT :=
  match l with
  | [] => pret acc
  | a :: r => let* x := checkAttr collect sy given a in
              checkAttrs collect sy given r (match x with Some (n, v) => sset n v acc | None => acc end)
  end.
(** [up] is the tag of the parent, [None] if the parent is the document. *)
Definition checkNode (collect : bool) (up : option string) (x : xml) : P (syn * smapT) :=
  let* sy := pofe (synOf (x_tag x)) EUnknown in
  match sy_parents sy with
  | [] => pret tt
  | ps => let* u := pofe up EMissingParent in pcheck (mem u ps) EBadParent
  end ;;;
  let* attrs := checkAttrs collect sy (x_attrs x) (sy_attrs sy) [] in
  pwhen collect (peach (fun a : string * string => pcheck (match sget (fst a) attrs with Some _ => true | None => false end) EUnknownAttribute) (x_attrs x)) ;;;
  peach (fun c => pcheck (possibleChild (x_tag x) (x_tag c)) EUnknownChild) (x_kids x) ;;;
  pret (sy, attrs).

(** ** Push functions.  Each returns the element with the data attached to it. *)
(** pushNcl, Parser.cpp:2301-2322. *)
Definition pushNcl (e : elt) : P elt :=
  let* r := pgets (fun s => g_root (p_graph s)) in
  let* r := pof r "Parser.cpp:2310" in
  match attr e "id" with Some i => lift (addAlias r i None) | None => pret tt end ;;;
  opush r ;;; pret e.

(** C int arithmetic: overflow is undefined. *)
Definition cint (z : Z) : P Z := if bool_decide ((-2147483648 <= z)%Z /\ (z <= 2147483647)%Z) then pret z else pcrash (CUB "int overflow").
Definition iadd (a b : Z) : P Z := cint (a + b)%Z.
Definition isub (a b : Z) : P Z := cint (a - b)%Z.
Definition MAXINT : Z := 2147483647%Z.
(** pushRegion, Parser.cpp:2850-2906: the rectangle. *)
Definition regionRect (odd : string -> Z) (par : rect) (a : smapT) : P rect :=
  let pc s base := parse_percent odd s base 0 MAXINT in
  let* x := match sget "left" a with Some s => iadd (r_x par) (pc s (r_w par)) | None => pret (r_x par) end in
  let* y := match sget "top" a with Some s => iadd (r_y par) (pc s (r_h par)) | None => pret (r_y par) end in
  let w := match sget "width" a with Some s => pc s (r_w par) | None => r_w par end in
  let h := match sget "height" a with Some s => pc s (r_h par) | None => r_h par end in
  let* x := match sget "right" a with
            | Some s => let* d := isub (r_w par) w in let* d := isub d (pc s (r_w par)) in iadd x d
            | None => pret x end in
  let* y := match sget "bottom" a with
            | Some s => let* d := isub (r_h par) h in let* d := isub d (pc s (r_h par)) in iadd y d
            | None => pret y end in
  pret (mkRect x y w h).
Definition zdec (z : Z) : string := if (z <? 0)%Z then ("-" ++ decimal (Z.to_N (- z)))%string else decimal (Z.to_N z).
Definition pushRegion (E : penv) (e : elt) : P elt :=
  let* rs := pgets p_rects in
  let* par := pof (head rs) "Parser.cpp:1587" in
  let screen := List.last rs par in
  let* r := regionRect (pe_odd E) par (el_attrs e) in
  pmod (fun s => p_set_rects (r :: p_rects s) s) ;;;
  let* z := pgets p_zorder in
  let* z' := iadd z 1 in
  pmod (p_set_zorder z') ;;;
  pret (el_set_attrs (sset "height" (pe_show E (r_h r) (r_h screen)) (sset "width" (pe_show E (r_w r) (r_w screen))
    (sset "top" (pe_show E (r_y r) (r_h screen)) (sset "left" (pe_show E (r_x r) (r_w screen)) (sset "zOrder" (zdec z) (el_attrs e)))))) e).

(** pushDescriptorParam, Parser.cpp:2931-2947. *)
Definition pushDescParam (e : elt) : P elt :=
  let* n := pattr e "name" in let* v := pattr e "value" in
  let* up := cacheParent e "Parser.cpp:2943" in
  eupd (el_node up) (fun x => el_set_attrs (sset n v (el_attrs x)) x) ;;; pret e.

(** pushCausalConnector, Parser.cpp:2976-2983. *)
Definition pushConnector (e : elt) : P elt :=
  pmod (p_set_conn (Some (el_node e))) ;;; pret (el_set_roles [] (el_set_tests [] e)).
(** pushCompoundCondition, Parser.cpp:3037-3044. *)
Definition pushCompound (e : elt) : P elt := let* p := newCell (CellConn CAnd []) in pret (el_set_pred p e).
(** pushSimpleCondition, Parser.cpp:3057-3160. *)
Definition pushSimple (e : elt) : P elt :=
  let* role := pattr e "role" in
  let cond := String.eqb (el_tag e) "simpleCondition" in
  let tattr := if cond then "transition" else "actionType" in
  let* tt0 := match look role reservedRoles with
    | Some (ty, tr) =>
      pcheck (bool_decide (cond = xstrhasprefix role "on")) EBadAttribute ;;;
      pcheck (match attr e "eventType" with Some s => bool_decide (look s eventTypes = Some ty) | None => true end) EBadAttribute ;;;
      pcheck (match attr e tattr with Some s => bool_decide (look s transitions = Some tr) | None => true end) EBadAttribute ;;;
      pret (ty, tr)
    | None =>
      let* s := pofe (attr e "eventType") EMissingAttribute in
      let* ty := pofe (look s eventTypes) EBadAttribute in
      let* s := pofe (attr e tattr) EMissingAttribute in
      let* tr := pofe (look s transitions) EBadAttribute in
      pret (ty, tr)
    end in
  let '(ty, tr) := tt0 in
  let dur := if cond then "" else attr0 e "duration" in
  let delay := if cond then "" else attr0 e "delay" in
  let key := if bool_decide (ty = SELECTION) then attr0 e "key" else "" in
  let setv := negb cond && bool_decide (ty = ATTRIBUTION) in
  pcheck (negb setv || match attr e "value" with Some _ => true | None => false end) EMissingAttribute ;;;
  let value := if setv then attr0 e "value" else "" in
  let* c := pgets p_conn in
  let* c := udata c in
  let* ce := cacheIndex c "conn-elt" in
  let* rs := udata (el_roles ce) in
  eupd c (el_set_roles (rs ++ [mkRole (el_up e) role ty tr cond dur delay key value])) ;;; pret e.
(** A predicate is full: a negation with a child (Parser.cpp:3189-3194, 3276-3281, 3405-3410). *)
Definition full (p : pid) : P bool :=
  let* x := cellOf p in pret (match x with CellConn CNeg cs => bool_decide (length cs = 1%nat) | _ => false end).
(** pushCompoundStatement, Parser.cpp:3171-3215. *)
Definition pushStatement (e : elt) : P elt :=
  let* op := pattr e "operator" in
  let* ty := pofe (look op connectives) EBadAttribute in
  let* neg := match attr e "isNegated" with Some s => pofe (try_parse_bool s) EBadAttribute | None => pret false end in
  let* up := cacheParent e "Parser.cpp:3187" in
  let* pp := udata (el_pred up) in
  let* b := full pp in
  pcheck (negb b) EBadChild ;;;
  let* p := newCell (CellConn ty []) in
  (if (neg : bool) then let* n := newCell (CellConn CNeg []) in cellAdd n p ;;; cellAdd pp n else cellAdd pp p) ;;;
  pret (el_set_pred p e).
(** pushAttributeAssessment, Parser.cpp:3306-3345. *)
Definition pushAssess (e : elt) : P elt :=
  let* str := (if String.eqb (el_tag e) "attributeAssessment" then
      let* r := pattr e "role" in
      let* c := pgets p_conn in
      let* c := udata c in
      let* ce := cacheIndex c "conn-elt" in
      let* ts := udata (el_tests ce) in
      eupd c (el_set_tests (if mem r ts then ts else r :: ts)) ;;; pret (("$" ++ r)%string)
    else pattr e "value") in
  let* up := cacheParent e "Parser.cpp:3334" in
  match el_left up, el_right up with
  | None, _ => eupd (el_node up) (el_set_left str)
  | Some _, None => eupd (el_node up) (el_set_right str)
  | Some _, Some _ => pfail EBadChild
  end ;;; pret e.
(** pushRule, Parser.cpp:3362-3419. *)
Definition pushRule (e : elt) : P elt :=
  let* p := (if String.eqb (el_tag e) "rule" then
      let* var := pattr e "var" in
      let* comp := pattr e "comparator" in
      let* t := pofe (look comp comparators) EBadAttribute in
      let* v := pattr e "value" in
      newCell (CellAtom ("$__settings__." ++ var)%string t v)
    else let* op := pattr e "operator" in let* ty := pofe (look op connectives) EBadAttribute in newCell (CellConn ty [])) in
  let* up := cacheParent e "Parser.cpp:3397" in
  (if String.eqb (el_tag up) "ruleBase" then pret tt else
   let* pp := udata (el_pred up) in
   let* b := full pp in
   pcheck (negb b) EBadChild ;;; cellAdd pp p) ;;;
  pret (el_set_pred p e).
(** pushContext, Parser.cpp:3556-3588. *)
Definition isCtx (k : kind) : bool := bool_decide (k = KContext).
Definition pushContext (e : elt) : P elt :=
  let* c := (if String.eqb (el_tag e) "body" then
      let* c := peek isCtx "Parser.cpp:3564" in
      match attr e "id" with Some i => lift (addAlias c i None) | None => pret tt end ;;; pret c
    else
      let* up := peek isComp "Parser.cpp:3574" in
      let* i := pattr e "id" in
      let* c := lift (newObject KContext i) in
      lift (addChild up c) ;;; pret c) in
  opush c ;;; pret (el_set_ports [] e).
(** pushPort, Parser.cpp:3636-3649. *)
Definition pushPort (e : elt) : P elt :=
  let* i := pattr e "id" in
  let* up := cacheParent e "Parser.cpp:3643" in
  let* l := udata (el_ports up) in
  eupd (el_node up) (el_set_ports (l ++ [i])) ;;; pret e.
(** pushSwitch, Parser.cpp:3670-3696. *)
Definition pushSwitch (e : elt) : P elt :=
  let* up := peek isComp "Parser.cpp:3677" in
  let* i := pattr e "id" in
  let* c := lift (newObject KSwitch i) in
  lift (addChild up c) ;;;
  opush c ;;; pret (el_set_swports [] (el_set_rules [] e)).
(** pushSwitchPort, Parser.cpp:3717-3732. *)
Definition pushSwitchPort (e : elt) : P elt :=
  let* i := pattr e "id" in
  let* up := cacheParent e "Parser.cpp:3725" in
  let* l := udata (el_swports up) in
  eupd (el_node up) (el_set_swports (l ++ [i])) ;;; pret (el_set_maps [] e).
(** pushMapping, Parser.cpp:3746-3762. *)
Definition pushMapping (e : elt) : P elt :=
  pattr e "component" ;;;
  let* up := cacheParent e "Parser.cpp:3756" in
  let* l := udata (el_maps up) in
  eupd (el_node up) (el_set_maps (l ++ [el_node e])) ;;; pret e.
(** pushBindRule, Parser.cpp:3840-3865. *)
Definition pushBindRule (e : elt) : P elt :=
  (if String.eqb (el_tag e) "bindRule" then pattr e "constituent" ;;; pattr e "rule" else pattr e "component") ;;;
  let* up := cacheParent e "Parser.cpp:3859" in
  let* l := udata (el_rules up) in
  eupd (el_node up) (el_set_rules (l ++ [(el_node e, None)])) ;;; pret e.
(** referMapAdd, Parser.cpp:1627-1637. *)
Definition referAdd (i : string) (m : oid) : P unit := pmod (fun s => p_set_refer (sins0 i m (p_refer s)) s).
(** The loop of Parser.cpp:3916-3924: the first entries of the map, as long as they lead to
    the provisional media; the map never ends in C++. *)
Fixpoint redirect (l : list (string * oid)) (tmp m : oid) : P (list (string * oid) * bool) :=
  match l with
  | [] => pcrash (CUB "Parser.cpp:3917")
  | (k, o) :: r =>
    if bool_decide (o = tmp) then
      lift (addAlias m k None) ;;;
      let* res := redirect r tmp m in pret ((k, m) :: fst res, true)
    else pret (l, false)
  end.
Definition settingsType (t : string) : bool := String.eqb t "application/x-ginga-settings" || String.eqb t "application/x-ncl-settings".
(** pushMedia, Parser.cpp:3878-3991. *)
Definition pushMedia (E : penv) (e : elt) : P elt :=
  let* i := pattr e "id" in
  let ty := attr0 e "type" in
  let src := attr0 e "src" in
  let* m := match attr e "refer" with
    | Some refer =>
      pcheck (match attr e "type" with Some _ => false | None => true end) EMutuallyExcl ;;;
      pcheck (match attr e "src" with Some _ => false | None => true end) EMutuallyExcl ;;;
      let* r := lift (glookup refer) in
      let* r := match r with
                | Some o => let* ob := lift (gobj o) in pret (if is_media (ob_kind ob) then Some o else None)
                | None => pret None end in
      let* m := match r with
                | Some o => pret o
                | None =>
                  let* rm := pgets p_refer in
                  let* m := match sget refer rm with Some m => pret m | None => lift (newObject KMedia refer) end in
                  referAdd refer m ;;; pret m
                end in
      let* up := peek isComp "Parser.cpp:3913" in
      lift (addAlias m i (Some up)) ;;;
      referAdd i m ;;; pret m
    | None =>
      if settingsType ty then
        let* m := pgets (fun s => g_settings (p_graph s)) in
        let* m := pof m "settings" in
        let* rm := pgets p_refer in
        pwhen (String.eqb i "__root__") (pmod (p_set_odd true)) ;;;
        match sget i rm with
        | None => pret tt
        | Some tmp =>
          pmod (p_set_odd true) ;;;
          let* res := redirect rm tmp m in
          pmod (p_set_refer (fst res)) ;;;
          pwhen (snd res) (pmod (fun s => p_set_graph (g_set_obj (delete tmp (g_obj (p_graph s))) (p_graph s)) s))
        end ;;;
        (if String.prefix "streambuf:" src && (String.length src <? 12)%nat then pcrash (CUB "Parser.cpp:3939: std::out_of_range") else pret tt) ;;;
        let* up := peek isComp "Parser.cpp:3949" in
        lift (addAlias m i (Some up)) ;;;
        referAdd i m ;;; pret m
      else
        let* uri := (if is_empty src then pret "" else match pe_src E src with Some u => pret u | None => pcrash (CUB "Parser.cpp:3962") end) in
        let* rm := pgets p_refer in
        let* m := match sget i rm with Some m => pret m | None => lift (newObject KMedia i) end in
        lift (gsetProperty m "uri" uri) ;;;
        lift (gsetProperty m "type" ty) ;;;
        let* up := peek isComp "Parser.cpp:3980" in
        lift (addChild up m) ;;; pret m
    end in
  opush m ;;; pret e.
(** pushArea, Parser.cpp:4014-4069. *)
Definition timeOf (v : option string) (d : N) : P N :=
  match v with
  | None => pret d
  | Some s => match try_parse_time s with TOk t => pret t | TFail => pfail EBadAttribute | TUB => pcrash (CUB "aux-ginga.cpp:223") | TUnmodelled => pcrash (CUB "unmodelled literal") end
  end.
Definition pushArea (e : elt) : P elt :=
  let* m := peek is_media "Parser.cpp:4023" in
  let* i := pattr e "id" in
  (if negb (is_empty (attr0 e "label")) then
     pcheck (match attr e "begin" with Some _ => false | None => true end) EMutuallyExcl ;;;
     pcheck (match attr e "end" with Some _ => false | None => true end) EMutuallyExcl ;;;
     lift (addPresentationLabel m i (attr0 e "label"))
   else
     let* b := timeOf (attr e "begin") 0%N in
     let* f := timeOf (attr e "end") TIME_NONE in
     lift (addPresentationEvent m i b f)) ;;;
  pret e.
(** pushProperty, Parser.cpp:4077-4097. *)
Definition pushProperty (e : elt) : P elt :=
  let* o := peek (fun _ => true) "Parser.cpp:4085" in
  let* n := pattr e "name" in
  let v := attr0 e "value" in
  lift (addAttributionEvent o n) ;;;
  pwhen (negb (is_empty v)) (lift (gsetProperty o n v)) ;;; pret e.
(** pushLink, Parser.cpp:4121-4134. *)
Definition pushLink (e : elt) : P elt :=
  let* c := peek isCtx "Parser.cpp:4127" in
  pret (el_set_params [] (el_set_binds [] (el_set_ctx c e))).
(** pushLinkParam, Parser.cpp:4142-4158. *)
Definition pushLinkParam (e : elt) : P elt :=
  let* n := pattr e "name" in let* v := pattr e "value" in
  let* up := cacheParent e "Parser.cpp:4152" in
  let* l := udata (el_params up) in
  eupd (el_node up) (el_set_params (sset n v l)) ;;; pret e.
(** pushBind, Parser.cpp:4170-4189. *)
Definition pushBind (e : elt) : P elt :=
  pattr e "role" ;;; pattr e "component" ;;;
  let* up := cacheParent e "Parser.cpp:4182" in
  let* l := udata (el_binds up) in
  eupd (el_node up) (el_set_binds (l ++ [el_node e])) ;;; pret (el_set_params [] e).
(** pushFont, Parser.cpp:4200-4264: a font that cannot be added makes it fail without
    setting an error. *)
Definition pushFont (E : penv) (e : elt) : P elt :=
  pattr e "fontFamily" ;;; pattr e "src" ;;;
  pcheck (pe_font E (el_attrs e)) ENone ;;; pret e.

(** ** Pop functions. *)
(** popRegion, Parser.cpp:2914-2919. *)
Definition popRegion : P unit :=
  let* rs := pgets p_rects in
  match rs with [] => pcrash (CAssert "Parser.cpp:1587") | _ :: r => pmod (p_set_rects r) end.
(** popCausalConnector, Parser.cpp:2991-3018. *)
Definition popConnector (n : nid) : P unit :=
  pmod (p_set_conn None) ;;;
  let* e := cacheIndex n "element" in
  let* rs := udata (el_roles e) in
  pcheck (existsb rl_cond rs) EMissingChild ;;; pcheck (existsb (fun r => negb (rl_cond r)) rs) EMissingChild.
(** popCompoundStatement, Parser.cpp:3223-3247. *)
Definition popStatement (n : nid) : P unit :=
  let* e := cacheIndex n "element" in
  let* p := udata (el_pred e) in
  let* x := cellOf p in
  match x with
  | CellAtom _ _ _ => pcrash (CAssert "Parser.cpp:3234")
  | CellConn CNeg cs => pcheck (negb (bool_decide (length cs = 0%nat))) EMissingChild
  | CellConn _ cs => pcheck (negb (length cs <? 2)%nat) EMissingChild
  end.
(** popAssessmentStatement, Parser.cpp:3257-3292. *)
Definition popAssess (n : nid) : P unit :=
  let* e := cacheIndex n "element" in
  let* comp := pattr e "comparator" in
  let* t := pofe (look comp comparators) EBadAttribute in
  let* l := pofe (el_left e) EMissingChild in
  let* r := pofe (el_right e) EMissingChild in
  let* up := cacheParent e "Parser.cpp:3278" in
  let* pp := udata (el_pred up) in
  let* b := full pp in
  pcheck (negb b) EBadChild ;;;
  let* p := newCell (CellAtom l t r) in cellAdd pp p.
(** popContext, Parser.cpp:3599-3626. *)
Definition popContext (k : nat) (n : nid) : P unit :=
  let* c := peek isCtx "Parser.cpp:3606" in
  let* e := cacheIndex n "element" in
  let* ports := udata (el_ports e) in
  peach (fun i =>
    let* pe := cacheById ["port"] i in
    let* pe := pof pe "Parser.cpp:3616" in
    let* x := resolveInterface k c pe in
    lift (addPort c x)) ports ;;;
  opop.
(** popSwitch, Parser.cpp:3773-3828. *)
Definition isSwitch (k : kind) : bool := bool_decide (k = KSwitch).
Definition popSwitch (k : nat) (n : nid) : P unit :=
  let* c := peek isSwitch "Parser.cpp:3780" in
  let* e := cacheIndex n "element" in
  let* rules := udata (el_rules e) in
  let* rules := pmap (fun r : nid * option oid =>
    let* be := cacheIndex (fst r) "element" in
    let* o := resolveComponent c be in pret (fst r, Some o)) rules in
  eupd n (el_set_rules rules) ;;;
  let* ports := udata (el_swports e) in
  peach (fun i =>
    let* pe := cacheById ["switchPort"] i in
    let* pe := pof pe "Parser.cpp:3807" in
    let* ms := udata (el_maps pe) in
    let* evts := pmap (fun m => let* me := cacheIndex m "element" in resolveInterface k c me) ms in
    lift (addSwitchPort c i evts)) ports ;;;
  opop.
(** popMedia, Parser.cpp:4001-4006. *)
Definition popMedia : P unit := peek is_media "Parser.cpp:4004" ;;; opop.

(** ** popNcl, Parser.cpp:2333-2840. *)
(** Descriptors: Parser.cpp:2341-2425. *)
Definition setAttr (n : nid) (k v : string) : P unit := eupd n (fun x => el_set_attrs (sset k v (el_attrs x)) x).
Definition solveTransition (E : penv) (d : nid) (name : string) : P unit :=
  let* e := cacheIndex d "element" in
  match attr e name with
  | None => pret tt
  | Some t =>
    let* te := cacheById ["transition"] t in
    let* te := pofe te EBadAttribute in
    pattr te "type" ;;; setAttr d name (pe_trans E (el_attrs te))
  end.
Definition solveDescriptor (E : penv) (d : nid) : P unit :=
  let* e := cacheIndex d "element" in
  pattr e "id" ;;;
  match attr e "region" with
  | None => pret tt
  | Some r =>
    let* re := cacheById ["region"] r in
    let* re := pofe re EBadAttribute in
    peach (fun a : string * string => pwhen (negb (String.eqb (fst a) "id")) (setAttr d (fst a) (snd a))) (el_attrs re)
  end ;;;
  solveTransition E d "transIn" ;;; solveTransition E d "transOut".
(** Medias: Parser.cpp:2427-2490. *)
Definition moveAttr (m : oid) (a : string * string) : P unit :=
  if String.eqb (fst a) "id" || String.eqb (fst a) "region" then pret tt else
  let* x := lift (getEvent m ATTRIBUTION (fst a)) in
  match x with
  | Some _ => pret tt
  | None => lift (addAttributionEvent m (fst a)) ;;; lift (gsetProperty m (fst a) (snd a))
  end.
Definition lookupKind (ok : kind -> bool) (i pos : string) : P oid :=
  let* o := lift (glookup i) in
  let* o := pof o pos in
  let* ob := lift (gobj o) in
  passert (ok (ob_kind ob)) pos ;;; pret o.
Definition solveMedia (d : nid) : P unit :=
  let* e := cacheIndex d "element" in
  match attr e "descriptor" with
  | None => pret tt
  | Some x =>
    let* de := cacheById ["descriptor"] x in
    let* de := pofe de EBadAttribute in
    let* i := pattr e "id" in
    let* m := lookupKind is_media i "Parser.cpp:2456" in
    peach (moveAttr m) (el_attrs de)
  end ;;;
  match attr e "refer" with
  | None => pret tt
  | Some r =>
    let* re := cacheById ["media"] r in
    let* re := pofe re EBadAttribute in
    pcheck (match attr re "refer" with Some _ => false | None => true end) EBadAttribute
  end.
(** Switches: Parser.cpp:2492-2560. *)
Definition rulePred (k : nat) (p : pid) : P npred :=
  let* x := cellOf p in
  match x with
  | CellConn _ [] => pret PFalsum
  | _ => readPred k p
  end.
Definition solveSwitch (k : nat) (d : nid) : P unit :=
  let* e := cacheIndex d "element" in
  let* i := pattr e "id" in
  let* c := lookupKind isSwitch i "Parser.cpp:2508" in
  let* rules := udata (el_rules e) in
  let* defaults := pmap (fun r : nid * option oid =>
    let* be := cacheIndex (fst r) "element" in
    let* o := pof (snd r) "Parser.cpp:2524" in
    if String.eqb (el_tag be) "defaultComponent" then pret [o] else
    let* ri := pattr be "rule" in
    let* re := cacheById ["rule"; "compositeRule"] ri in
    let* re := pofe re EBadAttribute in
    let* p := udata (el_pred re) in
    let* q := rulePred k p in
    lift (addRule c o q) ;;; pret []) rules in
  peach (fun o => lift (addRule c o PVerum)) (List.concat defaults).
(** Links: Parser.cpp:2562-2837. *)
(** The binds (lines 2595-2634): the connector role they name first, if any. *)
Fixpoint roleAt (roles : list crole) (label : string) (i : nat) : option (nat * crole) :=
  match roles with
  | [] => None
  | r :: rs => if String.eqb label (rl_role r) then Some (i, r) else roleAt rs label (S i)
  end.
(** Event::getFullId, Event.cpp:59-82. *)
Definition fullId (e : eid) : P string :=
  let* ev := lift (gevt e) in
  let* ob := lift (gobj (ev_obj ev)) in
  pret (match ev_type ev with
    | PRESENTATION => if String.eqb (ev_id ev) "@lambda" then ob_id ob ++ ev_id ev else ob_id ob ++ "@" ++ ev_id ev
    | ATTRIBUTION => ob_id ob ++ "." ++ ev_id ev
    | SELECTION => ob_id ob ++ "<" ++ ev_id ev ++ ">"
    | LOOKAT => ob_id ob ++ "<lookat>"
    end)%string.
Fixpoint bindTable (k : nat) (c : oid) (l : list elt) (acc : smapT) : P smapT :=
  match l with
  | [] => pret acc
  | b :: r =>
    let* x := resolveInterface k c b in
    let* f := fullId x in
    bindTable k c r (sset (attr0 b "role") ("$" ++ f)%string acc)
  end.
(** One bound role (lines 2686-2830). *)
Definition roleAction (k : nat) (c : oid) (params tests ghosts : smapT) (x : crole * elt) : P action :=
  let '(r, b) := x in
  let* pred := (if rl_cond r then obtainPredicate k r else pret None) in
  let* e := resolveInterface k c b in
  let* ev := lift (gevt e) in
  let bps := default [] (el_params b) in
  let res s := resolveParameter s bps params ghosts in
  let* ee := match rl_type r with
    | PRESENTATION => pcheck (bool_decide (ev_type ev = PRESENTATION)) EBadAttribute ;;; pret (e, "")
    | ATTRIBUTION => pcheck (bool_decide (ev_type ev = ATTRIBUTION)) EBadAttribute ;;; pret (e, res (rl_value r))
    | SELECTION =>
      pcheck (negb ((bool_decide (ev_type ev = PRESENTATION) && negb (String.eqb (ev_id ev) "@lambda")) || bool_decide (ev_type ev = ATTRIBUTION))) EBadAttribute ;;;
      let v := res (rl_key r) in
      lift (addSelectionEvent (ev_obj ev) v) ;;;
      let* y := lift (getEvent (ev_obj ev) SELECTION v) in
      let* y := pof y "Parser.cpp:2757" in
      lift (gsetParameter y "key" v) ;;; pret (y, v)
    | LOOKAT =>
      lift (addLookAtEvent (ev_obj ev) (ev_id ev)) ;;;
      let* y := lift (getEvent (ev_obj ev) LOOKAT (ev_id ev)) in
      let* y := pof y "Parser.cpp:2767" in pret (y, "")
    end in
  let p := match pred with
    | Some (PNeg [] | PAnd [] | POr []) | None => None
    | Some p => Some (solvePredicate tests p)
    end in
  pret (mkAct (fst ee) (rl_trans r) p (snd ee) (res (rl_dur r)) (res (rl_delay r))).
Definition solveLink (k : nat) (d : nid) : P unit :=
  let* e := cacheIndex d "element" in
  let* ci := pattr e "xconnector" in
  let* ce := cacheById ["causalConnector"] ci in
  let* ce := pofe ce EBadAttribute in
  let* tests := udata (el_tests ce) in
  let* roles := udata (el_roles ce) in
  let* binds := udata (el_binds e) in
  let* params := udata (el_params e) in
  let* c := udata (el_ctx e) in
  let* bs := pmap (fun b => cacheIndex b "element") binds in
  let bound := omap (fun b => match roleAt roles (attr0 b "role") 0 with Some (i, r) => Some (i, (r, b)) | None => None end) bs in
  let free := List.filter (fun b => match roleAt roles (attr0 b "role") 0 with Some _ => false | None => true end) bs in
  let tbuf := List.filter (fun b => mem (attr0 b "role") tests) free in
  let gbuf := List.filter (fun b => negb (mem (attr0 b "role") tests)) free in
  pcheck (forallb (fun i => existsb (fun x => Nat.eqb (fst x) i) bound) (List.seq 0 (length roles))) EBadAttribute ;;;
  pcheck (forallb (fun l => existsb (fun b => String.eqb l (attr0 b "role")) tbuf) tests) EBadAttribute ;;;
  let* tmap := bindTable k c tbuf [] in
  let* gmap := bindTable k c gbuf [] in
  let tmap := fold_left (fun acc b => fold_left (fun acc p => sins0 (fst p) (snd p) acc) (default [] (el_params b)) acc) tbuf tmap in
  let* acts := pmap (fun x => let* a := roleAction k c params tmap gmap (snd x) in pret (rl_cond (fst (snd x)), a)) bound in
  lift (addLink c (map snd (List.filter fst acts)) (map snd (List.filter (fun x => negb (fst x)) acts))).
Definition popNcl (E : penv) (k : nat) : P unit :=
  let each tag f := let* l := pgets (fun s => map el_node (tagged s tag)) in peach f l in
  each "descriptor" (solveDescriptor E) ;;;
  each "media" solveMedia ;;;
  each "switch" (solveSwitch k) ;;;
  each "link" (solveLink k) ;;;
  let* l := pgets p_objs in
  passert (match l with [] => false | _ => true end) "Parser.cpp:2838" ;;; opop.

(** ** processNode, Parser.cpp:2152-2217, and pushImportBase, 3447-3533. *)
Definition push (E : penv) (imp : elt -> P elt) (p : pushk) (e : elt) : P elt :=
  match p with
  | PuNone => pret e | PuNcl => pushNcl e | PuRegion => pushRegion E e | PuDescParam => pushDescParam e
  | PuConnector => pushConnector e | PuCompound => pushCompound e | PuSimple => pushSimple e | PuStatement => pushStatement e
  | PuAssess => pushAssess e | PuRule => pushRule e | PuImport => imp e | PuContext => pushContext e | PuPort => pushPort e
  | PuSwitch => pushSwitch e | PuSwitchPort => pushSwitchPort e | PuMapping => pushMapping e | PuBindRule => pushBindRule e
  | PuMedia => pushMedia E e | PuArea => pushArea e | PuProperty => pushProperty e | PuLink => pushLink e
  | PuLinkParam => pushLinkParam e | PuBind => pushBind e | PuFont => pushFont E e
  end.
Definition pop (E : penv) (k : nat) (p : popk) (n : nid) : P unit :=
  match p with
  | PoNone => pret tt | PoNcl => popNcl E k | PoRegion => popRegion | PoConnector => popConnector n | PoStatement => popStatement n
  | PoAssess => popAssess n | PoContext => popContext k n | PoSwitch => popSwitch k n | PoMedia => popMedia
  end.
(** xmlFindAllChildren, Parser.cpp:77-91. *)
Definition kidsTagged (x : xml) (tag : string) : list xml := List.filter (fun c => String.eqb (x_tag c) tag) (x_kids x).
(** pushImportBase; [go up x] processes node [x] below node [up]. *)
Definition pushImport (E : penv) (go : option (nid * string) -> xml -> P unit) (e : elt) : P elt :=
  let* up := cacheParent e "Parser.cpp:3461" in
  let* alias := pattr e "alias" in
  let* uri := pattr e "documentURI" in
  let* al := pgets p_alias in
  let base := match List.last (map Some al) None with Some x => snd x | None => pe_uri E end in
  let uri := pe_resolve E base uri in
  pcheck (negb (mem uri (map snd al))) EImport ;;;
  pmod (fun s => p_set_alias (p_alias s ++ [(alias, uri)]) s) ;;;
  let* root := pofe (pe_file E uri) EImport in
  checkNode false None root ;;;
  let* hd := pofe (head (kidsTagged root "head")) EImport in
  checkNode false (Some (x_tag root)) hd ;;;
  let bases := kidsTagged hd (el_tag up) in
  pcheck (match bases with [] => false | _ => true end) EImport ;;;
  let more := if String.eqb (el_tag up) "descriptorBase" then kidsTagged hd "regionBase" ++ kidsTagged hd "transitionBase" else [] in
  let* n := palloc in
  peach (go (Some (n, "head"))) (bases ++ more) ;;;
  pmod (fun s => p_set_alias (List.removelast (p_alias s)) s) ;;;
  pret e.
(** The fuel bounds the depth of nodes, through imported documents. *)
Fixpoint processNode (E : penv) (k : nat) (up : option (nid * string)) (x : xml) : P unit :=
  match k with
  | O => fun _ => PNoFuel
  | S k' =>
    let* sa := checkNode true (option_map snd up) x in
    let '(sy, attrs) := sa in
    let* n := palloc in
    let* e := push E (pushImport E (processNode E k')) (sy_push sy) (newElt (x_tag x) n (option_map fst up) attrs) in
    pwhen (sy_cache sy) (cacheAdd e) ;;;
    peach (processNode E k' (Some (n, x_tag x))) (x_kids x) ;;;
    pop E k (sy_pop sy) n
  end.

(** ParserState::ParserState, Parser.cpp:2229-2240, ParserState::process, 2275-2296, and
    process, 4270-4284: a document, an error, or an abort. *)
Definition initial (addr : positive -> positive) (focus : string) (z w h : Z) : pst :=
  mkPst (emptyGraph addr focus) 0 [] ∅ [] [] [] [mkRect 0 0 w h] [] None ∅ 1 z false.
Definition parse (E : penv) (k : nat) (addr : positive -> positive) (focus : string) (z w h : Z) (x : xml) : pres unit :=
  if negb ((0 <? w)%Z && (0 <? h)%Z) then PCrash (CAssert "Parser.cpp:2234") else
  match (lift newDocument ;;; processNode E k None x) (initial addr focus z w h) with
  | PErr ENone => PCrash (CAssert "Parser.cpp:4278")
  | r => r
  end.

(** ParserLua.v -- from a Lua table (NCL-ltab) to a document: lib/ParserLua.cpp.

    Not modelled: running the Lua script (any value may be returned), error messages,
    memory left allocated, the limit of Lua on nested C calls (about 200 levels). *)
From Verif Require Export Lua Builder Num.
Open Scope string_scope.
Open Scope list_scope.

(** ** Lua errors: [None] is a raised error (by lua_error or a failed check), which unwinds to the
    lua_pcall of process. *)
Notation LM A := (MG (option A)).
Definition lok {A} (a : A) : LM A := ret (Some a).
Definition lerror {A} : LM A := ret None.
Definition lbind {A B} (m : LM A) (f : A -> LM B) : LM B := do x <- m; match x with Some a => f a | None => ret None end.
Definition llift {A} (m : MG A) : LM A := do a <- m; lok a.
Notation "'dl' x <- m ; f" := (lbind m (fun x => f)) (at level 200, x pattern, m at level 100, f at level 200, right associativity) : m_scope.
Fixpoint leach {A} (f : A -> LM unit) (l : list A) : LM unit :=
  match l with [] => lok tt | x :: r => dl _ <- f x; leach f r end.
Fixpoint lmap {A B} (f : A -> LM B) (l : list A) : LM (list B) :=
  match l with [] => lok [] | x :: r => dl y <- f x; dl ys <- lmap f r; lok (y :: ys) end.

(** luaL_checkstring and luaL_checktype (LUA_TTABLE) raise an error. *)
Definition checkstring (v : option lval) : LM string := match v ≫= text with Some s => lok s | None => lerror end.
Definition checktable (v : option lval) : LM (list (lkey * lval)) := match v with Some (VTab l) => lok l | _ => lerror end.
(** lua_rawgeti and lua_next do not check that they are given a table. *)
Definition rawtable (v : lval) (pos : string) : LM (list (lkey * lval)) := match v with VTab l => lok l | _ => crashm (CUB pos) end.
(** "if (lua_isnil (L, -1) == 0) ... while (lua_next (L, ...) != 0)". *)
Definition rawentries (v : option lval) (pos : string) : LM (list (lkey * lval)) := match v with None => lok [] | Some v => rawtable v pos end.
(** Making a std::string out of lua_tolstring, which may be NULL. *)
Definition tostring (v : lval) (pos : string) : LM string := match text v with Some s => lok s | None => crashm (CUB pos) end.

(** ** The environment: GLib on file names. *)
Record lenv : Type := mkLenv {
  le_path : string;                       (* the path of the script, "" for a buffer *)
  le_isuri : string -> bool;              (* xpathisuri, aux-ginga.cpp:610 *)
  le_isabs : string -> bool;              (* xpathisabs, aux-ginga.cpp:601 *)
  le_dirname : string -> string;          (* xpathdirname, aux-ginga.cpp:589 *)
  le_fromsrc : string -> string -> string (* xurifromsrc, aux-ginga.cpp:686 *) }.

(** A null Event pointer: 1 is the first pointer handed out, to the root context, and so
    never an event. *)
Definition nullEvt : eid := 1%positive.

(** std::string::pop_back on a non-empty string. *)
Definition droplast (s : string) : string := String.substring 0 (String.length s - 1) s.
(** getEventStringAsEvent, ParserLua.cpp:51-88. *)
Definition eventOf (c : oid) (i : string) (t : etype) (n : string) (pos : string) : MG (option eid) :=
  do o <- getChildById c i;
  match o with Some o => getEvent o t n | None => crashm (CUB pos) end.
Definition getEventString (c : oid) (s : string) : MG (option eid) :=
  match find_char "@" s with
  | Some (i, n) => eventOf c i PRESENTATION (if xstrcaseeq "lambda" n then "@lambda" else n) "ParserLua.cpp:69"
  | None =>
    match find_char "." s with
    | Some (i, n) => eventOf c i ATTRIBUTION n "ParserLua.cpp:77"
    | None =>
      let '(i, n) := match find_char "<" s with Some x => x | None => (s, s) end in   (* npos + 1 = 0 *)
      if String.eqb n "" then crashm (CUB "ParserLua.cpp:84") else
      eventOf c i SELECTION (droplast n) "ParserLua.cpp:86"
    end
  end.

(** Event::getStringAsTransition, Event.cpp:296-310. *)
Definition transitionOf (s : string) : MG trans :=
  if xstrcaseeq s "start" then ret START else if xstrcaseeq s "pause" then ret PAUSE else
  if xstrcaseeq s "resume" then ret RESUME else if xstrcaseeq s "stop" then ret STOP else
  if xstrcaseeq s "abort" then ret ABORT else crashm (CAssert "Event.cpp:309").
(** ParserLua.cpp:573-578 and 612-617. *)
Definition ltransition (s : string) : MG trans := transitionOf (if xstrcaseeq s "set" then "start" else s).

(** ParserLua.cpp:707-720. *)
Definition testOf (s : string) : option ptest :=
  if xstrcaseeq s "==" then Some TEQ else if xstrcaseeq s "!=" then Some TNE else if xstrcaseeq s "<" then Some TLT else
  if xstrcaseeq s "<=" then Some TLE else if xstrcaseeq s ">" then Some TGT else if xstrcaseeq s ">=" then Some TGE else None.
(** l_parse_predicate, ParserLua.cpp:658-746.  The predicate is returned instead of being
    added to the children of the parent (which is always a conjunction, a disjunction or a
    negation, so Predicate::addChild, Predicate.cpp:159-176, does not fail). *)
Fixpoint lpredicate (k : nat) (v : option lval) : LM npred :=
  match k with O => nofuel | S k =>
    dl l <- checktable v;
    match item l 1 with
    | Some (VBool b) => lok (if b then PVerum else PFalsum)
    | x =>
      dl s <- checkstring x;
      if xstrcaseeq s "not" then dl p <- lpredicate k (item l 2); lok (PNeg [p])
      else if xstrcaseeq s "and" then dl p <- lpredicate k (item l 3); dl q <- lpredicate k (item l 2); lok (PAnd [p; q])
      else if xstrcaseeq s "or" then dl p <- lpredicate k (item l 3); dl q <- lpredicate k (item l 2); lok (POr [p; q])
      else
        dl op <- checkstring (item l 2);
        dl rhs <- checkstring (item l 3);
        match testOf op with Some t => lok (PAtom s t rhs) | None => crashm (CAssert "ParserLua.cpp:720") end
    end
  end.

(** l_parse_port, ParserLua.cpp:325-345. *)
Definition lport (c : oid) (v : lval) : LM unit :=
  dl s <- checkstring (Some v);
  dl e <- llift (getEventString c s);
  match e with Some e => llift (addPort c e) | None => crashm (CAssert "ParserLua.cpp:341") end.

(** l_parse_link, ParserLua.cpp:550-656: conditions (565-602), actions (604-652). *)
Definition lcondition (c : oid) (v : lval) : LM action :=
  dl l <- rawtable v "ParserLua.cpp:572";
  dl s <- checkstring (item l 1);
  dl t <- llift (ltransition s);
  dl n <- checkstring (item l 2);
  dl e <- llift (getEventString c n);
  match item l 3 with
  | None => lok (mkAct (default nullEvt e) t None "" "" "")
  | Some p => dl q <- lpredicate (S (depth p)) (Some p); lok (mkAct (default nullEvt e) t (Some q) "" "" "")
  end.
Definition optstring (v : option lval) : LM string := match v with None => lok "" | Some v => checkstring (Some v) end.
Definition laction (c : oid) (v : lval) : LM action :=
  dl l <- rawtable v "ParserLua.cpp:611";
  dl s <- checkstring (item l 1);
  dl t <- llift (ltransition s);
  dl n <- checkstring (item l 2);
  dl e <- llift (getEventString c n);
  dl value <- optstring (item l 3);
  match item l 4 with
  | None => lok (mkAct (default nullEvt e) t None value "" "")
  | Some ps =>
    dl ps <- checktable (Some ps);
    dl delay <- optstring (field ps "delay");
    dl dur <- optstring (field ps "duration");
    lok (mkAct (default nullEvt e) t None value dur delay)
  end.
Definition llink (c : oid) (v : lval) : LM unit :=
  dl l <- checktable (Some v);
  dl cs <- checktable (item l 1);
  dl conds <- lmap (fun x => lcondition c (snd x)) cs;
  dl acts <- checktable (item l 2);
  dl actions <- lmap (fun x => laction c (snd x)) acts;
  llift (addLink c conds actions).

(** The text of a transition, ParserLua.cpp:409-497.  The value of transIn or transOut may
    be a string, or a number, which line 393 turns into one: its fields are those of the string library, which has none of these. *)
Definition transField (l : list (lkey * lval)) (n d : string) : LM string :=
  match field l n with None => lok d | Some v => tostring v "ParserLua.cpp:427-490" end.
Definition ltransText (v : lval) : LM string :=
  match v with
  | VStr _ | VNum _ => crashm (CAssert "ParserLua.cpp:422")
  | VTab l =>
    match field l "type" with None => crashm (CAssert "ParserLua.cpp:422") | Some ty =>
    dl ty <- tostring ty "ParserLua.cpp:417";
    dl subtype <- transField l "subtype" "";
    dl dur <- transField l "dur" "0";
    dl sp <- transField l "startProgress" "0";
    dl ep <- transField l "endProgress" "0";
    dl dir <- transField l "direction" "forward";
    dl fade <- transField l "fadeColor" "";
    dl hr <- transField l "horzRepeat" "0";
    dl vr <- transField l "vertRepeat" "0";
    dl bw <- transField l "borderWidth" "0";
    dl bc <- transField l "borderColor" "";
    lok (String.concat "" ["{type='"; ty; "',subtype='"; subtype; "',dur='"; dur; "',startProgress='"; sp; "',endProgress='"; ep; "',direction='"; dir;
      "',fadeColor='"; fade; "',horzRepeat='"; hr; "',vertRepeat='"; vr; "',borderWidth='"; bw; "',borderColor='"; bc; "',}"])
    end
  | _ => lerror                                          (* attempt to index *)
  end.

Section parse.
Variable E : lenv.
(** ParserLua.cpp:398-407: resolving a relative path. *)
Definition lsrc (s : string) : string :=
  if String.eqb s "" || le_isuri E s || le_isabs E s then s else le_fromsrc E s (le_dirname E (le_path E)).
(** One property, ParserLua.cpp:390-503: the name and the value that are set.  If the key
    is a number, lua_tolstring replaces it by a string and the next lua_next raises an
    error (unless the table has that string as a key too, which is not represented). *)
Definition lproperty (x : lkey * lval) : LM (string * string) :=
  match fst x with
  | KStr n =>
    let n := cstr n in
    if xstrcaseeq "src" n then dl s <- tostring (snd x) "ParserLua.cpp:398"; lok ("uri", lsrc s)
    else if xstrcaseeq "transIn" n || xstrcaseeq "transOut" n then dl s <- ltransText (snd x); lok (n, s)
    else dl s <- tostring (snd x) "ParserLua.cpp:501"; lok (n, s)
  | KInt _ | KFloat => dl _ <- tostring (snd x) "ParserLua.cpp:501"; lerror
  | KOther => crashm (CUB "ParserLua.cpp:395")
  end.
Definition lsetProperty (o : oid) (x : lkey * lval) : LM unit :=
  dl p <- lproperty x;
  llift (addAttributionEvent o (fst p) ;; gsetProperty o (fst p) (snd p)).
(** One area, ParserLua.cpp:512-543. *)
Definition ltime (v : option lval) (d : N) : LM N :=
  match v ≫= text with
  | None => lok d
  | Some s => match try_parse_time s with TOk t => lok t | TFail => lerror | TUB => crashm (CUB "aux-ginga.cpp:223") | TUnmodelled => crashm (CUB "unmodelled literal") end
  end.
Definition larea (v : lval) : LM (string * (N * N)) :=
  dl l <- rawtable v "ParserLua.cpp:514";
  dl b <- ltime (item l 2) 0%N;
  dl e <- ltime (item l 3) TIME_NONE;
  match item l 1 ≫= text with Some n => lok (n, (b, e)) | None => crashm (CUB "ParserLua.cpp:541") end.
Definition laddArea (o : oid) (x : lkey * lval) : LM unit :=
  dl a <- larea (snd x);
  llift (addPresentationEvent o (fst a) (fst (snd a)) (snd (snd a))).

(** l_parse_media, ParserLua.cpp:347-548. *)
Definition lmedia (p : oid) (v : lval) : LM unit :=
  dl l <- checktable (Some v);
  dl tag <- checkstring (item l 1);
  if negb (String.eqb tag "media") then lerror else
  dl i <- checkstring (item l 2);
  dl o <- llift (newObject KMedia i);
  dl props <- rawentries (item l 3) "ParserLua.cpp:390";
  dl _ <- leach (lsetProperty o) props;
  dl areas <- rawentries (item l 4) "ParserLua.cpp:512";
  dl _ <- leach (laddArea o) areas;
  llift (addChild p o).

(** The children of a context (ParserLua.cpp:133-177) or of a switch (250-294). *)
Definition lchild (rec : kind -> oid -> lval -> LM unit) (c : oid) (x : lkey * lval) : LM unit :=
  dl l <- rawtable (snd x) "ParserLua.cpp:139,256";
  dl tag <- checkstring (item l 1);
  if xstrcaseeq tag "context" then rec KContext c (snd x)
  else if xstrcaseeq tag "switch" then rec KSwitch c (snd x)
  else if xstrcaseeq tag "media" then rec KMedia c (snd x)
  else crashm (CAssert "ParserLua.cpp:174,291").
Definition lchildren (rec : kind -> oid -> lval -> LM unit) (c : oid) (v : option lval) : LM unit :=
  dl l <- rawentries v "ParserLua.cpp:137,254";
  leach (lchild rec c) l.

(** l_parse_context, ParserLua.cpp:92-210: what follows the creation of the context
    (133-207), on a nested context (128-129), on the root (119-125). *)
Definition lbody (rec : kind -> oid -> lval -> LM unit) (c : oid) (l : list (lkey * lval)) : LM unit :=
  dl _ <- lchildren rec c (item l 5);
  dl ports <- rawentries (item l 4) "ParserLua.cpp:183";
  dl _ <- leach (fun x => lport c (snd x)) ports;
  dl links <- rawentries (item l 6) "ParserLua.cpp:198";
  leach (fun x => llink c (snd x)) links.
Definition lcontext (rec : kind -> oid -> lval -> LM unit) (p : oid) (v : lval) : LM unit :=
  dl l <- checktable (Some v);
  dl tag <- checkstring (item l 1);
  if negb (String.eqb tag "context") then lerror else
  dl i <- checkstring (item l 2);
  dl c <- llift (newObject KContext i);
  dl _ <- llift (addChild p c);
  lbody rec c l.
Definition lroot (rec : kind -> oid -> lval -> LM unit) (v : option lval) : LM unit :=
  dl l <- checktable v;
  dl tag <- checkstring (item l 1);
  if negb (String.eqb tag "context") then lerror else
  dl i <- checkstring (item l 2);
  dl g <- llift get;
  match g_root g with
  | None => crashm (CUB "no root")
  | Some r => dl _ <- llift (addAlias r i None); lbody rec r l
  end.

(** l_parse_switch, ParserLua.cpp:212-322; Switch::addRule, Switch.cpp:222-228. *)
Definition lrule (c : oid) (x : lkey * lval) : LM unit :=
  dl l <- rawtable (snd x) "ParserLua.cpp:302";
  dl i <- checkstring (item l 1);
  dl o <- llift (getChildById c i);
  dl p <- lpredicate (S (depth (default VOther (item l 2)))) (item l 2);
  match o with Some o => llift (addRule c o p) | None => crashm (CAssert "Switch.cpp:225") end.
Definition lswitch (rec : kind -> oid -> lval -> LM unit) (p : oid) (v : lval) : LM unit :=
  dl l <- checktable (Some v);
  dl tag <- checkstring (item l 1);
  if negb (String.eqb tag "switch") then lerror else
  dl i <- checkstring (item l 2);
  dl c <- llift (newObject KSwitch i);
  dl _ <- llift (addChild p c);
  dl _ <- lchildren rec c (item l 3);
  dl rules <- rawentries (item l 4) "ParserLua.cpp:300";
  leach (lrule c) rules.

Fixpoint lparse (k : nat) (what : kind) (p : oid) (v : lval) : LM unit :=
  match k with O => nofuel | S k =>
    match what with
    | KContext => lcontext (lparse k) p v
    | KSwitch => lswitch (lparse k) p v
    | _ => lmedia p v
    end
  end.

(** process, ParserLua.cpp:750-770: [Some tt] with the document, or null and the error. *)
Definition lprocess (v : option lval) : LM unit :=
  dl _ <- llift newDocument;
  lroot (lparse (depth (default VOther v))) v.
(** ParserLua::parseBuffer and parseFile, ParserLua.cpp:780-842, once the script has
    returned [v] (at most the first value it returns is looked at). *)
Definition parseLtab (addr : positive -> positive) (focus : string) (v : option lval) : outcome graph (option unit) :=
  lprocess v (emptyGraph addr focus).
End parse.

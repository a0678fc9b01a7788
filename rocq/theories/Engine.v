(** Engine.v -- the NCL engine: events, objects, contexts, switches, media, settings
    and action evaluation.

    Sources: lib/Event.cpp, lib/Object.cpp, lib/Composition.cpp, lib/Context.cpp,
    lib/Switch.cpp, lib/Media.cpp, lib/MediaSettings.cpp, lib/Document.cpp.

    TRACE/WARNING logging is dropped everywhere. *)
From Verif Require Export Predicate Player.
Open Scope string_scope.
Open Scope list_scope.

(** ** Enumerations. *)
Inductive etype : Type := ATTRIBUTION | PRESENTATION | SELECTION | LOOKAT.  (* Event.h:35-67 *)
Inductive evstate : Type := OCCURRING | PAUSED | SLEEPING.                  (* Event.h:70-75 *)
Inductive trans : Type := ABORT | PAUSE | RESUME | START | STOP.            (* Event.h:78-85 *)
Inductive kind : Type := KContext | KSwitch | KMedia | KSettings.

#[global] Instance etype_eq_dec : EqDecision etype. Proof. solve_decision. Defined.
#[global] Instance evstate_eq_dec : EqDecision evstate. Proof. solve_decision. Defined.
#[global] Instance trans_eq_dec : EqDecision trans. Proof. solve_decision. Defined.
#[global] Instance kind_eq_dec : EqDecision kind. Proof. solve_decision. Defined.

Definition is_media (k : kind) : bool :=   (* instanceof (Media*, o): MediaSettings is a Media *)
  match k with KMedia | KSettings => true | _ => false end.

(** Pointers to events and objects. *)
Definition eid : Type := positive.
Definition oid : Type := positive.
Bind Scope positive_scope with eid oid.

(** Action, Event.h:131-139.  Conditions of links are Actions too. *)
Record action : Type := mkAct {
  ac_evt : eid; ac_tr : trans; ac_pred : option npred;
  ac_value : string; ac_dur : string; ac_delay : string }.

#[global] Instance action_eq_dec : EqDecision action. Proof. solve_decision. Defined.

(** ** The static document (never modified once parsed). *)
Record evt : Type := mkEvt {                       (* Event.h:118-124 *)
  ev_type : etype; ev_obj : oid; ev_id : string;
  ev_begin : N; ev_end : N; ev_label : string }.

Record obj : Type := mkObj {
  ob_kind : kind;
  ob_id : string;
  ob_parent : option oid;                          (* _parent *)
  ob_aliases : list (string * option oid);         (* _aliases *)
  ob_lambda : eid;                                 (* _lambda *)
  ob_events : list eid;                            (* _events, in iteration order *)
  ob_children : list oid;                          (* Composition::_children, in iteration order *)
  ob_ports : list eid;                             (* Context::_ports *)
  ob_links : list (list action * list action);     (* Context::_links *)
  ob_rules : list (oid * npred);                    (* Switch::_rules *)
  ob_swports : list (string * list eid) }.         (* Switch::_switchPorts *)

Record doc : Type := mkDoc {
  d_obj : gmap oid obj;
  d_evt : gmap eid evt;
  d_objs : list oid;                               (* _objects, in iteration order *)
  d_medias : list oid;                             (* _medias, in iteration order *)
  d_root : oid;
  d_settings : oid;
  d_ext : ext }.

(** ** The dynamic state. *)
Record estate : Type := mkES { e_st : evstate; e_params : gmap string string }.
Record ostate : Type := mkOS {
  o_time : N;                        (* _time *)
  o_props : gmap string string;      (* _properties *)
  o_delayed : list (action * N);     (* _delayed *)
  o_awake : Z;                       (* Context::_awakeChildren (int; overflow not modelled) *)
  o_links_on : bool;                 (* Context::_status *)
  o_selected : option oid;           (* Switch::_selected *)
  o_player : option player }.        (* Media::_player *)

(** Ghost observations; written by the engine, never read by it. *)
Inductive obs : Type :=
  | OTrans (e : eid) (t : trans)     (* event e takes transition t (Event.cpp:221) *)
  | OTick (o : oid) (d : N)          (* a tick of d ns reaches Object::sendTick of o *)
  | OBegin (a : action)              (* evalAction pops a from its stack *)
  | OSched (o : oid) (a : action) (delay : N) (* action a is put in the queue of o *)
  | OSkip (o : oid) (a : action)     (* o starts at an anchor: queued action a is dropped *)
  | OSeek (o : oid) (a : action) (b : N) (* o starts at an anchor: action a is brought forward by b *)
  | OTrig (o : oid) (a : action)     (* delayed action a of o falls due *)
  | OPlayer (o : oid) (created : bool) (* a player of o is created / deleted *)
  | OKey (o : oid) (k : string) (press : bool).

Record st : Type := mkSt {
  s_ev : gmap eid estate;
  s_ob : gmap oid ostate;
  s_focus : string;                  (* static Player::_currentFocus *)
  s_next : option string;            (* MediaSettings::_hasNextFocus/_nextFocus *)
  s_w : Z; s_h : Z;                  (* formatter options width/height *)
  s_log : list obs                   (* ghost, most recent first *)
}.

#[global] Instance estate_inh : Inhabited estate := populate (mkES SLEEPING ∅).
#[global] Instance ostate_inh : Inhabited ostate :=
  populate (mkOS TIME_NONE ∅ [] 0 true None None).

Notation ME := (M st).

(** State accessors and updates. *)
Definition estOf (s : st) (e : eid) : estate := s_ev s !!! e.
Definition ostOf (s : st) (o : oid) : ostate := s_ob s !!! o.
Definition evState (s : st) (e : eid) : evstate := e_st (estOf s e).
Definition upd_ev (e : eid) (f : estate -> estate) (s : st) : st :=
  mkSt (<[e := f (estOf s e)]> (s_ev s)) (s_ob s) (s_focus s) (s_next s) (s_w s) (s_h s) (s_log s).
Definition upd_ob (o : oid) (f : ostate -> ostate) (s : st) : st :=
  mkSt (s_ev s) (<[o := f (ostOf s o)]> (s_ob s)) (s_focus s) (s_next s) (s_w s) (s_h s) (s_log s).
Definition set_focus (x : string) (s : st) : st :=
  mkSt (s_ev s) (s_ob s) x (s_next s) (s_w s) (s_h s) (s_log s).
Definition set_next (x : option string) (s : st) : st :=
  mkSt (s_ev s) (s_ob s) (s_focus s) x (s_w s) (s_h s) (s_log s).
Definition log (x : obs) (s : st) : st :=
  mkSt (s_ev s) (s_ob s) (s_focus s) (s_next s) (s_w s) (s_h s) (x :: s_log s).

Definition es_set_state (x : evstate) (e : estate) : estate := mkES x (e_params e).
Definition es_set_param (k v : string) (e : estate) : estate :=
  mkES (e_st e) (<[k := v]> (e_params e)).
Definition os_set_time x (o : ostate) :=
  mkOS x (o_props o) (o_delayed o) (o_awake o) (o_links_on o) (o_selected o) (o_player o).
Definition os_set_props x (o : ostate) :=
  mkOS (o_time o) x (o_delayed o) (o_awake o) (o_links_on o) (o_selected o) (o_player o).
Definition os_set_delayed x (o : ostate) :=
  mkOS (o_time o) (o_props o) x (o_awake o) (o_links_on o) (o_selected o) (o_player o).
Definition os_set_awake x (o : ostate) :=
  mkOS (o_time o) (o_props o) (o_delayed o) x (o_links_on o) (o_selected o) (o_player o).
Definition os_set_links x (o : ostate) :=
  mkOS (o_time o) (o_props o) (o_delayed o) (o_awake o) x (o_selected o) (o_player o).
Definition os_set_selected x (o : ostate) :=
  mkOS (o_time o) (o_props o) (o_delayed o) (o_awake o) (o_links_on o) x (o_player o).
Definition os_set_player x (o : ostate) :=
  mkOS (o_time o) (o_props o) (o_delayed o) (o_awake o) (o_links_on o) (o_selected o) x.

(** Event::isLambda, Event.cpp:129-133. *)
Definition isLambda (ev : evt) : bool :=
  bool_decide (ev_type ev = PRESENTATION) && String.eqb (ev_id ev) "@lambda".
(** Event::hasLabel, Event.cpp:149-153. *)
Definition hasLabel (ev : evt) : bool := negb (is_empty (ev_label ev)).

Section Engine.
Context (D : doc).

(** Dereferencing a pointer to an event or an object; the pointers in a
    well-formed document are all valid. *)
Definition getE (e : eid) : ME evt := ofoption (d_evt D !! e) (CUB "dangling event").
Definition getO (o : oid) : ME obj := ofoption (d_obj D !! o) (CUB "dangling object").

(** Object::isOccurring/isPaused/isSleeping, Object.cpp:309-328. *)
Definition objState (o : oid) : ME evstate :=
  do ob <- getO o; gets (fun s => evState s (ob_lambda ob)).
Definition isOccurring (o : oid) : ME bool :=
  do x <- objState o; ret (bool_decide (x = OCCURRING)).
Definition isSleeping (o : oid) : ME bool :=
  do x <- objState o; ret (bool_decide (x = SLEEPING)).

(** instanceof (Context*, o) *)
Definition isContext (o : oid) : ME bool :=
  do ob <- getO o; ret (bool_decide (ob_kind ob = KContext)).

(** *** Lookup by id and property references (pure). *)
(** Object::getProperty, Object.cpp:330-337. *)
Definition propOf (s : st) (o : oid) (name : string) : string :=
  default "" (o_props (ostOf s o) !! name).
(** Document::getObjectById, Document.cpp:97-104 (ids are unique, Builder.v). *)
Definition hasId (i : string) (o : oid) : bool :=
  match d_obj D !! o with Some ob => String.eqb (ob_id ob) i | None => false end.
Definition hasAlias (i : string) (o : oid) : bool :=             (* Object.cpp:177-184 *)
  match d_obj D !! o with
  | Some ob => existsb (fun a => String.eqb (fst a) i) (ob_aliases ob) | None => false end.
Definition getObjectByIdOrAlias (i : string) : option oid :=     (* Document.cpp:111-121 *)
  match List.find (hasId i) (d_objs D) with
  | Some o => Some o
  | None => List.find (hasAlias i) (d_objs D)
  end.
(** Document::evalPropertyRef, Document.cpp:540-559.  [ref.find('.')] counts from
    position 0, where the '$' stands. *)
Definition evalPropertyRef (s : st) (ref : string) : option string :=
  match ref with
  | String "$" rest =>
    match find_char "." rest with
    | Some (i, name) =>
      match getObjectByIdOrAlias i with
      | Some o => Some (propOf s o name)
      | None => None
      end
    | None => None
    end
  | _ => None
  end.
Definition evalPredicate (p : npred) : ME bool :=
  fun s => match eval_pred (evalPropertyRef s) p with
           | Some b => Ok b s
           | None => Crash (CAssert "Document.cpp:504")
           end.

(** *** Clock, counters, delayed actions. *)
(** Object::addDelayedAction, Object.cpp:352-362: only event, transition and value
    of the action are kept; duration and delay are empty, the predicate field is
    indeterminate (never read for delayed actions). *)
Definition sched (o : oid) (e : eid) (t : trans) (v : string) (delay : N) (s : st) : st :=
  let due := tadd (o_time (ostOf s o)) delay in
  log (OSched o (mkAct e t None v "" "") delay)
    (upd_ob o (fun x => os_set_delayed (o_delayed x ++ [(mkAct e t None v "" "", due)]) x) s).
Definition addDelayed (o : oid) (e : eid) (t : trans) (v : string) (delay : N) : ME unit :=
  modify (sched o e t v delay).

(** Context::incAwakeChildren / decAwakeChildren on the parent if it is a context
    (Object.cpp:416-417, 431-432; Context.cpp:368-378). *)
Definition addAwake (o : oid) (k : Z) : ME unit :=
  do ob <- getO o;
  match ob_parent ob with
  | None => ret tt
  | Some p => do c <- isContext p;
              whenm c (modify (upd_ob p (fun x => os_set_awake (o_awake x + k)%Z x)))
  end.

(** MediaSettings::scheduleFocusUpdate, MediaSettings.cpp:118-123. *)
Definition scheduleFocus (x : string) : ME unit := modify (set_next (Some x)).

(** Object::doStart, Object.cpp:412-422. *)
Definition doStart (o : oid) : ME unit :=
  modify (upd_ob o (os_set_time 0%N)) ;;
  addAwake o 1 ;;
  do f <- gets (fun s => propOf s o "focusIndex");
  whenm (negb (is_empty f)) (scheduleFocus "").

(** Object::doStop, Object.cpp:424-433 (Event::reset, Event.cpp:233-237). *)
Definition doStop (o : oid) : ME unit :=
  do ob <- getO o;
  modify (upd_ob o (os_set_time TIME_NONE)) ;;
  foreach (fun e => modify (upd_ev e (es_set_state SLEEPING))) (ob_events ob) ;;
  modify (upd_ob o (os_set_delayed [])) ;;
  addAwake o (-1).

(** *** Properties and the player. *)
(** Object::setProperty, Object.cpp:339-344. *)
Definition objSetProp (o : oid) (name value : string) : ME unit :=
  modify (upd_ob o (fun x => os_set_props (<[name := value]> (o_props x)) x)).

Definition updPlayer (o : oid) (f : player -> player) : ME unit :=
  modify (upd_ob o (fun x => os_set_player (f <$> o_player x) x)).

(** PlayerAnimator::schedule, PlayerAnimator.cpp:47-116, for its crashes only:
    for bounds/location/size [list_pos.end()] is dereferenced (64, 76, 86); for
    background both colours must parse (98, 103).  The scheduled animation
    itself only affects what is drawn (Animator.v). *)
Definition animSchedule (name from to : string) : ME unit :=
  if (String.eqb name "bounds" || String.eqb name "location" || String.eqb name "size")%bool
  then crashm (CUB "PlayerAnimator.cpp:64")
  else if String.eqb name "background" then
    if ((is_empty from || x_color (d_ext D) from) && (is_empty to || x_color (d_ext D) to))%bool
    then ret tt else crashm (CError "aux-ginga.cpp:242 parse_color")
  else ret tt.

(** Media::setProperty (Media.cpp:62-76) and Player::setProperty
    (Player.cpp:291-330) call each other: bounds -> width -> right is the longest
    chain, so depth 3 suffices (lemma mediaSet_fuel). The settings object also updates the static
    focus variable (MediaSettings.cpp:47-54).
    [dur > 0] diverts to the animator (Media.cpp:72-73). *)
Fixpoint mediaSet (n : nat) (o : oid) (name value : string) (dur : N) : ME unit :=
  match n with
  | O => nofuel
  | S n =>
    do ob <- getO o;
    whenm (bool_decide (ob_kind ob = KSettings) && String.eqb name "service.currentFocus")%bool
          (modify (set_focus value)) ;;
    assertm (tvalid dur) "Object.cpp:342" ;;
    do from <- gets (fun s => propOf s o name);
    objSetProp o name value ;;
    do pl <- gets (fun s => o_player (ostOf s o));
    match pl with
    | None => ret tt
    | Some p =>
      if (0 <? dur)%N then animSchedule name from value
      else playerSet n o name value
    end
  end
with playerSet (n : nat) (o : oid) (name value : string) : ME unit :=
  match n with
  | O => nofuel
  | S n =>
    do s <- get;
    match o_player (ostOf s o) with
    | None => crashm (CUB "null player")
    | Some p =>
      match pset_value p name value with
      | None => ret tt
      | Some (code, v) =>
        match doset_own (d_ext D) (s_w s) (s_h s) code v (attrs_of p) with
        | DRefused => crashm (CError "Player.cpp:320")
        | DCrash c => crashm c
        | DOk a =>
          updPlayer o (fun p => with_attrs p a) ;;
          foreach (fun kv => mediaSet n o (fst kv) (snd kv) 0)
                  (doset_media code v (propOf s o))
        end
      end ;;
      updPlayer o (fun p => p_set_props (<[name := value]> (p_props p)) p)
    end
  end.
Definition SETPROP_DEPTH : nat := 8.
Definition mediaSetProperty (o : oid) (name value : string) (dur : N) : ME unit :=
  mediaSet SETPROP_DEPTH o name value dur.
Definition playerSetProperty (o : oid) (name value : string) : ME unit :=
  playerSet SETPROP_DEPTH o name value.

(** Virtual setProperty: Media override, otherwise Object's. *)
Definition setProperty (o : oid) (name value : string) (dur : N) : ME unit :=
  do ob <- getO o;
  if is_media (ob_kind ob) then mediaSetProperty o name value dur
  else assertm (tvalid dur) "Object.cpp:342" ;; objSetProp o name value.

(** Live iteration over the media's property map (Media.cpp:197-198): a std::map is
    visited in ascending key order and setting "bounds"/"location"/"size" may
    insert the four geometry keys while iterating. *)
Definition geometry_keys : list string := ["left"; "top"; "width"; "height"].
Fixpoint insert_str (x : string) (l : list string) : list string :=
  match l with
  | [] => [x]
  | y :: l => if str_le x y then x :: y :: l else y :: insert_str x l
  end.
Definition prop_keys (m : gmap string string) : list string :=
  foldr insert_str [] (remove_dups (map fst (map_to_list m) ++ geometry_keys)).

(** Player::createPlayer + the property loop + Player::start
    (Media.cpp:188-203, Player.cpp:548-624, 251-261).  [_properties["uri"]] and
    [_properties["type"]] insert empty entries when missing (Media.cpp:193).
    Player constructors of subclasses are not modelled. *)
Definition createPlayer (o : oid) : ME unit :=
  do s0 <- get;
  assertm (bool_decide (o_player (ostOf s0 o) = None)) "Media.cpp:191" ;;
  let props := o_props (ostOf s0 o) in
  let uri := default "" (props !! "uri") in
  let type := default "" (props !! "type") in
  match choose_player (d_ext D) type uri (default "" (props !! "device")) with
  | CAbort c => crashm c
  | CClass cls =>
    match reset_attrs (d_ext D) (s_w s0) (s_h s0) blank_attrs with
    | DRefused => crashm (CError "Player.cpp:320")
    | DCrash c => crashm c
    | DOk a =>
      objSetProp o "uri" uri ;;
      objSetProp o "type" (effective_mime type uri) ;;        (* Player.cpp:622 *)
      modify (upd_ob o (os_set_player (Some (new_player cls a)))) ;;
      modify (log (OPlayer o true)) ;;
      do s1 <- get;
      foreach (fun k => do s <- get;
                        match o_props (ostOf s o) !! k with
                        | Some v => playerSetProperty o k v
                        | None => ret tt
                        end) (prop_keys (o_props (ostOf s1 o))) ;;
      updPlayer o (fun p => p_set_eos false (p_set_time 0%N (p_set_state POccurring p)))
    end
  end.

(** Media::doStop, Media.cpp:514-528.  Player::stop resets the player's properties
    just before the player is deleted (Player.cpp:263-269); through the media it
    only re-assigns "right" and "bottom" to their current values, so nothing
    survives of it. *)
Definition mediaDoStop (o : oid) : ME unit :=
  do s <- get;
  match o_player (ostOf s o) with
  | None => do b <- isSleeping o; assertm b "Media.cpp:519"
  | Some _ =>
    modify (upd_ob o (os_set_player None)) ;;
    modify (log (OPlayer o false)) ;;
    doStop o
  end.

(** Player::pause / resume, Player.cpp:271-283; PlayerLua.cpp:109-121. *)
Definition playerPause (o : oid) : ME unit :=
  do s <- get;
  match o_player (ostOf s o) with
  | None => crashm (CAssert "Media.cpp:284")
  | Some p =>
    assertm (match p_state p with POccurring => true | _ => false end) "Player.cpp:274" ;;
    assertm (match p_class p with PLua => false | _ => true end) "PlayerLua.cpp:113" ;;
    updPlayer o (p_set_state PPaused)
  end.
Definition playerResume (o : oid) : ME unit :=
  do s <- get;
  match o_player (ostOf s o) with
  | None => crashm (CAssert "Media.cpp:284")
  | Some p =>
    assertm (match p_state p with PPaused => true | _ => false end) "Player.cpp:281" ;;
    assertm (match p_class p with PLua => false | _ => true end) "PlayerLua.cpp:120" ;;
    updPlayer o (p_set_state POccurring)
  end.

(** Player::isFocused, Player.cpp:209-213. *)
Definition playerFocused (s : st) (p : player) : bool :=
  negb (is_empty (p_focusIndex p)) && String.eqb (p_focusIndex p) (s_focus s).

Definition getParam (e : eid) (k : string) : ME (option string) :=
  gets (fun s => e_params (estOf s e) !! k).
Definition setParam (e : eid) (k v : string) : ME unit := modify (upd_ev e (es_set_param k v)).

(** Attribution START, shared text of Context.cpp:294-316 and Media.cpp:412-434. *)
Definition attribStart (o : oid) (e : eid) : ME unit :=
  do ev <- getE e;
  do v0 <- getParam e "value";
  do s <- get;
  let v := default "" v0 in
  let v := default v (evalPropertyRef s v) in
  do d0 <- getParam e "duration";
  do dur <- match d0 with
            | None => ret 0%N
            | Some d => parse_time (default d (evalPropertyRef s d))
            end;
  setProperty o (ev_id ev) v dur ;;
  addDelayed o e STOP v dur.

(** *** The two mutually recursive functions, as open functionals. *)
Section Open.
(** [trn e t]: Event::transition.  [evalA a]: Document::evalAction (a). *)
Context (trn : eid -> trans -> ME bool) (evalA : action -> ME nat).

Definition mkA (e : eid) (t : trans) (v : string) : action := mkAct e t None v "" "".

(** "if the parent context sleeps, start it" (Media.cpp:178-182, Context.cpp:249-253). *)
Definition startParent (o : oid) : ME unit :=
  do ob <- getO o;
  match ob_parent ob with
  | None => ret tt
  | Some p =>
    do c <- isContext p;
    if c then
      do sl <- isSleeping p;
      if sl then
        do pb <- getO p;
        setParam (ob_lambda pb) "fromport" "true" ;;
        trn (ob_lambda pb) START ;;
        ret tt
      else ret tt
    else ret tt
  end.

(** **** Context::beforeTransition, Context.cpp:170-233. *)
Definition ctx_before (o : oid) (e : eid) (ev : evt) (t : trans) : ME bool :=
  match ev_type ev with
  | PRESENTATION =>
    assertm (isLambda ev) "Context.cpp:176" ;;
    match t with
    | START => ret true
    | _ =>
      do ob <- getO o;
      foreach (fun c => do cb <- getO c; trn (ob_lambda cb) t ;; ret tt) (ob_children ob) ;;
      ret true
    end
  | ATTRIBUTION => ret true
  | SELECTION => ret false
  | LOOKAT => crashm (CAssert "Context.cpp:230")
  end.

(** **** Context::afterTransition, Context.cpp:235-337. *)
Definition ctx_after (o : oid) (e : eid) (ev : evt) (t : trans) : ME bool :=
  match ev_type ev with
  | PRESENTATION =>
    assertm (isLambda ev) "Context.cpp:242" ;;
    match t with
    | START =>
      doStart o ;;
      startParent o ;;
      do fp <- getParam e "fromport";
      (if is_empty (default "" fp) then
         do ob <- getO o;
         foreach (fun p => do pe <- getE p;
                    whenm (bool_decide (ev_type pe = PRESENTATION))
                          (addDelayed o p START "" 0)) (ob_ports ob) ;;
         setParam e "fromport" ""
       else ret tt) ;;
      ret true
    | PAUSE | RESUME => ret true
    | STOP | ABORT => doStop o ;; ret true
    end
  | ATTRIBUTION =>
    match t with
    | START => attribStart o e ;; ret true
    | STOP => ret true
    | _ => crashm (CAssert "Context.cpp:324")
    end
  | SELECTION => crashm (CAssert "Context.cpp:330")
  | LOOKAT => crashm (CAssert "Context.cpp:334")
  end.

(** **** Switch::beforeTransition, Switch.cpp:67-163. *)
(** The candidate events: the children's lambdas, or the events mapped by the
    switchPort. *)
Definition sw_candidates (o : oid) (ev : evt) : ME (list eid) :=
  do ob <- getO o;
  if isLambda ev then
    (fix go (l : list oid) : ME (list eid) :=
       match l with
       | [] => ret []
       | c :: l => do cb <- getO c; do r <- go l; ret (ob_lambda cb :: r)
       end) (ob_children ob)
  else match assoc (ev_id ev) (ob_swports ob) with
       | None => crashm (CAssert "Switch.cpp:83")
       | Some l => ret l
       end.
(** The last candidate of object [c] in the iteration order of the set
    (Switch.cpp:112-117). *)
Fixpoint sw_find (c : oid) (l : list eid) (acc : option eid) : ME (option eid) :=
  match l with
  | [] => ret acc
  | e :: l => do ev <- getE e;
              sw_find c l (if bool_decide (ev_obj ev = c) then Some e else acc)
  end.
Fixpoint sw_choose (o : oid) (cands : list eid) (rules : list (oid * npred)) : ME bool :=
  match rules with
  | [] => ret false                                                   (* 136 *)
  | (c, p) :: rules =>
    do sel <- sw_find c cands None;
    match sel with
    | None => sw_choose o cands rules                                 (* 118-119 *)
    | Some e' =>
      do b <- evalPredicate p;
      if b then
        do ok <- trn e' START;
        if ok then modify (upd_ob o (os_set_selected (Some c))) ;; ret true
        else ret false
      else sw_choose o cands rules
    end
  end.
Definition sw_before (o : oid) (e : eid) (ev : evt) (t : trans) : ME bool :=
  do cands <- sw_candidates o ev;
  match ev_type ev with
  | PRESENTATION =>
    match t with
    | START =>
      do s <- get;
      assertm (bool_decide (o_selected (ostOf s o) = None)) "Switch.cpp:97" ;;
      do ob <- getO o;
      sw_choose o cands (ob_rules ob)
    | _ =>
      do s <- get;
      match o_selected (ostOf s o) with
      | None => ret true
      | Some c => do cb <- getO c;
                  trn (ob_lambda cb) t ;;
                  modify (upd_ob o (os_set_selected None)) ;;
                  ret true
      end
    end
  | _ => crashm (CAssert "Switch.cpp:160")
  end.

(** **** Switch::afterTransition, Switch.cpp:165-212. *)
Definition sw_after (o : oid) (e : eid) (ev : evt) (t : trans) : ME bool :=
  match ev_type ev with
  | PRESENTATION =>
    match t with
    | START =>
      doStart o ;;
      do s <- get;
      match o_selected (ostOf s o) with
      | None => evalA (mkA e STOP "") ;; ret true
      | Some _ => ret true
      end
    | PAUSE | RESUME => ret true
    | STOP | ABORT => doStop o ;; ret true
    end
  | _ => crashm (CAssert "Switch.cpp:209")
  end.

(** **** Media::beforeTransition, Media.cpp:168-316. *)
(** The loop 245-266 over _delayed when an anchor is started on a sleeping media:
    entries outside [begin,end] are erased (those before [begin] that start an
    anchor have the anchor transition applied), the others are shifted.  [i] is the
    position of the iterator, [k] the number of entries left when the loop
    started; the list does not grow while the loop runs (the nested transitions
    start anchors of a media that is no longer sleeping), so entries appended
    meanwhile are not looked at. *)
Fixpoint anchor_seek (o : oid) (begin fin : N) (k i : nat) : ME unit :=
  match k with
  | O => ret tt
  | S k =>
    do l <- gets (fun s => o_delayed (ostOf s o));
    match l !! i with
    | None => crashm (CUB "Media.cpp:245")
    | Some (a, x) =>
      if ((x =? TIME_NONE)%N || (x <? begin)%N || (negb (fin =? TIME_NONE)%N && (fin <? x)%N))%bool
      then
        (if (bool_decide (ac_tr a = START) && (x <? begin)%N)%bool
         then trn (ac_evt a) (ac_tr a) ;; ret tt else ret tt) ;;
        do l2 <- gets (fun s => o_delayed (ostOf s o));
        if bool_decide (l2 !! i = Some (a, x)) then
          modify (upd_ob o (fun x => os_set_delayed (delete i (o_delayed x)) x)) ;;
          modify (log (OSkip o a)) ;;
          anchor_seek o begin fin k i
        else crashm (CUB "Media.cpp:259")                    (* invalidated iterator *)
      else
        modify (upd_ob o (fun x => os_set_delayed
                  (alter (fun ax => (fst ax, tsub (snd ax) begin)) i (o_delayed x)) x)) ;;
        modify (log (OSeek o a begin)) ;;
        anchor_seek o begin fin k (S i)
    end
  end.

(** xstrbuild ("%" G_GUINT64_FORMAT, n): decimal, via a digit loop. *)
Fixpoint dec_go (fuel : nat) (n : N) (acc : string) : string :=
  match fuel with
  | O => acc
  | S f => let acc' := String (ascii_of_N (48 + n mod 10)) acc in
           if (n <? 10)%N then acc' else dec_go f (n / 10)%N acc'
  end.
Definition dec (n : N) : string := dec_go 25 n "".

Definition media_start_anchor (o : oid) (e : eid) (ev : evt) (lam : eid) : ME unit :=
  trn lam START ;;
  let begin := if (ev_begin ev =? TIME_NONE)%N then 0%N else ev_begin ev in
  let fin := ev_end ev in
  playerSetProperty o "time" (dec (begin / SECOND)) ;;
  (if (fin =? TIME_NONE)%N then ret tt
   else playerSetProperty o "duration" (dec (tsub fin begin / SECOND)) ;;
        addDelayed o e STOP "" fin) ;;
  do l <- gets (fun s => o_delayed (ostOf s o));
  anchor_seek o begin fin (length l) 0.

Definition media_before (o : oid) (e : eid) (ev : evt) (t : trans) : ME bool :=
  match ev_type ev with
  | PRESENTATION =>
    match t with
    | START =>
      startParent o ;;
      do x <- gets (fun s => evState s e);
      match x with
      | SLEEPING =>
        if isLambda ev then createPlayer o ;; ret true
        else
          do ob <- getO o;
          do y <- gets (fun s => evState s (ob_lambda ob));
          match y with
          | SLEEPING => media_start_anchor o e ev (ob_lambda ob) ;; ret true
          | _ => ret true
          end
      | _ => ret true
      end
    | PAUSE | RESUME =>
      if isLambda ev then
        do ob <- getO o;
        foreach (fun e' => do ev' <- getE e';
                   if (negb (isLambda ev') && bool_decide (ev_type ev' = PRESENTATION))%bool
                   then evalA (mkA e' t "") ;; ret tt else ret tt) (ob_events ob) ;;
        (match t with PAUSE => playerPause o | _ => playerResume o end) ;;
        ret true
      else ret true
    | STOP | ABORT => ret true
    end
  | _ => ret true
  end.

(** **** Media::afterTransition, Media.cpp:318-481. *)
Definition media_after (o : oid) (e : eid) (ev : evt) (t : trans) : ME bool :=
  do s <- get;
  let pl := o_player (ostOf s o) in
  match ev_type ev with
  | PRESENTATION =>
    match t with
    | START =>
      if isLambda ev then
        assertm (bool_decide (pl <> None)) "Media.cpp:330" ;;
        doStart o ;;
        do ob <- getO o;
        foreach (fun e' => do ev' <- getE e';
                   if (negb (isLambda ev') && bool_decide (ev_type ev' = PRESENTATION)
                       && negb (hasLabel ev'))%bool
                   then addDelayed o e' START "" (ev_begin ev') ;;
                        addDelayed o e' STOP "" (ev_end ev')
                   else ret tt) (ob_events ob) ;;
        ret true
      else if hasLabel ev then
        (* sendPresentationEvent is empty in the base player *)
        (match pl with None => crashm (CUB "Media.cpp:351") | Some _ => ret true end)
      else ret true
    | PAUSE | RESUME => ret true
    | STOP | ABORT =>
      if isLambda ev then
        assertm (bool_decide (pl <> None)) "Media.cpp:370" ;;
        mediaDoStop o ;;
        ret true
      else if hasLabel ev then
        (match pl with None => crashm (CUB "Media.cpp:381") | Some _ => ret true end)
      else
        do b <- isOccurring o;
        assertm b "Media.cpp:386" ;;
        ret true
    end
  | ATTRIBUTION =>
    match t with
    | START => attribStart o e ;; ret true
    | STOP => ret true
    | _ => crashm (CAssert "Media.cpp:442")
    end
  | SELECTION =>
    match t with START | STOP => ret true | _ => crashm (CAssert "Media.cpp:459") end
  | LOOKAT =>
    match t with START | STOP => ret true | _ => crashm (CAssert "Media.cpp:473") end
  end.

(** Virtual dispatch. *)
Definition before (o : oid) (e : eid) (ev : evt) (t : trans) : ME bool :=
  do ob <- getO o;
  match ob_kind ob with
  | KContext => ctx_before o e ev t
  | KSwitch => sw_before o e ev t
  | KMedia | KSettings => media_before o e ev t
  end.
Definition after (o : oid) (e : eid) (ev : evt) (t : trans) : ME bool :=
  do ob <- getO o;
  match ob_kind ob with
  | KContext => ctx_after o e ev t
  | KSwitch => sw_after o e ev t
  | KMedia | KSettings => media_after o e ev t
  end.

(** **** Event::transition, Event.cpp:184-231. *)
Definition legal (x : evstate) (t : trans) : bool :=
  match t, x with
  | START, OCCURRING => false
  | START, _ => true
  | PAUSE, OCCURRING => true
  | PAUSE, _ => false
  | RESUME, PAUSED => true
  | RESUME, _ => false
  | (STOP | ABORT), SLEEPING => false
  | (STOP | ABORT), _ => true
  end.
Definition target (t : trans) : evstate :=
  match t with START | RESUME => OCCURRING | PAUSE => PAUSED | STOP | ABORT => SLEEPING end.

Definition tr_body (e : eid) (t : trans) : ME bool :=
  do ev <- getE e;
  do curr <- gets (fun s => evState s e);
  if negb (legal curr t) then ret false
  else
    do b <- before (ev_obj ev) e ev t;
    if negb b then ret false
    else
      modify (upd_ev e (es_set_state (target t))) ;;
      modify (log (OTrans e t)) ;;
      do a <- after (ev_obj ev) e ev t;
      if a then ret true
      else modify (upd_ev e (es_set_state curr)) ;; ret false.

(** **** Document::evalActionInContext, Document.cpp:245-302.
    Returns the actions to push, in push order (the last one is popped first). *)
Fixpoint fire_acts (ctx : oid) (racts : list action) : ME (list action) :=
  match racts with
  | [] => ret []
  | a :: racts =>
    do s <- get;
    do delay <- parse_time (default (ac_delay a) (evalPropertyRef s (ac_delay a)));
    if ((delay =? 0) || (delay =? TIME_NONE))%N
    then do r <- fire_acts ctx racts; ret (a :: r)
    else addDelayed ctx (ac_evt a) (ac_tr a) (ac_value a) delay ;;
         fire_acts ctx racts
  end.
Fixpoint fire_conds (ctx : oid) (e : eid) (t : trans) (conds : list action)
    (acts : list action) : ME (list action) :=
  match conds with
  | [] => ret []
  | c :: conds =>
    if (bool_decide (ac_evt c = e) && bool_decide (ac_tr c = t))%bool then
      do b <- match ac_pred c with None => ret true | Some p => evalPredicate p end;
      if b then
        do r1 <- fire_acts ctx (rev acts);
        do r2 <- fire_conds ctx e t conds acts;
        ret (r1 ++ r2)
      else fire_conds ctx e t conds acts
    else fire_conds ctx e t conds acts
  end.
Fixpoint fire_links (ctx : oid) (e : eid) (t : trans)
    (links : list (list action * list action)) : ME (list action) :=
  match links with
  | [] => ret []
  | (conds, acts) :: links =>
    do r1 <- fire_conds ctx e t conds acts;
    do r2 <- fire_links ctx e t links;
    ret (r1 ++ r2)
  end.
Definition evalActionInContext (a : action) (ctx : oid) : ME (list action) :=
  do ob <- getO ctx;
  do on <- gets (fun s => o_links_on (ostOf s ctx));
  if on then fire_links ctx (ac_evt a) (ac_tr a) (ob_links ob) else ret [].

(** The ports of the parent that point at the event's object (362-372). *)
Fixpoint fire_ports (a : action) (o : oid) (gp : oid) (ports : list eid) : ME (list action) :=
  match ports with
  | [] => ret []
  | p :: ports =>
    do pe <- getE p;
    if bool_decide (ev_obj pe = o) then
      do r1 <- evalActionInContext a gp;
      do r2 <- fire_ports a o gp ports;
      ret (r1 ++ r2)
    else fire_ports a o gp ports
  end.
(** The switchPort echo (380-398). *)
Definition fire_swport (a : action) (o : oid) (sw : oid) (name : string) (mapped : list eid)
    : ME unit :=
  foreach (fun m =>
    do me <- getE m;
    do sb <- getO sw;
    if (bool_decide (ev_obj me = o) && bool_decide (ob_parent sb <> None))%bool then
      do le <- (fix find (l : list eid) : ME eid :=
                  match l with
                  | [] => crashm (CAssert "Document.cpp:390")
                  | x :: l => do xe <- getE x;
                              if (bool_decide (ev_type xe = PRESENTATION)
                                  && String.eqb (ev_id xe) name)%bool
                              then ret x else find l
                  end) (ob_events sb);
      evalA (mkAct le (ac_tr a) (ac_pred a) (ac_value a) (ac_dur a) (ac_delay a)) ;;
      ret tt
    else ret tt) mapped.
(** The aliases' contexts (410-421). *)
Fixpoint fire_aliases (a : action) (als : list (string * option oid)) : ME (list action) :=
  match als with
  | [] => ret []
  | (_, None) :: als => fire_aliases a als
  | (_, Some c) :: als =>
    do isc <- isContext c;
    if isc then do r1 <- evalActionInContext a c;
                do r2 <- fire_aliases a als; ret (r1 ++ r2)
    else fire_aliases a als
  end.

(** What a successful action pushes on the stack: Document.cpp:342-421. *)
Definition fire_parent (a : action) (o : oid) (ob : obj) : ME (list action) :=
  match ob_parent ob with
  | None => ret []
  | Some p =>
    do pb <- getO p;
    match ob_kind pb with
    | KContext =>
      do occ <- isOccurring p;
      if occ then
        do r1 <- evalActionInContext a p;
        do r2 <- match ob_parent pb with
                 | None => ret []
                 | Some gp =>
                   do gb <- getO gp;
                   do gocc <- isOccurring gp;
                   if (bool_decide (ob_kind gb = KContext) && gocc)%bool
                   then fire_ports a o gp (ob_ports pb) else ret []
                 end;
        ret (r1 ++ r2)
      else ret []
    | KSwitch =>
      foreach (fun sp => fire_swport a o p (fst sp) (snd sp)) (ob_swports pb) ;; ret []
    | _ => ret []
    end
  end.
Definition fire_self (a : action) (o : oid) (ob : obj) : ME (list action) :=
  match ob_kind ob with
  | KContext => evalActionInContext a o
  | _ => fire_aliases a (ob_aliases ob)
  end.
Definition triggered (a : action) : ME (list action) :=
  do ev <- getE (ac_evt a);
  do ob <- getO (ev_obj ev);
  do r1 <- fire_parent a (ev_obj ev) ob;
  do r2 <- fire_self a (ev_obj ev) ob;
  ret (r1 ++ r2).

(** Pop and carry out one action: Document.cpp:324-339. *)
Definition attempt (a : action) : ME bool :=
  modify (log (OBegin a)) ;;
  do ev <- getE (ac_evt a);
  setParam (ac_evt a) "duration" (ac_dur a) ;;
  whenm (bool_decide (ev_type ev = ATTRIBUTION)) (setParam (ac_evt a) "value" (ac_value a)) ;;
  trn (ac_evt a) (ac_tr a).
End Open.

(** **** Document::evalAction, Document.cpp:307-424.  The stack is kept top first
    (C++ pushes and pops at the back); the returned number is [n]. *)
Definition loop_body (trn : eid -> trans -> ME bool) (loop : list action -> ME nat)
    (stack : list action) : ME nat :=
  match stack with
  | [] => ret O
  | a :: stack =>
    do ok <- attempt trn a;
    if ok then
      do pushed <- triggered (fun a => loop [a]) a;
      do n <- loop (rev pushed ++ stack);
      ret (S n)
    else loop stack
  end.

(** Tie the knot. *)
Fixpoint tr (n : nat) (e : eid) (t : trans) : ME bool :=
  match n with
  | O => nofuel
  | S n => tr_body (tr n) (fun a => loop n [a]) e t
  end
with loop (n : nat) (stack : list action) : ME nat :=
  match n with
  | O => nofuel
  | S n => loop_body (tr n) (loop n) stack
  end.
Definition evalAction (n : nat) (a : action) : ME nat := loop n [a].

(** ** Ticks and keys. *)
(** Object::sendTick, Object.cpp:369-402. *)
Fixpoint run_triggered (n : nat) (o : oid) (l : list action) : ME bool :=
  match l with
  | [] => ret true
  | a :: l =>
    modify (log (OTrig o a)) ;;
    evalAction n a ;;
    do b <- isOccurring o;
    if b then run_triggered n o l else ret false
  end.
Definition mark (now : N) (l : list (action * N)) : list (action * N) :=
  map (fun ax => if (snd ax <=? now)%N then (fst ax, TIME_NONE) else ax) l.
Definition due (now : N) (l : list (action * N)) : list action :=
  map fst (List.filter (fun ax => (snd ax <=? now)%N) l).
Definition purge (l : list (action * N)) : list (action * N) :=
  List.filter (fun ax => negb (snd ax =? TIME_NONE)%N) l.
Definition objTick (n : nat) (o : oid) (diff : N) : ME unit :=
  modify (log (OTick o diff)) ;;
  do occ <- isOccurring o;
  if occ then
    do t <- gets (fun s => o_time (ostOf s o));
    assertm (tvalid t) "Object.cpp:375" ;;
    let now := tadd t diff in
    modify (upd_ob o (os_set_time now)) ;;
    do l <- gets (fun s => o_delayed (ostOf s o));
    modify (upd_ob o (os_set_delayed (mark now l))) ;;
    do fin <- run_triggered n o (due now l);
    if fin then modify (upd_ob o (fun x => os_set_delayed (purge (o_delayed x)) x))
    else ret tt
  else ret tt.

(** Media::sendTick, Media.cpp:139-166. *)
Definition mediaTick (n : nat) (o : oid) (diff : N) : ME unit :=
  objTick n o diff ;;
  do s <- get;
  match o_player (ostOf s o) with
  | None => ret tt
  | Some p =>
    updPlayer o (fun p => p_set_time (tadd (p_time p) diff) p) ;;
    if (p_eos p || (tvalid (p_duration p) && (p_duration p <? o_time (ostOf s o))%N))%bool
    then do ob <- getO o;
         evalAction n (mkA (ob_lambda ob) STOP "") ;; ret tt
    else ret tt
  end.

(** Context::sendTick, Context.cpp:146-168. *)
Definition ctxTick (n : nat) (o : oid) (diff : N) : ME unit :=
  objTick n o diff ;;
  do s <- get;
  do ob <- getO o;
  let k := o_awake (ostOf s o) in
  if (bool_decide (ob_parent ob = None) && (k =? 1)%Z)%bool then
    do b <- isOccurring (d_settings D);
    if b then evalAction n (mkA (ob_lambda ob) STOP "") ;; ret tt
    else crashm (CAssert "Context.cpp:161")
  else if (k =? 0)%Z then evalAction n (mkA (ob_lambda ob) STOP "") ;; ret tt
  else ret tt.

(** MediaSettings::updateCurrentFocus, MediaSettings.cpp:88-116. *)
Definition focus_candidate (s : st) (o : oid) : option string :=
  match d_obj D !! o with
  | None => None
  | Some ob =>
    let i := propOf s o "focusIndex" in
    if (bool_decide (evState s (ob_lambda ob) = OCCURRING) && negb (is_empty i))%bool
    then Some i else None
  end.
Fixpoint focus_min (s : st) (l : list oid) (next : string) : string :=
  match l with
  | [] => next
  | o :: l => match focus_candidate s o with
              | Some i => focus_min s l (if (is_empty next || str_lt i next)%bool then i else next)
              | None => focus_min s l next
              end
  end.
(** Object::getEvent, Object.cpp:200-207. *)
Fixpoint find_event (ty : etype) (i : string) (l : list eid) : option eid :=
  match l with
  | [] => None
  | e :: l => match d_evt D !! e with
              | Some ev => if (bool_decide (ev_type ev = ty) && String.eqb (ev_id ev) i)%bool
                           then Some e else find_event ty i l
              | None => find_event ty i l
              end
  end.
Definition updateCurrentFocus (n : nat) (index : string) : ME unit :=
  do s <- get;
  let next := if is_empty index then focus_min s (d_medias D) "" else index in
  do ob <- getO (d_settings D);
  do e <- ofoption (find_event ATTRIBUTION "service.currentFocus" (ob_events ob))
                   (CAssert "MediaSettings.cpp:114");
  evalAction n (mkA e START next) ;; ret tt.
(** MediaSettings::sendTick, MediaSettings.cpp:56-65. *)
Definition settingsTick (n : nat) (o : oid) (diff : N) : ME unit :=
  do nx <- gets s_next;
  match nx with
  | Some x => updateCurrentFocus n x ;; modify (set_next None)
  | None => ret tt
  end ;;
  mediaTick n o diff.

(** Virtual Object::sendTick; Switch does not override it. *)
Definition sendTick (n : nat) (o : oid) (diff : N) : ME unit :=
  do ob <- getO o;
  match ob_kind ob with
  | KContext => ctxTick n o diff
  | KSwitch => objTick n o diff
  | KMedia => mediaTick n o diff
  | KSettings => settingsTick n o diff
  end.

(** Media::sendKey, Media.cpp:78-137.  [collect] is the loop 113-132. *)
Definition key_matches (s : st) (p : player) (key : string) (e : eid) : bool :=
  match d_evt D !! e with
  | None => false
  | Some ev =>
    match ev_type ev with
    | SELECTION =>
      let x0 := default "" (e_params (estOf s e) !! "key") in
      let x := if Ascii.eqb (char0 x0) "$" then "" else x0 in
      (is_empty x && String.eqb key "ENTER" && playerFocused s p)
      || (negb (is_empty x) && String.eqb key x)
    | _ => false
    end
  end%bool.
Definition move_target (p : player) (key : string) : string :=
  let get k := default "" (p_props p !! k) in
  if String.eqb key "CURSOR_UP" then get "moveUp"
  else if String.eqb key "CURSOR_DOWN" then get "moveDown"
  else if String.eqb key "CURSOR_LEFT" then get "moveLeft"
  else if String.eqb key "CURSOR_RIGHT" then get "moveRight"
  else "".
Definition mediaKey (n : nat) (o : oid) (key : string) (press : bool) : ME unit :=
  do sl <- isSleeping o;
  if sl then ret tt
  else
    do s <- get;
    match o_player (ostOf s o) with
    | None => ret tt
    | Some p =>
      (if (press && xstrhasprefix key "CURSOR_" && playerFocused s p)%bool then
         let nx := move_target p key in
         if is_empty nx then ret tt else scheduleFocus nx
       else ret tt) ;;
      do ob <- getO o;
      foreach (fun e => evalAction n (mkA e (if press then START else STOP) "") ;; ret tt)
              (List.filter (key_matches s p key) (ob_events ob))
    end.
(** Virtual Object::sendKey: no-op except for media (Object.cpp:364, Context.cpp:141). *)
Definition sendKey (n : nat) (o : oid) (key : string) (press : bool) : ME unit :=
  modify (log (OKey o key press)) ;;
  do ob <- getO o;
  if is_media (ob_kind ob) then mediaKey n o key press else ret tt.

End Engine.

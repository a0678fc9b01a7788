(** LtabSpec.v -- vocabulary of C47 and C48: what an NCL-ltab table says, and when a
    document is what a table describes. *)
From Verif Require Export Lua DecSpec ParserLua BuildSpec.
Open Scope string_scope.
Open Scope list_scope.

(** ** Reading tables.  The words and strings of a table are C strings ([text]). *)
Notation entry := (lkey * lval)%type.
Definition textAt (l : list entry) (n : Z) (s : string) : Prop := exists v, item l n = Some v /\ text v = Some s.
(** The entries of the table found at an index; nothing if there is nothing there. *)
Definition entriesAt (l : list entry) (n : Z) (ts : list entry) : Prop := (item l n = None /\ ts = []) \/ item l n = Some (VTab ts).
(** A value, or a default if it is missing. *)
Definition textOr (v : option lval) (d s : string) : Prop := match v with None => s = d | Some v => text v = Some s end.
Definition without (c : ascii) (s : string) : Prop := c ∉ chars s.

(** [names s i t n]: the string [s] of a port or a link is about the event of type [t] and
    id [n] of the component [i]:  i@n, i.n, i<n>. *)
Inductive names (s : string) : string -> etype -> string -> Prop :=
  | nm_presentation i n : s = (i ++ "@" ++ n)%string -> without "@" i -> ~ sameWord n "lambda" -> names s i PRESENTATION n
  | nm_lambda i n : s = (i ++ "@" ++ n)%string -> without "@" i -> sameWord n "lambda" -> names s i PRESENTATION "@lambda"
  | nm_attribution i n : s = (i ++ "." ++ n)%string -> without "@" s -> without "." i -> names s i ATTRIBUTION n
  | nm_selection i n (c : ascii) : s = (i ++ "<" ++ n ++ String c "")%string -> without "@" s -> without "." s -> without "<" i -> names s i SELECTION n
  | nm_selection' n (c : ascii) : s = (n ++ String c "")%string -> without "@" s -> without "." s -> without "<" s -> names s s SELECTION n.
(** Child [o] of composition [c] has id [i]. *)
Definition child (g : graph) (c : oid) (i : string) (o : oid) : Prop :=
  exists cb, g_obj g !! c = Some cb /\ o ∈ ob_children cb /\ withId g o i.
(** The event named by [s] in composition [c]; [None] if the component has no such event. *)
Definition eventNamed (g : graph) (c : oid) (s : string) (e : option eid) : Prop :=
  exists i t n o, names s i t n /\ child g c i o /\ match e with Some e => holds g o e t n | None => forall e, ~ holds g o e t n end.

Inductive isTransition (w : string) : trans -> Prop :=
  | tr_start : sameWord w "start" \/ sameWord w "set" -> isTransition w START
  | tr_pause : sameWord w "pause" -> isTransition w PAUSE
  | tr_resume : sameWord w "resume" -> isTransition w RESUME
  | tr_stop : sameWord w "stop" -> isTransition w STOP
  | tr_abort : sameWord w "abort" -> isTransition w ABORT.
Inductive isTest : string -> ptest -> Prop :=
  | te_eq : isTest "==" TEQ | te_ne : isTest "!=" TNE | te_lt : isTest "<" TLT | te_le : isTest "<=" TLE | te_gt : isTest ">" TGT | te_ge : isTest ">=" TGE.
(** The predicate a table stands for: {true}, {false}, {"not", p}, {"and", p, q},
    {"or", p, q}, {left, operator, right}. *)
Inductive says : lval -> npred -> Prop :=
  | sy_true l : item l 1 = Some (VBool true) -> says (VTab l) PVerum
  | sy_false l : item l 1 = Some (VBool false) -> says (VTab l) PFalsum
  | sy_not l w x p : textAt l 1 w -> sameWord w "not" -> item l 2 = Some x -> says x p -> says (VTab l) (PNeg [p])
  | sy_and l w x y p q : textAt l 1 w -> sameWord w "and" -> item l 2 = Some x -> says x p -> item l 3 = Some y -> says y q -> says (VTab l) (PAnd [q; p])
  | sy_or l w x y p q : textAt l 1 w -> sameWord w "or" -> item l 2 = Some x -> says x p -> item l 3 = Some y -> says y q -> says (VTab l) (POr [q; p])
  | sy_atom l a w b t : textAt l 1 a -> ~ sameWord a "not" -> ~ sameWord a "and" -> ~ sameWord a "or" -> textAt l 2 w -> isTest w t -> textAt l 3 b -> says (VTab l) (PAtom a t b).

(** ** Links: {{ {transition, event, [predicate]}... }, { {transition, event, [value],
    [{delay=, duration=}]}... }}.  An event that does not exist is a null pointer. *)
Definition eventAt (g : graph) (c : oid) (l : list entry) (e : eid) : Prop :=
  exists s r, textAt l 2 s /\ eventNamed g c s r /\ e = default nullEvt r.
Definition conditionAs (g : graph) (c : oid) (x : entry) (a : action) : Prop :=
  exists l w t e p, snd x = VTab l /\ textAt l 1 w /\ isTransition w t /\ eventAt g c l e /\
    match item l 3 with None => p = None | Some v => exists q, says v q /\ p = Some q end /\ a = mkAct e t p "" "" "".
Definition actionAs (g : graph) (c : oid) (x : entry) (a : action) : Prop :=
  exists l w t e value dur delay, snd x = VTab l /\ textAt l 1 w /\ isTransition w t /\ eventAt g c l e /\ textOr (item l 3) "" value /\
    match item l 4 with None => dur = "" /\ delay = "" | Some v => exists ps, v = VTab ps /\ textOr (field ps "duration") "" dur /\ textOr (field ps "delay") "" delay end /\
    a = mkAct e t None value dur delay.
Definition linkAs (g : graph) (c : oid) (x : entry) (k : list action * list action) : Prop :=
  exists l cs acts, snd x = VTab l /\ item l 1 = Some (VTab cs) /\ item l 2 = Some (VTab acts) /\
    Forall2 (conditionAs g c) cs (fst k) /\ Forall2 (actionAs g c) acts (snd k).
(** Ports: each names an event that exists; repetitions are dropped. *)
Definition portAs (g : graph) (c : oid) (x : entry) (e : eid) : Prop := exists s, text (snd x) = Some s /\ eventNamed g c s (Some e).
Fixpoint noRepeat (seen l : list eid) : list eid :=
  match l with [] => [] | e :: r => if decide (e ∈ seen) then noRepeat seen r else e :: noRepeat (e :: seen) r end.
Definition contextAs (g : graph) (c : oid) (l : list entry) (ports : list eid) (links : list (list action * list action)) : Prop :=
  exists pts es lts, entriesAt l 4 pts /\ Forall2 (portAs g c) pts es /\ ports = noRepeat [] es /\
    entriesAt l 6 lts /\ Forall2 (linkAs g c) lts links.
(** Rules of a switch: {component, predicate}. *)
Definition ruleAs (g : graph) (c : oid) (x : entry) (r : oid * npred) : Prop :=
  exists l i v, snd x = VTab l /\ textAt l 1 i /\ child g c i (fst r) /\ item l 2 = Some v /\ says v (snd r).

(** ** The contents of a media: properties and areas. *)
(** "src" becomes "uri"; the value of transIn and transOut is a table. *)
Definition isTrans (n : string) : Prop := sameWord n "transIn" \/ sameWord n "transOut".
Definition transText (l : list entry) (s : string) : Prop :=
  exists ty sub dur sp ep dir fade hr vr bw bc, (exists v, field l "type" = Some v /\ text v = Some ty) /\
    textOr (field l "subtype") "" sub /\ textOr (field l "dur") "0" dur /\ textOr (field l "startProgress") "0" sp /\ textOr (field l "endProgress") "0" ep /\
    textOr (field l "direction") "forward" dir /\ textOr (field l "fadeColor") "" fade /\ textOr (field l "horzRepeat") "0" hr /\ textOr (field l "vertRepeat") "0" vr /\
    textOr (field l "borderWidth") "0" bw /\ textOr (field l "borderColor") "" bc /\
    s = String.concat "" ["{type='"; ty; "',subtype='"; sub; "',dur='"; dur; "',startProgress='"; sp; "',endProgress='"; ep; "',direction='"; dir;
      "',fadeColor='"; fade; "',horzRepeat='"; hr; "',vertRepeat='"; vr; "',borderWidth='"; bw; "',borderColor='"; bc; "',}"].
(** Paths relative to the script are resolved. *)
Definition uriOf (E : lenv) (s u : string) : Prop :=
  ((s = "" \/ le_isuri E s = true \/ le_isabs E s = true) /\ u = s) \/
  (s <> "" /\ le_isuri E s = false /\ le_isabs E s = false /\ u = le_fromsrc E s (le_dirname E (le_path E))).
Definition propertyAs (E : lenv) (x : entry) (p : string * string) : Prop :=
  exists k, fst x = KStr k /\
   ((sameWord (cstr k) "src" /\ fst p = "uri" /\ exists s, text (snd x) = Some s /\ uriOf E s (snd p)) \/
    (isTrans (cstr k) /\ fst p = cstr k /\ exists l, snd x = VTab l /\ transText l (snd p)) \/
    (~ sameWord (cstr k) "src" /\ ~ isTrans (cstr k) /\ fst p = cstr k /\ text (snd x) = Some (snd p))).
Definition timeAs (v : option lval) (d t : N) : Prop :=
  match v ≫= text with None => t = d | Some s => try_parse_time s = TOk t end.
Definition areaAs (x : entry) (a : string * (N * N)) : Prop :=
  exists l, snd x = VTab l /\ textAt l 1 (fst a) /\ timeAs (item l 2) 0%N (fst (snd a)) /\ timeAs (item l 3) TIME_NONE (snd (snd a)).

(** Of several properties with one name the last counts, of several areas the first. *)
Definition lastFor {A} (l : list (string * A)) (n : string) (v : A) : Prop := exists l1 l2, l = l1 ++ (n, v) :: l2 /\ n ∉ map fst l2.
Definition firstFor {A} (l : list (string * A)) (n : string) (v : A) : Prop := exists l1 l2, l = l1 ++ (n, v) :: l2 /\ n ∉ map fst l1.
(** The events of an object: the whole content, one for each property, one for each area. *)
Inductive eventAs (o : oid) (ps : list (string * string)) (areas : list (string * (N * N))) : evt -> Prop :=
  | ea_lambda : eventAs o ps areas (mkEvt PRESENTATION o "@lambda" 0 TIME_NONE "")
  | ea_property n v : (n, v) ∈ ps -> eventAs o ps areas (mkEvt ATTRIBUTION o n 0 TIME_NONE "")
  | ea_area i b e : i <> "@lambda" -> firstFor areas i (b, e) -> eventAs o ps areas (mkEvt PRESENTATION o i b e "").
Definition contents (g : graph) (o : oid) (ps : list (string * string)) (areas : list (string * (N * N))) : Prop :=
  (forall n v, (g_props g !!! o) !! n = Some v <-> lastFor ps n v) /\
  (forall d, (exists e, g_evt g !! e = Some d /\ ev_obj d = o) <-> eventAs o ps areas d).

(** ** Objects.  [depicts g p o v all]: the table [v] describes object [o], child of [p];
    [all] are [o] and the objects below it. *)
Definition tagged (l : list entry) (tag i : string) : Prop := textAt l 1 tag /\ textAt l 2 i.
Inductive depicts (E : lenv) (g : graph) : oid -> oid -> lval -> list oid -> Prop :=
  | d_media p o l i pts ps ats areas lambda evts : tagged l "media" i ->
      g_obj g !! o = Some (mkObj KMedia i (Some p) [] lambda evts [] [] [] [] []) ->
      entriesAt l 3 pts -> Forall2 (propertyAs E) pts ps -> entriesAt l 4 ats -> Forall2 areaAs ats areas -> contents g o ps areas ->
      depicts E g p o (VTab l) [o]
  | d_context p o l i ts os all children ports links lambda evts : tagged l "context" i ->
      g_obj g !! o = Some (mkObj KContext i (Some p) [] lambda evts children ports links [] []) -> contents g o [] [] ->
      entriesAt l 5 ts -> depictsAll E g o os ts all -> children ≡ₚ os -> contextAs g o l ports links ->
      depicts E g p o (VTab l) (o :: all)
  | d_switch p o l i ts os all children rts rules lambda evts : tagged l "switch" i ->
      g_obj g !! o = Some (mkObj KSwitch i (Some p) [] lambda evts children [] [] rules []) -> contents g o [] [] ->
      entriesAt l 3 ts -> depictsAll E g o os ts all -> children ≡ₚ os -> entriesAt l 4 rts -> Forall2 (ruleAs g o) rts rules ->
      depicts E g p o (VTab l) (o :: all)
with depictsAll (E : lenv) (g : graph) : oid -> list oid -> list entry -> list oid -> Prop :=
  | da_nil p : depictsAll E g p [] [] []
  | da_cons p o k v a os ts all : depicts E g p o v a -> depictsAll E g p os ts all -> depictsAll E g p (o :: os) ((k, v) :: ts) (a ++ all).

(** The settings object as every document has it at first. *)
Definition freshSettings (g : graph) (s r : oid) : Prop :=
  (exists lambda evts, g_obj g !! s = Some (mkObj KSettings "__settings__" (Some r) [] lambda evts [] [] [] [] [])) /\
  (forall n v, (g_props g !!! s) !! n = Some v <-> n = "type" /\ v = "application/x-ginga-settings") /\
  (forall d, (exists e, g_evt g !! e = Some d /\ ev_obj d = s) <->
     d = mkEvt PRESENTATION s "@lambda" 0 TIME_NONE "" \/ d = mkEvt ATTRIBUTION s "service.currentFocus" 0 TIME_NONE "").
(** The whole document: its root is the outermost context, known by the id written there;
    it also has the settings object, as created; there is nothing else. *)
Definition depictsDoc (E : lenv) (g : graph) (v : lval) : Prop :=
  exists r s l i ts os all children ports links lambda evts,
    g_root g = Some r /\ g_settings g = Some s /\ v = VTab l /\ tagged l "context" i /\
    g_obj g !! r = Some (mkObj KContext "__root__" None [(i, None)] lambda evts children ports links [] []) /\ contents g r [] [] /\
    freshSettings g s r /\
    entriesAt l 5 ts /\ depictsAll E g r os ts all /\ children ≡ₚ s :: os /\ contextAs g r l ports links /\
    g_objs g ≡ₚ r :: s :: all.
(** No link names an event that does not exist. *)
Definition noNull (g : graph) : Prop :=
  forall o ob cs acts a, inDocument g o -> g_obj g !! o = Some ob -> (cs, acts) ∈ ob_links ob -> a ∈ cs \/ a ∈ acts -> ac_evt a <> nullEvt.

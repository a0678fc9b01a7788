(** StartSpec.v -- what starting a media should do (C28, C30, C35), in words of the
    document and of the observable state. *)
From Verif Require Export PlayerSpec Engine.
Open Scope string_scope.
Open Scope list_scope.

(** A non-negative screen size that fits an int. *)
Definition screen (s : st) : Prop := (0 <= s_w s <= 2147483647)%Z /\ (0 <= s_h s <= 2147483647)%Z.
(** The properties of an object, as a table. *)
Definition tableOf (s : st) (o : oid) : table := fun k => o_props (ostOf s o) !! k.

(** The mime type in force: the type given, else the one of the extension of the
    URI (what follows its last dot, in lower case), else that of a timer. *)
Definition knownTypes : list (string * string) :=
  [ ("ac3", "audio/ac3"); ("avi", "video/x-msvideo"); ("avif", "image/avif");
    ("bmp", "image/bmp"); ("bpg", "image/x-bpg"); ("class", "application/x-ginga-NCLet");
    ("css", "text/css"); ("gif", "image/gif"); ("heic", "image/heic"); ("heif", "image/heic");
    ("htm", "text/html"); ("html", "text/html"); ("jpeg", "image/jpeg"); ("jpg", "image/jpeg");
    ("lua", "application/x-ginga-NCLua"); ("mov", "video/quicktime"); ("mp2", "audio/mp2");
    ("mp3", "audio/mp3"); ("mp4", "video/mp4"); ("mpa", "audio/mpa"); ("mpeg", "video/mpeg");
    ("mpg", "video/mpeg"); ("mpv", "video/mpv"); ("ncl", "application/x-ginga-ncl");
    ("ncl360", "application/x-ncl360"); ("oga", "audio/ogg"); ("ogg", "audio/ogg");
    ("ogv", "video/ogg"); ("opus", "audio/ogg"); ("png", "image/png");
    ("smil", "application/smil"); ("spx", "audio/ogg"); ("srt", "text/srt");
    ("ssml", "application/ssml+xml"); ("svg", "image/svg+xml"); ("svgz", "image/svg+xml");
    ("ts", "video/mpeg"); ("txt", "text/plain"); ("wav", "audio/basic");
    ("webp", "image/x-webp"); ("wmv", "video/x-ms-wmv"); ("xlet", "application/x-ginga-NCLet");
    ("xlt", "application/x-ginga-NCLet"); ("xml", "text/xml") ].
Definition extension (uri e : string) : Prop :=
  e <> "" /\ ~ In "."%char (list_ascii_of_string e) /\ exists base, uri = (base ++ "." ++ e)%string.
Definition knownMime (uri m : string) : Prop := exists e, extension uri e /\ In (e, m) knownTypes.
Inductive mimeOf (type uri : string) : string -> Prop :=
  | mime_given : type <> "" -> mimeOf type uri type
  | mime_known m : type = "" -> knownMime uri m -> mimeOf type uri m
  | mime_timer : type = "" -> ~ (exists m, knownMime uri m) -> mimeOf type uri "application/x-ginga-timer".
(** A remote player is asked for by a device, or by an NCL 360 content. *)
Definition remoteAsked (type uri device : string) : Prop :=
  device <> "" \/ mimeOf type uri "application/x-ncl360".
Definition begins (p s : string) : Prop := exists t, s = (p ++ t)%string.
(** The kinds that are looked for first. *)
Definition plainKind (mime : string) (c : pclass) : Prop :=
  match c with
  | PVideo => begins "audio" mime \/ begins "video" mime
  | PSigGen => mime = "application/x-ginga-siggen"
  | PImage => begins "image" mime
  | PText => mime = "text/plain"
  | _ => False
  end.
(** [suits ... c]: a player of class [c] suits the mime type. *)
Definition suits (cef : bool) (remote : Prop) (uri mime : string) (c : pclass) : Prop :=
  match c with
  | PVideo | PSigGen | PImage | PText => plainKind mime c
  | PRemote => remote /\ ~ (exists k, plainKind mime k) /\ mime <> "application/x-ginga-ncl"
  | PHTML => cef = true /\ ~ remote /\ begins "text/html" mime
  | PLua => ~ remote /\ mime = "application/x-ginga-NCLua"
  | PBase => ~ remote /\ (mime = "application/x-ginga-timer" \/
               uri = "" /\ ~ (exists k, plainKind mime k) /\ ~ (cef = true /\ begins "text/html" mime) /\
               mime <> "application/x-ginga-NCLua" /\ mime <> "application/x-ginga-ncl")
  | PSvg => False
  end.

(** ** Starting a media. *)
(** The anchors that follow the media's clock: presentation events other than the
    whole content, delimited by times rather than by a label. *)
Definition timed (ev : evt) : bool :=
  match ev_type ev with
  | PRESENTATION => negb (String.eqb (ev_id ev) "@lambda") && String.eqb (ev_label ev) ""
  | _ => false
  end.
Fixpoint anchorSchedule (D : doc) (l : list eid) : list (action * N) :=
  match l with
  | [] => []
  | e :: l =>
    match d_evt D !! e with
    | Some ev => if timed ev then [(mkAct e START None "" "" "", ev_begin ev); (mkAct e STOP None "" "" "", ev_end ev)] else []
    | None => []
    end ++ anchorSchedule D l
  end.
(** Times fit their 64-bit representation. *)
Definition timesFit (D : doc) : Prop := forall e ev, d_evt D !! e = Some ev -> (ev_begin ev <= TIME_NONE)%N /\ (ev_end ev <= TIME_NONE)%N.
(** The enclosing context, if it sleeps, is started too, and so on upwards. *)
Definition sleepsAbove (D : doc) (s : st) (o p : oid) : Prop :=
  exists ob pb, d_obj D !! o = Some ob /\ ob_parent ob = Some p /\ d_obj D !! p = Some pb /\
    ob_kind pb = KContext /\ evState s (ob_lambda pb) = SLEEPING.
Inductive wakes (D : doc) (s : st) : oid -> oid -> Prop :=
  | wakes_one o p : sleepsAbove D s o p -> wakes D s o p
  | wakes_more o p q : sleepsAbove D s o p -> wakes D s p q -> wakes D s o q.
(** [e] is not the whole content of a context so awoken. *)
Definition notAwoken (D : doc) (s : st) (o : oid) (e : eid) : Prop :=
  forall p pb, wakes D s o p -> d_obj D !! p = Some pb -> e <> ob_lambda pb.
(** The table the new player is given: the media's own, with "uri" entered even if it
    is empty, and the mime type in force for "type". *)
Definition givenTable (T : table) (mime : string) : table := fun j =>
  if String.eqb j "type" then Some mime
  else if String.eqb j "uri" then Some (default "" (T "uri")) else T j.

(** A player that has just begun. *)
Definition begun (p : player) : Prop := p_state p = POccurring /\ p_time p = 0%N /\ p_eos p = false.
(** One of the objects started can have the focus. *)
Definition focusable (D : doc) (s s' : st) (o : oid) : Prop :=
  propOf s' o "focusIndex" <> "" \/ exists p, wakes D s o p /\ propOf s p "focusIndex" <> "".
(** [started D s s' o ob]: what the START of the whole content of any media or
    context [o] does, when it was asleep.  Its content occurs and its clock is at
    zero; so do and are the contexts around it that were asleep; nothing else moves;
    and the focus is looked for again if an object started can have it. *)
Record started (D : doc) (s s' : st) (o : oid) (ob : obj) : Prop := mkStarted {
  st_occurs : evState s' (ob_lambda ob) = OCCURRING;
  st_clock : o_time (ostOf s' o) = 0%N;
  st_above : forall p pb, wakes D s o p -> d_obj D !! p = Some pb -> evState s' (ob_lambda pb) = OCCURRING /\ o_time (ostOf s' p) = 0%N;
  st_events : forall e, e <> ob_lambda ob -> notAwoken D s o e -> evState s' e = evState s e;
  st_clocks : forall o', o' <> o -> ~ wakes D s o o' -> o_time (ostOf s' o') = o_time (ostOf s o');
  st_elsewhere : forall o', o' <> o -> o_props (ostOf s' o') = o_props (ostOf s o') /\
    o_player (ostOf s' o') = o_player (ostOf s o') /\ o_delayed (ostOf s' o') = o_delayed (ostOf s o');
  st_focus : (focusable D s s' o -> s_next s' = Some "") /\ (~ focusable D s s' o -> s_next s' = s_next s)
}.
(** A media: a begin and an end are scheduled for each of its timed anchors, at their
    own instants; a player exists, of a class that suits the mime type, given every
    property the media has, and showing them. *)
Record mediaStarted (D : doc) (s s' : st) (o : oid) (ob : obj) : Prop := mkMS {
  ms_started : started D s s' o ob;
  ms_sched : o_delayed (ostOf s' o) = o_delayed (ostOf s o) ++ anchorSchedule D (ob_events ob);
  ms_player : exists p mime,
    o_player (ostOf s' o) = Some p /\ begun p /\
    mimeOf (propOf s o "type") (propOf s o "uri") mime /\
    suits (x_cef (d_ext D)) (remoteAsked (propOf s o "type") (propOf s o "uri") (propOf s o "device"))
          (propOf s o "uri") mime (p_class p) /\
    (forall k, tableOf s' o k = spreadTable (givenTable (tableOf s o) mime) k) /\
    agrees (d_ext D) (s_w s) (s_h s) (tableOf s' o) (attrs_of p)
}.
(** A context: unless it has been started from one of its components before, the
    start of each of its ports on a presentation is scheduled without delay. *)
Fixpoint portSchedule (D : doc) (l : list eid) : list (action * N) :=
  match l with
  | [] => []
  | e :: l =>
    match d_evt D !! e with
    | Some ev => match ev_type ev with PRESENTATION => [(mkAct e START None "" "" "", 0%N)] | _ => [] end
    | None => []
    end ++ portSchedule D l
  end.
Definition startedFromWithin (s : st) (ob : obj) : Prop := default "" (e_params (estOf s (ob_lambda ob)) !! "fromport") <> "".
Record contextStarted (D : doc) (s s' : st) (o : oid) (ob : obj) : Prop := mkCS {
  cs_started : started D s s' o ob;
  cs_ports : ~ startedFromWithin s ob -> o_delayed (ostOf s' o) = o_delayed (ostOf s o) ++ portSchedule D (ob_ports ob);
  cs_within : startedFromWithin s ob -> o_delayed (ostOf s' o) = o_delayed (ostOf s o);
  cs_props : o_props (ostOf s' o) = o_props (ostOf s o)
}.

(** Player.v -- the base media player (lib/Player.cpp, lib/Player.h):
    property table, mime table, property setting, choice of player class.

    Not modelled: subclasses of Player (PlayerImage, PlayerVideo, ...) beyond the
    class tag and PlayerLua's aborting pause/resume, colours (only whether a
    colour string is accepted), drawing surfaces, transitions (transIn/transOut)
    and the animator (modelled separately in Animator.v). *)
From Verif Require Export Num.
Open Scope string_scope.

(** ** Behaviour of code outside the repository, arbitrary in all theorems. *)
Record ext : Type := mkExt {
  x_color : string -> bool;   (* gdk_rgba_parse accepts the string (aux-ginga.cpp:107) *)
  x_cef   : bool;             (* WITH_CEF: HTML player compiled in (Player.cpp:594) *)
  x_odd   : string -> Z       (* lround of a non-decimal literal (parse_percent, Num.v) *)
}.

(** ** Tables. *)
(** Player.h, enum Player::Property; codes without effect in the base class are
    all handled by the default branch of doSetProperty (Player.cpp:801-804). *)
Inductive pcode : Type :=
  | PROP_DEBUG | PROP_BOUNDS | PROP_FOCUS_INDEX | PROP_FOCUS_BORDER_COLOR
  | PROP_FOCUS_BORDER_WIDTH | PROP_FOCUS_BORDER_TRANSPARENCY | PROP_SEL_BORDER_COLOR
  | PROP_LOCATION | PROP_SIZE | PROP_LEFT | PROP_RIGHT | PROP_TOP | PROP_BOTTOM
  | PROP_WIDTH | PROP_HEIGHT | PROP_Z_INDEX | PROP_Z_ORDER | PROP_TRANSPARENCY
  | PROP_BACKGROUND | PROP_VISIBLE | PROP_DURATION | PROP_URI | PROP_TYPE
  | PROP_BALANCE | PROP_BASS | PROP_FONT_BG_COLOR | PROP_FONT_COLOR | PROP_FONT_FAMILY
  | PROP_FONT_SIZE | PROP_FONT_STYLE | PROP_FONT_VARIANT | PROP_FONT_WEIGHT
  | PROP_FREEZE | PROP_FREQ | PROP_REMOTE_PLAYER_BASE_URL | PROP_HORZ_ALIGN
  | PROP_MUTE | PROP_SPEED | PROP_TIME | PROP_TREBLE | PROP_VERT_ALIGN
  | PROP_VOLUME | PROP_WAVE | PROP_UNKNOWN.

(** player_property_map, Player.cpp:106-152: name, (code, init, default).
    std::map iterates in ascending key order; the list is in that order
    (byte-wise: uppercase before lowercase). *)
Definition player_property_map : list (string * (pcode * bool * string)) :=
  [ ("background", (PROP_BACKGROUND, true, ""));
    ("balance", (PROP_BALANCE, false, "0.0"));
    ("bass", (PROP_BASS, false, "0"));
    ("bottom", (PROP_BOTTOM, false, "0%"));
    ("bounds", (PROP_BOUNDS, false, "0%,0%,100%,100%"));
    ("currentTime", (PROP_TIME, false, "indefinite"));
    ("debug", (PROP_DEBUG, true, "false"));
    ("duration", (PROP_DURATION, true, "indefinite"));
    ("focusBorderColor", (PROP_FOCUS_BORDER_COLOR, true, "yellow"));
    ("focusBorderTransparency", (PROP_FOCUS_BORDER_TRANSPARENCY, true, "0%"));
    ("focusBorderWidth", (PROP_FOCUS_BORDER_WIDTH, true, "4"));
    ("focusIndex", (PROP_FOCUS_INDEX, true, ""));
    ("fontBgColor", (PROP_FONT_BG_COLOR, true, ""));
    ("fontColor", (PROP_FONT_COLOR, true, "black"));
    ("fontFamily", (PROP_FONT_FAMILY, true, "sans"));
    ("fontSize", (PROP_FONT_SIZE, true, "12"));
    ("fontStyle", (PROP_FONT_STYLE, true, ""));
    ("fontVariant", (PROP_FONT_VARIANT, true, ""));
    ("fontWeight", (PROP_FONT_WEIGHT, true, ""));
    ("freeze", (PROP_FREEZE, true, "false"));
    ("freq", (PROP_FREQ, true, "440"));
    ("height", (PROP_HEIGHT, true, "100%"));
    ("horzAlign", (PROP_HORZ_ALIGN, true, "left"));
    ("left", (PROP_LEFT, true, "0"));
    ("location", (PROP_LOCATION, false, "0,0"));
    ("mute", (PROP_MUTE, false, "false"));
    ("remotePlayerBaseURL", (PROP_REMOTE_PLAYER_BASE_URL, false, ""));
    ("right", (PROP_RIGHT, false, "0%"));
    ("selBorderColor", (PROP_SEL_BORDER_COLOR, true, "yellow"));
    ("size", (PROP_SIZE, false, "100%,100%"));
    ("speed", (PROP_SPEED, false, "1"));
    ("time", (PROP_TIME, false, "indefinite"));
    ("top", (PROP_TOP, true, "0"));
    ("transparency", (PROP_TRANSPARENCY, true, "0%"));
    ("treble", (PROP_TREBLE, false, "0"));
    ("type", (PROP_TYPE, true, "application/x-ginga-timer"));
    ("uri", (PROP_URI, true, ""));
    ("vertAlign", (PROP_VERT_ALIGN, true, "top"));
    ("visible", (PROP_VISIBLE, true, "true"));
    ("volume", (PROP_VOLUME, false, "100%"));
    ("wave", (PROP_WAVE, true, "sine"));
    ("width", (PROP_WIDTH, true, "100%"));
    ("zIndex", (PROP_Z_INDEX, true, "0"));
    ("zOrder", (PROP_Z_ORDER, true, "0")) ].

(** player_property_aliases, Player.cpp:154-162. *)
Definition player_property_aliases : list (string * string) :=
  [ ("backgroundColor", "background"); ("balanceLevel", "balance");
    ("bassLevel", "bass"); ("explicitDur", "duration"); ("rate", "speed");
    ("soundLevel", "volume"); ("trebleLevel", "treble") ].

(** mime_table, Player.cpp:41-86; REMOTE_PLAYER_MIME_NCL360 (PlayerRemote.h:57). *)
Definition MIME_NCL360 : string := "application/x-ncl360".
Definition mime_table : list (string * string) :=
  [ ("ac3", "audio/ac3"); ("avi", "video/x-msvideo"); ("avif", "image/avif");
    ("bmp", "image/bmp"); ("bpg", "image/x-bpg"); ("class", "application/x-ginga-NCLet");
    ("css", "text/css"); ("gif", "image/gif"); ("htm", "text/html");
    ("html", "text/html"); ("heic", "image/heic"); ("heif", "image/heic");
    ("jpeg", "image/jpeg"); ("jpg", "image/jpeg"); ("lua", "application/x-ginga-NCLua");
    ("mov", "video/quicktime"); ("mp2", "audio/mp2"); ("mp3", "audio/mp3");
    ("mp4", "video/mp4"); ("mpa", "audio/mpa"); ("mpeg", "video/mpeg");
    ("mpg", "video/mpeg"); ("mpv", "video/mpv"); ("ncl360", MIME_NCL360);
    ("ncl", "application/x-ginga-ncl"); ("oga", "audio/ogg"); ("ogg", "audio/ogg");
    ("ogv", "video/ogg"); ("opus", "audio/ogg"); ("png", "image/png");
    ("smil", "application/smil"); ("spx", "audio/ogg"); ("srt", "text/srt");
    ("ssml", "application/ssml+xml"); ("svg", "image/svg+xml"); ("svgz", "image/svg+xml");
    ("ts", "video/mpeg"); ("txt", "text/plain"); ("wav", "audio/basic");
    ("webp", "image/x-webp"); ("wmv", "video/x-ms-wmv"); ("xlet", "application/x-ginga-NCLet");
    ("xlt", "application/x-ginga-NCLet"); ("xml", "text/xml") ].

Fixpoint assoc {A} (k : string) (l : list (string * A)) : option A :=
  match l with
  | [] => None
  | (k', v) :: l' => if String.eqb k k' then Some v else assoc k l'
  end.

(** Player::getPlayerProperty, Player.cpp:505-528: code and default value.  The
    assertion on line 523 cannot fail (every alias target is in the map). *)
Definition getPlayerProperty (name : string) : pcode * string :=
  match assoc name player_property_map with
  | Some (c, _, d) => (c, d)
  | None =>
    match assoc name player_property_aliases with
    | None => (PROP_UNKNOWN, "")
    | Some name' => match assoc name' player_property_map with
                    | Some (c, _, d) => (c, d)
                    | None => (PROP_UNKNOWN, "")
                    end
    end
  end.

(** ** Player state. *)
Inductive pclass : Type := PBase | PVideo | PSigGen | PImage | PText | PRemote | PHTML | PSvg | PLua.
Inductive pstate : Type := PSleeping | POccurring | PPaused.     (* Player.h State *)

(** _prop and friends, Player.h.  Colours are not represented. *)
Record player : Type := mkPlayer {
  p_class : pclass;
  p_state : pstate;
  p_time : N;
  p_eos : bool;
  p_props : gmap string string;       (* _properties *)
  p_debug : bool;
  p_focusIndex : string;
  p_focusBorderWidth : Z;
  p_focusBorderTransparency : Z;
  p_x : Z; p_y : Z; p_w : Z; p_h : Z; (* _prop.rect *)
  p_zindex : Z; p_zorder : Z;
  p_alpha : Z;
  p_visible : bool;
  p_duration : N;
  p_uri : string; p_type : string
}.

(** The visible drawing/timing attributes only (everything a property can set). *)
Record pattrs : Type := mkPattrs {
  a_debug : bool; a_focusIndex : string; a_fbw : Z; a_fbt : Z;
  a_x : Z; a_y : Z; a_w : Z; a_h : Z; a_zi : Z; a_zo : Z; a_alpha : Z;
  a_visible : bool; a_duration : N; a_uri : string; a_type : string }.
Definition attrs_of (p : player) : pattrs :=
  mkPattrs (p_debug p) (p_focusIndex p) (p_focusBorderWidth p) (p_focusBorderTransparency p)
    (p_x p) (p_y p) (p_w p) (p_h p) (p_zindex p) (p_zorder p) (p_alpha p)
    (p_visible p) (p_duration p) (p_uri p) (p_type p).
Definition with_attrs (p : player) (a : pattrs) : player :=
  mkPlayer (p_class p) (p_state p) (p_time p) (p_eos p) (p_props p)
    (a_debug a) (a_focusIndex a) (a_fbw a) (a_fbt a) (a_x a) (a_y a) (a_w a) (a_h a)
    (a_zi a) (a_zo a) (a_alpha a) (a_visible a) (a_duration a) (a_uri a) (a_type a).
Definition p_set_state (x : pstate) (p : player) : player :=
  mkPlayer (p_class p) x (p_time p) (p_eos p) (p_props p) (p_debug p) (p_focusIndex p)
    (p_focusBorderWidth p) (p_focusBorderTransparency p) (p_x p) (p_y p) (p_w p) (p_h p)
    (p_zindex p) (p_zorder p) (p_alpha p) (p_visible p) (p_duration p) (p_uri p) (p_type p).
Definition p_set_time (x : N) (p : player) : player :=
  mkPlayer (p_class p) (p_state p) x (p_eos p) (p_props p) (p_debug p) (p_focusIndex p)
    (p_focusBorderWidth p) (p_focusBorderTransparency p) (p_x p) (p_y p) (p_w p) (p_h p)
    (p_zindex p) (p_zorder p) (p_alpha p) (p_visible p) (p_duration p) (p_uri p) (p_type p).
Definition p_set_eos (x : bool) (p : player) : player :=
  mkPlayer (p_class p) (p_state p) (p_time p) x (p_props p) (p_debug p) (p_focusIndex p)
    (p_focusBorderWidth p) (p_focusBorderTransparency p) (p_x p) (p_y p) (p_w p) (p_h p)
    (p_zindex p) (p_zorder p) (p_alpha p) (p_visible p) (p_duration p) (p_uri p) (p_type p).
Definition p_set_props (x : gmap string string) (p : player) : player :=
  mkPlayer (p_class p) (p_state p) (p_time p) (p_eos p) x (p_debug p) (p_focusIndex p)
    (p_focusBorderWidth p) (p_focusBorderTransparency p) (p_x p) (p_y p) (p_w p) (p_h p)
    (p_zindex p) (p_zorder p) (p_alpha p) (p_visible p) (p_duration p) (p_uri p) (p_type p).

(** ** doSetProperty, Player.cpp:628-807, effect on the player's own fields.
    [None] means the value is refused or an assertion fires:
    [inl] = returns false, [inr c] = crash. *)
Inductive dres : Type := DOk (a : pattrs) | DRefused | DCrash (c : crash).

Definition G_MAXINT : Z := 2147483647.
Definition with_percent (z : Z) (f : Z -> pattrs) : dres := DOk (f z).
Definition with_color (x : ext) (s : string) (a : pattrs) : dres :=
  if (is_empty s || x_color x s)%bool then DOk a
  else DCrash (CError "aux-ginga.cpp:242 parse_color").

Definition doset_own (x : ext) (W H : Z) (code : pcode) (v : string) (a : pattrs) : dres :=
  let 'mkPattrs de fi fw ft px py pw ph zi zo al vi du ur ty := a in
  match code with
  | PROP_DEBUG =>                                                     (* 634-638 *)
    match try_parse_bool v with
    | Some b => DOk (mkPattrs b fi fw ft px py pw ph zi zo al vi du ur ty)
    | None => DCrash (CError "aux-ginga.cpp:241 parse_bool") end
  | PROP_BOUNDS => match try_parse_list v "," 4 4 with Some _ => DOk a | None => DRefused end
  | PROP_LOCATION => match try_parse_list v "," 2 2 with Some _ => DOk a | None => DRefused end
  | PROP_SIZE => match try_parse_list v "," 2 2 with Some _ => DOk a | None => DRefused end
  | PROP_FOCUS_INDEX => DOk (mkPattrs de v fw ft px py pw ph zi zo al vi du ur ty)
  | PROP_FOCUS_BORDER_COLOR => with_color x v a                       (* 657-661 *)
  | PROP_FOCUS_BORDER_WIDTH =>                                        (* 662-666 *)
    match xstrtoint v with
    | Some z => DOk (mkPattrs de fi z ft px py pw ph zi zo al vi du ur ty)
    | None => DCrash (CAssert "aux-ginga.cpp:384") end
  | PROP_FOCUS_BORDER_TRANSPARENCY =>                                 (* 667-671 *)
    with_percent (parse_pixel (x_odd x) v) (fun z => mkPattrs de fi fw (clamp (255 - z) 0 255)
                                    px py pw ph zi zo al vi du ur ty)
  | PROP_SEL_BORDER_COLOR => with_color x v a                         (* 672-676 *)
  | PROP_LEFT =>                                                      (* 699-705 *)
    with_percent (parse_percent (x_odd x) v W 0 G_MAXINT)
      (fun z => mkPattrs de fi fw ft z py pw ph zi zo al vi du ur ty)
  | PROP_RIGHT =>                                                     (* 706-713 *)
    with_percent (parse_percent (x_odd x) v W 0 G_MAXINT)
      (fun z => mkPattrs de fi fw ft (W - pw - z) py pw ph zi zo al vi du ur ty)
  | PROP_TOP =>                                                       (* 714-720 *)
    with_percent (parse_percent (x_odd x) v H 0 G_MAXINT)
      (fun z => mkPattrs de fi fw ft px z pw ph zi zo al vi du ur ty)
  | PROP_BOTTOM =>                                                    (* 721-729 *)
    with_percent (parse_percent (x_odd x) v ph 0 G_MAXINT)
      (fun z => mkPattrs de fi fw ft px (H - ph - z) pw ph zi zo al vi du ur ty)
  | PROP_WIDTH =>                                                     (* 730-734 *)
    with_percent (parse_percent (x_odd x) v W 0 G_MAXINT)
      (fun z => mkPattrs de fi fw ft px py z ph zi zo al vi du ur ty)
  | PROP_HEIGHT =>                                                    (* 741-746 *)
    with_percent (parse_percent (x_odd x) v H 0 G_MAXINT)
      (fun z => mkPattrs de fi fw ft px py pw z zi zo al vi du ur ty)
  | PROP_Z_INDEX =>                                                   (* 754-758 *)
    match xstrtoint v with
    | Some z => DOk (mkPattrs de fi fw ft px py pw ph z zo al vi du ur ty)
    | None => DCrash (CAssert "aux-ginga.cpp:384") end
  | PROP_Z_ORDER =>                                                   (* 759-763 *)
    match xstrtoint v with
    | Some z => DOk (mkPattrs de fi fw ft px py pw ph zi z al vi du ur ty)
    | None => DCrash (CAssert "aux-ginga.cpp:384") end
  | PROP_TRANSPARENCY =>                                              (* 764-769 *)
    with_percent (parse_pixel (x_odd x) v) (fun z => mkPattrs de fi fw ft px py pw ph zi zo
                                    (clamp (255 - z) 0 255) vi du ur ty)
  | PROP_BACKGROUND => with_color x v a                               (* 770-777 *)
  | PROP_VISIBLE =>                                                   (* 778-782 *)
    match try_parse_bool v with
    | Some b => DOk (mkPattrs de fi fw ft px py pw ph zi zo al b du ur ty)
    | None => DCrash (CError "aux-ginga.cpp:241 parse_bool") end
  | PROP_DURATION =>                                                  (* 783-790 *)
    if String.eqb v "indefinite"
    then DOk (mkPattrs de fi fw ft px py pw ph zi zo al vi TIME_NONE ur ty)
    else match try_parse_time v with
         | TOk t => DOk (mkPattrs de fi fw ft px py pw ph zi zo al vi t ur ty)
         | TFail => DCrash (CError "aux-ginga.cpp:243 parse_time")
         | TUB => DCrash (CUB "aux-ginga.cpp:223 cast")
         | TUnmodelled => DCrash (CUB "unmodelled numeral")
         end
  | PROP_URI => DOk (mkPattrs de fi fw ft px py pw ph zi zo al vi du v ty)
  | PROP_TYPE => DOk (mkPattrs de fi fw ft px py pw ph zi zo al vi du ur v)
  | _ => DOk a                                                        (* 801-804 *)
  end.

(** The calls _media->setProperty(name, v) that doSetProperty makes afterwards;
    [mprop] reads the media's own properties (645-648, 683-684, 694-695, 736-738,
    748-750). *)
Definition doset_media (code : pcode) (v : string) (mprop : string -> string)
    : list (string * string) :=
  match code with
  | PROP_BOUNDS => match try_parse_list v "," 4 4 with
                   | Some l => combine ["left"; "top"; "width"; "height"] l
                   | None => [] end
  | PROP_LOCATION => match try_parse_list v "," 2 2 with
                     | Some l => combine ["left"; "top"] l | None => [] end
  | PROP_SIZE => match try_parse_list v "," 2 2 with
                 | Some l => combine ["width"; "height"] l | None => [] end
  | PROP_WIDTH => if is_empty (mprop "right") then [] else [("right", mprop "right")]
  | PROP_HEIGHT => if is_empty (mprop "bottom") then [] else [("bottom", mprop "bottom")]
  | _ => []
  end.

(** Player::setProperty, Player.cpp:291-330, the part local to the player
    (everything except the re-entrant calls on the media).  Returns the code and
    the effective value handed to doSetProperty ([None] when it is not called). *)
Definition pset_value (p : player) (name value : string) : option (pcode * string) :=
  let '(code, defval) := getPlayerProperty name in
  if (match code with PROP_UNKNOWN => true | _ => false end
      && negb (String.eqb (default "" (p_props p !! "type")) "application/x-ginga-NCLua"))%bool
  then None                                                  (* 308-310: goto done *)
  else Some (code, if is_empty value then defval else value). (* 312-316 *)

(** ** Player construction: Player.cpp:166-184 and resetProperties 332-339.
    The media has no player yet while the constructor runs, so the re-entrant
    _media->setProperty calls of doSetProperty re-assign "right"/"bottom" to their
    current values, i.e. do nothing. *)
Definition blank_attrs : pattrs :=
  (* _prop is an uninitialised struct before resetProperties; every field below is
     overwritten by reset_attrs (lemma reset_fresh in StartMedia.v) *)
  mkPattrs false "" 0 0 0 0 0 0 0 0 0 false 0 "" "".
Fixpoint reset_attrs_go (x : ext) (W H : Z) (l : list (string * (pcode * bool * string)))
    (a : pattrs) : dres :=
  match l with
  | [] => DOk a
  | (_, (code, init, defval)) :: l' =>
    if init then match doset_own x W H code defval a with
                 | DOk a' => reset_attrs_go x W H l' a'
                 | r => r
                 end
    else reset_attrs_go x W H l' a
  end.
Definition reset_attrs (x : ext) (W H : Z) (a : pattrs) : dres :=
  reset_attrs_go x W H player_property_map a.

Definition new_player (c : pclass) (a : pattrs) : player :=
  with_attrs (mkPlayer c PSleeping 0 false ∅ false "" 0 0 0 0 0 0 0 0 0 false 0 "" "") a.

(** ** Choice of the player class: Player.cpp:530-619 and PlayerRemote.cpp:43-56. *)
(** getMimeForURI, Player.cpp:530-546. *)
Definition getMimeForURI (uri : string) : option string :=
  match find_last_char "." uri with
  | Some (_, e) => if is_empty e then None else assoc e mime_table
  | None => None
  end.
Definition usesPlayerRemote (type uri device : string) : bool :=
  let mime := if is_empty type then default "" (getMimeForURI uri) else type in
  String.eqb mime MIME_NCL360 || negb (is_empty device).
(** The effective mime type, 557-565. *)
Definition effective_mime (type uri : string) : string :=
  let m := if (is_empty type && negb (is_empty uri))%bool
           then default "" (getMimeForURI uri) else type in
  if is_empty m then "application/x-ginga-timer" else m.
Inductive cres : Type := CClass (c : pclass) | CAbort (c : crash).
Definition choose_player (x : ext) (type uri device : string) : cres :=
  let mime := effective_mime type uri in
  if String.eqb mime "application/x-ginga-ncl" then CAbort (CError "Player.cpp:569")
  else if (xstrhasprefix mime "audio" || xstrhasprefix mime "video")%bool then CClass PVideo
  else if String.eqb mime "application/x-ginga-siggen" then CClass PSigGen
  else if xstrhasprefix mime "image" then CClass PImage
  else if String.eqb mime "text/plain" then CClass PText
  else if usesPlayerRemote type uri device then CClass PRemote
  else if (x_cef x && xstrhasprefix mime "text/html")%bool then CClass PHTML
  else if xstrhasprefix mime "image/svg" then CClass PSvg
  else if String.eqb mime "application/x-ginga-NCLua" then CClass PLua
  else if (negb (String.eqb mime "application/x-ginga-timer") && negb (is_empty uri))%bool
  then CAbort (CError "Player.cpp:616")                               (* 611-617 *)
  else CClass PBase.

(** PlayerSpec.v -- what each presentation property means (C28), by name. *)
From Verif Require Export Player.
Open Scope string_scope.
Open Scope list_scope.

(** Other spellings. *)
Definition canonical (name : string) : string :=
  if String.eqb name "backgroundColor" then "background"
  else if String.eqb name "balanceLevel" then "balance"
  else if String.eqb name "bassLevel" then "bass"
  else if String.eqb name "explicitDur" then "duration"
  else if String.eqb name "rate" then "speed"
  else if String.eqb name "soundLevel" then "volume"
  else if String.eqb name "trebleLevel" then "treble"
  else name.
(** Defaults; a property not listed has the empty default. *)
Definition defaults : list (string * string) :=
  [
    ("balance", "0.0");
    ("bass", "0");
    ("bottom", "0%");
    ("bounds", "0%,0%,100%,100%");
    ("currentTime", "indefinite");
    ("debug", "false");
    ("duration", "indefinite");
    ("focusBorderColor", "yellow");
    ("focusBorderTransparency", "0%");
    ("focusBorderWidth", "4");
    ("fontColor", "black");
    ("fontFamily", "sans");
    ("fontSize", "12");
    ("freeze", "false");
    ("freq", "440");
    ("height", "100%");
    ("horzAlign", "left");
    ("left", "0");
    ("location", "0,0");
    ("mute", "false");
    ("right", "0%");
    ("selBorderColor", "yellow");
    ("size", "100%,100%");
    ("speed", "1");
    ("time", "indefinite");
    ("top", "0");
    ("transparency", "0%");
    ("treble", "0");
    ("type", "application/x-ginga-timer");
    ("vertAlign", "top");
    ("visible", "true");
    ("volume", "100%");
    ("wave", "sine");
    ("width", "100%");
    ("zIndex", "0");
    ("zOrder", "0")
  ].
Definition defaultValue (name : string) : string :=
  match List.find (fun e => String.eqb (fst e) name) defaults with Some e => snd e | None => "" end.
Definition valueOf (name v : string) : string :=
  if String.eqb v "" then defaultValue (canonical name) else v.

(** One-field updates. *)
Section Setters.
Context (a : pattrs).
Definition setX z := mkPattrs (a_debug a) (a_focusIndex a) (a_fbw a) (a_fbt a) z (a_y a) (a_w a) (a_h a) (a_zi a) (a_zo a) (a_alpha a) (a_visible a) (a_duration a) (a_uri a) (a_type a).
Definition setY z := mkPattrs (a_debug a) (a_focusIndex a) (a_fbw a) (a_fbt a) (a_x a) z (a_w a) (a_h a) (a_zi a) (a_zo a) (a_alpha a) (a_visible a) (a_duration a) (a_uri a) (a_type a).
Definition setW z := mkPattrs (a_debug a) (a_focusIndex a) (a_fbw a) (a_fbt a) (a_x a) (a_y a) z (a_h a) (a_zi a) (a_zo a) (a_alpha a) (a_visible a) (a_duration a) (a_uri a) (a_type a).
Definition setH z := mkPattrs (a_debug a) (a_focusIndex a) (a_fbw a) (a_fbt a) (a_x a) (a_y a) (a_w a) z (a_zi a) (a_zo a) (a_alpha a) (a_visible a) (a_duration a) (a_uri a) (a_type a).
Definition setZi z := mkPattrs (a_debug a) (a_focusIndex a) (a_fbw a) (a_fbt a) (a_x a) (a_y a) (a_w a) (a_h a) z (a_zo a) (a_alpha a) (a_visible a) (a_duration a) (a_uri a) (a_type a).
Definition setZo z := mkPattrs (a_debug a) (a_focusIndex a) (a_fbw a) (a_fbt a) (a_x a) (a_y a) (a_w a) (a_h a) (a_zi a) z (a_alpha a) (a_visible a) (a_duration a) (a_uri a) (a_type a).
Definition setAlpha z := mkPattrs (a_debug a) (a_focusIndex a) (a_fbw a) (a_fbt a) (a_x a) (a_y a) (a_w a) (a_h a) (a_zi a) (a_zo a) z (a_visible a) (a_duration a) (a_uri a) (a_type a).
Definition setVisible z := mkPattrs (a_debug a) (a_focusIndex a) (a_fbw a) (a_fbt a) (a_x a) (a_y a) (a_w a) (a_h a) (a_zi a) (a_zo a) (a_alpha a) z (a_duration a) (a_uri a) (a_type a).
Definition setDur z := mkPattrs (a_debug a) (a_focusIndex a) (a_fbw a) (a_fbt a) (a_x a) (a_y a) (a_w a) (a_h a) (a_zi a) (a_zo a) (a_alpha a) (a_visible a) z (a_uri a) (a_type a).
Definition setUri z := mkPattrs (a_debug a) (a_focusIndex a) (a_fbw a) (a_fbt a) (a_x a) (a_y a) (a_w a) (a_h a) (a_zi a) (a_zo a) (a_alpha a) (a_visible a) (a_duration a) z (a_type a).
Definition setType z := mkPattrs (a_debug a) (a_focusIndex a) (a_fbw a) (a_fbt a) (a_x a) (a_y a) (a_w a) (a_h a) (a_zi a) (a_zo a) (a_alpha a) (a_visible a) (a_duration a) (a_uri a) z.
Definition setDebug z := mkPattrs z (a_focusIndex a) (a_fbw a) (a_fbt a) (a_x a) (a_y a) (a_w a) (a_h a) (a_zi a) (a_zo a) (a_alpha a) (a_visible a) (a_duration a) (a_uri a) (a_type a).
Definition setFocusIndex z := mkPattrs (a_debug a) z (a_fbw a) (a_fbt a) (a_x a) (a_y a) (a_w a) (a_h a) (a_zi a) (a_zo a) (a_alpha a) (a_visible a) (a_duration a) (a_uri a) (a_type a).
Definition setFbw z := mkPattrs (a_debug a) (a_focusIndex a) z (a_fbt a) (a_x a) (a_y a) (a_w a) (a_h a) (a_zi a) (a_zo a) (a_alpha a) (a_visible a) (a_duration a) (a_uri a) (a_type a).
Definition setFbt z := mkPattrs (a_debug a) (a_focusIndex a) (a_fbw a) z (a_x a) (a_y a) (a_w a) (a_h a) (a_zi a) (a_zo a) (a_alpha a) (a_visible a) (a_duration a) (a_uri a) (a_type a).
End Setters.

Section Effect.
Context (x : ext) (W H : Z).
(** Pixels: a number, or a percentage of [base], kept within [0, 2147483647]. *)
Definition px (base : Z) (v : string) : Z := parse_percent (x_odd x) v base 0 2147483647.
Definition opacity (v : string) : Z := (255 - parse_percent (x_odd x) v 255 0 255)%Z.
(** [shows name v a a']: a player presenting [a] presents [a'] after the
    non-composite property [name] got the (non-default) value [v]. *)
Definition shows (name v : string) (a a' : pattrs) : Prop :=
  if String.eqb name "left" then a' = setX a (px W v)
  else if String.eqb name "right" then a' = setX a (W - a_w a - px W v)%Z
  else if String.eqb name "top" then a' = setY a (px H v)
  else if String.eqb name "bottom" then a' = setY a (H - a_h a - px (a_h a) v)%Z
  else if String.eqb name "width" then a' = setW a (px W v)
  else if String.eqb name "height" then a' = setH a (px H v)
  else if String.eqb name "zIndex" then exists z, xstrtoint v = Some z /\ a' = setZi a z
  else if String.eqb name "zOrder" then exists z, xstrtoint v = Some z /\ a' = setZo a z
  else if String.eqb name "transparency" then a' = setAlpha a (opacity v)
  else if String.eqb name "visible" then exists b, try_parse_bool v = Some b /\ a' = setVisible a b
  else if String.eqb name "duration" then
    (v = "indefinite" /\ a' = setDur a TIME_NONE) \/ (v <> "indefinite" /\ exists t, try_parse_time v = TOk t /\ a' = setDur a t)
  else if String.eqb name "uri" then a' = setUri a v
  else if String.eqb name "type" then a' = setType a v
  else if String.eqb name "debug" then exists b, try_parse_bool v = Some b /\ a' = setDebug a b
  else if String.eqb name "focusIndex" then a' = setFocusIndex a v
  else if String.eqb name "focusBorderWidth" then exists z, xstrtoint v = Some z /\ a' = setFbw a z
  else if String.eqb name "focusBorderTransparency" then a' = setFbt a (opacity v)
  else a' = a.
(** With the default for the empty value; [right] and [bottom] are the media's own
    properties, re-applied when the size they depend on changes. *)
Definition showsOne (right bottom : string) (name v : string) (a a' : pattrs) : Prop :=
  exists b, shows (canonical name) (valueOf name v) a b /\
    (if (String.eqb name "width" && negb (String.eqb right ""))%bool then shows "right" right b a'
     else if (String.eqb name "height" && negb (String.eqb bottom ""))%bool then shows "bottom" bottom b a'
     else a' = b).
(** The composite properties assign their components one after the other. *)
Fixpoint showsSeq (right bottom : string) (l : list (string * string)) (a a' : pattrs) : Prop :=
  match l with
  | [] => a' = a
  | (name, v) :: l => exists b, showsOne right bottom name v a b /\ showsSeq right bottom l b a'
  end.
Definition components (name : string) : list string :=
  if String.eqb name "bounds" then ["left"; "top"; "width"; "height"]
  else if String.eqb name "location" then ["left"; "top"]
  else if String.eqb name "size" then ["width"; "height"] else [].
Definition showsProp (right bottom : string) (name v : string) (a a' : pattrs) : Prop :=
  match components name with
  | [] => showsOne right bottom name v a a'
  | ns => exists vs, try_parse_list (valueOf name v) "," (length ns) (length ns) = Some vs /\
                     length vs = length ns /\ showsSeq right bottom (combine ns vs) a a'
  end.

(** ** Starting a media. *)
(** A table of properties: [T name] is the value given to [name], if any. *)
Definition table := string -> option string.
(** The value in force: the default when none, or the empty one, was given. *)
Definition inForce (T : table) (name : string) : string := valueOf name (default "" (T name)).
(** What a player presents agrees with the table of properties of its media: every
    attribute is the one its property asks for, by name or by default.  Where two
    properties ask for the same attribute, the horizontal position follows a
    non-empty "right" rather than "left", the vertical one "top" rather than
    "bottom", and "explicitDur" goes before "duration".  Nothing is said about the
    position on an axis where "right" or "bottom" is given the empty value. *)
Record agrees (T : table) (a : pattrs) : Prop := mkAgrees {
  ag_width : a_w a = px W (inForce T "width");
  ag_height : a_h a = px H (inForce T "height");
  ag_x : match T "right" with
         | None => a_x a = px W (inForce T "left")
         | Some r => r <> "" -> a_x a = (W - a_w a - px W r)%Z
         end;
  ag_y : match T "top", T "bottom" with
         | Some _, _ | None, None => a_y a = px H (inForce T "top")
         | None, Some b => b <> "" -> a_y a = (H - a_h a - px (a_h a) b)%Z
         end;
  ag_zindex : xstrtoint (inForce T "zIndex") = Some (a_zi a);
  ag_zorder : xstrtoint (inForce T "zOrder") = Some (a_zo a);
  ag_alpha : a_alpha a = opacity (inForce T "transparency");
  ag_visible : try_parse_bool (inForce T "visible") = Some (a_visible a);
  ag_duration : let v := match T "explicitDur" with Some v => valueOf "explicitDur" v | None => inForce T "duration" end in
    (v = "indefinite" /\ a_duration a = TIME_NONE) \/ (v <> "indefinite" /\ try_parse_time v = TOk (a_duration a));
  ag_uri : a_uri a = inForce T "uri";
  ag_type : a_type a = inForce T "type";
  ag_debug : try_parse_bool (inForce T "debug") = Some (a_debug a);
  ag_focus : a_focusIndex a = inForce T "focusIndex";
  ag_border : xstrtoint (inForce T "focusBorderWidth") = Some (a_fbw a);
  ag_borderAlpha : a_fbt a = opacity (inForce T "focusBorderTransparency")
}.
End Effect.
(** The composite properties overwrite their components: [spread T name i] is the
    [i]-th component given by [T name], if [name] is in the table. *)
Definition spread (T : table) (name : string) (i : nat) : option string :=
  match T name with
  | None => None
  | Some v => match try_parse_list (valueOf name v) "," (length (components name)) (length (components name)) with
              | Some l => nth_error l i
              | None => None
              end
  end.
Definition orElse {A} (x y : option A) : option A := match x with Some _ => x | None => y end.
(** The table once the composite properties have been spread. *)
Definition spreadTable (T : table) : table := fun name =>
  if String.eqb name "left" then orElse (spread T "location" 0) (orElse (spread T "bounds" 0) (T name))
  else if String.eqb name "top" then orElse (spread T "location" 1) (orElse (spread T "bounds" 1) (T name))
  else if String.eqb name "width" then orElse (spread T "size" 0) (orElse (spread T "bounds" 2) (T name))
  else if String.eqb name "height" then orElse (spread T "size" 1) (orElse (spread T "bounds" 3) (T name))
  else T name.

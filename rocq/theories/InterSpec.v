(** InterSpec.v -- the vocabulary of C14-C17: switches, set actions, focus, keys. *)
From Verif Require Export PredSpec LinkSpec.
Open Scope string_scope.
Open Scope list_scope.

(** ** Switches. *)
(** Object [o] is [a] or is nested in [a]. *)
Inductive inside (D : doc) (a : oid) : oid -> Prop :=
  | in_self : inside D a a
  | in_nested o ob p : d_obj D !! o = Some ob -> ob_parent ob = Some p -> inside D a p -> inside D a o.
(** [e'] is what starting event [ev] of the switch may start in component [c]: the
    whole component, or, for a switchPort, an interface that it maps to. *)
Definition eligible (D : doc) (ob : obj) (ev : evt) (c : oid) (e' : eid) : Prop :=
  if isLambda ev then exists cb, c ∈ ob_children ob /\ d_obj D !! c = Some cb /\ e' = ob_lambda cb
  else exists l ev', assoc (ev_id ev) (ob_swports ob) = Some l /\ e' ∈ l /\ d_evt D !! e' = Some ev' /\ ev_obj ev' = c.
(** The rule of component [c] applies. *)
Definition applies (D : doc) (s : st) (ob : obj) (ev : evt) (r : oid * npred) : Prop :=
  (exists e', eligible D ob ev (fst r) e') /\ holds (evalPropertyRef D s) (snd r).
(** [c] is the component of the first rule that applies, in document order. *)
Definition firstRule (D : doc) (s : st) (ob : obj) (ev : evt) (c : oid) : Prop :=
  exists l1 p l2, ob_rules ob = l1 ++ (c, p) :: l2 /\ applies D s ob ev (c, p) /\
    forall r, r ∈ l1 -> ~ applies D s ob ev r.

(** ** Properties. *)
(** Assigning one of the three compound properties also assigns the coordinates it
    is made of. *)
Definition compound (name k : string) : Prop :=
  (name = "bounds" /\ k ∈ ["left"; "top"; "width"; "height"]) \/
  (name = "location" /\ k ∈ ["left"; "top"]) \/ (name = "size" /\ k ∈ ["width"; "height"]).
Definition readProp (s : st) (o : oid) (k : string) : option string := o_props (ostOf s o) !! k.
(** A set action [a] on attribution event [ev] leads from [s] to [s']. *)
Definition setDone (D : doc) (a : action) (ev : evt) (s s' : st) : Prop :=
  readProp s' (ev_obj ev) (ev_id ev) = Some (valueOf (evalPropertyRef D s) (ac_value a)) /\
  forall o k, (o <> ev_obj ev \/ (k <> ev_id ev /\ ~ compound (ev_id ev) k)) -> readProp s' o k = readProp s o k.

(** ** Focus. *)
(** [i] is the focus index of a media that occurs. *)
Definition focusable (D : doc) (s : st) (i : string) : Prop :=
  i <> "" /\ exists o ob, d_obj D !! o = Some ob /\ is_media (ob_kind ob) = true /\
    evState s (ob_lambda ob) = OCCURRING /\ readProp s o "focusIndex" = Some i.
(** The smallest one in dictionary order; empty if there is none. *)
Definition smallestFocus (D : doc) (s : st) (v : string) : Prop :=
  (v = "" /\ forall i, ~ focusable D s i) \/
  (focusable D s v /\ forall i, focusable D s i -> i = v \/ lex v i).

(** ** Keys. *)
(** The media's player has the focus. *)
Definition hasFocus (s : st) (o : oid) : Prop :=
  exists p, o_player (ostOf s o) = Some p /\ p_focusIndex p <> "" /\ p_focusIndex p = s_focus s.
(** Selection event [e] of media [o] waits for key [key]: its parameter "key" names
    it, or names no key (it is empty or an unresolved reference), the key is ENTER
    and the media has the focus. *)
Definition waitsFor (D : doc) (s : st) (o : oid) (key : string) (e : eid) : Prop :=
  exists ev, d_evt D !! e = Some ev /\ ev_type ev = SELECTION /\
    let k := default "" (e_params (estOf s e) !! "key") in
    if (is_empty k || String.prefix "$" k)%bool then key = "ENTER" /\ hasFocus s o else key = k.
(** The player property that says where the focus goes. *)
Definition moveProp (key : string) : option string :=
  if decide (key = "CURSOR_UP") then Some "moveUp"
  else if decide (key = "CURSOR_DOWN") then Some "moveDown"
  else if decide (key = "CURSOR_LEFT") then Some "moveLeft"
  else if decide (key = "CURSOR_RIGHT") then Some "moveRight" else None.
(** A key pressed on media [o] asks for the focus to move to [i]. *)
Definition navigates (s : st) (o : oid) (key : string) (press : bool) (i : string) : Prop :=
  press = true /\ hasFocus s o /\ i <> "" /\
  exists k p, moveProp key = Some k /\ o_player (ostOf s o) = Some p /\ p_props p !! k = Some i.
(** The actions are evaluated one after the other. *)
Inductive evaluated (D : doc) (n : nat) : list action -> st -> st -> Prop :=
  | ev_nil s : evaluated D n [] s s
  | ev_cons a l k s s1 s' : evalAction D n a s = Ok k s1 -> evaluated D n l s1 s' -> evaluated D n (a :: l) s s'.

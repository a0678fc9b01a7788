(** SafeSpec.v -- vocabulary of the positive part of C34: the documents with which no
    call of the player's API aborts. *)
From Verif Require Export StopSpec PredSpec FReach.
Open Scope string_scope.
Open Scope list_scope.

(** The values a property of a media may be given; an empty one stands for the
    property's default. *)
Definition okValue (x : ext) (c : pcode) (v : string) : Prop :=
  match c with
  | PROP_DEBUG | PROP_VISIBLE => try_parse_bool v <> None
  | PROP_BOUNDS => try_parse_list v "," 4 4 <> None
  | PROP_LOCATION | PROP_SIZE => try_parse_list v "," 2 2 <> None
  | PROP_FOCUS_BORDER_COLOR | PROP_SEL_BORDER_COLOR | PROP_BACKGROUND => v = "" \/ x_color x v = true
  | PROP_FOCUS_BORDER_WIDTH | PROP_Z_INDEX | PROP_Z_ORDER => xstrtoint v <> None
  | PROP_DURATION => v = "indefinite" \/ exists t, try_parse_time v = TOk t
  | _ => True
  end.
Definition okProp (D : doc) (o : oid) (name v : string) : Prop :=
  okValue (d_ext D) (fst (getPlayerProperty name)) (if is_empty v then snd (getPlayerProperty name) else v) /\
  (o = d_settings D -> fst (getPlayerProperty name) <> PROP_DURATION).
(** Assigning [v] to property [name] of [o]: anything for a context; for a media, not
    what its player is chosen by, and a value the player accepts. *)
Definition okAssign (D : doc) (o : oid) (name v : string) : Prop :=
  forall ob, d_obj D !! o = Some ob -> is_media (ob_kind ob) = true ->
    okProp D o name v /\ name <> "type" /\ name <> "uri" /\ name <> "device".
Definition literal (v : string) : Prop := forall r, v <> String "$" r.

(** The actions of links: whole objects other than the body and the settings are
    started, stopped and aborted, anchors are stopped and aborted, and properties
    are set at once, to a value that is known to be accepted. *)
Definition calmAct (D : doc) (a : action) : Prop :=
  exists ev ob, d_evt D !! ac_evt a = Some ev /\ d_obj D !! ev_obj ev = Some ob /\
  literal (ac_delay a) /\ (exists t, try_parse_time (ac_delay a) = TOk t) /\
  match ev_type ev with
  | PRESENTATION =>
      (isLambda ev = true /\ (ac_tr a = START \/ ac_tr a = STOP \/ ac_tr a = ABORT) /\
         ev_obj ev <> d_root D /\ ev_obj ev <> d_settings D) \/
      (isLambda ev = false /\ is_media (ob_kind ob) = true /\ (ac_tr a = STOP \/ ac_tr a = ABORT))
  | ATTRIBUTION => ac_tr a = STOP \/
      (ac_tr a = START /\ literal (ac_dur a) /\ try_parse_time (ac_dur a) = TOk 0 /\
        ((literal (ac_value a) /\ okAssign D (ev_obj ev) (ev_id ev) (ac_value a)) \/
         (forall w, okAssign D (ev_obj ev) (ev_id ev) w)))
  | _ => False
  end.

Record calmDoc (D : doc) : Prop := mkCalm {
  cd_switch : noSwitch D;
  cd_hold : noHoldLinks D;
  cd_parent : forall o ob, d_obj D !! o = Some ob -> o <> d_root D -> ob_parent ob <> None;
  cd_yellow : x_color (d_ext D) "yellow" = true;   (* the default colour of borders *)
  cd_conds : forall o ob cs acts c, d_obj D !! o = Some ob -> (cs, acts) ∈ ob_links ob -> c ∈ cs ->
      (forall p, ac_pred c = Some p -> negFree p) /\
      (forall rb, d_obj D !! d_root D = Some rb -> ac_evt c = ob_lambda rb -> ac_tr c <> STOP);
  cd_acts : forall o ob cs acts a, d_obj D !! o = Some ob -> (cs, acts) ∈ ob_links ob -> a ∈ acts -> calmAct D a;
  cd_ports : forall o ob e ev, d_obj D !! o = Some ob -> e ∈ ob_ports ob -> d_evt D !! e = Some ev ->
      ev_type ev = PRESENTATION -> isLambda ev = true /\ ev_obj ev <> d_root D /\ ev_obj ev <> d_settings D;
  cd_focus : exists sb e ev, d_obj D !! d_settings D = Some sb /\ e ∈ ob_events sb /\ d_evt D !! e = Some ev /\
      ev_type ev = ATTRIBUTION /\ ev_id ev = "service.currentFocus";
  (* the contexts in which the settings appear have no link on an event of the settings *)
  cd_alias : forall sb i c cb cs acts x ev, d_obj D !! d_settings D = Some sb -> (i, Some c) ∈ ob_aliases sb ->
      d_obj D !! c = Some cb -> (cs, acts) ∈ ob_links cb -> x ∈ cs -> d_evt D !! ac_evt x = Some ev -> ev_obj ev <> d_settings D
}.
(** The initial properties of the media: accepted, and a player exists. *)
Definition calmInit (D : doc) (s : st) : Prop := forall o ob, d_obj D !! o = Some ob -> is_media (ob_kind ob) = true ->
  (forall k v, readProp s o k = Some v -> okProp D o k v) /\
  exists cls, choose_player (d_ext D) (default "" (readProp s o "type")) (default "" (readProp s o "uri"))
    (default "" (readProp s o "device")) = CClass cls.
Definition calmFile (F : file) : Prop := forall w h fo D s,
  F w h fo = Some (D, s) -> wf_doc D /\ init_ok D s /\ calmDoc D /\ calmInit D s.

(** The calls of the API: keys, ticks, sizes, starts of such files, stops, and players
    (not the settings') that reach the end of their content.  [calls f T] : the
    document being played has been ticked for [T] nanoseconds in all. *)
Inductive calls : fmt -> N -> Prop :=
  | ca_init fo w h : calls (mkF false None false fo w h) 0
  | ca_start n F b f T f' : calls f T -> f_playing f = false -> calmFile F -> fstart n F f = Ok b f' -> calls f' 0
  | ca_stop n b f T f' : calls f T -> fstop n f = Ok b f' -> calls f' T
  | ca_key n k p b f T f' : calls f T -> fkey n k p f = Ok b f' -> calls f' T
  | ca_tick n d b f T f' : calls f T -> (T + d < TIME_NONE)%N -> ftick n d f = Ok b f' -> calls f' (T + d)
  | ca_resize w h f T f' : calls f T -> fresize w h f = Ok tt f' -> calls f' T
  | ca_eos o f T f' : calls f T -> (forall D s, f_doc f = Some (D, s) -> o <> d_settings D) ->
      fenv_eos o f = Ok tt f' -> calls f' T.

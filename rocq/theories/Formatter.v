(** Formatter.v -- the public API of the player (lib/Formatter.cpp; lib/ginga.h).

    Not modelled: the web services thread, the redrawing itself (only its order),
    options other than width and height, the debug overlay. *)
From Verif Require Export Engine.
Open Scope string_scope.
Open Scope list_scope.

(** Formatter state: _state, _doc, _eos, _opts.width/height and the static focus
    variable of class Player (Player.cpp:491), which outlives documents. *)
Record fmt : Type := mkF {
  f_playing : bool; f_doc : option (doc * st); f_eos : bool;
  f_focus : string; f_w : Z; f_h : Z }.
Notation MF := (M fmt).

Definition f_set_playing b f := mkF b (f_doc f) (f_eos f) (f_focus f) (f_w f) (f_h f).
Definition f_set_doc d f := mkF (f_playing f) d (f_eos f) (f_focus f) (f_w f) (f_h f).
Definition f_set_eos b f := mkF (f_playing f) (f_doc f) b (f_focus f) (f_w f) (f_h f).
Definition f_set_focus x f := mkF (f_playing f) (f_doc f) (f_eos f) x (f_w f) (f_h f).
Definition f_set_size w h f := mkF (f_playing f) (f_doc f) (f_eos f) (f_focus f) w h.

Definition set_size (w h : Z) (s : st) : st :=
  mkSt (s_ev s) (s_ob s) (s_focus s) (s_next s) w h (s_log s).

(** Run an engine operation on the current document. *)
Definition onDoc {A} (m : doc -> ME A) : MF A :=
  fun f => match f_doc f with
           | None => Crash (CUB "null document")
           | Some (D, s) =>
             match m D s with
             | Ok a s' => Ok a (f_set_focus (s_focus s') (f_set_doc (Some (D, s')) f))
             | Crash c => Crash c
             | NoFuel => NoFuel
             end
           end.

(** Destruction of the object tree: Document.cpp:67-70, Context.cpp:34-52,
    Media.cpp:37-40, Switch.cpp:32-37 (a switch does not delete its children).
    [k] bounds the depth of the tree. *)
Fixpoint destroy (D : doc) (n k : nat) (o : oid) : ME unit :=
  match k with
  | O => nofuel
  | S k =>
    do ob <- getO D o;
    match ob_kind ob with
    | KContext => tr D n (ob_lambda ob) STOP ;; foreach (destroy D n k) (ob_children ob)
    | KSwitch => ret tt
    | KMedia | KSettings => mediaDoStop D o
    end
  end.

(** Formatter::stop, Formatter.cpp:180-191. *)
Definition fstop (n : nat) : MF bool :=
  do f <- get;
  if f_playing f then
    onDoc (fun D => destroy D n n (d_root D)) ;;
    modify (fun f => f_set_playing false (f_set_doc None f)) ;;
    ret true
  else ret false.

(** Formatter::start, Formatter.cpp:113-176.  A "file" is what the parser makes of
    it for a given screen: an error, or a document in its initial state. *)
Definition file : Type := Z -> Z -> string -> option (doc * st).
Definition fstart (n : nat) (file : file) : MF bool :=
  do f <- get;
  if f_playing f then ret false
  else
    assertm (match f_doc f with None => true | Some _ => false end) "Formatter.cpp:124" ;;
    match file (f_w f) (f_h f) (f_focus f) with
    | None => ret false
    | Some (D, s) =>
      modify (f_set_doc (Some (D, set_size (f_w f) (f_h f) s))) ;;
      modify (f_set_eos false) ;;
      do k <- onDoc (fun D => do rb <- getO D (d_root D);
                              evalAction D n (mkA (ob_lambda rb) START ""));
      match k with
      | O => ret false
      | S _ =>
        do b <- onDoc (fun D => do sb <- getO D (d_settings D);
                                tr D n (ob_lambda sb) START);
        assertm b "Formatter.cpp:168" ;;
        modify (f_set_playing true) ;;
        ret true
      end
    end.

(** _GINGA_CHECK_EOS, Formatter.cpp:311-330. *)
Definition checkEOS (n : nat) : MF unit :=
  do sl <- onDoc (fun D => isSleeping D (d_root D));
  (if sl then modify (f_set_eos true) else ret tt) ;;
  do f <- get;
  if f_eos f then
    assertm (f_playing f) "Formatter.cpp:324" ;;
    modify (f_set_eos false) ;;
    do b <- fstop n;
    assertm b "Formatter.cpp:326"
  else ret tt.

(** Formatter::sendKey, Formatter.cpp:332-356. *)
Definition fkey (n : nat) (key : string) (press : bool) : MF bool :=
  do f <- get;
  if negb (f_playing f) then ret false
  else
    checkEOS n ;;
    do f <- get;
    if negb (f_playing f) then ret false
    else
      onDoc (fun D =>
        do s <- get;
        foreach (fun o => sendKey D n o key press)
          (List.filter (fun o => match d_obj D !! o with
                                 | Some ob => bool_decide (evState s (ob_lambda ob) <> SLEEPING)
                                 | None => false end) (d_objs D))) ;;
      ret true.

(** Formatter::sendTick, Formatter.cpp:358-384. *)
Definition ftick (n : nat) (diff : N) : MF bool :=
  do f <- get;
  if negb (f_playing f) then ret false
  else
    checkEOS n ;;
    do f <- get;
    if negb (f_playing f) then ret false
    else
      onDoc (fun D =>
        do s <- get;
        foreach (fun o => sendTick D n o diff)
          (List.filter (fun o => match d_obj D !! o with
                                 | Some ob => bool_decide (evState s (ob_lambda ob) = OCCURRING)
                                 | None => false end) (d_objs D))) ;;
      ret true.

(** Formatter::resize, Formatter.cpp:194-222. *)
Definition fresize (w h : Z) : MF unit :=
  assertm ((0 <? w)%Z && (0 <? h)%Z) "Formatter.cpp:197" ;;
  modify (f_set_size w h) ;;
  do f <- get;
  if negb (f_playing f) then ret tt
  else
    onDoc (fun D =>
      modify (set_size w h) ;;
      foreach (fun o =>
        foreach (fun k => do s <- get;
                   let v := propOf s o k in
                   if is_empty v then ret tt else mediaSetProperty D o k v 0)
          ["top"; "left"; "width"; "height"; "bottom"; "right"]) (d_medias D)).

(** What the environment does behind the API: a decoder reaches the end of its
    stream (Player::setEOS), an NCLua script posts an event
    (PlayerLua.cpp: addDelayedAction on an event of its own media), the links of a
    context are switched on or off (Context::setLinksStatus). *)
Definition fenv_eos (o : oid) : MF unit :=
  onDoc (fun D => do ob <- getO D o;
                  if is_media (ob_kind ob) then updPlayer o (p_set_eos true) else ret tt).
Definition fenv_post (o : oid) (e : eid) (t : trans) (v : string) : MF unit :=
  onDoc (fun D => do ob <- getO D o;
                  if bool_decide (e ∈ ob_events ob) then addDelayed o e t v 0 else ret tt).
Definition fenv_links (o : oid) (b : bool) : MF unit :=
  onDoc (fun D => do ob <- getO D o; modify (upd_ob o (os_set_links b))).

(** ** Drawing order: Formatter.cpp:81-104 (zcmp) and 268-280. *)
Definition getZ (D : doc) (s : st) (o : oid) : Z * Z :=            (* Media.cpp:493-501 *)
  match d_obj D !! o, o_player (ostOf s o) with
  | Some ob, Some p =>
    if bool_decide (evState s (ob_lambda ob) = SLEEPING) then (0, 0)%Z else (p_zindex p, p_zorder p)
  | _, _ => (0, 0)%Z
  end.
Definition zcmp (a b : Z * Z) : comparison :=
  match Z.compare (fst a) (fst b) with
  | Lt => Lt | Gt => Gt
  | Eq => Z.compare (snd a) (snd b)
  end.
(** g_list_insert_sorted: before the first element that compares greater or equal. *)
Fixpoint insert_sorted (D : doc) (s : st) (o : oid) (l : list oid) : list oid :=
  match l with
  | [] => [o]
  | x :: l => match zcmp (getZ D s o) (getZ D s x) with
              | Gt => x :: insert_sorted D s o l
              | _ => o :: x :: l
              end
  end.
Definition redraw_order (D : doc) (s : st) : list oid :=
  fold_left (fun l o => insert_sorted D s o l) (d_medias D) [].

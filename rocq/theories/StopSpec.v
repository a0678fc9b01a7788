(** StopSpec.v -- vocabulary of C05 and C06: what is nested in an object, active,
    fully asleep. *)
From Verif Require Export InterSpec.
Open Scope string_scope.
Open Scope list_scope.

(** The object's presentation is occurring or paused. *)
Definition activeObj (D : doc) (s : st) (o : oid) : Prop :=
  exists ob, d_obj D !! o = Some ob /\ evState s (ob_lambda ob) <> SLEEPING.
(** Every event of the object sleeps, and it has no player, no clock and nothing queued. *)
Definition asleep (D : doc) (s : st) (o : oid) : Prop :=
  exists ob, d_obj D !! o = Some ob /\
    (forall e, e ∈ ob_events ob -> evState s e = SLEEPING) /\
    (is_media (ob_kind ob) = true -> o_player (ostOf s o) = None) /\
    o_time (ostOf s o) = TIME_NONE /\ o_delayed (ostOf s o) = [].
(** [o] is on stage below [a]: it is [a], or a child of an active context below [a],
    or the selected component of an active switch below [a]. *)
Inductive below (D : doc) (s : st) (a : oid) : oid -> Prop :=
  | be_self : below D s a a
  | be_child p pb c : below D s a p -> d_obj D !! p = Some pb -> ob_kind pb = KContext ->
      evState s (ob_lambda pb) <> SLEEPING -> c ∈ ob_children pb -> below D s a c
  | be_sel p pb c : below D s a p -> d_obj D !! p = Some pb -> ob_kind pb = KSwitch ->
      evState s (ob_lambda pb) <> SLEEPING -> o_selected (ostOf s p) = Some c -> below D s a c.
(** Documents without switches; without links that react to pauses or resumptions. *)
Definition noSwitch (D : doc) : Prop := forall o ob, d_obj D !! o = Some ob -> ob_kind ob <> KSwitch.
Definition noHoldLinks (D : doc) : Prop := forall o ob cs acts c, d_obj D !! o = Some ob ->
  (cs, acts) ∈ ob_links ob -> c ∈ cs -> ac_tr c <> PAUSE /\ ac_tr c <> RESUME.
(** [x] is held together with [a]: [a], and the children of contexts held with [a],
    as long as their presentations are all in state [z]. *)
Inductive held (D : doc) (s : st) (z : evstate) (a : oid) : oid -> Prop :=
  | hd_self ab : d_obj D !! a = Some ab -> evState s (ob_lambda ab) = z -> held D s z a a
  | hd_child p pb c cb : held D s z a p -> d_obj D !! p = Some pb -> ob_kind pb = KContext ->
      c ∈ ob_children pb -> d_obj D !! c = Some cb -> evState s (ob_lambda cb) = z -> held D s z a c.
(** The events paused with an object: its presentation and, for a media, its anchors. *)
Definition presOf (D : doc) (x : oid) (e : eid) : Prop :=
  exists xb, d_obj D !! x = Some xb /\ (e = ob_lambda xb \/
    (is_media (ob_kind xb) = true /\ e ∈ ob_events xb /\ exists ev, d_evt D !! e = Some ev /\ ev_type ev = PRESENTATION)).
(** The presentation events that pausing (resuming) [o] is to pause (resume). *)
Definition movesWith (D : doc) (s : st) (z : evstate) (o : oid) (e : eid) : Prop :=
  exists x, held D s z o x /\ presOf D x e /\ evState s e = z.
(** What a pause takes to paused, and a resumption to occurring. *)
Definition heldFrom (t : trans) : evstate := match t with RESUME => PAUSED | _ => OCCURRING end.

(** MediaSpec.v -- the end of a media (C37) and the start at an anchor (C38). *)
From Verif Require Export StartSpec LinkSpec.
Open Scope string_scope.
Open Scope list_scope.

(** A content that is over: the player has reached the end of its stream, or its
    duration is definite and the clock of the media has passed it. *)
Definition contentOver (p : player) (clock : N) : Prop :=
  p_eos p = true \/ (p_duration p <> TIME_NONE /\ (p_duration p < clock)%N).
(** The clock of the player moves on with that of the media. *)
Definition playerClock (o : oid) (d : N) (s : st) : st :=
  upd_ob o (fun x => os_set_player ((fun p => p_set_time (tadd (p_time p) d) p) <$> o_player x) x) s.
(** What a successful STOP of the whole content of media [o] leaves. *)
Record mediaStopped (D : doc) (s s' : st) (o : oid) (ob : obj) : Prop := mkMStop {
  mt_asleep : forall e, e ∈ ob_events ob -> evState s' e = SLEEPING;
  mt_others : forall e, e ∉ ob_events ob -> evState s' e = evState s e;
  mt_player : o_player (ostOf s' o) = None;
  mt_clock : o_time (ostOf s' o) = TIME_NONE;
  mt_queue : o_delayed (ostOf s' o) = [];
  mt_elsewhere : forall o', o' <> o -> o_props (ostOf s' o') = o_props (ostOf s o') /\
    o_player (ostOf s' o') = o_player (ostOf s o') /\ o_delayed (ostOf s' o') = o_delayed (ostOf s o') /\
    o_time (ostOf s' o') = o_time (ostOf s o')
}.

(** AnchorSpec.v -- starting an anchor of a media that is asleep (C38). *)
From Verif Require Export MediaSpec ParseSpec.
Open Scope string_scope.
Open Scope list_scope.

(** The decimal numeral of a number. *)
Definition numeralOf (n : N) (t : string) : Prop := exists ds, digits ds /\ value ds = n /\ t = numeral ds.
(** A timed anchor of the media begins before the instant [b]. *)
Definition beginsBefore (D : doc) (ob : obj) (b : N) (x : eid) : Prop :=
  x ∈ ob_events ob /\ exists ev, d_evt D !! x = Some ev /\ timed ev = true /\ (ev_begin ev < b)%N.
(** The part of a schedule between the instants [b] and [f] ([f] may be indefinite),
    counted from [b]. *)
Definition within (b f : N) (l : list (action * N)) : list (action * N) :=
  map (fun ax => (fst ax, (snd ax - b)%N))
      (List.filter (fun ax => negb (snd ax =? TIME_NONE)%N && (b <=? snd ax)%N && ((f =? TIME_NONE)%N || (snd ax <=? f)%N)) l).
(** Where an anchor begins; an indefinite begin is the beginning. *)
Definition beginOf (ev : evt) : N := if (ev_begin ev =? TIME_NONE)%N then 0%N else ev_begin ev.
Definition second : N := 1000000000.

(** What the START of anchor [e] does when media [o] was asleep: the media is started as
    by C35, and moves to where [e] begins.
    - [e] occurs, and so does every timed anchor that begins before [e];
    - what is scheduled lies between the begin and the end of [e], at the time that is
      left; the end of [e] is there if it is definite;
    - the player is told the begin and the duration of [e], in whole seconds. *)
Record startedAt (D : doc) (s s' : st) (o : oid) (ob : obj) (e : eid) (ev : evt) : Prop := mkSA {
  sa_at : exists s1 p1 p',
    mediaStarted D s s1 o ob /\
    (forall x, x = e \/ beginsBefore D ob (beginOf ev) x -> evState s' x = OCCURRING) /\
    (forall x, x <> e -> ~ beginsBefore D ob (beginOf ev) x -> evState s' x = evState s1 x) /\
    (forall o', o' <> o -> ostOf s' o' = ostOf s1 o') /\ s_next s' = s_next s1 /\
    o_time (ostOf s' o) = 0%N /\ o_props (ostOf s' o) = o_props (ostOf s1 o) /\
    o_delayed (ostOf s' o) = within (beginOf ev) (ev_end ev)
      (anchorSchedule D (ob_events ob) ++ if (ev_end ev =? TIME_NONE)%N then [] else [(mkAct e STOP None "" "" "", ev_end ev)]) /\
    o_player (ostOf s1 o) = Some p1 /\ o_player (ostOf s' o) = Some p' /\
    p_state p' = POccurring /\ p_class p' = p_class p1 /\
    (exists t, numeralOf (beginOf ev / second) t /\ p_props p' !! "time" = Some t) /\
    (ev_end ev = TIME_NONE -> attrs_of p' = attrs_of p1) /\
    (ev_end ev <> TIME_NONE -> (beginOf ev <= ev_end ev)%N -> (ev_end ev - beginOf ev <= 4611686018 * second)%N ->
       (exists t, numeralOf ((ev_end ev - beginOf ev) / second) t /\ p_props p' !! "duration" = Some t) /\
       p_duration p' = ((ev_end ev - beginOf ev) / second * second)%N)
}.

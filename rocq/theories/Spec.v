(** Spec.v -- what a history (the sequence of observations, most recent first) says
    about an object, independently of the engine's own bookkeeping. *)
From Verif Require Export Engine.
Open Scope string_scope.
Open Scope list_scope.

(** The events whose transitions are those of the object's presentation: the
    whole-content (lambda) event and, for a switch, also its ports' events. *)
Definition mainb (D : doc) (o : oid) (e : eid) : bool :=
  match d_obj D !! o with
  | None => false
  | Some ob =>
    bool_decide (e = ob_lambda ob)
    || (bool_decide (ob_kind ob = KSwitch) && bool_decide (e ∈ ob_events ob)
        && match d_evt D !! e with Some ev => bool_decide (ev_type ev = PRESENTATION) | None => false end)
  end.
Definition lambdab (D : doc) (o : oid) (e : eid) : bool :=
  match d_obj D !! o with None => false | Some ob => bool_decide (e = ob_lambda ob) end.
Definition ends (t : trans) : bool := match t with STOP | ABORT => true | _ => false end.

(** State of the presentation of [o] after history [h]. *)
Fixpoint stateOf (D : doc) (o : oid) (h : list obs) : evstate :=
  match h with
  | [] => SLEEPING
  | OTrans e t :: h =>
    if lambdab D o e then
      match t with START | RESUME => OCCURRING | PAUSE => PAUSED | STOP | ABORT => SLEEPING end
    else if mainb D o e && ends t then SLEEPING
    else stateOf D o h
  | _ :: h => stateOf D o h
  end.

(** Sum of the tick increments [o] received while occurring since it was last
    started; [None] if it has been stopped since (or never started). *)
Fixpoint sinceStart (D : doc) (o : oid) (h : list obs) : option N :=
  match h with
  | [] => None
  | OTrans e t :: h =>
    if mainb D o e then
      match t with START => Some 0%N | STOP | ABORT => None | _ => sinceStart D o h end
    else sinceStart D o h
  | OTick o' d :: h =>
    if (bool_decide (o' = o) && bool_decide (stateOf D o h = OCCURRING))%bool
    then (fun x => (x + d)%N) <$> sinceStart D o h
    else sinceStart D o h
  | _ :: h => sinceStart D o h
  end.

(** Number of starts minus number of ends of [o] in a history. *)
Fixpoint runs (D : doc) (o : oid) (h : list obs) : Z :=
  match h with
  | [] => 0
  | OTrans e t :: h =>
    if mainb D o e then
      match t with START => runs D o h + 1 | STOP | ABORT => runs D o h - 1 | _ => runs D o h end
    else runs D o h
  | _ :: h => runs D o h
  end%Z.

(** Creations ([true]) and deletions ([false]) of players of [o], most recent first. *)
Fixpoint playerHist (o : oid) (h : list obs) : list bool :=
  match h with
  | [] => []
  | OPlayer o' b :: h => if decide (o' = o) then b :: playerHist o h else playerHist o h
  | _ :: h => playerHist o h
  end.
(** true, false, true, false ... in chronological order: the oldest is a creation
    and each entry is the opposite of the one before it. *)
Fixpoint alternating (l : list bool) : Prop :=
  match l with
  | [] => True
  | b :: l => b = negb (hd false l) /\ alternating l
  end.

(** Total play time of a history. *)
Fixpoint totalTicks (h : list obs) : N :=
  match h with [] => 0 | OTick _ d :: h => d + totalTicks h | _ :: h => totalTicks h end%N.

(** How often action [a] was queued on [o], and how often it fell due. *)
Fixpoint timesQueued (o : oid) (a : action) (h : list obs) : nat :=
  match h with
  | [] => 0
  | OSched o' a' _ :: h => (if bool_decide (o' = o /\ a' = a) then 1 else 0) + timesQueued o a h
  | _ :: h => timesQueued o a h
  end.
Fixpoint timesFired (o : oid) (a : action) (h : list obs) : nat :=
  match h with
  | [] => 0
  | OTrig o' a' :: h => (if bool_decide (o' = o /\ a' = a) then 1 else 0) + timesFired o a h
  | _ :: h => timesFired o a h
  end.

Fixpoint sumZ (f : oid -> Z) (l : list oid) : Z :=
  match l with [] => 0 | c :: l => f c + sumZ f l end%Z.

(** Was the presentation of [o] last started or last ended? *)
Fixpoint activeOf (D : doc) (o : oid) (h : list obs) : bool :=
  match h with
  | [] => false
  | OTrans e t :: h =>
    if mainb D o e then
      match t with START => true | STOP | ABORT => false | _ => activeOf D o h end
    else activeOf D o h
  | _ :: h => activeOf D o h
  end.
(** A regular history of [o]: it is only started when it is not active (NCL allows
    to start a paused object: findings 4 and 39 in DESIGN.md) and only paused or
    resumed while it is active. *)
Fixpoint regular (D : doc) (o : oid) (h : list obs) : Prop :=
  match h with
  | [] => True
  | OTrans e t :: h =>
    regular D o h /\
    (mainb D o e = true ->
     match t with START => activeOf D o h = false | PAUSE | RESUME => activeOf D o h = true | _ => True end)
  | _ :: h => regular D o h
  end.

(** The transition relation of NCL events. *)
Definition allowed (x : evstate) (t : trans) : Prop :=
  match t with
  | START => x <> OCCURRING
  | PAUSE => x = OCCURRING
  | RESUME => x = PAUSED
  | STOP | ABORT => x <> SLEEPING
  end.
Definition resulting (t : trans) : evstate :=
  match t with START | RESUME => OCCURRING | PAUSE => PAUSED | STOP | ABORT => SLEEPING end.

(** Some event of the object's presentation is not sleeping. *)
Definition activeEv (D : doc) (s : st) (e : eid) : bool := bool_decide (evState s e <> SLEEPING).
Definition activeNow (D : doc) (s : st) (o : oid) : bool :=
  match d_obj D !! o with
  | None => false
  | Some ob => existsb (fun e => (mainb D o e && activeEv D s e)%bool) (ob_events ob)
  end.
Definition countActive (D : doc) (s : st) (l : list oid) : nat :=
  length (List.filter (activeNow D s) l).

(** ** Delayed actions. *)
(** The delayed actions of [o] that fell due, in chronological order. *)
Fixpoint trigsOf (o : oid) (h : list obs) : list action :=
  match h with
  | [] => []
  | OTrig o' a :: h => trigsOf o h ++ (if decide (o' = o) then [a] else [])
  | _ :: h => trigsOf o h
  end.
(** The deadline of an action queued on [o] with delay [d] after history [h]: the
    reading of [o]'s clock plus the delay, in unsigned 64-bit arithmetic.  An object
    that is not active has the reading -1 (finding 8 in DESIGN.md). *)
Definition deadline (D : doc) (o : oid) (d : N) (h : list obs) : N :=
  ((match sinceStart D o h with Some n => n | None => TIME_NONE end + d) mod W64)%N.
(** [a] was queued on [o] and now has the deadline [x], and [o] has not ended since.
    A media that starts at one of its anchors has its deadlines brought forward by
    the begin time of the anchor. *)
Fixpoint schedSince (D : doc) (o : oid) (a : action) (x : N) (h : list obs) : Prop :=
  match h with
  | [] => False
  | OSched o' a' d :: h => (o' = o /\ a' = a /\ x = deadline D o d h) \/ schedSince D o a x h
  | OSeek o' a' b :: h => (o' = o /\ a' = a /\ schedSince D o a (x + b)%N h) \/ schedSince D o a x h
  | OTrans e t :: h => (mainb D o e && ends t)%bool = false /\ schedSince D o a x h
  | _ :: h => schedSince D o a x h
  end.
(** The last tick of the history is one of [o], and it brought the clock of [o] to
    the deadline of a queued [a] or beyond. *)
Fixpoint dueAtTick (D : doc) (o : oid) (a : action) (h : list obs) : Prop :=
  match h with
  | [] => False
  | OTick o' d :: h =>
    o' = o /\ exists x n, schedSince D o a x h /\ sinceStart D o (OTick o d :: h) = Some n /\ (x <= n)%N
  | _ :: h => dueAtTick D o a h
  end.
(** Every delayed action of [o] that fell due did so at such a tick. *)
Fixpoint firedOnTime (D : doc) (o : oid) (h : list obs) : Prop :=
  match h with
  | [] => True
  | OTrig o' a :: h => (o' = o -> dueAtTick D o a h) /\ firedOnTime D o h
  | _ :: h => firedOnTime D o h
  end.
(** [o] was started or has ended in the part of [h] that follows [h0]. *)
Definition turned (D : doc) (o : oid) (h0 h : list obs) : Prop :=
  exists h1 h2 e t, h = h1 ++ OTrans e t :: h2 ++ h0 /\ mainb D o e = true /\ t <> PAUSE /\ t <> RESUME.

(** The actions queued on [o] so far, in the order in which they were queued. *)
Fixpoint schedsOf (o : oid) (h : list obs) : list action :=
  match h with
  | [] => []
  | OSched o' a _ :: h => schedsOf o h ++ (if decide (o' = o) then [a] else [])
  | _ :: h => schedsOf o h
  end.
(** Since history [h0], [h] happened: [o] did not end nor start at one of its
    anchors, and its clock stayed below [x]. *)
Fixpoint waiting (D : doc) (o : oid) (x : N) (h h0 : list obs) : Prop :=
  match h with
  | [] => True
  | y :: h =>
    waiting D o x h h0 /\
    match y with
    | OTrans e t => (mainb D o e && ends t)%bool = false
    | OSkip o' _ | OSeek o' _ _ => o' <> o
    | OTick _ _ => match sinceStart D o (y :: h ++ h0) with Some n => (n < x)%N | None => True end
    | _ => True
    end
  end.

(** The tick increments and the keys delivered to [o], most recent first. *)
Fixpoint ticksOf (o : oid) (h : list obs) : list N :=
  match h with
  | [] => []
  | OTick o' d :: h => if decide (o' = o) then d :: ticksOf o h else ticksOf o h
  | _ :: h => ticksOf o h
  end.
Fixpoint keysOf (o : oid) (h : list obs) : list (string * bool) :=
  match h with
  | [] => []
  | OKey o' k p :: h => if decide (o' = o) then (k, p) :: keysOf o h else keysOf o h
  | _ :: h => keysOf o h
  end.

(** AnimSpec.v -- vocabulary for C29: requests to animate properties of a player,
    and redraws. *)
From Verif Require Export Animator.
Open Scope string_scope.
Open Scope list_scope.

(** A request: property, initial value ("" to start at the present one), target,
    duration in nanoseconds. *)
Record request : Type := mkReq { rq_name : string; rq_from : string; rq_to : string; rq_dur : N }.
Section Spec.
Context (rd : fl -> fl) (odd : string -> Z) (W H : Z).
Definition scheduleAll (t0 : N) (rs : list request) : list anim :=
  fold_left (fun l r => doSchedule rd odd W H t0 (rq_name r) (rq_from r) (rq_to r) (rq_dur r) l) rs [].
Definition redraws (ts : list N) (l : list anim) (c : canvas) : list anim * canvas :=
  fold_left (fun s t => animTick rd t (fst s) (snd s)) ts (l, c).
(** The animations and the canvas after the requests [rs], made at time [t0], and
    redraws at the times [ts]. *)
Definition played (t0 : N) (rs : list request) (c : canvas) (ts : list N) : list anim * canvas :=
  redraws ts (scheduleAll t0 rs) c.
(** What the user asked for, in pixels: a percentage is one of the width of the screen for a
    horizontal property, of its height for a vertical one, and of 255 for transparency. *)
Definition horizontal (name : string) : bool := existsb (String.eqb name) ["left"; "width"].
Definition vertical (name : string) : bool := existsb (String.eqb name) ["top"; "height"].
Definition onByte (name : string) : bool := existsb (String.eqb name) ["transparency"; "background"].
Definition whole (name : string) : Z := if horizontal name then W else if vertical name then H else if onByte name then 255%Z else 100%Z.
Definition most (name : string) : Z := if onByte name then 255%Z else (2 ^ 31 - 1)%Z.
Definition wanted (name s : string) : Z := parse_percent odd s (whole name) 0 (most name).
Definition startOf (r : request) (c : canvas) : option Z :=
  match cvGet (rq_name r) c with
  | None => None
  | Some v => Some (if is_empty (rq_from r) then v else wanted (rq_name r) (rq_from r))
  end.
Definition targetOf (r : request) : Z := wanted (rq_name r) (rq_to r).
End Spec.
(** [y] lies on the way from [x] to [T]. *)
Definition onTheWay (x y T : Z) : Prop := (x <= y <= T)%Z \/ (T <= y <= x)%Z.
(** The canvas of a real player: 32-bit geometry, 8-bit opacity. *)
Definition okCanvas (c : canvas) : Prop :=
  (forall n v, cvGet n c = Some v -> cvMin n <= v <= cvMax n)%Z.
Definition scheduled (n : string) (l : list anim) : Prop := In n (map an_name l).

(** Animator.v -- animation of properties: classes AnimInfo and PlayerAnimator
    (lib/PlayerAnimator.cpp).

    Every floating-point operation rounds its exact result with [rd]; the code is
    the instance [rd := rnd] (binary64).  Not modelled: background colours,
    transitions (transIn/transOut and their crop polygon), the crash of
    PlayerAnimator::schedule for bounds/location/size (animSchedule, Engine.v). *)
From Verif Require Export Num.
Open Scope string_scope.
Open Scope list_scope.

Section Animator.
Context (rd : fl -> fl).
Definition gadd (x y : fl) : fl :=
  rd ((fst x * Zpos (snd y) + fst y * Zpos (snd x))%Z, (snd x * snd y)%positive).
Definition gneg (x : fl) : fl := ((- fst x)%Z, snd x).
Definition gmul (x y : fl) : fl := rd ((fst x * fst y)%Z, (snd x * snd y)%positive).
Definition gabs (x : fl) : fl := (Z.abs (fst x), snd x).
(** x / y for y > 0 *)
Definition gdiv (x y : fl) : fl :=
  rd ((fst x * Zpos (snd y))%Z, (snd x * Z.to_pos (fst y))%positive).
Definition gltb (x y : fl) : bool := (fst x * Zpos (snd y) <? fst y * Zpos (snd x))%Z.
Definition gleb (x y : fl) : bool := (fst x * Zpos (snd y) <=? fst y * Zpos (snd x))%Z.

(** class AnimInfo, PlayerAnimator.h:27-59 (without _stateNode). *)
Record anim : Type := mkAnim {
  an_name : string; an_cur : fl; an_target : fl; an_dur : N;
  an_last : N; an_speed : fl; an_done : bool; an_init : bool }.

(** AnimInfo::AnimInfo, PlayerAnimator.cpp:475-486. *)
Definition newAnim (name : string) (from to : fl) (dur : N) : anim :=
  mkAnim name from to dur 0 (fint 1) false false.
(** AnimInfo::init, 547-558; the assertion !_init is checked by the callers. *)
Definition animInit (current : fl) (time : N) (a : anim) : anim :=
  mkAnim (an_name a) current (an_target a) (an_dur a) time
    (if (0 <? an_dur a)%N
     then gdiv (gabs (gadd (an_target a) (gneg current))) (rd (fint (Z.of_N (an_dur a))))
     else fint 0) (an_done a) true.
(** AnimInfo::update (time), 560-581. *)
Definition animUpdate (time : N) (a : anim) : anim :=
  let up := gltb (an_cur a) (an_target a) in
  let dir := if up then 1%Z else (-1)%Z in
  let dt := rd (fint (Z.of_N (tsub time (an_last a)))) in
  let cur := gadd (an_cur a) (gmul (gmul (fint dir) (an_speed a)) dt) in
  if ((an_dur a =? 0)%N || (up && gleb (an_target a) cur) || (negb up && gleb cur (an_target a)))%bool
  then mkAnim (an_name a) (an_target a) (an_target a) (an_dur a) time (an_speed a) true (an_init a)
  else mkAnim (an_name a) cur (an_target a) (an_dur a) time (an_speed a) (an_done a) (an_init a).

(** What is animated: the player's rectangle and its opacity. *)
Record canvas : Type := mkCanvas { cv_x : Z; cv_y : Z; cv_w : Z; cv_h : Z; cv_alpha : Z }.
Definition cvGet (name : string) (c : canvas) : option Z :=
  if String.eqb name "top" then Some (cv_y c)
  else if String.eqb name "left" then Some (cv_x c)
  else if String.eqb name "width" then Some (cv_w c)
  else if String.eqb name "height" then Some (cv_h c)
  else if String.eqb name "transparency" then Some (cv_alpha c)
  else None.
Definition cvSet (name : string) (v : Z) (c : canvas) : canvas :=
  if String.eqb name "top" then mkCanvas (cv_x c) v (cv_w c) (cv_h c) (cv_alpha c)
  else if String.eqb name "left" then mkCanvas v (cv_y c) (cv_w c) (cv_h c) (cv_alpha c)
  else if String.eqb name "width" then mkCanvas (cv_x c) (cv_y c) v (cv_h c) (cv_alpha c)
  else if String.eqb name "height" then mkCanvas (cv_x c) (cv_y c) (cv_w c) v (cv_alpha c)
  else if String.eqb name "transparency" then mkCanvas (cv_x c) (cv_y c) (cv_w c) (cv_h c) v
  else c.
Definition cvMin (name : string) : Z := if String.eqb name "transparency" then 0 else (-2147483648).
Definition cvMax (name : string) : Z := if String.eqb name "transparency" then 255 else 2147483647.

(** One animation in the loop of PlayerAnimator::update, 128-135 (macro UPDATE) and
    141-163, 243-246; an unknown property is left alone (247-251). *)
Definition tickOne (time : N) (a : anim) (c : canvas) : anim * canvas :=
  match cvGet (an_name a) c with
  | None => (a, c)
  | Some v =>
    let a := if an_init a then a else animInit (fint v) time a in
    let a := animUpdate time a in
    (a, cvSet (an_name a) (clamp (flround (an_cur a)) (cvMin (an_name a)) (cvMax (an_name a))) c)
  end.
Fixpoint tickAll (time : N) (l : list anim) (c : canvas) : list anim * canvas :=
  match l with
  | [] => ([], c)
  | a :: l => let '(a, c) := tickOne time a c in
              let '(l, c) := tickAll time l c in
              (a :: l, c)
  end.
(** PlayerAnimator::update, 124-256: finished animations are removed at the end. *)
Definition animTick (time : N) (l : list anim) (c : canvas) : list anim * canvas :=
  let '(l, c) := tickAll time l c in (List.filter (fun a => negb (an_done a)) l, c).

(** PlayerAnimator::doSchedule, 424-471: the new animation; [W], [H] the screen. *)
Definition anim_base (W H : Z) (name : string) : Z * Z :=
  if (String.eqb name "top" || String.eqb name "height")%bool then (H, 2147483647%Z)
  else if (String.eqb name "left" || String.eqb name "width")%bool then (W, 2147483647%Z)
  else if (String.eqb name "transparency" || String.eqb name "background")%bool then (255%Z, 255%Z)
  else (100%Z, 2147483647%Z).
Definition doSchedule (odd : string -> Z) (W H : Z) (time : N) (name from to : string) (dur : N)
    (l : list anim) : list anim :=
  let '(base, mx) := anim_base W H name in
  let current := if is_empty from then fint 0 else fint (parse_percent odd from base 0 mx) in
  let target := fint (parse_percent odd to base 0 mx) in
  let a := newAnim name current target dur in
  l ++ [if is_empty from then a else animInit current time a].
End Animator.

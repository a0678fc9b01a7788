(** Props_Anim.v -- C29: animated properties. *)
From Verif Require Import AnimSpec AnimFacts AnimTime.
Require Import Sorted.
Open Scope string_scope.
Open Scope list_scope.

(** C29.  A property asked to change from [v] to its target shows, at every redraw
    and whatever the redraw times are, a value on the way from [v] to the target,
    each redraw moves it towards the target or leaves it (no overshoot), and when
    the animation is over the property is exactly at the target. *)
Theorem C29_moves_towards_target : forall odd W H t0 rs c ts t r v,
  okCanvas c -> List.NoDup (map rq_name rs) -> In r rs -> startOf odd W H r c = Some v -> ts <> [] ->
  exists x y,
    cvGet (rq_name r) (snd (played rnd odd W H t0 rs c ts)) = Some x /\
    cvGet (rq_name r) (snd (played rnd odd W H t0 rs c (ts ++ [t]))) = Some y /\
    onTheWay v x (targetOf odd W H r) /\
    onTheWay x y (targetOf odd W H r) /\
    (~ scheduled (rq_name r) (fst (played rnd odd W H t0 rs c ts)) -> x = targetOf odd W H r).
Proof. exact (f_C29 rnd rnd_mono rnd_int rnd_idem). Qed.
Print Assumptions C29_moves_towards_target.

(** Properties that are not animated keep their value. *)
Theorem C29_others_unchanged : forall odd W H t0 rs c ts n,
  ~ In n (map rq_name rs) -> cvGet n (snd (played rnd odd W H t0 rs c ts)) = cvGet n c.
Proof. exact (f_C29_others rnd). Qed.
Print Assumptions C29_others_unchanged.

(** At a redraw once the duration has elapsed (since the request if it gave an
    initial value, else since the first redraw) the property shows the target --
    provided there were at most a million redraws; see C29_refuted. *)
Theorem C29_arrival_partial : forall odd W H t0 rs c r v ts t,
  okCanvas c -> List.NoDup (map rq_name rs) -> In r rs -> startOf odd W H r c = Some v ->
  (rq_dur r < W64)%N ->
  StronglySorted N.le (t0 :: ts ++ [t]) -> (t < W64)%N ->
  (Z.of_nat (length (ts ++ [t])) <= 1000000)%Z ->
  ((if is_empty (rq_from r) then hd t ts else t0) + rq_dur r <= t)%N ->
  cvGet (rq_name r) (snd (played rnd odd W H t0 rs c (ts ++ [t]))) = Some (targetOf odd W H r).
Proof. exact f_C29_arrival. Qed.
Print Assumptions C29_arrival_partial.

(** Non-vacuity: left goes from 0 to 50% of an 800 pixel screen in one second, and
    transparency from 255 to "20%" in two, with redraws every 300 ms. *)
Definition w_reqs : list request :=
  [mkReq "left" "0" "50%" 1000000000; mkReq "transparency" "" "20%" 2000000000].
Definition w_canvas : canvas := mkCanvas 7 3 100 100 255.
Definition w_times : list N := [300000000; 600000000; 900000000; 1200000000; 1500000000]%N.
Lemma w_canvas_ok : okCanvas w_canvas.
Proof.
  intros n v. unfold cvGet, cvMin, cvMax. cbn [w_canvas cv_x cv_y cv_w cv_h cv_alpha].
  repeat match goal with |- context [String.eqb n ?k] => destruct (String.eqb_spec n k) as [->|] end;
    cbn; intros E; try discriminate; injection E as <-; lia.
Qed.
Definition shownAll (name : string) (ts : list N) : list (option Z) :=
  map (fun k => cvGet name (snd (played rnd (fun _ => 0%Z) 800 600 0 w_reqs w_canvas (firstn k ts)))) (seq 1 (length ts)).
Example C29_example :
  okCanvas w_canvas /\ List.NoDup (map rq_name w_reqs) /\
  map (fun r => startOf (fun _ => 0%Z) 800 600 r w_canvas) w_reqs = [Some 0%Z; Some 255%Z] /\
  map (targetOf (fun _ => 0%Z) 800 600) w_reqs = [400%Z; 51%Z] /\
  shownAll "left" w_times = map Some [120; 240; 360; 400; 400]%Z /\
  shownAll "transparency" w_times = map Some [255; 224; 194; 163; 133]%Z /\
  StronglySorted N.le (0%N :: w_times) /\
  map an_name (fst (played rnd (fun _ => 0%Z) 800 600 0 w_reqs w_canvas w_times)) = ["transparency"].
Proof.
  split; [exact w_canvas_ok|]. split.
  { repeat constructor; cbn; intuition discriminate. }
  split; [vm_compute; reflexivity|]. split; [vm_compute; reflexivity|].
  split; [vm_compute; reflexivity|]. split; [vm_compute; reflexivity|].
  split; [|vm_compute; reflexivity].
  unfold w_times. repeat constructor; lia.
Qed.

(** Refuted without the bound on the number of redraws: a value moved by less than
    half a unit in the last place at each redraw stays where it is for ever.  From
    1000 to 1001 in 20000 s, redrawn every nanosecond. *)
Definition w_stall : request := mkReq "left" "1000" "1001" 20000000000000.
Definition every_ns (n : nat) : list N := map N.of_nat (seq 1 n).
Lemma every_ns_S n : every_ns (S n) = every_ns n ++ [N.of_nat (S n)].
Proof. unfold every_ns. rewrite seq_S, map_app. reflexivity. Qed.
Definition w_speed : fl := an_speed (newOf rnd (fun _ => 0%Z) 800 600 0 w_stall).
Definition w_cur : fl := rnd (fst (fint 1000), snd (fint 1000)).
Lemma stall_step t l :
  (l + 1 = t)%N -> (t < W64)%N ->
  forall a, In a [mkAnim "left" (fint 1000) (fint 1001) 20000000000000 l w_speed false true;
             mkAnim "left" (an_cur (animUpdate rnd 1 (newOf rnd (fun _ => 0%Z) 800 600 0 w_stall)))
               (fint 1001) 20000000000000 l w_speed false true] ->
  animUpdate rnd t a = mkAnim "left" (an_cur (animUpdate rnd 1 (newOf rnd (fun _ => 0%Z) 800 600 0 w_stall)))
     (fint 1001) 20000000000000 t w_speed false true.
Proof.
  intros <- Ht a Ha. unfold animUpdate at 1.
  assert (E : tsub (l + 1) l = 1%N).
  { unfold tsub. replace (l + 1 + W64 - l)%N with (1 + 1 * W64)%N by lia.
    rewrite N.mod_add by (unfold W64; lia). reflexivity. }
  destruct Ha as [<-|[<-|[]]]; cbn [an_last an_name an_cur an_target an_dur an_speed an_done an_init];
    rewrite E; vm_compute; reflexivity.
Qed.
Lemma stalled n :
  (N.of_nat (S n) < W64)%N ->
  played rnd (fun _ => 0%Z) 800 600 0 [w_stall] w_canvas (every_ns (S n)) =
  ([mkAnim "left" (an_cur (animUpdate rnd 1 (newOf rnd (fun _ => 0%Z) 800 600 0 w_stall)))
     (fint 1001) 20000000000000 (N.of_nat (S n)) w_speed false true],
   cvSet "left" 1000 w_canvas).
Proof.
  induction n as [|n IH]; intros Hn; [vm_compute; reflexivity|].
  rewrite every_ns_S. unfold played in *. rewrite redraws_snoc. rewrite IH by lia. cbn [fst snd].
  rewrite animTick_eq, tickAll_cons.
  rewrite (tickOne_some rnd _ _ _ 1000%Z) by reflexivity. cbn [tickAll fst snd an_name].
  unfold tickV, tickA. cbn [an_init an_name].
  rewrite (stall_step (N.of_nat (S (S n))) (N.of_nat (S n))); [|lia|exact Hn|right; left; reflexivity].
  cbn [an_cur an_name List.filter an_done negb]. f_equal.
Qed.
Lemma long_enough (m : N) : exists n, N.of_nat (S n) = N.succ m.
Proof. exists (N.to_nat m). rewrite Nat2N.inj_succ, N2Nat.id. reflexivity. Qed.
Theorem C29_refuted : exists r c ts t,
  okCanvas c /\ startOf (fun _ => 0%Z) 800 600 r c = Some 1000%Z /\
  StronglySorted N.le (0%N :: ts ++ [t]) /\ (t < W64)%N /\
  (0 + rq_dur r <= t)%N /\ rq_from r <> "" /\
  targetOf (fun _ => 0%Z) 800 600 r = 1001%Z /\
  cvGet (rq_name r) (snd (played rnd (fun _ => 0%Z) 800 600 0 [r] c (ts ++ [t]))) = Some 1000%Z.
Proof.
  destruct (long_enough 20000000000000%N) as [n En].
  exists w_stall, w_canvas, (every_ns n), (N.of_nat (S n)).
  rewrite <- every_ns_S.
  split; [exact w_canvas_ok|]. split; [vm_compute; reflexivity|].
  split.
  { rewrite every_ns_S. rewrite <- every_ns_S. unfold every_ns. constructor.
    - clear. generalize 1%nat as k. induction (S n) as [|m IH]; intros k; cbn; constructor; [apply IH|].
      apply List.Forall_forall. intros x Hx. apply in_map_iff in Hx as (j & <- & Hj). apply in_seq in Hj. lia.
    - apply List.Forall_forall. intros x _. lia. }
  split; [rewrite En; vm_compute; reflexivity|].
  split; [rewrite En; vm_compute; discriminate|]. split; [discriminate|].
  split; [vm_compute; reflexivity|].
  rewrite stalled by (rewrite En; vm_compute; reflexivity). vm_compute. reflexivity.
Qed.
Print Assumptions C29_refuted.

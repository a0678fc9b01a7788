(** Props_Anchor.v -- property C38: starting an anchor of a media that is asleep.
    Vocabulary: AnchorSpec.v, StartSpec.v, MediaSpec.v. *)
From Verif Require Import AnchorFacts AnchorSpec Wf Reach Witness Props_Player.
Open Scope string_scope.
Open Scope list_scope.

(** C38.  Starting an anchor of a media that is asleep (and has nothing scheduled) starts
    the media and moves it to where the anchor begins: see [startedAt].  The transition
    never fails and never starts only a part of this. *)
Theorem C38_start_at_anchor_partial : forall D, wf_doc D -> timesFit D ->
  forall o ob e ev s n b s', d_obj D !! o = Some ob -> is_media (ob_kind ob) = true ->
  d_evt D !! e = Some ev -> e ∈ ob_events ob -> ev_type ev = PRESENTATION -> isLambda ev = false ->
  screen s -> evState s (ob_lambda ob) = SLEEPING -> o_delayed (ostOf s o) = [] -> evState s e = SLEEPING ->
  tr D n e START s = Ok b s' -> b = true /\ startedAt D s s' o ob e ev.
Proof. exact f_C38. Qed.
Print Assumptions C38_start_at_anchor_partial.

(** ** What is missing, and false of the code.
    [early] is over (1 s to 2 s) before [late] (3 s to 5.5 s) begins; [short] lasts from
    1.2 s to 1.9 s. *)
Definition anchors : doc := mk
  [ (1, ctx "root" None 101 [101] [2;3] [103] []);
    (2, leaf KSettings "settings" 1 102 [102]);
    (3, mkObj KMedia "a" (Some 1) [] 103 [103;130;131;132] [] [] [] [] []) ]%positive
  [ (101, lam 1); (102, lam 2); (103, lam 3); (130, area 3 "early" (sec 1) (sec 2));
    (131, area 3 "late" (sec 3) (5500 * 1000000)%N); (132, area 3 "short" (1200 * 1000000)%N (1900 * 1000000)%N) ]%positive.
Definition anchors0 : st := init [] [].
Lemma anchors_wf : wf_doc anchors.
Proof. apply (wfb_sound anchors depth). vm_compute. reflexivity. Qed.

(** An anchor that is over before the instant sought is started all the same, and
    nothing is left in the schedule that would stop it. *)
Theorem C38_past_anchor_refuted : exists s', wf_doc anchors /\ reach anchors anchors0 /\
  tr anchors 60 131 START anchors0 = Ok true s' /\ evState s' 130 = OCCURRING /\
  o_delayed (ostOf s' 3) = [(act 131 START, 0%N); (act 131 STOP, 2500000000%N); (act 131 STOP, 2500000000%N)].
Proof.
  assert (E : run_is (tr anchors 60 131 START anchors0) (fun b s' => b && stb s' 130 OCCURRING &&
     bool_decide (o_delayed (ostOf s' 3) = [(act 131 START, 0%N); (act 131 STOP, 2500000000%N); (act 131 STOP, 2500000000%N)]))%bool = true) by (vm_compute; reflexivity).
  apply run_is_ok in E as (b & s' & E & Hs'). unfold stb in Hs'. splitb Hs'. rewrite Hs' in E. exists s'. split; [apply anchors_wf|].
  split; [apply r_init, init_init|]. split; [exact E|]. split; hyp.
Qed.
Print Assumptions C38_past_anchor_refuted.
(** The duration told to the player is in whole seconds: a media started at an anchor
    that lasts less than one second has its player told to end at once, and the media
    stops at the first tick, before the anchor ends. *)
Theorem C38_short_anchor_refuted : exists s' s'' p, wf_doc anchors /\ reach anchors anchors0 /\
  tr anchors 60 132 START anchors0 = Ok true s' /\ evState s' 103 = OCCURRING /\
  o_player (ostOf s' 3) = Some p /\ p_duration p = 0%N /\
  sendTick anchors 60 3 1 s' = Ok tt s'' /\ evState s'' 103 = SLEEPING /\ evState s'' 132 = SLEEPING.
Proof.
  assert (E : run_is (tr anchors 60 132 START anchors0) (fun b s' => b && stb s' 103 OCCURRING &&
     bool_decide ((p_duration <$> o_player (ostOf s' 3)) = Some 0%N) &&
     run_is (sendTick anchors 60 3 1 s') (fun _ s'' => stb s'' 103 SLEEPING && stb s'' 132 SLEEPING))%bool = true) by (vm_compute; reflexivity).
  apply run_is_ok in E as (b & s' & E & Hs'). unfold stb in Hs'. splitb Hs'. rewrite Hs' in E.
  match goal with HH : run_is _ _ = true |- _ => apply run_is_ok in HH as ([] & s'' & E2 & Hs2) end. unfold stb in Hs2. splitb Hs2.
  destruct (o_player (ostOf s' 3)) as [p|] eqn:Ep; [|discriminate].
  exists s', s'', p. split; [apply anchors_wf|]. split; [apply r_init, init_init|]. split; [exact E|]. split; [hyp|].
  split; [exact Ep|]. split; [|split; [exact E2|split; hyp]]. match goal with HH : _ = Some 0%N |- _ => cbn in HH; injection HH as HH; exact HH end.
Qed.
Print Assumptions C38_short_anchor_refuted.

(** ** Hypotheses met: the anchor of media a of [demo], from 1 s to 3 s. *)
Example C38_nonvacuous : exists s' ob ev, reach demo demo0 /\ timesFit demo /\ screen demo0 /\
  d_obj demo !! 3%positive = Some ob /\ is_media (ob_kind ob) = true /\ d_evt demo !! 130%positive = Some ev /\ 130%positive ∈ ob_events ob /\
  ev_type ev = PRESENTATION /\ isLambda ev = false /\
  evState demo0 (ob_lambda ob) = SLEEPING /\ o_delayed (ostOf demo0 3) = [] /\ evState demo0 130 = SLEEPING /\
  tr demo 60 130 START demo0 = Ok true s' /\ evState s' 103 = OCCURRING /\
  (p_props <$> o_player (ostOf s' 3)) ≫= lookup "time" = Some "1" /\ (p_duration <$> o_player (ostOf s' 3)) = Some (sec 2).
Proof.
  assert (E : run_is (tr demo 60 130 START demo0) (fun b s' => b && stb s' 103 OCCURRING && 
      bool_decide ((p_props <$> o_player (ostOf s' 3)) ≫= lookup "time" = Some "1") && bool_decide ((p_duration <$> o_player (ostOf s' 3)) = Some (sec 2)))%bool = true) by (vm_compute; reflexivity).
  apply run_is_ok in E as (b & s' & E & Hs'). unfold stb in Hs'. splitb Hs'. rewrite Hs' in E. exists s'. do 2 eexists. split; [apply r_init; exact demo_init|].
  split; [exact demo_times|]. split; [split; vm_compute; split; discriminate|].
  split; [vm_compute; reflexivity|]. split; [reflexivity|]. split; [vm_compute; reflexivity|].
  split; [cbn; right; left|]. split; [reflexivity|]. split; [reflexivity|]. split; [vm_compute; reflexivity|]. split; [vm_compute; reflexivity|]. split; [vm_compute; reflexivity|].
  split; [exact E|]. split; [hyp|]. split; hyp.
Qed.

(** Props_Media.v -- property C37: the natural end of a media.
    Vocabulary: MediaSpec.v, StartSpec.v, LinkSpec.v. *)
From Verif Require Import MediaFacts MediaSpec Wf Reach Witness.
Open Scope string_scope.
Open Scope list_scope.

(** C37.  A tick of a media first advances its clock and carries out what is due
    ([objTick], the subject of C03 and C04).  Then, if the media has a player: as long
    as the content is not over nothing happens but the clock of the player moving on;
    when the content is over the media is stopped, successfully, which sends every one
    of its events to sleep, releases the player, the clock and the queue, and the links
    on that stop are followed (C08, C09, C10 describe that cascade). *)
Theorem C37_natural_end : forall D, wf_doc D -> forall s, reach D s ->
  forall n o ob d s', d_obj D !! o = Some ob -> ob_kind ob = KMedia ->
  sendTick D n o d s = Ok tt s' ->
  exists s1, objTick D n o d s = Ok tt s1 /\
    (o_player (ostOf s1 o) = None -> s' = s1) /\
    forall p, o_player (ostOf s1 o) = Some p ->
      (~ contentOver p (o_time (ostOf s1 o)) -> s' = playerClock o d s1) /\
      (contentOver p (o_time (ostOf s1 o)) -> exists s2 s3 s4 echoes subs,
         Cascade D (playerClock o d s1)
           [Node (mkAct (ob_lambda ob) STOP None "" "" "") true (playerClock o d s1) s2 s3 s4 echoes subs] s' /\
         mediaStopped D s1 s2 o ob).
Proof. exact f_C37. Qed.
Print Assumptions C37_natural_end.

(** Media a of [demo] plays and reaches its end: the tick stops it, and the link of the
    root context on that stop sets its property x. *)
Example C37_nonvacuous : exists s s' p, reach demo s /\ evState s 103 = OCCURRING /\
  o_player (ostOf s 3) = Some p /\ contentOver p (sec 1) /\
  sendTick demo 60 3 (sec 1) s = Ok tt s' /\ o_player (ostOf s' 3) = None /\ propOf s 3 "x" = "0" /\ propOf s' 3 "x" = "9".
Proof.
  destruct (check_reach demo demo0 (play ++ [CTick 1 1; CEos 3]) (fun s => stb s 103 OCCURRING &&
    bool_decide ((p_eos <$> o_player (ostOf s 3)) = Some true) && bool_decide (propOf s 3 "x" = "0") &&
    run_is (sendTick demo 60 3 (sec 1) s) (fun _ s' => bool_decide ((p_eos <$> o_player (ostOf s' 3)) = None) && bool_decide (propOf s' 3 "x" = "9")))%bool) as (s & Hr & Hs);
    [apply demo_init|vm_compute; reflexivity|].
  unfold stb in Hs. splitb Hs. match goal with HH : run_is _ _ = true |- _ => apply run_is_ok in HH as ([] & s' & E & Hs') end.
  splitb Hs'. destruct (o_player (ostOf s 3)) as [p|] eqn:Ep; [|discriminate]. exists s, s', p. split; [exact Hr|]. split; [hyp|].
  split; [exact Ep|]. split; [left; match goal with HH : _ = Some true |- _ => injection HH as HH; exact HH end|].
  split; [exact E|]. split; [|split; hyp]. destruct (o_player (ostOf s' 3)); [discriminate|reflexivity].
Qed.

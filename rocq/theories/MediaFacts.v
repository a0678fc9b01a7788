(** MediaFacts.v -- the end of a media, the start at an anchor. *)
From Verif Require Import Frame SetProps Trans StartFacts StartMedia Steps Wf Reach FactsLinks PresInv FactsPres MediaSpec.
Open Scope m_scope.
Open Scope string_scope.
Open Scope list_scope.

Ltac byrun E b s' := pattern b, s'; refine (wp_ok True True _ _ _ _ b s' E); clear E b s'.
Section Media.
Context (D : doc) (rank : oid -> nat) (WF : wf_at D rank).

Lemma stop_media n s b s' o ob t : d_obj D !! o = Some ob -> is_media (ob_kind ob) = true -> (t = STOP \/ t = ABORT) ->
  evState s (ob_lambda ob) <> SLEEPING -> tr D n (ob_lambda ob) t s = Ok b s' -> b = true /\ mediaStopped D s s' o ob.
Proof.
  intros Ho Hm Ht Hs E. byrun E b s'.
  destruct (lam_obj D rank WF _ _ Ho) as (ev & He & Heo & Hl & Et).
  destruct n as [|n]; [exact I|]. rewrite tr_S. unfold tr_body. w1. apply wp_getE; [done|]. intros ev' He'.
  assert (ev' = ev) as -> by congruence. clear He'. w1. w1.
  assert (legal (evState s (ob_lambda ob)) t = true) as -> by (destruct Ht as [-> | ->]; by destruct (evState s (ob_lambda ob))).
  cbn [negb]. w1. unfold before. w1. rewrite Heo. apply wp_getO; [done|]. intros ob' Ho'. assert (ob' = ob) as -> by congruence. clear Ho'.
  eapply (wp_mono _ _ _ (fun b1 s1 => b1 = true /\ s1 = s)).
  { assert (G : pwp (media_before D (tr D n) (fun a => loop D n [a]) o (ob_lambda ob) ev t) (fun b1 s1 => b1 = true /\ s1 = s) s).
    2:{ destruct (ob_kind ob); try done. }
    unfold media_before. rewrite Et. by destruct Ht as [-> | ->]; w1. }
  intros b1 s1 [-> ->]. cbv beta. cbn [negb]. w1. w1. w1. w1. w1.
  match goal with |- wp _ _ _ _ ?z => set (s2 := z) end.
  assert (S2 : (forall o', ostOf s2 o' = ostOf s o') /\ forall e', e' <> ob_lambda ob -> evState s2 e' = evState s e').
  { unfold s2. split; [done|]. intros e' Hne. sts. by rewrite decide_False. }
  destruct S2 as (O2 & W2). clearbody s2.
  unfold after. w1. apply wp_getO; [done|]. intros ob' Ho'. assert (ob' = ob) as -> by congruence. clear Ho'.
  assert (G : pwp (media_after D o (ob_lambda ob) ev t) (fun b3 s3 => b3 = true /\ mediaStopped D s s3 o ob) s2).
  2:{ eapply (wp_mono _ _ _ (fun b3 s3 => b3 = true /\ mediaStopped D s s3 o ob)).
      - destruct (ob_kind ob); try done.
      - intros b3 s3 [-> H3]. cbv beta. w1. done. }
  unfold media_after. w1. w1. rewrite Et, Hl. cbv beta iota.
  assert (Hin : ob_lambda ob ∈ ob_events ob) by (destruct (wo_lambda _ _ _ _ (wf_o _ _ WF _ _ Ho)) as (? & _ & _ & ?); done).
  assert (G : pwp (assertm (bool_decide (o_player (ostOf s2 o) <> None)) "Media.cpp:370" ;; mediaDoStop D o ;; ret true) (fun b3 s3 => b3 = true /\ mediaStopped D s s3 o ob) s2).
  2:{ destruct Ht as [-> | ->]; exact G. }
  w1. w1. match goal with Hb : bool_decide _ = true |- _ => apply bool_decide_eq_true in Hb as HP end. w1.
  apply wp_mediaDoStop; [done|done|by destruct (o_player (ostOf s2 o))|].
  intros s3 _ _ _ _ _ V3 O3. w1. split; [done|]. split.
  - intros e Hin'. unfold evState. rewrite V3, decide_True by (by exists ob). done.
  - intros e Hn. unfold evState. rewrite V3, decide_False; [|by intros (ob' & Ho' & Hin'); assert (ob' = ob) as -> by congruence].
    apply W2. by intros ->.
  - by rewrite O3, decide_True.
  - by rewrite O3, decide_True.
  - by rewrite O3, decide_True.
  - intros o' Hne. rewrite O3, decide_False by done. by rewrite O2.
Qed.
Lemma attempt_stop n s b s' o ob : d_obj D !! o = Some ob -> is_media (ob_kind ob) = true ->
  evState s (ob_lambda ob) <> SLEEPING -> attempt D (tr D n) (mkAct (ob_lambda ob) STOP None "" "" "") s = Ok b s' -> b = true /\ mediaStopped D s s' o ob.
Proof.
  intros Ho Hm Hs E. byrun E b s'. unfold attempt, setParam. w1. w1. w1. apply wp_getE; [done|]. intros ev He. w1. w1. w1.
  destruct (lam_obj D rank WF _ _ Ho) as (ev' & He' & Heo & Hl & Et). cbn [ac_evt ac_tr ac_dur ac_value] in *. assert (ev' = ev) as -> by congruence.
  rewrite Et. rewrite bool_decide_false by done. unfold whenm. w1.
  match goal with |- wp _ _ _ _ ?z => set (s2 := z) end.
  assert (V2 : forall e, evState s2 e = evState s e) by (intros e; unfold s2; by sts).
  destruct (tr D n (ob_lambda ob) STOP s2) as [b2 s3| |] eqn:E2; unfold wp; rewrite E2; [|done..].
  apply (stop_media n s2 b2 s3 o ob) in E2; [|done|done|by left|by rewrite V2]. destruct E2 as [-> [M1 M2 M3 M4 M5 M6]]. split; [done|].
  split; try done. intros e He2. by rewrite M2, V2.
Qed.

Lemma over_dec p c : (p_eos p || (tvalid (p_duration p) && (p_duration p <? c)%N))%bool = true <-> contentOver p c.
Proof.
  unfold contentOver, tvalid. rewrite orb_true_iff, andb_true_iff, negb_true_iff, N.eqb_neq, N.ltb_lt. done.
Qed.
Lemma end_media s : reach D s -> forall n o ob d s', d_obj D !! o = Some ob -> ob_kind ob = KMedia ->
  sendTick D n o d s = Ok tt s' ->
  exists s1, objTick D n o d s = Ok tt s1 /\
    (o_player (ostOf s1 o) = None -> s' = s1) /\
    forall p, o_player (ostOf s1 o) = Some p ->
      (~ contentOver p (o_time (ostOf s1 o)) -> s' = playerClock o d s1) /\
      (contentOver p (o_time (ostOf s1 o)) -> exists s2 s3 s4 echoes subs,
         Cascade D (playerClock o d s1) [Node (mkAct (ob_lambda ob) STOP None "" "" "") true (playerClock o d s1) s2 s3 s4 echoes subs] s' /\
         mediaStopped D s1 s2 o ob).
Proof.
  intros Hr n o ob d s' Ho Hk E. unfold sendTick, getO, ofoption, bind in E. rewrite Ho in E. unfold ret in E. rewrite Hk in E.
  unfold mediaTick, bind in E. destruct (objTick D n o d s) as [[] s1| |] eqn:E1; [|done..]. exists s1. split; [done|].
  assert (Hr1 : reach D s1) by (by eapply r_half).
  unfold get in E. destruct (o_player (ostOf s1 o)) as [p|] eqn:Ep.
  2:{ injection E as <-. split; [done|]. intros p [=]. }
  split; [done|]. intros q [= <-]. unfold updPlayer, modify in E. change (upd_ob o _ s1) with (playerClock o d s1) in E. cbv beta iota in E.
  pose proof (over_dec p (o_time (ostOf s1 o))) as HO.
  destruct (p_eos p || _)%bool.
  - split; [intros Hn; exfalso; apply Hn; by apply HO|]. intros _.
    unfold getO, ofoption, ret in E. rewrite Ho in E. cbv beta iota in E.
    destruct (evalAction D n (mkA (ob_lambda ob) STOP "") (playerClock o d s1)) as [k s2| |] eqn:E2; [|done..]. injection E as <-.
    apply f_cascade in E2 as (t & HC & Hroot & _). destruct t as [a ok s0 s2' s3 s4 ech subs]. cbn [root] in Hroot. subst a.
    assert (Hm : is_media (ob_kind ob) = true) by (by rewrite Hk).
    assert (Hs : evState (playerClock o d s1) (ob_lambda ob) <> SLEEPING).
    { unfold playerClock. sts. apply (f_C02 D (ex_intro _ rank WF) s1 Hr1 o ob Ho Hm). rewrite Ep. discriminate. }
    assert (G : ok = true /\ s0 = playerClock o d s1 /\ mediaStopped D (playerClock o d s1) s2' o ob).
    { inversion HC; subst.
      - match goal with K : attempt _ _ _ _ = Ok false _ |- _ => apply (attempt_stop _ _ _ _ o ob Ho Hm Hs) in K as [? _] end. done.
      - split; [done|]. split; [done|]. match goal with K : attempt _ _ _ _ = Ok true _ |- _ => apply (attempt_stop _ _ _ _ o ob Ho Hm Hs) in K as [_ K]; exact K end. }
    destruct G as (-> & -> & [M1 M2 M3 M4 M5 M6]). exists s2', s3, s4, ech, subs. split; [done|]. split; try done.
    intros o' Hne. destruct (M6 o' Hne) as (-> & -> & -> & ->). unfold playerClock. sts. by rewrite decide_False.
  - split; [by injection E as <-|]. intros Hc. apply HO in Hc. done.
Qed.
End Media.
Lemma f_C37 D : wf_doc D -> forall s, reach D s ->
  forall n o ob d s', d_obj D !! o = Some ob -> ob_kind ob = KMedia ->
  sendTick D n o d s = Ok tt s' ->
  exists s1, objTick D n o d s = Ok tt s1 /\
    (o_player (ostOf s1 o) = None -> s' = s1) /\
    forall p, o_player (ostOf s1 o) = Some p ->
      (~ contentOver p (o_time (ostOf s1 o)) -> s' = playerClock o d s1) /\
      (contentOver p (o_time (ostOf s1 o)) -> exists s2 s3 s4 echoes subs,
         Cascade D (playerClock o d s1) [Node (mkAct (ob_lambda ob) STOP None "" "" "") true (playerClock o d s1) s2 s3 s4 echoes subs] s' /\
         mediaStopped D s1 s2 o ob).
Proof. intros [rank WF] s Hr. exact (end_media D rank WF s Hr). Qed.

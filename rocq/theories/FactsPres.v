(** FactsPres.v -- the statements of Props_Pres.v, proved. *)
From Verif Require Export Trans Count Witness.
Open Scope string_scope.
Open Scope list_scope.

Lemma legal_allowed x t : legal x t = true <-> allowed x t.
Proof. destruct t, x; cbn; split; intros; try done; try discriminate. Qed.
Lemma f_C01 : forall D, wf_doc D -> forall n e ev t s b s',
  d_evt D !! e = Some ev -> tr D n e t s = Ok b s' ->
  (~ allowed (evState s e) t -> b = false /\ s' = s) /\
  (b = true -> allowed (evState s e) t /\ evState s' e = resulting t).
Proof.
  intros D [rank WF] n e ev t s b s' He E. destruct (tr_ok D rank WF n e ev t s b s' He E) as [H1 H2]. split.
  - intros Hn. apply H1. apply not_true_is_false. by rewrite legal_allowed.
  - intros Hb. destruct (H2 Hb) as [H3 H4]. split; [by apply legal_allowed|]. rewrite H4. by destruct t.
Qed.
Lemma f_C01_illegal : forall D n e ev t s,
  d_evt D !! e = Some ev -> ~ allowed (evState s e) t -> tr D (S n) e t s = Ok false s.
Proof.
  intros D n e ev t s He Hn. rewrite tr_S. unfold tr_body, getE, ofoption, bind, ret, gets.
  rewrite He. destruct (legal (evState s e) t) eqn:E; [|done]. apply legal_allowed in E. done.
Qed.

Lemma f_C02 : forall D, wf_doc D -> forall s, reach D s ->
  forall o ob, d_obj D !! o = Some ob -> is_media (ob_kind ob) = true ->
  (o_player (ostOf s o) <> None <-> evState s (ob_lambda ob) <> SLEEPING).
Proof.
  intros D [rank WF] s Hr o ob Ho Hk. pose proof (player_reach D rank WF s Hr o ob Ho) as H.
  rewrite Hk in H. cbn [andb] in H. unfold pl in H.
  destruct (bool_decide_reflect (evState s (ob_lambda ob) <> SLEEPING)) as [Hs|Hs];
    destruct (o_player (ostOf s o)); done.
Qed.
Lemma f_C02_hist : forall D, wf_doc D -> forall s, reach D s -> forall o, alternating (playerHist o (s_log s)).
Proof. intros D [rank WF] s Hr o. by apply (hist_reach D rank WF s Hr o). Qed.

Lemma f_C03_media : forall D, wf_doc D -> forall s, reach D s ->
  forall o ob, d_obj D !! o = Some ob -> is_media (ob_kind ob) = true ->
  match sinceStart D o (s_log s) with
  | Some n => evState s (ob_lambda ob) <> SLEEPING /\ o_time (ostOf s o) = (n mod 2 ^ 64)%N
  | None => evState s (ob_lambda ob) = SLEEPING /\ o_time (ostOf s o) = TIME_NONE
  end.
Proof.
  intros D [rank WF] s Hr o ob Ho Hk. pose proof (media_clock_reach D rank WF s Hr o ob Ho Hk) as H.
  rewrite <- (state_reach D rank WF s Hr o ob Ho) in H.
  pose proof (clock_reach D rank WF s Hr o ob Ho) as H2.
  destruct (sinceStart D o (s_log s)) as [n|]; cbn in H2.
  - split; [|exact H2]. intros E. apply H in E. done.
  - split; [by apply H|done].
Qed.
Lemma f_C03_all : forall D, wf_doc D -> forall s, reach D s ->
  forall o ob, d_obj D !! o = Some ob -> regular D o (s_log s) ->
  evState s (ob_lambda ob) <> SLEEPING ->
  exists n, sinceStart D o (s_log s) = Some n /\ o_time (ostOf s o) = (n mod 2 ^ 64)%N.
Proof. intros D [rank WF] s Hr o ob Ho Hreg Hs. exact (clock_regular D rank WF s o ob Hr Ho Hreg Hs). Qed.
Lemma f_C03_refuted : exists D s o ob, wf_doc D /\ reach D s /\ d_obj D !! o = Some ob /\
  evState s (ob_lambda ob) = OCCURRING /\ o_time (ostOf s o) = TIME_NONE.
Proof.
  destruct (check_reach w_pause (init [] []) w_pause_calls
    (fun s => bool_decide (evState s 103 = OCCURRING) && (o_time (ostOf s 3) =? TIME_NONE)%N)%bool) as (s & Hr & Hs).
  - apply init_init.
  - vm_compute. reflexivity.
  - apply andb_prop in Hs as [H1 H2]. apply bool_decide_eq_true in H1. apply N.eqb_eq in H2.
    exists w_pause, s, 3%positive. eexists. split; [apply w_pause_wf|]. split; [done|].
    split; [reflexivity|]. done.
Qed.

Lemma f_C07_starts_minus_ends : forall D, wf_doc D -> forall s, reach D s ->
  forall p pb, d_obj D !! p = Some pb -> ob_kind pb = KContext ->
  o_awake (ostOf s p) = sumZ (fun c => runs D c (s_log s)) (ob_children pb).
Proof. intros D [rank WF] s Hr p pb. exact (awake_reach D rank WF s Hr p pb). Qed.
Lemma f_C07_count : forall D, wf_doc D -> forall s, reach D s ->
  forall p pb, d_obj D !! p = Some pb -> ob_kind pb = KContext ->
  (forall c, c ∈ ob_children pb -> regular D c (s_log s)) ->
  o_awake (ostOf s p) = Z.of_nat (countActive D s (ob_children pb)).
Proof. intros D [rank WF] s Hr p pb Hp Hk Hreg. exact (count_reach D rank WF s p pb Hr Hp Hk Hreg). Qed.
Lemma f_C07_end : forall D, wf_doc D -> forall s, reach D s ->
  forall n o ob d s', d_obj D !! o = Some ob -> ob_kind ob = KContext ->
  sendTick D n o d s = Ok tt s' ->
  exists s1, objTick D n o d s = Ok tt s1 /\
    ((forall c, c ∈ ob_children ob -> regular D c (s_log s1)) ->
     let k := countActive D s1 (ob_children ob) in
     if (Nat.eqb k 0 || (bool_decide (ob_parent ob = None) && Nat.eqb k 1))%bool
     then exists k, evalAction D n (mkAct (ob_lambda ob) STOP None "" "" "") s1 = Ok k s'
     else s' = s1).
Proof. intros D [rank WF] s Hr n o ob d s' Ho Hk H. exact (ctxTick_count D rank WF n o ob d s s' Ho Hk Hr H). Qed.
Lemma objTick_idle D n o ob d s : d_obj D !! o = Some ob -> evState s (ob_lambda ob) = OCCURRING ->
  tvalid (o_time (ostOf s o)) = true -> o_delayed (ostOf s o) = [] ->
  exists s', objTick D n o d s = Ok tt s' /\ s_ev s' = s_ev s /\ o_awake (ostOf s' o) = o_awake (ostOf s o).
Proof.
  intros Ho He Ht Hq.
  assert (H : wp False False (objTick D n o d) (fun _ s' => s_ev s' = s_ev s /\ o_awake (ostOf s' o) = o_awake (ostOf s o)) s).
  { unfold objTick, isOccurring, objState. w1. w1. w1. w1. w1. apply wp_getO; [by rewrite Ho|]. intros ob' Ho'.
    simplify_eq. w1. w1. sts. rewrite He, bool_decide_true by done. w1. w1. w1. w1; sts_in H; [congruence|].
    w1. w1. w1. w1. w1. w1. sts. rewrite decide_True by done. cbn [os_set_time o_delayed]. sts. rewrite Hq.
    w1. cbn [due List.filter map run_triggered]. w1. w1. split; [done|]. sts.
    rewrite !decide_True by done. done. }
  unfold wp in H. destruct (objTick D n o d s) as [[] s'| |]; [|done..]. eauto.
Qed.
Lemma f_C07_refuted : exists D s p pb, wf_doc D /\ reach D s /\ d_obj D !! p = Some pb /\
  ob_kind pb = KContext /\ ob_parent pb <> None /\ evState s (ob_lambda pb) = OCCURRING /\
  countActive D s (ob_children pb) = 0 /\
  forall n d, exists s', sendTick D n p d s = Ok tt s' /\ evState s' (ob_lambda pb) = OCCURRING.
Proof.
  destruct (check_reach w_restart (init [] []) w_restart_calls
    (fun s => bool_decide (evState s 103 = OCCURRING) && (countActive w_restart s [4%positive] =? 0)%nat
       && (o_awake (ostOf s 3) =? 1)%Z && (o_time (ostOf s 3) =? 0)%N && bool_decide (o_delayed (ostOf s 3) = []))%bool) as (s & Hr & Hs).
  - apply init_init.
  - vm_compute. reflexivity.
  - apply andb_prop in Hs as [[[[H1 H2]%andb_prop H3]%andb_prop H4]%andb_prop H5].
    apply bool_decide_eq_true in H1, H5. apply Nat.eqb_eq in H2. apply Z.eqb_eq in H3. apply N.eqb_eq in H4.
    exists w_restart, s, 3%positive. eexists. split; [apply w_restart_wf|]. split; [done|].
    split; [reflexivity|]. split; [done|]. split; [done|]. split; [done|]. split; [done|].
    intros n d. cbn [ob_lambda ctx].
    destruct (objTick_idle w_restart n 3 (ctx "c" (Some 1%positive) 103 [103%positive] [4%positive] [104%positive] []) d s)
      as (s' & E1 & E2 & E3); [reflexivity|done|by rewrite H4|done|].
    exists s'. split; [|by rewrite (evState_sev _ _ _ E2)].
    unfold sendTick, getO, ofoption, bind, ret.
    change (d_obj w_restart !! 3%positive) with (Some (ctx "c" (Some 1%positive) 103 [103%positive] [4%positive] [104%positive] [])).
    cbn [ctx ob_kind]. unfold ctxTick, bind, getO, ofoption, get, ret. rewrite E1.
    change (d_obj w_restart !! 3%positive) with (Some (ctx "c" (Some 1%positive) 103 [103%positive] [4%positive] [104%positive] [])).
    cbv beta iota zeta. rewrite E3, H3. cbn [ctx ob_parent]. rewrite bool_decide_false by done. reflexivity.
Qed.

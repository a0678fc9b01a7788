(** Count.v -- the awake-children counter and the clock on regular histories. *)
From Verif Require Export PresInv.
Open Scope string_scope.
Open Scope list_scope.

Section Count.
Context (D : doc) (rank : oid -> nat) (WF : wf_at D rank).

Lemma activeNow_spec s o ob : d_obj D !! o = Some ob ->
  activeNow D s o = true <-> exists e, mainE D o ob e /\ evState s e <> SLEEPING.
Proof.
  intros Ho. unfold activeNow, activeEv. rewrite Ho, existsb_exists. split.
  - intros (e & He & [Hm Ha]%andb_prop). apply bool_decide_eq_true in Ha.
    exists e. split; [by apply (mainb_spec D o ob e)|done].
  - intros (e & Hm & Ha). exists e. split.
    + apply elem_of_list_In. by apply (mainE_events D rank WF o ob e Ho).
    + apply andb_true_intro. split; [by apply (mainb_spec D o ob e)|]. by rewrite bool_decide_true.
Qed.
Lemma activeNow_lambda s o ob : d_obj D !! o = Some ob -> ob_kind ob <> KSwitch ->
  activeNow D s o = bool_decide (evState s (ob_lambda ob) <> SLEEPING).
Proof.
  intros Ho Hk. apply eq_true_iff_eq. rewrite (activeNow_spec s o ob Ho), bool_decide_eq_true. split.
  - intros (e & [->|[Hk' _]] & Ha); [done|]. done.
  - intros H. exists (ob_lambda ob). split; [by left|done].
Qed.
Lemma active_some h o : is_Some (sinceStart D o h) <-> activeOf D o h = true.
Proof.
  induction h as [|x h IH]; cbn; [split; [by intros []|done]|].
  destruct x; try done.
  - destruct (mainb D o e); [|done]. destruct t; try done; split; try done; by intros [].
  - destruct (_ && _)%bool; [|done]. by rewrite fmap_is_Some.
Qed.

Lemma activeOf_quiet o h h' : (h' = h \/ exists x, silent x = true /\ h' = x :: h) -> activeOf D o h' = activeOf D o h.
Proof. intros [->|([] & Hs & ->)]; done. Qed.
Lemma regular_quiet o h h' : (h' = h \/ exists x, silent x = true /\ h' = x :: h) -> regular D o h' -> regular D o h.
Proof. intros [->|([] & Hs & ->)]; done. Qed.

Lemma regular_reach s : reach D s -> forall o ob, d_obj D !! o = Some ob -> regular D o (s_log s) ->
  runs D o (s_log s) = (if activeOf D o (s_log s) then 1 else 0)%Z /\
  activeNow D s o = activeOf D o (s_log s).
Proof.
  revert s. apply (pres_ind D rank WF (fun s => forall o ob, d_obj D !! o = Some ob -> regular D o (s_log s) ->
  runs D o (s_log s) = (if activeOf D o (s_log s) then 1 else 0)%Z /\
  activeNow D s o = activeOf D o (s_log s))).
  - intros s Hi o ob Ho _. rewrite (in_log _ _ Hi). cbn. split; [done|].
    apply not_true_is_false. rewrite (activeNow_spec s o ob Ho). intros (e & _ & He).
    by rewrite (in_ev _ _ Hi) in He.
  - intros s s' HI Hst o ob Ho Hreg.
    assert (Hsame : (forall e, mainE D o ob e -> evState s' e = evState s e) -> activeNow D s' o = activeNow D s o).
    { intros He. apply eq_true_iff_eq. rewrite !(activeNow_spec _ o ob Ho).
      split; intros (e & Hm & Ha); exists e; (split; [done|]); [rewrite <- He by done|rewrite He by done]; done. }
    destruct Hst as [He _ _ _ Hl | o1 ob1 e ev t Ho1 Hev Hin Heo Hkk He _ _ _ Hl
                    | o1 ob1 e cr Ho1 Hm Hin Hc1 Hc2 He _ _ _ Hl
                    | o1 ob1 e t Ho1 Hm Hin Ht Hns Hpl He _ _ _ Hl | o1 ob1 d Ho1 Hv He _ _ _ Hl].
    + rewrite (activeOf_quiet _ _ _ Hl), (runs_quiet D _ _ _ Hl), Hsame by auto.
      eapply HI; eauto. by eapply regular_quiet.
    + rewrite Hl in Hreg |- *. destruct Hreg as [Hreg Hr]. destruct (HI o ob Ho Hreg) as [H1 H2].
      cbn [runs activeOf]. destruct (mainb D o e) eqn:Em.
      * destruct (decide (o1 = o)) as [->|Hn1]; [|by rewrite (mainb_other D rank WF o1 ob1 e o) in Em].
        assert (ob1 = ob) as -> by congruence. apply (mainb_spec D _ _ _ Ho) in Em.
        destruct Hkk as [Hkk|(_ & Ht & _)]; [done|]. specialize (Hr eq_refl).
        assert (Hact : activeOf D o (s_log s) = true) by (by destruct Ht as [-> | ->]).
        rewrite Hact in *. assert (Ha' : activeNow D s' o = true).
        { apply (activeNow_spec s' o ob Ho). exists e. split; [done|]. rewrite He, decide_True by done.
          by destruct Ht as [-> | ->]. }
        by destruct Ht as [-> | ->].
      * rewrite Hsame; [done|]. intros e' Hm'. rewrite He, decide_False; [done|]. intros ->.
        apply (mainb_spec D o ob e' Ho) in Hm'. congruence.
    + rewrite Hl in Hreg |- *. cbn [regular] in Hreg. destruct Hreg as [Hreg Hr].
      assert (Hreg' : regular D o (s_log s)) by (by destruct cr).
      destruct (HI o ob Ho Hreg') as [H1 H2]. cbn [runs activeOf].
      assert (E1 : runs D o ((if cr then [OPlayer o1 true] else []) ++ s_log s) = runs D o (s_log s)) by (by destruct cr).
      assert (E2 : activeOf D o ((if cr then [OPlayer o1 true] else []) ++ s_log s) = activeOf D o (s_log s)) by (by destruct cr).
      rewrite E1, E2. rewrite E2 in Hr. destruct (decide (o1 = o)) as [->|Hn1].
      * assert (ob1 = ob) as -> by congruence. assert (Em := Hm). apply (mainb_spec D o ob e Ho) in Em.
        rewrite Em. rewrite H1, (Hr Em). split; [done|].
        apply (activeNow_spec s' o ob Ho). exists e. split; [done|]. by rewrite He, decide_True.
      * rewrite (mainb_other D rank WF o1 ob1 e o) by done. rewrite Hsame; [done|].
        intros e' Hm'. rewrite He, decide_False; [done|]. intros ->. apply Hn1.
        eapply (events_disjoint D rank WF); eauto. by apply (mainE_events D rank WF o ob e' Ho).
    + rewrite Hl in Hreg |- *.
      set (h1 := (if is_media (ob_kind ob1) then [OPlayer o1 false] else []) ++ OTrans e t :: s_log s) in *.
      assert (E1 : runs D o h1 = runs D o (OTrans e t :: s_log s)) by (unfold h1; by destruct (is_media _)).
      assert (E2 : activeOf D o h1 = activeOf D o (OTrans e t :: s_log s)) by (unfold h1; by destruct (is_media _)).
      assert (Hreg' : regular D o (s_log s)) by (unfold h1 in Hreg; destruct (is_media _); by destruct Hreg).
      destruct (HI o ob Ho Hreg') as [H1 H2]. rewrite E1, E2. cbn [runs activeOf].
      destruct (decide (o1 = o)) as [->|Hn1].
      * assert (ob1 = ob) as -> by congruence. rewrite (proj2 (mainb_spec D o ob e Ho) Hm).
        assert (Hact : activeOf D o (s_log s) = true).
        { rewrite <- H2. apply (activeNow_spec s o ob Ho). eauto. }
        rewrite Hact in H1.
        assert (Ha' : activeNow D s' o = false).
        { apply not_true_is_false. rewrite (activeNow_spec s' o ob Ho). intros (e' & Hm' & He').
          rewrite He in He'. rewrite decide_True in He'; [done|]. exists ob. split; [done|].
          by apply (mainE_events D rank WF o ob e' Ho). }
        destruct Ht as [-> | ->]; split; try done; lia.
      * rewrite (mainb_other D rank WF o1 ob1 e o) by done. rewrite Hsame; [done|].
        intros e' Hm'. rewrite He, decide_False; [done|]. intros (ob2 & Ho2 & Hin2). apply Hn1.
        eapply (events_disjoint D rank WF); eauto. by apply (mainE_events D rank WF o ob e' Ho).
    + rewrite Hl in Hreg |- *. cbn [runs activeOf]. rewrite Hsame by auto. by apply (HI o ob).
Qed.

Lemma count_sum s l :
  (forall c, c ∈ l -> runs D c (s_log s) = (if activeNow D s c then 1 else 0)%Z) ->
  sumZ (fun c => runs D c (s_log s)) l = Z.of_nat (countActive D s l).
Proof.
  unfold countActive. induction l as [|c l IH]; intros H; cbn; [done|].
  rewrite (H c) by left. rewrite IH by (intros; apply H; by right).
  destruct (activeNow D s c); cbn [length]; lia.
Qed.
Lemma count_reach s p pb : reach D s -> d_obj D !! p = Some pb -> ob_kind pb = KContext ->
  (forall c, c ∈ ob_children pb -> regular D c (s_log s)) ->
  o_awake (ostOf s p) = Z.of_nat (countActive D s (ob_children pb)).
Proof.
  intros Hr Hp Hk Hreg. rewrite (awake_reach D rank WF s Hr p pb Hp Hk). apply count_sum.
  intros c Hc. destruct (wo_children _ _ _ _ (wf_o _ _ WF _ _ Hp) _ Hc) as (cb & Hcb & _).
  destruct (regular_reach s Hr c cb Hcb (Hreg c Hc)) as [-> ->]. done.
Qed.
Lemma clock_regular s o ob : reach D s -> d_obj D !! o = Some ob -> regular D o (s_log s) ->
  evState s (ob_lambda ob) <> SLEEPING ->
  exists n, sinceStart D o (s_log s) = Some n /\ o_time (ostOf s o) = (n mod W64)%N.
Proof.
  intros Hr Ho Hreg Hs. destruct (regular_reach s Hr o ob Ho Hreg) as [_ H].
  assert (Hn : activeNow D s o = true) by (apply (activeNow_spec s o ob Ho); exists (ob_lambda ob); split; [by left|done]).
  rewrite H in Hn. apply active_some in Hn as [n Hn]. exists n. split; [done|].
  by rewrite (clock_reach D rank WF s Hr o ob Ho), Hn.
Qed.

(** The end test of a context's tick, Context.cpp:146-168. *)
Lemma ctxTick_end n o ob d s s' : d_obj D !! o = Some ob -> ob_kind ob = KContext ->
  sendTick D n o d s = Ok tt s' ->
  exists s1, objTick D n o d s = Ok tt s1 /\
    ((o_awake (ostOf s1 o) = 0 /\ exists k, evalAction D n (mkA (ob_lambda ob) STOP "") s1 = Ok k s')
     \/ (o_awake (ostOf s1 o) = 1 /\ ob_parent ob = None /\
          exists k, evalAction D n (mkA (ob_lambda ob) STOP "") s1 = Ok k s')
     \/ (o_awake (ostOf s1 o) <> 0 /\ (ob_parent ob = None -> o_awake (ostOf s1 o) <> 1) /\ s' = s1))%Z.
Proof.
  intros Ho Hk. unfold sendTick, getO, ofoption, bind, ret. rewrite Ho, Hk.
  unfold ctxTick, bind, get, getO, ofoption, ret. destruct (objTick D n o d s) as [[] s1| |] eqn:E; try done.
  rewrite Ho. intros H. exists s1. split; [done|].
  destruct (Z.eqb_spec (o_awake (ostOf s1 o)) 0) as [E0|E0].
  - rewrite E0 in H. cbn [Z.eqb] in H. rewrite andb_false_r in H. left. split; [done|].
    destruct (evalAction D n _ s1) as [k s2| |] eqn:E2; try done. simplify_eq. eauto.
  - right. destruct (Z.eqb_spec (o_awake (ostOf s1 o)) 1) as [E1|E1].
    + destruct (bool_decide (ob_parent ob = None)) eqn:Ep; cbn [andb] in H.
      * left. apply bool_decide_eq_true in Ep. split; [done|]. split; [done|].
        destruct (isOccurring D (d_settings D) s1) as [[] s2| |] eqn:E2; try done.
        assert (s2 = s1) as ->.
        { unfold isOccurring, objState, bind, getO, ofoption, gets, ret in E2.
          destruct (d_obj D !! d_settings D); by simplify_eq. }
        destruct (evalAction D n _ s1) as [k s2| |] eqn:E3; try done. simplify_eq. eauto.
      * apply bool_decide_eq_false in Ep. right. simplify_eq. done.
    + rewrite andb_false_r in H. right. by simplify_eq.
Qed.
Lemma ctxTick_count n o ob d s s' : d_obj D !! o = Some ob -> ob_kind ob = KContext -> reach D s ->
  sendTick D n o d s = Ok tt s' ->
  exists s1, objTick D n o d s = Ok tt s1 /\
    ((forall c, c ∈ ob_children ob -> regular D c (s_log s1)) ->
     let k := countActive D s1 (ob_children ob) in
     if (Nat.eqb k 0 || (bool_decide (ob_parent ob = None) && Nat.eqb k 1))%bool
     then exists k, evalAction D n (mkA (ob_lambda ob) STOP "") s1 = Ok k s'
     else s' = s1).
Proof.
  intros Ho Hk Hr H. destruct (ctxTick_end n o ob d s s' Ho Hk H) as (s1 & E & HH).
  exists s1. split; [done|]. intros Hreg. cbv zeta.
  assert (Hr1 : reach D s1) by (by eapply r_half).
  rewrite (count_reach s1 o ob Hr1 Ho Hk Hreg) in HH.
  destruct HH as [[H1 H2]|[(H1 & H2 & H3)|(H1 & H2 & H3)]].
  - replace (countActive _ _ _) with 0 by lia. done.
  - replace (countActive _ _ _) with 1 by lia. rewrite bool_decide_true by done. done.
  - destruct (Nat.eqb_spec (countActive D s1 (ob_children ob)) 0); [lia|]. cbn [orb].
    destruct (Nat.eqb_spec (countActive D s1 (ob_children ob)) 1); [|by rewrite andb_false_r].
    rewrite bool_decide_false; [done|]. intros Hp. apply H2 in Hp. lia.
Qed.
End Count.

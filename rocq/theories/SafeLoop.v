(** SafeLoop.v -- on calm documents no action that links, ticks and keys evaluate
    aborts (C34, positive part): the links. *)
From Verif Require Export SafeInv.
Open Scope string_scope.
Open Scope list_scope.
Open Scope m_scope.

Section SafeLoop.
Context (D : doc) (rank : oid -> nat) (WF : wf_at D rank) (CD : calmDoc D) (B : oid -> N).
Context (rb sb : obj) (Hrb : d_obj D !! d_root D = Some rb) (Hsb : d_obj D !! d_settings D = Some sb).
Notation KK := (K D B).
Notation rl := (ob_lambda rb).
Notation sl := (ob_lambda sb).
Notation kp := (keep rb sb).
Notation calms := (Forall (calmAct D)).
Definition same (s s' : st) : Prop := KK s' /\ forall e, evState s' e = evState s e.
Lemma same_trans s1 s2 s3 : same s1 s2 -> same s2 s3 -> same s1 s3.
Proof. intros [H1 H2] [H3 H4]. split; [done|]. intros e. by rewrite H4. Qed.
Lemma same_refl s : KK s -> same s s.
Proof. done. Qed.

Lemma fire_acts_safe ctx l : calms l -> forall s, KK s -> swp (fire_acts D ctx l) (fun r s' => calms r /\ same s s') s.
Proof.
  induction 1 as [|a l Ha Hl IH]; intros s HK; cbn [fire_acts]; [w1; split; [constructor|done]|].
  w1. w1. pose proof Ha as (ev & ob & He & Ho & Hlit & (t & Ht) & Hk). w1. rewrite (literal_ref _ _ _ Hlit).
  change (default (ac_delay a) None) with (ac_delay a). unfold parse_time. rewrite Ht. w1. w1.
  - w1. eapply wp_mono; [by apply IH|]. intros r s' [H1 H2]. cbv beta. w1. split; [by constructor|done].
  - unfold addDelayed. w1. w1. eapply wp_mono; [apply IH|].
    + apply K_sched; [|done]. left. exists ev, ob. cbn [ac_evt ac_tr ac_delay ac_dur ac_value]. split; [done|]. split; [done|].
      split; [apply literal_empty|]. split; [eexists; apply time_empty|].
      destruct (ev_type ev); try done. destruct Hk as [->|(-> & _ & _ & Hk)]; [by left|]. right.
      split; [done|]. split; [apply literal_empty|]. split; [apply time_empty|done].
    + intros r s' [H1 H2]. split; [done|]. eapply same_trans; [|exact H2]. split; [|done]. 
      apply K_sched; [|done]. left. exists ev, ob. cbn [ac_evt ac_tr ac_delay ac_dur ac_value]. split; [done|]. split; [done|].
      split; [apply literal_empty|]. split; [eexists; apply time_empty|].
      destruct (ev_type ev); try done. destruct Hk as [->|(-> & _ & _ & Hk)]; [by left|]. right.
      split; [done|]. split; [apply literal_empty|]. split; [apply time_empty|done].
Qed.
(** [noroot a]: not the stop of the body. *)
Lemma fire_conds_safe ctx e t conds acts : calms acts -> (forall c p, c ∈ conds -> ac_pred c = Some p -> negFree p) ->
  forall s, KK s -> swp (fire_conds D ctx e t conds acts)
    (fun r s' => calms r /\ same s s' /\ ((forall c, c ∈ conds -> ac_evt c = e -> ac_tr c <> t) -> r = [])) s.
Proof.
  intros Ha. induction conds as [|c conds IH]; intros Hp s HK; cbn [fire_conds]; [w1; split; [constructor|done]|].
  assert (Hp' : forall c p, c ∈ conds -> ac_pred c = Some p -> negFree p) by (intros; eapply Hp; [by right|done]).
  assert (HI : forall s0, same s s0 -> swp (fire_conds D ctx e t conds acts)
    (fun r s' => calms r /\ same s s' /\ ((forall c0, c0 ∈ c :: conds -> ac_evt c0 = e -> ac_tr c0 <> t) -> r = [])) s0).
  { intros s0 HS0. eapply wp_mono; [apply IH; [done|apply HS0]|]. intros r s' (H1 & H2 & H3). split; [done|]. split; [by eapply same_trans|].
    intros Hc. apply H3. intros c0 H0. apply Hc. by right. }
  destruct (bool_decide (ac_evt c = e)) eqn:E1; cbn [andb]; [|by apply HI].
  destruct (bool_decide (ac_tr c = t)) eqn:E2; cbn [andb]; [|by apply HI].
  apply bool_decide_eq_true in E1. apply bool_decide_eq_true in E2.
  w1. apply (wp_mono _ _ _ (fun _ s' => s' = s)).
  { destruct (ac_pred c) as [p|] eqn:Ep; [|by w1]. destruct (evalPredicate_defined D p s) as [b Eb]; [eapply Hp; [by left|done]|].
    unfold wp. by rewrite Eb. }
  intros b s0 ->. w1; [|by apply HI].
  w1. eapply wp_mono; [apply fire_acts_safe; [by apply Forall_rev|done]|]. intros r1 s1 [H1 H2]. cbv beta.
  w1. eapply wp_mono; [apply HI; exact H2|]. intros r2 s2 (H3 & H4 & H5). cbv beta. w1.
  split; [by apply Forall_app|]. split; [done|]. intros Hc. exfalso. eapply (Hc c); [by left|done|done].
Qed.
Lemma fire_links_safe ctx e t : forall links, (forall cs acts, (cs, acts) ∈ links -> calms acts /\ forall c p, c ∈ cs -> ac_pred c = Some p -> negFree p) ->
  forall s, KK s -> swp (fire_links D ctx e t links)
    (fun r s' => calms r /\ same s s' /\ ((forall cs acts c, (cs, acts) ∈ links -> c ∈ cs -> ac_evt c = e -> ac_tr c <> t) -> r = [])) s.
Proof.
  induction links as [|[cs acts] links IH]; intros Hl s HK; cbn [fire_links]; [w1; split; [constructor|done]|].
  destruct (Hl cs acts) as [Ha Hp]; [by left|].
  w1. eapply wp_mono; [by apply fire_conds_safe|]. intros r1 s1 (H1 & H2 & H3). cbv beta.
  w1. eapply wp_mono; [apply IH; [intros; apply Hl; by right|apply H2]|]. intros r2 s2 (H4 & H5 & H6). cbv beta. w1.
  split; [by apply Forall_app|]. split; [by eapply same_trans|]. intros Hc. rewrite H3, H6; [done| |].
  - intros cs' acts' c' Hin. apply (Hc cs' acts'). by right.
  - intros c' Hin. apply (Hc cs acts); [by left|done].
Qed.
Definition rootStop (a : action) : Prop := ac_evt a = rl /\ ac_tr a = STOP.
Lemma inContext_safe a ctx ob : d_obj D !! ctx = Some ob -> forall s, KK s ->
  swp (evalActionInContext D a ctx) (fun r s' => calms r /\ same s s' /\ (rootStop a \/ (forall cs acts x, (cs, acts) ∈ ob_links ob -> x ∈ cs -> ac_evt x <> ac_evt a) -> r = [])) s.
Proof.
  intros Ho s HK. unfold evalActionInContext. w1. eapply sgetO; [done|]. cbv beta. w1. w1.
  destruct (o_links_on _); [|w1; split; [constructor|done]].
  eapply wp_mono; [apply fire_links_safe; [|done]|].
  - intros cs acts Hin. split.
    + apply Forall_forall. intros x Hx. apply (cd_acts D CD ctx ob cs acts); [done|done|by apply elem_of_list_In].
    + intros c p Hc Hp. by apply (cd_conds D CD ctx ob cs acts c).
  - intros r s' (H1 & H2 & H3). split; [done|]. split; [done|]. intros [[E1 E2]|HN]; apply H3; [|intros cs acts c Hin Hc E3; by destruct (HN cs acts c Hin Hc)].
    intros cs acts c Hin Hc E3 E4. eapply (cd_conds D CD ctx ob cs acts c); [done|done|done|done|congruence|congruence].
Qed.
Lemma fire_ports_safe a o gp gb : d_obj D !! gp = Some gb -> forall ports, (forall p, p ∈ ports -> valid_evt D p) -> forall s, KK s ->
  swp (fire_ports D a o gp ports) (fun r s' => calms r /\ same s s') s.
Proof.
  intros Hg. induction ports as [|p ports IH]; intros Hp s HK; cbn [fire_ports]; [w1; split; [constructor|done]|].
  destruct (Hp p) as [pe Hpe]; [by left|]. w1. eapply sgetE; [done|]. cbv beta. w1; [|apply IH; [intros; apply Hp; by right|done]].
  w1. eapply wp_mono; [by eapply inContext_safe|]. intros r1 s1 (H1 & H2 & _). cbv beta.
  w1. eapply wp_mono; [apply IH; [intros; apply Hp; by right|apply H2]|]. intros r2 s2 (H4 & H5). cbv beta. w1.
  split; [by apply Forall_app|]. by eapply same_trans.
Qed.
Lemma fire_aliases_safe a : forall als, (forall i c, (i, Some c) ∈ als -> valid_obj D c) -> forall s, KK s ->
  swp (fire_aliases D a als) (fun r s' => calms r /\ same s s' /\
    ((forall i c cb cs acts x, (i, Some c) ∈ als -> d_obj D !! c = Some cb -> (cs, acts) ∈ ob_links cb -> x ∈ cs -> ac_evt x <> ac_evt a) -> r = [])) s.
Proof.
  induction als as [|[i [c|]] als IH]; intros Hp s HK; cbn [fire_aliases]; [w1; split; [constructor|done]| |].
  2:{ eapply wp_mono; [apply IH; [intros; eapply Hp; by right|done]|]. intros r s' (G1 & G2 & G3). split; [done|]. split; [done|].
      intros HN. apply G3. intros i' c' cb cs acts x Hin. apply (HN i' c' cb cs acts x). by right. }
  destruct (Hp i c) as [cb Hcb]; [by left|]. w1. unfold isContext. w1. eapply sgetO; [done|]. cbv beta. w1.
  assert (HI : forall s1, same s s1 -> swp (fire_aliases D a als) (fun r s' => calms r /\ same s s' /\
    ((forall i' c' cb cs acts x, (i', Some c') ∈ (i, Some c) :: als -> d_obj D !! c' = Some cb -> (cs, acts) ∈ ob_links cb -> x ∈ cs -> ac_evt x <> ac_evt a) -> r = [])) s1).
  { intros s1 HS1. eapply wp_mono; [apply IH; [intros; eapply Hp; by right|apply HS1]|]. intros r s' (G1 & G2 & G3). split; [done|]. split; [by eapply same_trans|].
    intros HN. apply G3. intros i' c' cb' cs acts x Hin. apply (HN i' c' cb' cs acts x). by right. }
  w1; [|by apply HI].
  w1. eapply wp_mono; [by eapply inContext_safe|]. intros r1 s1 (H1 & H2 & H3). cbv beta.
  w1. eapply wp_mono; [apply HI; exact H2|]. intros r2 s2 (H4 & H5 & H6). cbv beta. w1.
  split; [by apply Forall_app|]. split; [done|]. intros HN. rewrite H3, H6; [done|done|]. right. intros cs acts x Hin Hx.
  apply (HN i c cb cs acts x); [by left|done|done|done].
Qed.
Lemma isOcc_safe o ob s (Q : bool -> st -> Prop) : d_obj D !! o = Some ob -> Q (bool_decide (evState s (ob_lambda ob) = OCCURRING)) s -> swp (isOccurring D o) Q s.
Proof. intros Ho HQ. unfold isOccurring, objState. w1. w1. eapply sgetO; [done|]. cbv beta. w1. by w1. Qed.

Lemma triggered_safe evalA a ev : d_evt D !! ac_evt a = Some ev -> forall s, KK s ->
  swp (triggered D evalA a) (fun r s' => calms r /\ same s s' /\
    ((rootStop a \/ (ev_obj ev = d_settings D /\ evState s rl <> OCCURRING)) -> r = [])) s.
Proof.
  intros He s HK. unfold triggered. w1. eapply sgetE; [done|]. cbv beta.
  destruct (wf_e _ _ WF _ _ He) as (ob & Ho & Hin & Hlam). w1. eapply sgetO; [done|]. cbv beta.
  set (o := ev_obj ev) in *.
  w1. apply (wp_mono _ _ _ (fun r s' => calms r /\ same s s' /\ ((rootStop a \/ (o = d_settings D /\ evState s rl <> OCCURRING)) -> r = []))).
  - unfold fire_parent. destruct (ob_parent ob) as [p|] eqn:Ep; [|w1; split; [constructor|done]].
    destruct (wo_parent _ _ _ _ (wf_o _ _ WF _ _ Ho) _ Ep) as (pb & Hpb & _). w1. eapply sgetO; [done|]. cbv beta.
    assert (HNR : rootStop a -> False).
    { intros [E1 _]. rewrite E1 in He. destruct (rl_event D rank WF rb Hrb) as (ev' & H1 & _ & H2). assert (ev' = ev) as -> by congruence.
      fold o in H2. destruct (rb_kind D rank WF rb Hrb) as [_ H3]. congruence. }
    destruct (ob_kind pb) eqn:Hk; [| by destruct (cd_switch D CD _ _ Hpb)|w1; split; [constructor|done]|w1; split; [constructor|done]].
    w1. eapply isOcc_safe; [done|]. w1; [|w1; split; [constructor|done]]. apply bool_decide_eq_true in H.
    assert (HC : rootStop a \/ (o = d_settings D /\ evState s rl <> OCCURRING) -> False).
    { intros [?|[E1 E2]]; [by apply HNR|]. rewrite E1 in Ho. destruct (sb_kind D rank WF sb Hsb) as [_ H3]. assert (ob = sb) as -> by congruence.
      assert (p = d_root D) as -> by congruence. assert (pb = rb) as -> by congruence. done. }
    w1. eapply wp_mono; [by eapply inContext_safe|]. intros r1 s1 (H1 & H2 & _). cbv beta.
    w1. apply (wp_mono _ _ _ (fun r s' => calms r /\ same s1 s')).
    { destruct (ob_parent pb) as [gp|] eqn:Eg; [|w1; split; [constructor|by apply same_refl, H2]].
      destruct (wo_parent _ _ _ _ (wf_o _ _ WF _ _ Hpb) _ Eg) as (gb & Hgb & _). w1. eapply sgetO; [done|]. cbv beta.
      w1. eapply isOcc_safe; [done|]. w1; [|w1; split; [constructor|by apply same_refl, H2]].
      eapply fire_ports_safe; [done| |apply H2]. intros. by eapply (wo_ports _ _ _ _ (wf_o _ _ WF _ _ Hpb)). }
    intros r2 s2 [H3 H4]. cbv beta. w1. split; [by apply Forall_app|]. split; [by eapply same_trans|]. intros HX. by destruct (HC HX).
  - intros r1 s1 (H1 & H2 & H3). cbv beta.
    w1. apply (wp_mono _ _ _ (fun r s' => calms r /\ same s1 s' /\ ((rootStop a \/ (o = d_settings D /\ evState s rl <> OCCURRING)) -> r = []))).
    2:{ intros r2 s2 (H4 & H5 & H6). cbv beta. w1. split; [by apply Forall_app|]. split; [by eapply same_trans|]. intros HX. by rewrite (H3 HX), (H6 HX). }
    assert (HA : ob_kind ob <> KContext -> swp (fire_aliases D a (ob_aliases ob)) (fun r s' => calms r /\ same s1 s' /\ ((rootStop a \/ (o = d_settings D /\ evState s rl <> OCCURRING)) -> r = [])) s1).
    { intros Hk. destruct (decide (o = d_settings D)) as [E|E].
      - rewrite E in Ho. assert (ob = sb) as -> by congruence.
        eapply wp_mono; [apply fire_aliases_safe; [|apply H2]|].
        + intros i c. by apply (wo_aliases _ _ _ _ (wf_o _ _ WF _ _ Hsb)).
        + intros r s' (G1 & G2 & G3). split; [done|]. split; [done|]. intros _. apply G3. intros i c cb cs acts x Hal Hcb Hl Hx Ex.
          eapply (cd_alias D CD sb i c cb cs acts x ev); [done|done|done|done|done|congruence|done].
      - eapply wp_mono; [apply fire_aliases_safe; [|apply H2]|].
        + intros i c. by apply (wo_aliases _ _ _ _ (wf_o _ _ WF _ _ Ho)).
        + intros r s' (G1 & G2 & _). split; [done|]. split; [done|]. intros [[E1 _]|[? _]]; [|done]. exfalso.
          rewrite E1 in He. destruct (rl_event D rank WF rb Hrb) as (ev' & G3 & _ & G4). assert (ev' = ev) as -> by congruence.
          fold o in G4. destruct (rb_kind D rank WF rb Hrb) as [G5 _]. congruence. }
    unfold fire_self. destruct (ob_kind ob) eqn:Hk; try (by apply HA).
    eapply wp_mono; [eapply inContext_safe; [done|apply H2]|]. intros r2 s2 (H4 & H5 & H6). split; [done|]. split; [done|].
    intros [?|[E _]]; [apply H6; by left|]. exfalso. destruct (sb_kind D rank WF sb Hsb) as [H7 _]. congruence.
Qed.

(** ** Actions. *)
Definition areq (s : st) (a : action) : Prop :=
  exists ev ob, d_evt D !! ac_evt a = Some ev /\ d_obj D !! ev_obj ev = Some ob /\
  match ev_type ev with
  | PRESENTATION => (isLambda ev = true /\ (ac_tr a = START \/ ac_tr a = STOP \/ ac_tr a = ABORT)) \/
      (isLambda ev = false /\ is_media (ob_kind ob) = true /\
        ((ac_tr a = STOP \/ ac_tr a = ABORT) \/ (ac_tr a = START /\ evState s (ob_lambda ob) <> SLEEPING)))
  | ATTRIBUTION => ac_tr a = STOP \/ (ac_tr a = START /\ literal (ac_dur a) /\ try_parse_time (ac_dur a) = TOk 0%N /\
      ((literal (ac_value a) /\ okAssign D (ev_obj ev) (ev_id ev) (ac_value a)) \/ (forall w, okAssign D (ev_obj ev) (ev_id ev) w)))
  | SELECTION => is_media (ob_kind ob) = true /\ (ac_tr a = START \/ ac_tr a = STOP)
  | LOOKAT => False
  end.
Lemma calm_areq s a : calmAct D a -> areq s a.
Proof.
  intros (ev & ob & He & Ho & _ & _ & H). exists ev, ob. split; [done|]. split; [done|]. destruct (ev_type ev); try done.
  - destruct H as [(H1 & H2 & _)|(H1 & H2 & H3)]; [by left|]. right. auto.
Qed.
Lemma calm_body a : calmAct D a -> ac_evt a <> rl /\ ac_evt a <> sl.
Proof.
  intros (ev & ob & He & Ho & _ & _ & H).
  destruct (rl_event D rank WF rb Hrb) as (re & R1 & R2 & R3), (sl_event D rank WF sb Hsb) as (se & S1 & S2 & S3).
  pose proof (islam_type _ R2). pose proof (islam_type _ S2).
  split; intros E; rewrite E in He; [assert (re = ev) as -> by congruence; rewrite R3, R2 in *|assert (se = ev) as -> by congruence; rewrite S3, S2 in *];
    (destruct (ev_type ev); try done; destruct H as [(_ & _ & ? & ?)|(? & _)]; done).
Qed.
Lemma attempt_safe n a s : areq s a -> KK s -> swp (attempt D (tr D n) a) (post D B rb sb s (ac_evt a) (ac_tr a)) s.
Proof.
  intros (ev & ob & He & Ho & HR) HK. unfold attempt. w1. w1. w1. eapply sgetE; [done|]. cbv beta. w1. unfold setParam. w1.
  set (s1 := upd_ev (ac_evt a) (es_set_param "duration" (ac_dur a)) (log (OBegin a) s)).
  assert (E1 : forall e, evState s1 e = evState s e) by (intros; unfold s1; rewrite evState_param; done).
  assert (HK1 : KK s1) by (unfold s1; apply K_param; by apply K_log).
  assert (EP : forall (s2 : st), (forall e, evState s2 e = evState s e) -> KK s2 -> req D s2 (ac_evt a) (ac_tr a) ->
     swp (tr D n (ac_evt a) (ac_tr a)) (post D B rb sb s (ac_evt a) (ac_tr a)) s2).
  { intros s2 E2 HK2 HR2. eapply wp_mono; [by eapply tr_safe|]. intros b s3 (G1 & G2 & G3 & G4 & G5 & G6).
    split; [done|]. split; [intros Ht e; rewrite <- E2; by apply G2|]. split; [|split; [by rewrite <- E2|split; [done|]]].
    - intros N1 N2. destruct (G3 N1 N2) as [K1 K2]. rewrite !E2 in K1, K2. done.
    - intros Hp o' ob' Ho'. rewrite <- E2. eauto. }
  w1. unfold whenm. destruct (decide (ev_type ev = ATTRIBUTION)) as [Hty|Hty].
  - rewrite bool_decide_true by done. w1. 
    assert (E2 : forall e, evState (upd_ev (ac_evt a) (es_set_param "value" (ac_value a)) s1) e = evState s e) by (intros; rewrite evState_param; apply E1).
    apply EP; [done|by apply K_param|].
    exists ev, ob. split; [done|]. split; [done|]. rewrite Hty in *. destruct HR as [?|(H1 & H2 & H3 & H4)]; [by left|right].
    split; [done|]. exists (ac_dur a), (ac_value a). unfold s1. sts. rewrite !decide_True by done. cbn.
    split; [by rewrite lookup_insert_ne, lookup_insert by done|]. split; [done|]. split; [done|]. split; [by rewrite lookup_insert|done].
  - rewrite bool_decide_false by done. w1. apply EP; [done|done|].
    exists ev, ob. split; [done|]. split; [done|]. destruct (ev_type ev); try done. by rewrite E1.
Qed.

Lemma loop_calm n : forall l s, calms l -> KK s -> swp (loop D n l) (fun _ s' => KK s' /\ kp s s') s.
Proof.
  induction n as [|n IH]; intros l s Hl HK; [done|]. rewrite loop_S. unfold loop_body.
  destruct l as [|a l]; [w1; split; [done|apply keep_refl]|]. inversion Hl as [|? ? Ha Hl' E1]; subst.
  destruct (calm_body _ Ha) as [N1 N2].
  w1. eapply wp_mono; [apply attempt_safe; [by apply calm_areq|done]|]. intros b s1 (G1 & _ & G3 & _). cbv beta.
  assert (HKP : kp s s1) by (by apply G3).
  w1.
  - pose proof Ha as (ev & ob & He & _). w1. eapply wp_mono; [by eapply triggered_safe|]. intros r s2 (H1 & [H2 H3] & _). cbv beta.
    w1. eapply wp_mono; [apply IH; [|done]|].
    + apply Forall_app. split; [by apply Forall_rev|done].
    + intros k s3 [H4 H5]. cbv beta. w1. split; [done|]. eapply keep_trans; [exact HKP|]. eapply keep_trans; [by apply keep_same|done].
  - eapply wp_mono; [by apply IH|]. intros k s3 [H4 H5]. split; [done|]. by eapply keep_trans.
Qed.
Lemma eval_safe n a s : areq s a -> ac_evt a <> sl -> (ac_evt a = rl -> ac_tr a = START) -> KK s ->
  swp (evalAction D n a) (fun _ s' => KK s' /\ kp s s') s.
Proof.
  intros HR N1 N2 HK. unfold evalAction. destruct n as [|n]; [done|]. rewrite loop_S. unfold loop_body.
  w1. eapply wp_mono; [by apply attempt_safe|]. intros b s1 (G1 & _ & G3 & _). cbv beta.
  assert (HKP : kp s s1) by (by apply G3).
  w1.
  - pose proof HR as (ev & ob & He & _). w1. eapply wp_mono; [by eapply triggered_safe|]. intros r s2 (H1 & [H2 H3] & _). cbv beta.
    w1. eapply wp_mono; [apply loop_calm; [|done]|].
    + rewrite app_nil_r. by apply Forall_rev.
    + intros k s3 [H4 H5]. cbv beta. w1. split; [done|]. eapply keep_trans; [exact HKP|]. eapply keep_trans; [by apply keep_same|done].
  - eapply wp_mono; [by apply loop_calm|]. intros k s3 [H4 H5]. split; [done|]. by eapply keep_trans.
Qed.
Lemma eval_root_stop n s : KK s -> swp (evalAction D n (mkA rl STOP "")) (fun _ s' => KK s' /\ evState s' rl = SLEEPING) s.
Proof.
  intros HK. unfold evalAction. destruct n as [|n]; [done|]. rewrite loop_S. unfold loop_body.
  destruct (rl_event D rank WF rb Hrb) as (ev & He & Hl & Hob).
  assert (HR : areq s (mkA rl STOP "")).
  { exists ev, rb. cbn [mkA ac_evt ac_tr]. split; [done|]. rewrite Hob. split; [done|]. rewrite (islam_type _ Hl). left. auto. }
  w1. eapply wp_mono; [by apply attempt_safe|]. cbn [mkA ac_evt ac_tr]. intros b s1 (G1 & _ & _ & _ & G5 & _). cbv beta.
  assert (HS : evState s1 rl = SLEEPING) by (apply G5; [done|]; intros ev' He'; congruence).
  assert (HN : forall s', KK s' -> evState s' rl = SLEEPING -> swp (loop D n []) (fun _ s' => KK s' /\ evState s' rl = SLEEPING) s').
  { intros s' H1 H2. destruct n; [done|]. rewrite loop_S. unfold loop_body. by w1. }
  w1; [|by apply HN].
  w1. eapply wp_mono; [by eapply triggered_safe|]. intros r s2 (_ & [H2 H3] & H4). cbv beta.
  rewrite H4 by (left; by split). cbn [rev app]. w1. eapply wp_mono; [apply HN; [done|by rewrite H3]|]. intros k s3 HF. cbv beta. w1. done.
Qed.
Lemma attempt_ok n a s : pwp (attempt D (tr D n) a) (fun b s' => b = true -> evState s' (ac_evt a) = target (ac_tr a)) s.
Proof.
  unfold attempt. w1. w1. w1. wgetE ev He. w1. unfold setParam. w1. w1. apply (wp_mono _ _ _ (fun _ _ => True)); [by apply pwp_intro|].
  intros [] s1 _. cbv beta. eapply wp_mono; [by eapply (tr_ok_wp D rank WF)|]. intros b s2 [_ H] Hb. by apply H.
Qed.
Lemma eval_root_start n s : KK s -> evState s rl = SLEEPING ->
  swp (evalAction D n (mkA rl START "")) (fun _ s' => KK s' /\ evState s' rl <> SLEEPING /\ evState s' sl = evState s sl) s.
Proof.
  intros HK HS. unfold evalAction. destruct n as [|n]; [done|]. rewrite loop_S. unfold loop_body.
  destruct (rl_event D rank WF rb Hrb) as (ev & He & Hl & Hob).
  assert (HR : areq s (mkA rl START "")).
  { exists ev, rb. cbn [mkA ac_evt ac_tr]. split; [done|]. rewrite Hob. split; [done|]. rewrite (islam_type _ Hl). left. auto. }
  w1. eapply wp_mono; [apply swp_and; [by apply attempt_safe|by apply attempt_ok]|]. cbn [mkA ac_evt ac_tr]. intros b s1 [(G1 & _ & G3 & G4 & _) G7]. cbv beta.
  assert (b = true) as -> by (apply G4; [done|done|]; intros ev' He'; congruence).
  specialize (G7 eq_refl). cbn [target] in G7. destruct G3 as [G5 _]; [by eapply rl_sl|done|].
  w1. eapply wp_mono; [by eapply triggered_safe|]. intros r s2 (H1 & [H2 H3] & _). cbv beta.
  w1. eapply wp_mono; [apply loop_calm; [|done]|].
  - rewrite app_nil_r. by apply Forall_rev.
  - intros k s3 [H4 [H5 H6]]. cbv beta. w1. split; [done|]. split; [apply H6; by rewrite H3, G7|]. by rewrite H5, H3.
Qed.
(** Attributions to the settings once the body has stopped. *)
Lemma eval_focus n e ev v s : d_evt D !! e = Some ev -> ev_obj ev = d_settings D -> ev_type ev = ATTRIBUTION ->
  (forall w, okAssign D (d_settings D) (ev_id ev) w) -> evState s rl = SLEEPING -> KK s ->
  swp (evalAction D n (mkA e START v)) (fun _ s' => KK s' /\ evState s' rl = SLEEPING /\ evState s' sl = evState s sl) s.
Proof.
  intros He Hob Hty Hok HS HK. unfold evalAction. destruct n as [|n]; [done|]. rewrite loop_S. unfold loop_body.
  assert (HR : areq s (mkA e START v)).
  { exists ev, sb. cbn [mkA ac_evt ac_tr ac_dur]. split; [done|]. rewrite Hob. split; [done|]. rewrite Hty. right.
    split; [done|]. split; [apply literal_empty|]. split; [apply time_empty|]. by right. }
  w1. eapply wp_mono; [by apply attempt_safe|]. cbn [mkA ac_evt ac_tr]. intros b s1 (G1 & _ & _ & _ & _ & G6). cbv beta.
  assert (HP : forall ev', d_evt D !! e = Some ev' -> ev_type ev' <> PRESENTATION) by (intros ev' He'; assert (ev' = ev) as -> by congruence; by rewrite Hty).
  assert (HS1 : evState s1 rl = SLEEPING) by (by rewrite (G6 HP _ _ Hrb)).
  assert (HS2 : evState s1 sl = evState s sl) by (by rewrite (G6 HP _ _ Hsb)).
  assert (HN : forall s', KK s' -> evState s' rl = SLEEPING -> evState s' sl = evState s sl -> swp (loop D n []) (fun _ s' => KK s' /\ evState s' rl = SLEEPING /\ evState s' sl = evState s sl) s').
  { intros s' H1 H2 H3. destruct n; [done|]. rewrite loop_S. unfold loop_body. by w1. }
  w1; [|by apply HN].
  w1. eapply wp_mono; [by eapply triggered_safe|]. intros r s2 (_ & [H2 H3] & H4). cbv beta.
  rewrite H4 by (right; split; [done|]; by rewrite HS1). cbn [rev app]. w1. eapply wp_mono; [apply HN; [done|by rewrite H3|by rewrite H3]|]. intros k s3 HF. cbv beta. w1. done.
Qed.
End SafeLoop.

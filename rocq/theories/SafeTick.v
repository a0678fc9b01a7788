(** SafeTick.v -- on calm documents no tick, key or size aborts (C34, positive part). *)
From Verif Require Export SafeLoop.
Open Scope string_scope.
Open Scope list_scope.
Open Scope m_scope.

Section SafeTick.
Context (D : doc) (rank : oid -> nat) (WF : wf_at D rank) (CD : calmDoc D).
Context (rb sb : obj) (Hrb : d_obj D !! d_root D = Some rb) (Hsb : d_obj D !! d_settings D = Some sb).
Notation rl := (ob_lambda rb).
Notation sl := (ob_lambda sb).
Notation kp := (keep rb sb).

Lemma K_mono B B' s : (forall o, (B o <= B' o)%N) -> K D B s -> K D B' s.
Proof. intros H [K1 K2 K3 K4 K5 K6]. split; [done..|]. intros o ob Ho Ha. specialize (K6 o ob Ho Ha). specialize (H o). lia. Qed.
Lemma K_player B o f s : (forall p, p_duration (f p) = p_duration p /\ (o = d_settings D -> p_eos (f p) = p_eos p)) ->
  K D B s -> K D B (upd_ob o (fun x => os_set_player (f <$> o_player x) x) s).
Proof.
  intros Hf. apply K_frame.
  - done.
  - intros o' ob _ _ HO. sts. destruct (decide (o = o')) as [<-|]; [|done]. destruct HO as (H1 & H2 & H3). split; [done|]. split; [done|].
    cbn. intros E p Hp. destruct (o_player (ostOf s o)) as [p0|] eqn:E0; [|done]. cbn in Hp. injection Hp as <-.
    destruct (Hf p0) as [-> G]. rewrite G by done. by apply H3.
  - intros o'. sts. destruct (decide (o = o')) as [<-|]; [|done]. cbn. by destruct (o_player (ostOf s o)).
  - intros o' [a x]. sts. destruct (decide (o = o')) as [<-|]; left; by exists x.
  - intros o'. sts. by destruct (decide (o = o')) as [<-|].
Qed.
Lemma K_delayed B o f s : (forall ax, ax ∈ f (o_delayed (ostOf s o)) -> exists x, (ax.1, x) ∈ o_delayed (ostOf s o)) ->
  K D B s -> K D B (upd_ob o (fun x => os_set_delayed (f (o_delayed x)) x) s).
Proof.
  intros Hf. apply K_frame.
  - done.
  - intros o' ob _ _ HO. sts. destruct (decide (o = o')) as [<-|]; [|done]. by eapply okO_ext; [| |exact HO].
  - intros o'. sts. by destruct (decide (o = o')) as [<-|].
  - intros o' ax. sts. destruct (decide (o = o')) as [<-|]; cbn; intros Hax; left; [by apply Hf|]. exists ax.2. by destruct ax.
  - intros o'. sts. by destruct (decide (o = o')) as [<-|].
Qed.

Lemma del_areq s o ob a : d_obj D !! o = Some ob -> evState s (ob_lambda ob) <> SLEEPING -> delOK D o a ->
  areq D s a /\ ac_evt a <> sl /\ (ac_evt a = rl -> ac_tr a = START).
Proof.
  intros Ho Ha [Hc|(ev & ob' & He & Hob & Ho' & Hm & Hty & Hl & Ht)].
  - destruct (calm_body D rank WF rb sb Hrb Hsb _ Hc) as [N1 N2]. split; [by apply calm_areq|]. done.
  - assert (ob' = ob) as -> by congruence. split.
    + exists ev, ob. split; [done|]. rewrite Hob. split; [done|]. rewrite Hty. right. auto.
    + split; [|by intros]. intros E. rewrite E in He. destruct (sl_event D rank WF sb Hsb) as (se & S1 & S2 & S3). congruence.
Qed.
Lemma run_safe B n o ob : d_obj D !! o = Some ob -> forall l s, (forall a, a ∈ l -> delOK D o a) -> K D B s -> evState s (ob_lambda ob) <> SLEEPING ->
  swp (run_triggered D n o l) (fun _ s' => K D B s' /\ kp s s') s.
Proof.
  intros Ho. induction l as [|a l IH]; intros s Hl HK Ha; cbn [run_triggered]; [w1; split; [done|apply keep_refl]|].
  destruct (del_areq s o ob a Ho Ha) as (H1 & H2 & H3); [apply Hl; by left|].
  w1. w1. w1. eapply wp_mono; [apply (eval_safe D rank WF CD B rb sb Hrb Hsb); [|done|done|by apply K_log]|].
  { destruct H1 as (ev & ob' & He & Ho' & HR). exists ev, ob'. done. }
  intros k s1 [HK1 HP1]. cbv beta. w1. eapply isOcc_safe; [done|]. w1; [|w1; done].
  apply bool_decide_eq_true in H. eapply wp_mono; [apply IH; [intros; apply Hl; by right|done|by rewrite H]|].
  intros b s2 [G1 G2]. split; [done|]. by eapply keep_trans.
Qed.
Definition bump (B : oid -> N) (o : oid) (d : N) : oid -> N := fun x => if decide (x = o) then (B o + d)%N else B x.
Lemma objTick_safe B n o ob d s : d_obj D !! o = Some ob -> K D B s -> (B o + d < TIME_NONE)%N ->
  swp (objTick D n o d) (fun _ s' => K D (bump B o d) s' /\ kp s s' /\ (evState s (ob_lambda ob) <> OCCURRING -> forall e, evState s' e = evState s e)) s.
Proof.
  intros Ho HK Hd.
  assert (HB : forall x, (B x <= bump B o d x)%N). { intros x. unfold bump. destruct (decide _); subst; lia. }
  unfold objTick. w1. w1. w1. eapply isOcc_safe; [done|]. w1.
  2:{ w1. split; [apply (K_mono B); [done|by apply K_log]|]. split; [by apply keep_same|done]. }
  apply bool_decide_eq_true in H. change (evState s (ob_lambda ob) = OCCURRING) in H.
  pose proof (k_time _ _ _ HK _ _ Ho H) as HT.
  w1. w1. w1. w1.
  { exfalso. change (ostOf (log (OTick o d) s) o) with (ostOf s o) in H0. unfold tvalid in H0. apply negb_false_iff, N.eqb_eq in H0. lia. }
  clear H0. change (ostOf (log (OTick o d) s) o) with (ostOf s o). set (now := tadd (o_time (ostOf s o)) d).
  assert (HN : (now <= B o + d)%N). { unfold now, tadd. assert (TIME_NONE < W64)%N by done. rewrite N.mod_small; lia. }
  w1. w1. w1. w1. w1.
  set (s1 := upd_ob o (os_set_time now) (log (OTick o d) s)).
  assert (HK1 : K D (bump B o d) s1).
  { destruct HK as [K1 K2 K3 K4 K5 K6]. split.
    - exact K1.
    - intros o' ob' Ho' Hm. specialize (K2 _ _ Ho' Hm). unfold s1. sts. by destruct (decide (o = o')) as [<-|].
    - exact K3.
    - intros o' ax. unfold s1. sts. destruct (decide (o = o')) as [<-|]; apply K4.
    - intros o' ob' Ho' Hm. specialize (K5 _ _ Ho' Hm). unfold s1. sts. by destruct (decide (o = o')) as [<-|].
    - intros o' ob' Ho' Ha. specialize (K6 _ _ Ho' Ha). unfold s1. sts. destruct (decide (o = o')) as [<-|Hne].
      + cbn. unfold bump. by rewrite decide_True.
      + etrans; [exact K6|apply HB]. }
  set (l := o_delayed (ostOf s1 o)).
  assert (HK2 : K D (bump B o d) (upd_ob o (os_set_delayed (mark now l)) s1)).
  { assert (E : upd_ob o (os_set_delayed (mark now l)) s1 = upd_ob o (fun x => os_set_delayed ((fun _ => mark now l) (o_delayed x)) x) s1) by done.
    rewrite E. apply K_delayed; [|done]. intros [a x] Hin. unfold mark in Hin. apply elem_of_list_fmap in Hin as ([a' x'] & E2 & Hin).
    cbn in E2. exists x'. destruct (x' <=? now)%N; injection E2 as -> _; done. }
  w1. w1. eapply wp_mono; [eapply run_safe; [done| |exact HK2|]|].
  - intros a Hin. unfold due in Hin. apply elem_of_list_fmap in Hin as ([a' x'] & E2 & Hin). cbn in E2. subst a'.
    apply elem_of_list_In, List.filter_In in Hin as [Hin _]. apply elem_of_list_In in Hin.
    apply (k_del _ _ _ HK1 o (a, x') Hin). by eexists.
  - change (evState s (ob_lambda ob) <> SLEEPING). by rewrite H.
  - intros b s2 [G1 G2]. cbv beta. w1.
    + w1. split; [|split; [exact G2|intros X; by destruct X]]. apply K_delayed; [|done]. intros [a x] Hin. exists x.
      unfold purge in Hin. apply elem_of_list_In, List.filter_In in Hin as [Hin _]. by apply elem_of_list_In.
    + w1. split; [done|]. split; [exact G2|intros X; by destruct X].
Qed.

Definition Phi2 (s : st) : Prop := evState s rl = OCCURRING /\ evState s sl = OCCURRING.
Lemma Phi2_keep B s s' : Phi2 s -> K D B s' -> kp s s' -> Phi2 s'.
Proof.
  intros [H1 H2] HK [H3 H4]. split; [|congruence]. destruct (evState s' rl) eqn:E; [done| |].
  - by destruct (k_np _ _ _ HK rl).
  - exfalso. apply H4; [by rewrite H1|done].
Qed.
Lemma stop_areq o ob s : d_obj D !! o = Some ob -> areq D s (mkA (ob_lambda ob) STOP "").
Proof.
  intros Ho. destruct (lambda_evt D rank WF _ _ Ho) as (ev & He & Hl & Hob). exists ev, ob. cbn [mkA ac_evt ac_tr].
  split; [done|]. rewrite Hob. split; [done|]. rewrite (islam_type _ Hl). left. auto.
Qed.
Lemma eval_stop B n o ob s : d_obj D !! o = Some ob -> o <> d_root D -> o <> d_settings D -> K D B s ->
  swp (evalAction D n (mkA (ob_lambda ob) STOP "")) (fun _ s' => K D B s' /\ kp s s') s.
Proof.
  intros Ho N1 N2 HK. apply (eval_safe D rank WF CD B rb sb Hrb Hsb); [by eapply stop_areq| | |done].
  - cbn. intros E. apply N2. by eapply lam_inj.
  - cbn. intros E. exfalso. apply N1. by eapply lam_inj.
Qed.
(** Stopping what is asleep. *)
Lemma eval_asleep B n o ob s : d_obj D !! o = Some ob -> evState s (ob_lambda ob) = SLEEPING -> K D B s ->
  swp (evalAction D n (mkA (ob_lambda ob) STOP "")) (fun _ s' => K D B s' /\ forall e, evState s' e = evState s e) s.
Proof.
  intros Ho Hs HK. unfold evalAction. destruct n as [|n]; [done|]. rewrite loop_S. unfold loop_body.
  destruct (lambda_evt D rank WF _ _ Ho) as (ev & He & Hl & Hob).
  w1. apply (wp_mono _ _ _ (fun b s' => b = false /\ K D B s' /\ forall e, evState s' e = evState s e)).
  - unfold attempt. w1. w1. w1. eapply sgetE; [done|]. cbv beta. w1. unfold setParam. w1.
    rewrite (islam_type _ Hl). rewrite bool_decide_false by done. cbn [whenm]. w1. cbn [mkA ac_evt ac_tr ac_dur].
    destruct n as [|n]; [done|]. rewrite tr_S. unfold tr_body. w1. w1. eapply sgetE; [done|]. cbv beta. w1. w1.
    rewrite evState_param. change (evState (log (OBegin (mkA (ob_lambda ob) STOP "")) s) (ob_lambda ob)) with (evState s (ob_lambda ob)).
    rewrite Hs. cbn [legal negb]. w1. split; [done|]. split; [apply K_param; by apply K_log|]. intros e. by rewrite evState_param.
  - intros b s1 (-> & H1 & H2). cbv beta iota. destruct n as [|n]; [done|]. rewrite loop_S. unfold loop_body. by w1.
Qed.

Lemma mediaTick_safe B n o ob d s : d_obj D !! o = Some ob -> is_media (ob_kind ob) = true -> K D B s -> (B o + d < TIME_NONE)%N ->
  swp (mediaTick D n o d) (fun _ s' => K D (bump B o d) s' /\ kp s s' /\ (evState s (ob_lambda ob) = SLEEPING -> forall e, evState s' e = evState s e)) s.
Proof.
  intros Ho Hm HK Hd. unfold mediaTick. w1. eapply wp_mono; [by eapply objTick_safe|]. intros [] s1 (HK1 & HP1 & HS1). cbv beta. w1. w1.
  destruct (o_player (ostOf s1 o)) as [p|] eqn:Ep; [|w1; split; [done|]; split; [done|]; intros E; apply HS1; by rewrite E].
  assert (HA : evState s (ob_lambda ob) = SLEEPING -> False).
  { intros E. assert (H : evState s1 (ob_lambda ob) <> SLEEPING) by (apply (k_pl _ _ _ HK1 _ _ Ho Hm); by eexists).
    apply H. rewrite HS1; [done|]. by rewrite E. }
  unfold updPlayer. w1. w1.
  match goal with |- wp _ _ _ _ ?x => set (s2 := x) end.
  assert (HK2 : K D (bump B o d) s2). { apply (K_player _ _ (fun p => p_set_time (tadd (p_time p) d) p)); [|done]. intros p0. by destruct p0. }
  assert (HP2 : kp s s2) by (eapply keep_trans; [exact HP1|by apply keep_same]).
  destruct (p_eos p || (tvalid (p_duration p) && (p_duration p <? o_time (ostOf s1 o))%N))%bool eqn:Eg.
  2:{ w1. split; [done|]. split; [done|]. intros E. by destruct (HA E). }
  w1. eapply sgetO; [done|]. cbv beta. w1. eapply wp_mono; [eapply eval_stop; [done| | |done]|].
  - intros ->. destruct (rb_kind D rank WF rb Hrb) as [H1 _]. assert (ob = rb) as -> by congruence. by rewrite H1 in Hm.
  - intros E. destruct (k_prop _ _ _ HK1 _ _ Ho Hm) as (_ & _ & H3). destruct (H3 E p Ep) as [H4 H5]. by rewrite H4, H5 in Eg.
  - intros k s3 [H1 H2]. cbv beta. w1. split; [done|]. split; [by eapply keep_trans|]. intros E. by destruct (HA E).
Qed.
Lemma ctxTick_safe B n o ob d s : d_obj D !! o = Some ob -> ob_kind ob = KContext -> o <> d_root D -> K D B s -> (B o + d < TIME_NONE)%N ->
  swp (ctxTick D n o d) (fun _ s' => K D (bump B o d) s' /\ kp s s' /\ (evState s (ob_lambda ob) = SLEEPING -> forall e, evState s' e = evState s e)) s.
Proof.
  intros Ho Hk Hne HK Hd. unfold ctxTick. w1. eapply wp_mono; [by eapply objTick_safe|]. intros [] s1 (HK1 & HP1 & HS1). cbv beta. w1. w1.
  w1. eapply sgetO; [done|]. cbv beta zeta. rewrite (bool_decide_false (ob_parent ob = None)) by by apply (cd_parent D CD o). cbn [andb].
  destruct (o_awake _ =? 0)%Z; [|w1; split; [done|]; split; [done|]; intros E; apply HS1; by rewrite E].
  w1. destruct (decide (evState s (ob_lambda ob) = SLEEPING)) as [E|E].
  - assert (HE : forall e, evState s1 e = evState s e) by (apply HS1; by rewrite E).
    eapply wp_mono; [eapply eval_asleep; [done|by rewrite HE|done]|].
    intros k s3 [H1 H2]. cbv beta. w1. split; [done|]. split; [eapply keep_trans; [done|by apply keep_same]|]. intros _ e. by rewrite H2.
  - eapply wp_mono; [eapply eval_stop; [done|done| |done]|].
    + intros ->. destruct (sb_kind D rank WF sb Hsb) as [H1 _]. congruence.
    + intros k s3 [H1 H2]. cbv beta. w1. split; [done|]. split; [by eapply keep_trans|]. done.
Qed.
Lemma rootTick_safe B n d s : K D B s -> Phi2 s -> (B (d_root D) + d < TIME_NONE)%N ->
  swp (ctxTick D n (d_root D) d) (fun _ s' => K D (bump B (d_root D) d) s' /\ (Phi2 s' \/ evState s' rl = SLEEPING)) s.
Proof.
  intros HK HP Hd. unfold ctxTick. w1. eapply wp_mono; [by eapply objTick_safe|]. intros [] s1 (HK1 & HP1 & _). cbv beta. w1. w1.
  assert (HP2 : Phi2 s1) by by eapply Phi2_keep.
  w1. eapply sgetO; [done|]. cbv beta zeta.
  assert (HE : swp (evalAction D n (mkA rl STOP "") ;; ret tt) (fun _ s' => K D (bump B (d_root D) d) s' /\ (Phi2 s' \/ evState s' rl = SLEEPING)) s1).
  { w1. eapply wp_mono; [by eapply eval_root_stop|]. intros k s2 [H1 H2]. cbv beta. w1. auto. }
  destruct (bool_decide (ob_parent rb = None) && (o_awake (ostOf s1 (d_root D)) =? 1)%Z)%bool.
  - w1. eapply isOcc_safe; [done|]. rewrite bool_decide_true by apply HP2. exact HE.
  - destruct (o_awake _ =? 0)%Z; [exact HE|]. w1. auto.
Qed.

Lemma focus_event : exists e ev, find_event D ATTRIBUTION "service.currentFocus" (ob_events sb) = Some e /\ d_evt D !! e = Some ev /\
  ev_obj ev = d_settings D /\ ev_type ev = ATTRIBUTION /\ ev_id ev = "service.currentFocus".
Proof.
  destruct (cd_focus D CD) as (sb' & e & ev & Hs' & Hin & He & Hty & Hid). assert (sb' = sb) as -> by congruence. clear Hs'.
  assert (HV : forall x, x ∈ ob_events sb -> exists xe, d_evt D !! x = Some xe /\ ev_obj xe = d_settings D) by apply (wo_events _ _ _ _ (wf_o _ _ WF _ _ Hsb)).
  revert Hin HV. generalize (ob_events sb). induction l as [|x l IH]; [by intros ?%elem_of_nil|]. intros Hin HV. cbn [find_event].
  destruct (HV x) as (xe & Hx & Hxo); [by left|]. rewrite Hx.
  destruct (bool_decide (ev_type xe = ATTRIBUTION) && (ev_id xe =? "service.currentFocus")%string)%bool eqn:Eb.
  - apply andb_true_iff in Eb as [E1 E2]. apply bool_decide_eq_true in E1. apply String.eqb_eq in E2. by exists x, xe.
  - apply elem_of_cons in Hin as [->|Hin]; [|apply IH; [done|intros; apply HV; by right]].
    exfalso. assert (xe = ev) as -> by congruence. rewrite Hty, Hid in Eb. by rewrite bool_decide_true in Eb.
Qed.
Lemma focus_ok w : okAssign D (d_settings D) "service.currentFocus" w.
Proof.
  intros ob _ _. unfold okProp. change (fst (getPlayerProperty "service.currentFocus")) with PROP_UNKNOWN.
  split; [split; [exact I|done]|done].
Qed.
Lemma focus_safe B n i s : K D B s -> swp (updateCurrentFocus D n i) (fun _ s' => K D B s' /\ kp s s' /\
  (evState s rl = SLEEPING -> evState s' rl = SLEEPING /\ evState s' sl = evState s sl)) s.
Proof.
  intros HK. unfold updateCurrentFocus. w1. w1. cbv zeta. w1. eapply sgetO; [done|]. cbv beta.
  destruct focus_event as (e & ev & Ef & He & Hob & Hty & Hid). rewrite Ef. w1. unfold ofoption. w1. w1.
  destruct (decide (evState s rl = SLEEPING)) as [E|E].
  - eapply wp_mono; [eapply eval_focus; try done; by rewrite Hid; apply focus_ok|]. intros k s1 (H1 & H2 & H3). cbv beta. w1.
    split; [done|]. split; [split; [done|by intros []]|]. done.
  - eapply wp_mono; [apply (eval_safe D rank WF CD B rb sb Hrb Hsb); [| | |done]|].
    + exists ev, sb. cbn [mkA ac_evt ac_tr ac_dur]. split; [done|]. rewrite Hob. split; [done|]. rewrite Hty. right.
      split; [done|]. split; [apply literal_empty|]. split; [apply time_empty|]. right. rewrite Hid. apply focus_ok.
    + cbn. intros ->. destruct (sl_event D rank WF sb Hsb) as (se & S1 & S2 & _). assert (se = ev) as -> by congruence. pose proof (islam_type _ S2). congruence.
    + cbn. done.
    + intros k s1 [H1 H2]. cbv beta. w1. done.
Qed.
Lemma settingsTick_safe B n d s : K D B s -> (B (d_settings D) + d < TIME_NONE)%N ->
  swp (settingsTick D n (d_settings D) d) (fun _ s' => K D (bump B (d_settings D) d) s' /\ kp s s' /\
    (evState s rl = SLEEPING -> evState s sl = SLEEPING -> evState s' rl = SLEEPING)) s.
Proof.
  intros HK Hd. destruct (sb_kind D rank WF sb Hsb) as [Hk _]. unfold settingsTick. w1. w1. w1.
  apply (wp_mono _ _ _ (fun _ s' => K D B s' /\ kp s s' /\ (evState s rl = SLEEPING -> evState s' rl = SLEEPING /\ evState s' sl = evState s sl))).
  - destruct (s_next s) as [x|]; [|w1; split; [done|]; split; [apply keep_refl|done]].
    w1. eapply wp_mono; [by apply focus_safe|]. intros [] s1 (H1 & H2 & H3). cbv beta. w1. split; [by apply K_next|]. split; [exact H2|exact H3].
  - intros [] s1 (H1 & H2 & H3). cbv beta. eapply wp_mono; [eapply mediaTick_safe; [done|by rewrite Hk|done|done]|].
    intros [] s2 (H4 & H5 & H6). split; [done|]. split; [by eapply keep_trans|]. intros E1 E2. destruct (H3 E1) as [E3 E4].
    rewrite H6; [done|]. by rewrite E4.
Qed.
Lemma sendTick_safe B n o d s : valid_obj D o -> K D B s -> (B o + d < TIME_NONE)%N ->
  (Phi2 s \/ (o <> d_root D /\ forall x xb, d_obj D !! x = Some xb -> evState s (ob_lambda xb) = SLEEPING)) ->
  swp (sendTick D n o d) (fun _ s' => K D (bump B o d) s' /\ (Phi2 s' \/ (evState s' rl = SLEEPING /\ (o = d_root D \/ evState s rl = SLEEPING)))) s.
Proof.
  intros [ob Ho] HK Hd HP. unfold sendTick. w1. eapply sgetO; [done|]. cbv beta.
  assert (HF : forall (s' : st), K D (bump B o d) s' -> kp s s' -> (forall ob', d_obj D !! o = Some ob' -> evState s (ob_lambda ob') = SLEEPING -> evState s rl = SLEEPING -> evState s' rl = SLEEPING) ->
    (Phi2 s' \/ (evState s' rl = SLEEPING /\ (o = d_root D \/ evState s rl = SLEEPING)))).
  { intros s' H1 H2 H3. destruct HP as [HP|[Hne HP]]; [left; by eapply Phi2_keep|right]. split; [|right; by apply (HP _ _ Hrb)].
    eapply H3; [done|by eapply HP|by eapply HP]. }
  destruct (ob_kind ob) eqn:Hk.
  - destruct (decide (o = d_root D)) as [->|Hne].
    + destruct HP as [HP|[? _]]; [|done]. eapply wp_mono; [by apply rootTick_safe|]. intros [] s' [H1 [H2|H2]]; (split; [done|]); auto.
    + eapply wp_mono; [by eapply ctxTick_safe|]. intros [] s' (H1 & H2 & H3). split; [done|]. apply HF; [done|done|].
      intros ob' Ho' E1 E2. assert (ob' = ob) as -> by congruence. by rewrite H3.
  - by destruct (cd_switch D CD _ _ Ho).
  - eapply wp_mono; [eapply mediaTick_safe; [done|by rewrite Hk|done|done]|]. intros [] s' (H1 & H2 & H3). split; [done|]. apply HF; [done|done|].
    intros ob' Ho' E1 E2. assert (ob' = ob) as -> by congruence. by rewrite H3.
  - assert (o = d_settings D) as -> by by apply (wf_kset _ _ WF _ _ Ho).
    eapply wp_mono; [by apply settingsTick_safe|]. intros [] s' (H1 & H2 & H3). split; [done|]. apply HF; [done|done|].
    intros ob' Ho' E1 E2. apply H3; [done|]. by assert (ob' = sb) as -> by congruence.
Qed.

(** Keys, sizes and the end of contents. *)
Lemma sendKey_safe B n o k p s : valid_obj D o -> K D B s -> swp (sendKey D n o k p) (fun _ s' => K D B s' /\ kp s s') s.
Proof.
  intros [ob Ho] HK. unfold sendKey. w1. w1. w1. eapply sgetO; [done|]. cbv beta. w1; [|w1; split; [by apply K_log|by apply keep_same]].
  rename H into Hm. unfold mediaKey. w1. unfold isSleeping, objState. w1. w1. eapply sgetO; [done|]. cbv beta. w1. w1.
  w1; [w1; split; [by apply K_log|by apply keep_same]|]. clear H. w1. w1.
  set (s0 := log (OKey o k p) s). assert (HK0 : K D B s0) by by apply K_log. assert (HP0 : kp s s0) by by apply keep_same.
  destruct (o_player (ostOf s0 o)) as [pl|]; [|w1; done].
  w1. apply (wp_mono _ _ _ (fun _ s' => K D B s' /\ kp s s')).
  { w1; [|w1; done]. cbv zeta. w1; [w1; done|]. unfold scheduleFocus. w1. split; [by apply K_next|exact HP0]. }
  intros [] s1 [HK1 HP1]. cbv beta. w1. eapply sgetO; [done|]. cbv beta.
  apply wp_foreach_inv with (I := fun s' => K D B s' /\ kp s s'); [done| |done].
  intros e s2 Hin [H1 H2]. apply elem_of_list_In, List.filter_In in Hin as [Hin Hkm]. apply elem_of_list_In in Hin.
  destruct (wo_events _ _ _ _ (wf_o _ _ WF _ _ Ho) _ Hin) as (ev & He & Hob).
  unfold key_matches in Hkm. rewrite He in Hkm. destruct (ev_type ev) eqn:Hty; try done.
  w1. eapply wp_mono; [apply (eval_safe D rank WF CD B rb sb Hrb Hsb); [| | |exact H1]|].
  - exists ev, ob. cbn [mkA ac_evt ac_tr]. split; [done|]. rewrite Hob. split; [done|]. rewrite Hty. split; [done|]. destruct p; auto.
  - cbn. intros ->. destruct (sl_event D rank WF sb Hsb) as (se & S1 & S2 & _). assert (se = ev) as -> by congruence. pose proof (islam_type _ S2). congruence.
  - cbn. intros ->. destruct (rl_event D rank WF rb Hrb) as (se & S1 & S2 & _). assert (se = ev) as -> by congruence. pose proof (islam_type _ S2). congruence.
  - intros x s3 [G1 G2]. cbv beta. w1. split; [done|]. by eapply keep_trans.
Qed.
Lemma resize_safe B w h s : K D B s -> swp (modify (Formatter.set_size w h) ;;
      foreach (fun o =>
        foreach (fun k => do s <- get;
                   let v := propOf s o k in
                   if is_empty v then ret tt else mediaSetProperty D o k v 0)
          ["top"; "left"; "width"; "height"; "bottom"; "right"]) (d_medias D)) (fun _ s' => K D B s' /\ forall e, evState s' e = evState s e) s.
Proof.
  intros HK. w1. w1. apply wp_foreach_inv with (I := fun s' => K D B s' /\ forall e, evState s' e = evState s e); [| |done].
  { split; [|done]. by apply (K_same _ _ s). }
  intros o s1 Hin HI. apply (wf_medias _ _ WF) in Hin as (ob & Ho & Hm).
  apply wp_foreach_inv with (I := fun s' => K D B s' /\ forall e, evState s' e = evState s e); [done| |done]. clear s1 HI.
  intros k s1 Hk [H1 H2]. w1. w1. cbv zeta. w1; [w1; done|].
  eapply wp_mono; [eapply (mset_safe D o ob); [done|done|by apply (k_prop _ _ _ H1 o ob)|]|].
  - apply geom_ok. revert Hk. clear. rewrite !elem_of_cons. tauto.
  - intros [] s2 [G1 G2]. split.
    + eapply K_pframe; [exact G2|by intros|done].
    + intros e. rewrite <- H2. by eapply pframe_evState.
Qed.
Lemma destroy_safe B n k : forall o s, valid_obj D o -> K D B s -> swp (destroy D n k o) (fun _ s' => K D B s') s.
Proof.
  induction k as [|k IH]; intros o s [ob Ho] HK; [done|]. cbn [destroy]. w1. eapply sgetO; [done|]. cbv beta.
  assert (HM : is_media (ob_kind ob) = true -> swp (mediaDoStop D o) (fun _ s' => K D B s') s).
  { intros Hm. destruct (o_player (ostOf s o)) as [p|] eqn:Ep.
    - eapply mediaDoStop_safe; [done|done|by eexists|]. intros s2 F1 F2. eapply (K_stop D rank WF B o ob s s2); try done.
      + intros _. rewrite F2. cbn. by rewrite decide_True.
      + intros o'. rewrite F2. cbn. by destruct (decide (o = o')).
      + intros o' Hne. rewrite F2. cbn. by rewrite decide_False by done.
      + rewrite F2. cbn. by rewrite decide_True.
    - unfold mediaDoStop. w1. w1. rewrite Ep. w1. unfold isSleeping, objState. w1. w1. eapply sgetO; [done|]. cbv beta. w1. w1. w1; [|done].
      apply bool_decide_eq_false in H. apply (k_pl _ _ _ HK _ _ Ho Hm) in H as [? H]. by rewrite Ep in H. }
  destruct (ob_kind ob) eqn:Hk; [|w1; done|by apply HM..].
  w1. eapply wp_mono; [apply (tr_safe D rank WF CD B rb sb Hrb Hsb); [done|]|].
  - eapply req_lam; eauto.
  - intros b s1 (H1 & _). cbv beta. apply wp_foreach_inv with (I := K D B); [done| |done].
    intros c s2 Hc HK2. apply IH; [|done]. destruct (wo_children _ _ _ _ (wf_o _ _ WF _ _ Ho) _ Hc) as (cb & Hcb & _). by eexists.
Qed.
End SafeTick.

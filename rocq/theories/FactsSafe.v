(** FactsSafe.v -- with calm documents no call of the player's API aborts (C34,
    positive part): the formatter. *)
From Verif Require Export SafeTick Up.
Open Scope string_scope.
Open Scope list_scope.
Open Scope m_scope.

Lemma onDoc_swp {A} (m : doc -> ME A) f D s (Q : A -> fmt -> Prop) :
  f_doc f = Some (D, s) ->
  swp (m D) (fun a s' => Q a (f_set_focus (s_focus s') (f_set_doc (Some (D, s')) f))) s ->
  swp (onDoc m) Q f.
Proof. unfold wp, onDoc. intros ->. by destruct (m D s). Qed.

(** When the body sleeps, everything does. *)
Lemma all_asleep D rank (WF : wf_at D rank) (CD : calmDoc D) rb s : d_obj D !! d_root D = Some rb -> reach D s ->
  evState s (ob_lambda rb) = SLEEPING -> forall x xb, d_obj D !! x = Some xb -> evState s (ob_lambda xb) = SLEEPING.
Proof.
  intros Hrb Hr HS. pose proof (reach_up D rank WF (cd_switch D CD) (cd_hold D CD) s Hr) as HU.
  assert (HM : exists M, forall o, o ∈ d_objs D -> rank o <= M).
  { generalize (d_objs D). induction l as [|x l [M IH]]; [exists 0; by intros o ?%elem_of_nil|]. exists (rank x + M).
    intros o [->|Hin]%elem_of_cons; [lia|]. specialize (IH _ Hin). lia. }
  destruct HM as [M HM].
  assert (HK : forall k x xb, d_obj D !! x = Some xb -> M - rank x < k -> evState s (ob_lambda xb) = SLEEPING).
  { induction k as [|k IH]; [lia|]. intros x xb Hx Hk. destruct (decide (evState s (ob_lambda xb) = SLEEPING)) as [E|E]; [done|]. exfalso.
    destruct (decide (x = d_root D)) as [->|Hne]; [by assert (xb = rb) as -> by congruence|].
    destruct (ob_parent xb) as [p|] eqn:Ep; [|by apply (cd_parent D CD x xb Hx Hne)].
    destruct (wo_parent _ _ _ _ (wf_o _ _ WF _ _ Hx) _ Ep) as (pb & Hpb & _ & _ & Hlt).
    destruct (HU _ _ _ _ Hx Ep Hpb E) as [Ha|]; [|done]. apply Ha. apply (IH p pb Hpb).
    assert (rank p <= M) by (apply HM, (wf_objs _ _ WF); by eexists). lia. }
  intros x xb Hx. eapply HK; [done|]. apply Nat.lt_succ_diag_r.
Qed.

Definition SDoc (D : doc) (s : st) (T : N) : Prop := calmDoc D /\ exists rb sb, d_obj D !! d_root D = Some rb /\ d_obj D !! d_settings D = Some sb /\
  K D (fun _ => T) s /\ (Phi2 rb sb s \/ evState s (ob_lambda rb) = SLEEPING).
Definition SInv (f : fmt) (T : N) : Prop := FInv f /\ forall D s, f_doc f = Some (D, s) -> SDoc D s T.

Lemma S_stop n f T : SInv f T -> swp (fstop n) (fun b f' => b = f_playing f /\ SInv f' T /\ f_playing f' = false) f.
Proof.
  intros [HI HS]. apply (wp_mono _ _ _ (fun b f' => (b = f_playing f /\ FInv f' /\ f_playing f' = false /\ f_doc f' = None /\ (b = false -> f' = f)))).
  2:{ intros b f' (H1 & H2 & H3 & H4 & _). split; [done|]. split; [|done]. split; [done|]. rewrite H4. done. }
  apply swp_of; [|by apply FInv_stop]. unfold fstop. w1. w1. w1.
  destruct HI as [He Hd]. destruct (f_doc f) as [[D s]|] eqn:Ed; [|congruence].
  destruct Hd as (_ & [rank WF] & Hr). destruct (HS _ _ eq_refl) as (CD & rb & sb & Hrb & Hsb & HK & _).
  w1. eapply onDoc_swp; [exact Ed|]. eapply wp_mono; [eapply (destroy_safe D rank WF CD rb sb Hrb Hsb); [by eexists|exact HK]|].
  intros [] s' _. cbv beta. w1.
Qed.
Lemma S_check n f T : SInv f T -> f_playing f = true ->
  swp (checkEOS n) (fun _ f' => SInv f' T /\ forall D s, f_doc f' = Some (D, s) -> forall rb, d_obj D !! d_root D = Some rb -> evState s (ob_lambda rb) <> SLEEPING) f.
Proof.
  intros HI Hp. pose proof HI as [HF HS]. pose proof HF as [He Hd]. destruct (f_doc f) as [[D s]|] eqn:Ed; [|congruence].
  destruct (HS _ _ eq_refl) as (CD & rb & sb & Hrb & Hsb & HK & _).
  unfold checkEOS. w1. eapply onDoc_swp; [exact Ed|]. unfold isSleeping, objState. w1. w1. eapply sgetO; [done|]. cbv beta. w1. w1.
  rewrite <- Ed. assert (Ef : f_set_focus (s_focus s) (f_set_doc (f_doc f) f) = f_set_focus (s_focus s) f) by by destruct f.
  rewrite Ef. assert (HI' : SInv (f_set_focus (s_focus s) f) T). { split; [exact HF|]. cbn. by rewrite Ed. }
  w1. apply (wp_mono _ _ _ (fun _ f' => f' = f_set_eos (bool_decide (evState s (ob_lambda rb) = SLEEPING)) (f_set_focus (s_focus s) f))).
  { w1.
    - apply bool_decide_eq_true in H. rewrite bool_decide_true by done. by w1.
    - w1. apply bool_decide_eq_false in H. rewrite bool_decide_false by done. cbv beta. destruct f; cbn in *. by subst. }
  intros [] f' ->. cbv beta. w1. w1. cbn [f_eos f_set_eos]. destruct (bool_decide (evState s (ob_lambda rb) = SLEEPING)) eqn:Eb.
  - w1. w1; [cbn in *; congruence|]. w1. w1. w1. eapply wp_mono.
    + apply (S_stop n _ T). split; [split; [done|]; cbn; rewrite Ed; by destruct HF as [_ HF]; rewrite Ed in HF|]. cbn. rewrite Ed. exact HS.
    + intros b f2 (H1 & H2 & H3). cbv beta. w1; [|].
      * cbn in H1. congruence.
      * split; [done|]. intros D' s' Ed'. destruct H2 as [[_ Hd2] _]. rewrite Ed' in Hd2. destruct Hd2. congruence.
  - apply bool_decide_eq_false in Eb. w1. split.
    + assert (E : f_set_eos false (f_set_focus (s_focus s) f) = f_set_focus (s_focus s) f) by (destruct f; cbn in *; by subst). by rewrite E.
    + cbn. rewrite Ed. intros D' s' [= <- <-] rb' Hrb'. by assert (rb' = rb) as -> by congruence.
Qed.
Lemma S_key n k p f T : SInv f T -> swp (fkey n k p) (fun _ f' => SInv f' T) f.
Proof.
  intros HI. apply (wp_mono _ _ _ (fun b f' => (forall D s, f_doc f' = Some (D, s) -> SDoc D s T) /\ FInv f')); [|intros b f' [H1 H2]; by split].
  apply swp_and; [|apply FInv_key, HI]. unfold fkey. w1. w1. w1; [w1; apply HI|]. w1.
  eapply wp_mono; [apply S_check; [done|by destruct (f_playing f)]|]. intros [] f1 [HI1 HA]. cbv beta. w1. w1. w1; [w1; apply HI1|].
  apply negb_false_iff in H0. destruct HI1 as [[He Hd] HS]. destruct (f_doc f1) as [[D s]|] eqn:Ed; [|congruence].
  destruct Hd as (_ & [rank WF] & Hr). destruct (HS _ _ eq_refl) as (CD & rb & sb & Hrb & Hsb & HK & HP).
  assert (HP2 : Phi2 rb sb s). { destruct HP as [?|E]; [done|]. by destruct (HA _ _ eq_refl _ Hrb). }
  w1. eapply onDoc_swp; [exact Ed|]. w1. w1. apply (wp_mono _ _ _ (fun _ s' => K D (fun _ => T) s' /\ keep rb sb s s')).
  - apply wp_foreach_inv with (I := fun s' => K D (fun _ => T) s' /\ keep rb sb s s'); [split; [done|apply keep_refl]| |intros s' HH; exact HH].
    intros o s1 Hin [H1 H2]. apply elem_of_list_In, List.filter_In in Hin as [Hin _]. apply elem_of_list_In, (wf_objs _ _ WF) in Hin.
    eapply wp_mono; [by eapply sendKey_safe|]. intros [] s2 [H3 H4]. split; [done|]. by eapply keep_trans.
  - intros [] s' [H1 H2]. cbv beta. w1. cbn. intros D' s'' [= <- <-]. split; [done|]. exists rb, sb. split; [done|]. split; [done|]. split; [done|].
    left. by eapply Phi2_keep.
Qed.

(** A tick: no object's clock runs past the sum of the ticks. *)
Lemma tick_all D rank (WF : wf_at D rank) (CD : calmDoc D) rb sb (Hrb : d_obj D !! d_root D = Some rb) (Hsb : d_obj D !! d_settings D = Some sb) n d T :
  (T + d < TIME_NONE)%N -> forall l B s, NoDup l -> (forall o, o ∈ l -> valid_obj D o) -> (forall o, o ∈ l -> (B o <= T)%N) -> (forall o, (B o <= T + d)%N) ->
  reach D s -> K D B s -> (Phi2 rb sb s \/ (evState s (ob_lambda rb) = SLEEPING /\ d_root D ∉ l)) ->
  swp (foreach (fun o => sendTick D n o d) l) (fun _ s' => K D (fun _ => T + d)%N s' /\ (Phi2 rb sb s' \/ evState s' (ob_lambda rb) = SLEEPING)) s.
Proof.
  intros HT. induction l as [|o l IH]; intros B s Hnd Hv HB HB2 Hr HK HP; cbn [foreach].
  - w1. split; [by eapply K_mono|]. destruct HP as [?|[? _]]; auto.
  - apply stdpp.list.NoDup_cons in Hnd as [Hno Hnd]. assert (HBo : (B o <= T)%N) by (apply HB; by left).
    w1. eapply wp_mono; [apply swp_and; [eapply (sendTick_safe D rank WF CD rb sb Hrb Hsb B n o d s); [apply Hv; by left|done|lia|]|by apply rk_tick]|].
    + destruct HP as [?|[HP1 HP2]]; [by left|right]. split; [intros ->; apply HP2; by left|]. by eapply all_asleep.
    + intros [] s1 [[H1 H2] H3]. cbv beta. apply (IH (bump B o d)); [done|intros; apply Hv; by right| | |done|done|].
      * intros x Hx. unfold bump. rewrite decide_False by congruence. apply HB. by right.
      * intros x. unfold bump. destruct (decide (x = o)) as [->|]; [lia|apply HB2].
      * destruct H2 as [?|[H4 H5]]; [by left|right]. split; [done|]. destruct H5 as [->|H5]; [done|].
        destruct HP as [[HP _]|[_ HP]]; [congruence|]. intros Hin. apply HP. by right.
Qed.
Lemma S_mono f T T' : (T <= T')%N -> SInv f T -> SInv f T'.
Proof.
  intros HT [HI HS]. split; [done|]. intros D s E. destruct (HS _ _ E) as (CD & rb & sb & H1 & H2 & H3 & H4). split; [done|]. exists rb, sb.
  split; [done|]. split; [done|]. split; [|done]. by eapply K_mono; [|exact H3].
Qed.
Lemma S_tick n d f T : SInv f T -> (T + d < TIME_NONE)%N -> swp (ftick n d) (fun _ f' => SInv f' (T + d)) f.
Proof.
  intros HI HT. apply (wp_mono _ _ _ (fun b f' => (forall D s, f_doc f' = Some (D, s) -> SDoc D s (T + d)) /\ FInv f')); [|intros b f' [H1 H2]; by split].
  assert (HL : (T <= T + d)%N) by lia.
  apply swp_and; [|apply FInv_tick, HI]. unfold ftick. w1. w1. w1; [w1; by apply (S_mono _ _ _ HL HI)|]. w1.
  eapply wp_mono; [apply S_check; [done|by destruct (f_playing f)]|]. intros [] f1 [HI1 HA]. cbv beta. w1. w1. w1; [w1; apply (S_mono _ _ _ HL HI1)|].
  apply negb_false_iff in H0. destruct HI1 as [[He Hd] HS]. destruct (f_doc f1) as [[D s]|] eqn:Ed; [|congruence].
  destruct Hd as (_ & [rank WF] & Hr). destruct (HS _ _ eq_refl) as (CD & rb & sb & Hrb & Hsb & HK & HP).
  assert (HP2 : Phi2 rb sb s). { destruct HP as [?|E]; [done|]. by destruct (HA _ _ eq_refl _ Hrb). }
  w1. eapply onDoc_swp; [exact Ed|]. w1. w1. eapply wp_mono.
  - eapply (tick_all D rank WF CD rb sb Hrb Hsb n d T HT _ (fun _ => T)); [| |done|done|exact Hr|exact HK|by left].
    + apply NoDup_ListNoDup, List.NoDup_filter with (f := fun o => match d_obj D !! o with Some ob => bool_decide (evState s (ob_lambda ob) = OCCURRING) | None => false end).
      apply NoDup_ListNoDup. apply (wf_objs_nodup _ _ WF).
    + intros o Hin. apply elem_of_list_In, List.filter_In in Hin as [Hin _]. by apply elem_of_list_In, (wf_objs _ _ WF) in Hin.
  - intros [] s' [H1 H2]. cbv beta. w1. cbn. intros D' s'' [= <- <-]. split; [done|]. by exists rb, sb.
Qed.
Lemma S_resize w h f T : SInv f T -> (0 < w)%Z -> (0 < h)%Z -> swp (fresize w h) (fun _ f' => SInv f' T) f.
Proof.
  intros HI Hw Hh. apply (wp_mono _ _ _ (fun b f' => (forall D s, f_doc f' = Some (D, s) -> SDoc D s T) /\ FInv f')); [|intros b f' [H1 H2]; by split].
  apply swp_and; [|apply FInv_resize, HI]. unfold fresize. w1. w1; [lia|]. clear H. w1. w1. w1. w1.
  destruct HI as [[He Hd] HS]. w1; [w1; exact HS|]. apply negb_false_iff in H. cbn in H. destruct (f_doc f) as [[D s]|] eqn:Ed; [|congruence].
  destruct Hd as (_ & [rank WF] & Hr). destruct (HS _ _ eq_refl) as (CD & rb & sb & Hrb & Hsb & HK & HP).
  eapply onDoc_swp; [exact Ed|]. eapply wp_mono; [by eapply resize_safe|]. intros [] s' [H1 H2]. cbn. intros D' s'' [= <- <-]. split; [done|]. exists rb, sb.
  split; [done|]. split; [done|]. split; [done|]. unfold Phi2. by rewrite !H2.
Qed.

Lemma K_init D s w h : calmDoc D -> init_ok D s -> calmInit D s -> K D (fun _ => 0%N) (Formatter.set_size w h s).
Proof.
  intros CD [I1 I2 I3 I4 I5 I6 _ _] HC. 
  assert (E : forall e, evState (Formatter.set_size w h s) e = SLEEPING) by exact I1.
  split.
  - intros e. by rewrite E.
  - intros o ob _ _. rewrite E. change (ostOf (Formatter.set_size w h s) o) with (ostOf s o). rewrite I6. split; [by intros []|done].
  - intros o ob e ev _ _ _ _ _ Ha. by destruct Ha.
  - intros o ax. change (ostOf (Formatter.set_size w h s) o) with (ostOf s o). rewrite I3. by intros ?%elem_of_nil.
  - intros o ob Ho Hm. change (ostOf (Formatter.set_size w h s) o) with (ostOf s o). destruct (HC _ _ Ho Hm) as [H1 H2]. split; [exact H1|]. split; [exact H2|].
    intros _ p. by rewrite I6.
  - intros o ob _. by rewrite E.
Qed.
Lemma calm_good F : calmFile F -> goodFile F.
Proof. intros H w h fo D s E. by destruct (H _ _ _ _ _ E) as (? & ? & _). Qed.
Lemma S_start n F f T : SInv f T -> calmFile F -> f_playing f = false -> swp (fstart n F) (fun _ f' => SInv f' 0) f.
Proof.
  intros HI HF Hp. apply (wp_mono _ _ _ (fun b f' => (forall D s, f_doc f' = Some (D, s) -> SDoc D s 0) /\ FInv f')); [|intros b f' [H1 H2]; by split].
  pose proof HI as [[He Hd] HS]. apply swp_and.
  2:{ eapply wp_mono; [apply FInv_start; [apply HI|by apply calm_good]|]. intros b f' [? _]. done. }
  assert (Ed : f_doc f = None) by (destruct (f_doc f) as [[D s]|]; [destruct Hd; congruence|done]).
  unfold fstart. w1. w1. rewrite Hp, Ed. cbv iota. w1. w1; [done|]. clear H.
  destruct (F (f_w f) (f_h f) (f_focus f)) as [[D s]|] eqn:EF; [|w1; by rewrite Ed].
  destruct (HF _ _ _ _ _ EF) as ([rank WF] & Hin & CD & HC).
  destruct (wf_root _ _ WF) as (rb & Hrb & Hrk & _). destruct (wf_settings _ _ WF) as (sb & Hsb & Hsk & _).
  set (s0 := Formatter.set_size (f_w f) (f_h f) s).
  assert (HK : K D (fun _ => 0%N) s0) by by apply K_init.
  assert (E0 : forall e, evState s0 e = SLEEPING) by apply (in_ev _ _ Hin).
  w1. w1. w1. w1. w1. eapply onDoc_swp; [reflexivity|]. fold s0. w1. eapply sgetO; [done|]. cbv beta.
  eapply wp_mono; [apply swp_and; [eapply (eval_root_start D rank WF CD _ rb sb Hrb Hsb); [exact HK|apply E0]|apply (start_root_pos D n (d_root D) rb s0); [by exists rank|done|done|apply E0]]|].
  intros k s1 [(H1 & H2 & H3) H4]. cbv beta. destruct k as [|k]; [done|]. w1. eapply onDoc_swp; [reflexivity|].
  w1. eapply sgetO; [done|]. cbv beta.
  destruct (sl_event D rank WF sb Hsb) as (ev & Hev & Hl & Hob).
  eapply wp_mono; [apply swp_and; [apply (tr_safe D rank WF CD _ rb sb Hrb Hsb n _ START s1 H1)|by eapply (tr_ok_wp D rank WF)]|].
  { eapply req_lam; eauto. }
  intros b s2 [(G1 & G2 & _ & G4 & _) [_ G6]]. cbv beta. assert (b = true) as ->.
  { apply G4; [done|by rewrite H3|]. intros ev' He'. congruence. }
  w1. w1; [done|]. w1. w1. w1. cbn. intros D' s' [= <- <-]. split; [done|]. exists rb, sb. split; [done|]. split; [done|]. split; [done|]. left.
  destruct (G6 eq_refl) as [_ G7]. split; [|done].
  destruct (evState s2 (ob_lambda rb)) eqn:E; [done|by destruct (k_np _ _ _ G1 (ob_lambda rb))|by destruct (G2 eq_refl _ H2)].
Qed.
Lemma S_eos o f f' T : SInv f T -> (forall D s, f_doc f = Some (D, s) -> o <> d_settings D) -> fenv_eos o f = Ok tt f' -> SInv f' T.
Proof.
  intros [HI HS] Hne E.
  assert (HF : FInv f').
  { eapply wp_ok in E; [|unfold fenv_eos; apply FInv_onDoc; [done|]]; [exact (proj1 E)|].
    intros D Hwf s Hs. w1. wgetO ob Ho. w1; [|by w1]. unfold updPlayer. w1. by eapply r_eos. }
  split; [exact HF|]. destruct HI as [He Hd]. destruct (f_doc f) as [[D s]|] eqn:Ed.
  2:{ exfalso. unfold fenv_eos, onDoc in E. by rewrite Ed in E. }
  destruct (HS _ _ eq_refl) as (CD & rb & sb & Hrb & Hsb & HK & HP). specialize (Hne _ _ eq_refl).
  assert (HW : pwp (fenv_eos o) (fun _ f' => forall D s, f_doc f' = Some (D, s) -> SDoc D s T) f); [|exact (wp_ok _ _ _ _ _ HW _ _ E)].
  unfold fenv_eos. eapply onDoc_pwp; [exact Ed|]. w1. wgetO ob Ho.
  assert (HG : forall s', K D (fun _ => T) s' -> (forall e, evState s' e = evState s e) -> SDoc D s' T).
  { intros s' H1 H2. split; [done|]. exists rb, sb. split; [done|]. split; [done|]. split; [done|]. unfold Phi2. by rewrite !H2. }
  w1; [|w1; cbn; intros D' s' [= <- <-]; by apply HG].
  unfold updPlayer. w1. cbn. intros D' s' [= <- <-]. apply HG; [|done].
  apply (K_player _ _ _ (p_set_eos true)); [|done]. intros p. by destruct p.
Qed.
Lemma calls_SInv f T : calls f T -> SInv f T.
Proof.
  induction 1.
  - split; [done|]. done.
  - exact (wp_ok _ _ _ _ _ (S_start n F f T IHcalls H1 H0) _ _ H2).
  - exact (proj1 (proj2 (wp_ok _ _ _ _ _ (S_stop n f T IHcalls) _ _ H0))).
  - exact (wp_ok _ _ _ _ _ (S_key n k p f T IHcalls) _ _ H0).
  - exact (wp_ok _ _ _ _ _ (S_tick n d f T IHcalls H0) _ _ H1).
  - assert (Hwh : (0 < w)%Z /\ (0 < h)%Z).
    { unfold fresize, assertm, bind in H0. destruct ((0 <? w)%Z && (0 <? h)%Z)%bool eqn:E; [|done]. lia. }
    exact (wp_ok _ _ _ _ _ (S_resize w h f T IHcalls (proj1 Hwh) (proj2 Hwh)) _ _ H0).
  - by eapply S_eos.
Qed.
Lemma swp_nocrash {S A} (m : M S A) Q s c : swp m Q s -> m s <> Crash c.
Proof. unfold wp. intros H E. by rewrite E in H. Qed.
Theorem f_safe f T : calls f T ->
  (forall n F c, calmFile F -> fstart n F f <> Crash c) /\
  (forall n c, fstop n f <> Crash c) /\
  (forall n k p c, fkey n k p f <> Crash c) /\
  (forall n d c, (T + d < TIME_NONE)%N -> ftick n d f <> Crash c) /\
  (forall w h c, (0 < w)%Z -> (0 < h)%Z -> fresize w h f <> Crash c).
Proof.
  intros H. pose proof (calls_SInv _ _ H) as HS. split; [|split; [|split; [|split]]].
  - intros n F c HF. destruct (f_playing f) eqn:Hp; [|by eapply swp_nocrash, S_start].
    unfold fstart, bind, get. by rewrite Hp.
  - intros n c. by eapply swp_nocrash, S_stop.
  - intros n k p c. by eapply swp_nocrash, S_key.
  - intros n d c Hd. by eapply swp_nocrash, S_tick.
  - intros w h c Hw Hh. by eapply swp_nocrash, S_resize.
Qed.

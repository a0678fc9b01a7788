(** Hold.v -- pausing and resuming (C06) in documents without switches and without
    links that react to pauses or resumptions. *)
From Verif Require Export Stop.
Open Scope string_scope.
Open Scope list_scope.
Open Scope m_scope.

Definition isHold (t : trans) : Prop := t = PAUSE \/ t = RESUME.
Notation srcOf := heldFrom.
Lemma legal_hold t x : isHold t -> legal x t = true <-> x = srcOf t.
Proof. intros [-> | ->]; destruct x; cbn; split; congruence. Qed.
Lemma src_dst t : isHold t -> srcOf t <> target t.
Proof. by intros [-> | ->]. Qed.

Section Hold.
Context (D : doc) (rank : oid -> nat) (WF : wf_at D rank).
Context (NS : noSwitch D) (NH : noHoldLinks D).
Context (t : trans) (Ht : isHold t).
Notation src := (srcOf t).
Notation dst := (target t).

(** *** Nothing is triggered by a pause or a resumption. *)
Lemma fire_conds_quiet ctx e conds acts s : (forall c, c ∈ conds -> ac_tr c <> t) ->
  pwp (fire_conds D ctx e t conds acts) (fun r s' => r = [] /\ s' = s) s.
Proof.
  induction conds as [|c conds IH]; intros H; cbn [fire_conds]; [by w1|].
  rewrite (bool_decide_eq_false_2 (ac_tr c = t)) by (apply H; left). rewrite andb_false_r. apply IH. intros; apply H; by right.
Qed.
Lemma fire_links_quiet ctx e links s : (forall cs acts c, (cs, acts) ∈ links -> c ∈ cs -> ac_tr c <> t) ->
  pwp (fire_links D ctx e t links) (fun r s' => r = [] /\ s' = s) s.
Proof.
  induction links as [|[cs acts] links IH]; intros H; cbn [fire_links]; [by w1|].
  w1. eapply wp_mono; [apply fire_conds_quiet; intros; eapply H; [left|done]|]. intros r s1 [-> ->]. cbv beta.
  w1. eapply wp_mono; [apply IH; intros; eapply H; [by right|done]|]. intros r s1 [-> ->]. cbv beta. by w1.
Qed.
Lemma inCtx_quiet a ctx s : ac_tr a = t -> pwp (evalActionInContext D a ctx) (fun r s' => r = [] /\ s' = s) s.
Proof.
  intros Ha. unfold evalActionInContext. w1. wgetO ob Ho. w1. w1. w1; [|by w1]. rewrite Ha.
  apply fire_links_quiet. intros cs acts c Hl Hc. destruct (NH _ _ _ _ _ Ho Hl Hc). by destruct Ht as [-> | ->].
Qed.
Lemma ports_quiet a o gp ports s : ac_tr a = t -> pwp (fire_ports D a o gp ports) (fun r s' => r = [] /\ s' = s) s.
Proof.
  intros Ha. induction ports as [|p ports IH]; cbn [fire_ports]; [by w1|]. w1. wgetE pe Hpe. w1; [|apply IH].
  w1. eapply wp_mono; [by apply inCtx_quiet|]. intros r s1 [-> ->]. cbv beta. w1.
  eapply wp_mono; [apply IH|]. intros r s1 [-> ->]. cbv beta. by w1.
Qed.
Lemma aliases_quiet a als s : ac_tr a = t -> pwp (fire_aliases D a als) (fun r s' => r = [] /\ s' = s) s.
Proof.
  intros Ha. induction als as [|[i [c|]] als IH]; cbn [fire_aliases]; [by w1| |apply IH].
  unfold isContext. w1. w1. wgetO cb Hcb. w1. w1; [|apply IH].
  w1. eapply wp_mono; [by apply inCtx_quiet|]. intros r s1 [-> ->]. cbv beta. w1.
  eapply wp_mono; [apply IH|]. intros r s1 [-> ->]. cbv beta. by w1.
Qed.
Lemma triggered_quiet evalA a s : ac_tr a = t -> pwp (triggered D evalA a) (fun r s' => r = [] /\ s' = s) s.
Proof.
  intros Ha. unfold triggered. w1. wgetE ev He. w1. wgetO ob Ho. w1.
  eapply (wp_mono _ _ _ (fun r s' => r = [] /\ s' = s)).
  - unfold fire_parent. destruct (ob_parent ob) as [p|]; [|by w1]. w1. wgetO pb Hpb.
    destruct (ob_kind pb) eqn:Hk; [|by destruct (NS _ _ Hpb)|by w1|by w1].
    w1. eapply pwp_isOccurring; [done|]. cbv beta. w1; [|by w1]. w1.
    eapply wp_mono; [by apply inCtx_quiet|]. intros r s1 [-> ->]. cbv beta. w1.
    eapply (wp_mono _ _ _ (fun r s' => r = [] /\ s' = s)).
    { destruct (ob_parent pb) as [gp|]; [|by w1]. w1. wgetO gb Hgb. w1. eapply pwp_isOccurring; [done|]. cbv beta.
      w1; [by apply ports_quiet|by w1]. }
    intros r s1 [-> ->]. cbv beta. by w1.
  - intros r s1 [-> ->]. cbv beta. w1. unfold fire_self.
    eapply (wp_mono _ _ _ (fun r s' => r = [] /\ s' = s)).
    { destruct (ob_kind ob); [by apply inCtx_quiet|by apply aliases_quiet..]. }
    intros r s1 [-> ->]. cbv beta. by w1.
Qed.
(** *** Anchors. *)
Definition one (e : eid) (s s' : st) : Prop := forall e', evState s' e' =
  if decide (e = e' /\ evState s e = src) then dst else evState s e'.
Lemma tr_anchor n e ev ob s : d_evt D !! e = Some ev -> d_obj D !! ev_obj ev = Some ob -> is_media (ob_kind ob) = true ->
  ev_type ev = PRESENTATION -> isLambda ev = false ->
  pwp (tr D n e t) (fun _ s' => one e s s') s.
Proof.
  intros He Ho Hm Hty Hl. destruct n as [|n]; [exact I|]. rewrite tr_S. unfold tr_body. w1. wgetE ev' He'.
  assert (ev' = ev) as -> by congruence. w1. w1.
  destruct (legal (evState s e) t) eqn:El; cbn [negb].
  2:{ w1. intros e'. rewrite decide_False; [done|]. intros [-> E]. apply (legal_hold _ _ Ht) in E. congruence. }
  apply (legal_hold _ _ Ht) in El.
  w1. eapply (wp_mono _ _ _ (fun b s1 => b = true /\ s1 = s)).
  { unfold before. w1. wgetO ob' Ho'. assert (ob' = ob) as -> by congruence.
    assert (HB : pwp (media_before D (tr D n) (fun a => loop D n [a]) (ev_obj ev) e ev t) (fun b s1 => b = true /\ s1 = s) s).
    { unfold media_before. rewrite Hty, Hl. destruct Ht as [-> | ->]; by w1. }
    by destruct (ob_kind ob). }
  intros b s1 [-> ->]. cbv beta. cbn [negb]. w1. w1. w1. w1. w1.
  eapply (wp_mono _ _ _ (fun b s1 => b = true /\ s1 = commit e t s)).
  { unfold after. w1. wgetO ob' Ho'. assert (ob' = ob) as -> by congruence.
    assert (HB : pwp (media_after D (ev_obj ev) e ev t) (fun b s1 => b = true /\ s1 = commit e t s) (commit e t s)).
    { unfold media_after. w1. w1. cbv zeta. rewrite Hty. destruct Ht as [-> | ->]; by w1. }
    by destruct (ob_kind ob). }
  intros b s1 [-> ->]. cbv beta iota. w1. intros e'. sts. destruct (decide (e = e')) as [->|Hne].
  - by rewrite decide_True.
  - rewrite decide_False; [done|]. by intros [? _].
Qed.
Lemma loop_anchor n e ev ob s : d_evt D !! e = Some ev -> d_obj D !! ev_obj ev = Some ob -> is_media (ob_kind ob) = true ->
  ev_type ev = PRESENTATION -> isLambda ev = false ->
  pwp (loop D n [mkA e t ""]) (fun _ s' => one e s s') s.
Proof.
  intros He Ho Hm Hty Hl. destruct n as [|n]; [exact I|]. rewrite loop_S. unfold loop_body. w1.
  eapply (wp_mono _ _ _ (fun _ s' => one e s s')).
  { unfold attempt. w1. w1. w1. wgetE ev' He'. cbn [ac_evt mkA] in He'. assert (ev' = ev) as -> by congruence. rewrite Hty.
    w1. unfold setParam. w1. w1. w1; [done|]. cbn [ac_evt ac_tr mkA]. eapply wp_mono; [by eapply tr_anchor|].
    intros b s1 H1 e'. specialize (H1 e'). sts_in H1. exact H1. }
  intros b s1 H1. cbv beta. w1.
  - w1. eapply wp_mono; [by apply triggered_quiet|]. intros r s2 [-> ->]. cbv beta. w1. cbn [rev app].
    eapply (wp_mono _ _ _ (fun _ s' => s' = s1)); [|intros k s2 ->; by w1].
    destruct n as [|n]; [exact I|]. rewrite loop_S. reflexivity.
  - eapply (wp_mono _ _ _ (fun _ s' => s' = s1)); [|intros k s2 ->; done].
    destruct n as [|n]; [exact I|]. rewrite loop_S. reflexivity.
Qed.

(** *** The relation. *)
Definition Keep (s s' : st) : Prop := forall e, evState s' e = evState s e \/ (evState s e = src /\ evState s' e = dst).
Definition fin (s s' : st) (y : oid) : Prop := forall e, presOf D y e -> evState s e = src -> evState s' e = dst.
Definition RH (s s' : st) : Prop := Keep s s' /\ forall x xb, d_obj D !! x = Some xb ->
  evState s' (ob_lambda xb) = evState s (ob_lambda xb) \/ (forall y, held D s src x y -> fin s s' y).
Definition Chg (s s' : st) (o : oid) : Prop := forall e, evState s' e <> evState s e -> exists y, held D s src o y /\ presOf D y e.
Lemma Keep_refl s : Keep s s. Proof. by left. Qed.
Lemma Keep_trans s1 s2 s3 : Keep s1 s2 -> Keep s2 s3 -> Keep s1 s3.
Proof. intros H1 H2 e. pose proof (src_dst t Ht) as Hne. destruct (H1 e) as [E|[E E']], (H2 e) as [F|[F F']]; (left; congruence) || (right; split; congruence). Qed.
Lemma Keep_src s s' e : Keep s s' -> evState s' e = src -> evState s e = src.
Proof. intros H E. pose proof (src_dst t Ht). destruct (H e) as [|[??]]; congruence. Qed.
Lemma Keep_dst s s' e : Keep s s' -> evState s e = dst -> evState s' e = dst.
Proof. intros H E. pose proof (src_dst t Ht). destruct (H e) as [|[??]]; congruence. Qed.
Lemma fin_l s1 s2 s3 y : Keep s2 s3 -> fin s1 s2 y -> fin s1 s3 y.
Proof. intros HK H e He E. eapply Keep_dst; [done|]. by apply H. Qed.
Lemma fin_r s1 s2 s3 y : Keep s1 s2 -> Keep s2 s3 -> fin s2 s3 y -> fin s1 s3 y.
Proof. intros HK HK' H e He E. destruct (HK e) as [F|[_ F]]; [apply H; congruence|]. by eapply Keep_dst. Qed.
Lemma RH_refl s : RH s s. Proof. split; [apply Keep_refl|]. by left. Qed.
Lemma held_state s z a y yb : held D s z a y -> d_obj D !! y = Some yb -> evState s (ob_lambda yb) = z.
Proof. destruct 1; intros; congruence. Qed.
Lemma held_valid s z a y : held D s z a y -> exists yb, d_obj D !! y = Some yb.
Proof. destruct 1; eauto. Qed.
Lemma presOf_lam o ob : d_obj D !! o = Some ob -> presOf D o (ob_lambda ob).
Proof. intros Ho. exists ob. auto. Qed.
Lemma RH_held s s' x y : RH s s' -> held D s src x y -> held D s' src x y \/ fin s s' y.
Proof.
  intros [HK HR] H. pose proof (src_dst t Ht) as Hne. induction H as [ab Ha Es|p pb c cb Hp IH Hpb Hkp Hc Hcb Es].
  - destruct (HR _ _ Ha) as [E|E]; [left; econstructor; eauto; congruence|]. right. apply E. by econstructor.
  - destruct IH as [IH|IH].
    + destruct (HR _ _ Hcb) as [E|E]; [left; eapply hd_child; eauto; congruence|]. right. apply E. by econstructor.
    + right. pose proof (held_state _ _ _ _ _ Hp Hpb) as Ep. pose proof (IH _ (presOf_lam _ _ Hpb) Ep) as Ep'.
      destruct (HR _ _ Hpb) as [E|E]; [congruence|]. apply E. eapply (hd_child D s src p p pb c cb); [by econstructor|done..].
Qed.
Lemma RH_trans s1 s2 s3 : RH s1 s2 -> RH s2 s3 -> RH s1 s3.
Proof.
  intros H1 H2. pose proof H1 as [K1 R1]. destruct H2 as [K2 R2]. split; [by eapply Keep_trans|]. intros x xb Hx.
  destruct (R1 _ _ Hx) as [E1|E1].
  - destruct (R2 _ _ Hx) as [E2|E2]; [left; congruence|]. right. intros y Hy.
    destruct (RH_held _ _ _ _ H1 Hy) as [Hy2|Hf]; [eapply fin_r; eauto|by eapply fin_l].
  - right. intros y Hy. eapply fin_l; eauto.
Qed.
Lemma held_back s s' a y : Keep s s' -> held D s' src a y -> held D s src a y.
Proof.
  intros HK H. induction H.
  - econstructor; eauto. by eapply Keep_src.
  - eapply hd_child; eauto. by eapply Keep_src.
Qed.
Lemma held_head s z a y : held D s z a y -> y = a \/ exists ab c, d_obj D !! a = Some ab /\ ob_kind ab = KContext /\ c ∈ ob_children ab /\ held D s z c y.
Proof.
  induction 1 as [ab Ha Es|p pb c cb Hp IH Hpb Hkp Hc Hcb Es]; [by left|]. right. destruct IH as [->|(ab & c' & Hab & Hk & Hc' & Hh)].
  - exists pb, c. repeat split; try done. by econstructor.
  - exists ab, c'. repeat split; try done. by eapply hd_child.
Qed.
Lemma held_root s z a y : held D s z a y -> held D s z a a.
Proof. induction 1; [by econstructor|done]. Qed.
Lemma held_cons s z a ab c cb y : d_obj D !! a = Some ab -> ob_kind ab = KContext -> c ∈ ob_children ab -> d_obj D !! c = Some cb ->
  evState s (ob_lambda ab) = z -> held D s z c y -> held D s z a y.
Proof.
  intros Ha Hk Hc Hcb Es H. induction H as [ab' Ha' Es'|p pb c' cb' Hp IH Hpb Hkp Hc' Hcb' Es'].
  - eapply (hd_child D s z a a ab c cb); try done; [by econstructor|congruence].
  - by eapply hd_child.
Qed.
Definition holdsR (s : st) (o : oid) (ob : obj) (b : bool) (s' : st) : Prop :=
  RH s s' /\ Chg s s' o /\ (evState s (ob_lambda ob) = src -> b = true /\ evState s' (ob_lambda ob) = dst).
Lemma holds_final o ob s s1 : d_obj D !! o = Some ob -> evState s (ob_lambda ob) = src -> RH s s1 -> Chg s s1 o ->
  (forall y, held D s src o y -> y <> o -> fin s s1 y) ->
  (forall e, presOf D o e -> e <> ob_lambda ob -> evState s e = src -> evState s1 e = dst) ->
  holdsR s o ob true (commit (ob_lambda ob) t s1).
Proof.
  intros Ho Es [HK HR] HC HF HA. 
  assert (HK1 : forall e, evState s1 e = dst -> evState (commit (ob_lambda ob) t s1) e = dst).
  { intros e E. sts. by destruct (decide _). }
  assert (HF' : forall y, fin s s1 y -> fin s (commit (ob_lambda ob) t s1) y).
  { intros y H e He Ee. by apply HK1, H. }
  split; [split|split].
  - intros e. sts. destruct (decide _) as [<-|]; [by right|apply HK].
  - intros x xb Hx. destruct (decide (x = o)) as [->|Hne].
    + right. intros y Hy. destruct (decide (y = o)) as [->|Hyo]; [|by apply HF', HF].
      intros e He Ee. destruct (decide (e = ob_lambda ob)) as [->|Hl]; [sts; by rewrite decide_True|]. by apply HK1, HA.
    + destruct (HR _ _ Hx) as [E|E]; [left|right; auto]. sts. rewrite decide_False; [done|]. intros Hl.
      apply Hne. destruct (lambda_evt D rank WF _ _ Hx) as (ev1 & H1 & _ & H2). destruct (lambda_evt D rank WF _ _ Ho) as (ev2 & H3 & _ & H4).
      congruence.
  - intros e He. sts_in He. destruct (decide _) as [<-|]; [|by apply HC]. exists o. split; [by econstructor|by apply presOf_lam].
  - intros _. split; [done|]. sts. by rewrite decide_True.
Qed.
Theorem hold_tr n : forall o ob s, d_obj D !! o = Some ob -> pwp (tr D n (ob_lambda ob) t) (fun b s' => holdsR s o ob b s') s.
Proof.
  induction n as [|n IH]; intros o ob s Ho; [exact I|].
  destruct (lambda_evt D rank WF _ _ Ho) as (ev & He & Hl & Hob).
  assert (Hty : ev_type ev = PRESENTATION).
  { unfold isLambda in Hl. apply andb_true_iff in Hl as [Hl _]. by apply bool_decide_eq_true in Hl. }
  rewrite tr_S. unfold tr_body. w1. wgetE ev' He'. assert (ev' = ev) as -> by congruence. w1. w1.
  destruct (legal (evState s (ob_lambda ob)) t) eqn:El; cbn [negb].
  2:{ w1. split; [apply RH_refl|]. split; [by intros e|]. intros E. apply (legal_hold _ _ Ht) in E. congruence. }
  apply (legal_hold _ _ Ht) in El.
  w1. eapply (wp_mono _ _ _ (fun b s1 => b = true /\ holdsR s o ob true (commit (ob_lambda ob) t s1))).
  - unfold before. rewrite Hob. w1. wgetO ob' Ho'. assert (ob' = ob) as -> by congruence.
    assert (HM : is_media (ob_kind ob) = true -> pwp (media_before D (tr D n) (fun a => loop D n [a]) o (ob_lambda ob) ev t)
      (fun b s1 => b = true /\ holdsR s o ob true (commit (ob_lambda ob) t s1)) s).
    { intros Hm. unfold media_before. rewrite Hty, Hl.
      assert (HB : pwp (do ob <- getO D o; foreach (fun e' => do ev' <- getE D e';
                   if (negb (isLambda ev') && bool_decide (ev_type ev' = PRESENTATION))%bool
                   then loop D n [mkA e' t ""] ;; ret tt else ret tt) (ob_events ob) ;;
        (match t with PAUSE => playerPause o | _ => playerResume o end) ;;
        ret true) (fun b s1 => b = true /\ holdsR s o ob true (commit (ob_lambda ob) t s1)) s).
      { w1. wgetO ob' Ho2. assert (ob' = ob) as -> by congruence. w1.
        apply (wp_foreach _ _ _ _ (fun l s1 => (forall e, evState s1 e <> evState s e -> e <> ob_lambda ob /\ presOf D o e /\ evState s e = src /\ evState s1 e = dst) /\
           forall e, presOf D o e -> e <> ob_lambda ob -> e ∉ l -> evState s e = src -> evState s1 e = dst)).
        - split; [done|]. intros e (ob2 & Ho3 & Hpr) Hnl Hn. assert (ob2 = ob) as -> by congruence. exfalso. destruct Hpr as [?|(_ & Hin & _)]; done.
        - intros e l s1 [pre Hpre] [H1 H2]. assert (Hin : e ∈ ob_events ob) by (rewrite Hpre; apply elem_of_app; right; left). w1. wgetE ev' He2. 
          assert (Hstep : forall s2, (forall e', e' <> e -> evState s2 e' = evState s1 e') -> 
            (presOf D o e -> e <> ob_lambda ob -> one e s1 s2) -> (evState s2 e <> evState s1 e -> presOf D o e /\ e <> ob_lambda ob) ->
            (forall e, evState s2 e <> evState s e -> e <> ob_lambda ob /\ presOf D o e /\ evState s e = src /\ evState s2 e = dst) /\
            (forall e, presOf D o e -> e <> ob_lambda ob -> e ∉ l -> evState s e = src -> evState s2 e = dst)).
          { intros s2 Ho1 Hone Hpe. split.
            - intros e' Hd. destruct (decide (e' = e)) as [->|Hne]; [|rewrite (Ho1 _ Hne) in *; by apply H1].
              destruct (decide (evState s2 e = evState s1 e)) as [E|E]; [rewrite E in *; by apply H1|].
              destruct (Hpe E) as [Hp Hnl]. split; [done|]. split; [done|]. pose proof (Hone Hp Hnl e) as E1.
              destruct (decide (e = e /\ evState s1 e = src)) as [[_ Es]|Hns]; [|congruence]. split; [|done].
              destruct (decide (evState s1 e = evState s e)) as [E2|E2]; [congruence|]. by destruct (H1 _ E2) as (_ & _ & ? & _).
            - intros e' Hp Hnl Hn Es. destruct (decide (e' = e)) as [->|Hne].
              + pose proof (Hone Hp Hnl e) as E1. destruct (decide (e = e /\ evState s1 e = src)) as [[_ E]|Hns]; [done|].
                rewrite E1. destruct (decide (evState s1 e = evState s e)) as [E2|E2]; [exfalso; apply Hns; split; congruence|].
                by destruct (H1 _ E2) as (_ & _ & _ & ?).
              + rewrite (Ho1 _ Hne). apply H2; try done. by intros [?|?]%elem_of_cons. }
          destruct (wo_events _ _ _ _ (wf_o _ _ WF _ _ Ho) _ Hin) as (ev2 & He3 & Hob2). assert (ev2 = ev') as -> by congruence.
          w1.
          + apply andb_true_iff in H as [Hnl Hp]. apply negb_true_iff in Hnl. apply bool_decide_eq_true in Hp.
            w1. eapply wp_mono; [eapply loop_anchor; eauto; by rewrite Hob2|]. intros k s2 Hone. cbv beta. w1.
            assert (Hpo : presOf D o e) by (exists ob; split; [done|]; right; eauto).
            assert (Hnel : e <> ob_lambda ob) by (intros ->; congruence).
            apply Hstep; [|done|done]. intros e' Hne. rewrite (Hone e'). rewrite decide_False; [done|]. intros [? _]. congruence.
          + w1. apply Hstep; [done| |done]. intros (xb & Hxb & Hpr) Hnel. exfalso. assert (xb = ob) as -> by congruence.
            destruct Hpr as [?|(_ & _ & ev3 & He4 & Hp3)]; [done|]. assert (ev3 = ev') as -> by congruence.
            rewrite (bool_decide_eq_true_2 _ Hp3), andb_true_r in H. apply negb_false_iff in H.
            apply Hnel. rewrite <- Hob2 in Ho. eapply (isLambda_lambda D rank WF) in H; eauto.
        - intros s1 [H1 H2]. assert (HP : pwp (match t with PAUSE => playerPause o | _ => playerResume o end) (fun _ s2 => evsame s1 s2) s1).
          { destruct Ht as [-> | ->]; cbn.
            - unfold playerPause. w1. w1. destruct (o_player _); [|done]. w1. w1. w1. w1. unfold updPlayer. w1. by intros e.
            - unfold playerResume. w1. w1. destruct (o_player _); [|done]. w1. w1. w1. w1. unfold updPlayer. w1. by intros e. }
          w1. eapply wp_mono; [exact HP|]. intros [] s2 HE. cbv beta. w1. split; [done|].
          assert (HKk : Keep s s2).
          { intros e. rewrite HE. destruct (decide (evState s1 e = evState s e)) as [E|E]; [by left|]. right. by destruct (H1 _ E) as (_ & _ & ? & ?). }
          apply holds_final; [done|done| | | |].
          + split; [done|]. intros x xb Hx. left. rewrite HE. destruct (decide (evState s1 (ob_lambda xb) = evState s (ob_lambda xb))) as [E|E]; [done|].
            exfalso. destruct (H1 _ E) as (Hn1 & (ob2 & Ho3 & Hpr) & _). assert (ob2 = ob) as -> by congruence.
            destruct Hpr as [?|(_ & Hin & _)]; [done|]. destruct (decide (x = o)) as [->|Hne]; [congruence|].
            eapply (other_event D rank WF o ob x xb); eauto; [by eapply lam_ev|by exists ob].
          + intros e Hd. rewrite HE in Hd. destruct (H1 _ Hd) as (_ & ? & _). exists o. split; [by econstructor|done].
          + intros y Hy Hne. destruct (held_head _ _ _ _ Hy) as [->|(ab & c & Hab & Hkc & _)]; [done|]. assert (ab = ob) as -> by congruence.
            rewrite Hkc in Hm. done.
          + intros e Hp Hnl Es. rewrite HE. apply H2; try done. by intros ?%elem_of_nil. }
      destruct Ht as [-> | ->]; exact HB. }
    destruct (ob_kind ob) eqn:Hk; [|by destruct (NS _ _ Ho)|by apply HM|by apply HM].
    unfold ctx_before. rewrite Hty, Hl. w1. w1.
    assert (HB : pwp (do ob <- getO D o; foreach (fun c => do cb <- getO D c; tr D n (ob_lambda cb) t ;; ret tt) (ob_children ob) ;; ret true)
        (fun b s1 => b = true /\ holdsR s o ob true (commit (ob_lambda ob) t s1)) s).
    { w1. wgetO ob' Ho2. assert (ob' = ob) as -> by congruence. w1.
      apply (wp_foreach _ _ _ _ (fun l s1 => RH s s1 /\ Chg s s1 o /\ 
         forall c cb, d_obj D !! c = Some cb -> c ∈ ob_children ob -> c ∉ l -> evState s (ob_lambda cb) = src -> evState s1 (ob_lambda cb) = dst)).
      - split; [apply RH_refl|]. split; [by intros e|]. intros c cb Hcb Hc Hn. done.
      - intros c l s1 [pre Hpre] (HR1 & HC1 & HD1). assert (Hc : c ∈ ob_children ob) by (rewrite Hpre; apply elem_of_app; right; left). w1. wgetO cb Hcb. w1. eapply wp_mono; [by apply IH|].
        intros b s2 (HR2 & HC2 & Hst). cbv beta. w1. split; [by eapply RH_trans|]. split.
        + intros e Hd. destruct (decide (evState s1 e = evState s e)) as [E|E]; [|by apply HC1].
          destruct (HC2 e) as (y & Hy & Hpy); [congruence|]. exists y. split; [|done].
          eapply held_cons; eauto. eapply held_back; [apply HR1|done].
        + intros c' cb' Hcb' Hc' Hn Es. destruct (decide (c' = c)) as [->|Hne].
          * assert (cb' = cb) as -> by congruence. destruct (proj1 HR1 (ob_lambda cb)) as [E|[_ E]].
            -- apply Hst. congruence.
            -- eapply Keep_dst; [apply HR2|done].
          * eapply Keep_dst; [apply HR2|]. eapply HD1; eauto. by intros [?|?]%elem_of_cons.
      - intros s1 (HR1 & HC1 & HD1). w1. split; [done|]. apply holds_final; [done|done|done|done| |].
        + intros y Hy Hne. destruct (held_head _ _ _ _ Hy) as [->|(ab & c & Hab & Hkc & Hc & Hyc)]; [done|]. assert (ab = ob) as -> by congruence.
          destruct (wo_children _ _ _ _ (wf_o _ _ WF _ _ Ho) _ Hc) as (cb & Hcb & _).
          assert (Ec : evState s (ob_lambda cb) = src) by (eapply held_state; [by eapply held_root|done]).
          destruct (proj2 HR1 _ _ Hcb) as [E|E]; [|by apply E].
          exfalso. apply (src_dst t Ht). rewrite <- Ec, <- E. eapply HD1; eauto. by intros ?%elem_of_nil.
        + intros e (xb & Hxb & [?|(Hm & _)]) Hnl; (assert (xb = ob) as -> by congruence); [done|]. by rewrite Hk in Hm. }
    destruct Ht as [-> | ->]; exact HB.
  - intros b s1 [-> H1]. cbv beta. cbn [negb]. w1. w1. w1. w1. w1. fold (commit (ob_lambda ob) t s1).
    eapply (wp_mono _ _ _ (fun b s' => b = true /\ s' = commit (ob_lambda ob) t s1)); [|intros b s2 [-> ->]; by w1].
    unfold after. rewrite Hob. w1. wgetO ob' Ho'. assert (ob' = ob) as -> by congruence.
    assert (HM : pwp (media_after D o (ob_lambda ob) ev t) (fun b s' => b = true /\ s' = commit (ob_lambda ob) t s1) (commit (ob_lambda ob) t s1)).
    { unfold media_after. w1. w1. cbv zeta. rewrite Hty. destruct Ht as [-> | ->]; by w1. }
    destruct (ob_kind ob) eqn:Hk; [|by destruct (NS _ _ Ho)|exact HM|exact HM].
    unfold ctx_after. rewrite Hty, Hl. w1. w1. destruct Ht as [-> | ->]; by w1.
Qed.
End Hold.

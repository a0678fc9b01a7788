(** Term.v -- action evaluation terminates when nothing triggers itself (C11). *)
From Verif Require Export Inter TermSpec.
Open Scope string_scope.
Open Scope list_scope.
Open Scope m_scope.

(** Never runs out of fuel. *)
Notation twp := (wp True False).
Lemma twp_of {S A} (m : M S A) (Q : A -> S -> Prop) s : twp m (fun _ _ => True) s -> pwp m Q s -> twp m Q s.
Proof. unfold wp. destruct (m s); auto. Qed.
Lemma twp_pwp {S A} (m : M S A) (Q : A -> S -> Prop) s : m s <> NoFuel -> pwp m Q s -> twp m Q s.
Proof. unfold wp. destruct (m s); auto. Qed.
Lemma twp_triv {S A} (m : M S A) s : m s <> NoFuel -> twp m (fun _ _ => True) s.
Proof. unfold wp. destruct (m s); auto. Qed.

(** ** Graphs without cycles. *)
Section Graph.
Context (D : doc).
Definition short (k : nat) (x : node) : Prop := forall y, ~ nsteps (causes D) k x y.
Lemma short_step k x y : short (S k) x -> causes D x y -> short k y.
Proof. intros H Hc z Hz. apply (H z). econstructor; eauto. Qed.
Lemma acyclic_short (V : list node) x : (forall y, rtc (causes D) x y -> y ∈ V) -> acyclicFrom D x -> short (length V) x.
Proof.
  remember (length V) as k eqn:Ek. assert (Hk : length V <= k) by lia. clear Ek.
  revert V x Hk. induction k as [|k IH]; intros V x Hk HV Ha y Hy.
  - destruct V; [|cbn in Hk; lia]. assert (Hx : x ∈ @nil node) by (apply HV; constructor). by apply elem_of_nil in Hx.
  - inversion Hy as [|? ? z ? Hxz Hzy]; subst.
    refine (IH (List.filter (fun y => negb (bool_decide (y = x))) V) z _ _ _ y Hzy).
    + assert (Hx : x ∈ V) by (apply HV; constructor). apply elem_of_list_split in Hx as (l1 & l2 & ->).
      rewrite List.filter_app. cbn. rewrite bool_decide_true by done. cbn. rewrite app_length in *. cbn in Hk.
      assert (HL : forall l : list node, length (List.filter (fun y => negb (bool_decide (y = x))) l) <= length l).
      { induction l as [|w l IHl]; cbn; [lia|]. destruct (negb _); cbn; lia. }
      pose proof (HL l1). pose proof (HL l2). lia.
    + intros w Hw. apply elem_of_list_In, filter_In. split; [apply elem_of_list_In, HV; by eapply rtc_l|].
      apply negb_true_iff, bool_decide_eq_false. intros ->. apply (Ha x); [constructor|]. eapply tc_rtc_r; [by apply tc_once|done].
    + intros w Hw. apply Ha. by eapply rtc_l.
Qed.
End Graph.

(** ** Operations that need no fuel. *)
Section Term.
Context (D : doc) (rank : oid -> nat) (WF : wf_at D rank).

Lemma t_getO o (Q : obj -> st -> Prop) s : (forall ob, d_obj D !! o = Some ob -> Q ob s) -> twp (getO D o) Q s.
Proof. apply wp_getO. done. Qed.
Lemma t_isContext o (Q : bool -> st -> Prop) s : (forall ob, d_obj D !! o = Some ob -> Q (bool_decide (ob_kind ob = KContext)) s) -> twp (isContext D o) Q s.
Proof. intros H. unfold isContext. w1. wgetO ob Ho. w1. auto. Qed.
Lemma t_isSleeping o (Q : bool -> st -> Prop) s : (forall ob, d_obj D !! o = Some ob -> Q (bool_decide (evState s (ob_lambda ob) = SLEEPING)) s) -> twp (isSleeping D o) Q s.
Proof. intros H. unfold isSleeping, objState. w1. w1. wgetO ob Ho. w1. w1. auto. Qed.
Lemma t_isOccurring o (Q : bool -> st -> Prop) s : (forall ob, d_obj D !! o = Some ob -> Q (bool_decide (evState s (ob_lambda ob) = OCCURRING)) s) -> twp (isOccurring D o) Q s.
Proof. intros H. unfold isOccurring, objState. w1. w1. wgetO ob Ho. w1. w1. auto. Qed.
Lemma setProperty_nf o k v d s : setProperty D o k v d s <> NoFuel.
Proof.
  unfold setProperty, bind, getO, ofoption. destruct (d_obj D !! o) as [ob|]; [|done]. unfold ret.
  destruct (is_media _); [apply mediaSet_fuel|]. unfold assertm. destruct (tvalid _); done.
Qed.
Lemma parse_time_nf {S} x (s : S) : parse_time x s <> NoFuel.
Proof. unfold parse_time. destruct (try_parse_time x); done. Qed.
Lemma attribStart_nf o e s : twp (attribStart D o e) (fun _ _ => True) s.
Proof.
  unfold attribStart. w1. wgetE ev He. w1. unfold getParam. w1. w1. w1. w1. w1. w1.
  apply (wp_mono _ _ _ (fun _ _ => True)); [destruct (_ !! "duration"); [apply twp_triv, parse_time_nf|by w1]|].
  intros d s1 _. cbv beta. w1. apply (wp_mono _ _ _ (fun _ _ => True)); [apply twp_triv, setProperty_nf|].
  intros [] s2 _. unfold addDelayed. by w1.
Qed.
Lemma foreach_nf {A} (f : A -> ME unit) l s : (forall x s, x ∈ l -> twp (f x) (fun _ _ => True) s) -> twp (foreach f l) (fun _ _ => True) s.
Proof. intros H. apply wp_foreach_inv with (I := fun _ => True); auto. Qed.
Lemma createPlayer_nf o s : twp (createPlayer D o) (fun _ _ => True) s.
Proof.
  unfold createPlayer. w1. w1. w1. w1. cbv zeta. destruct (choose_player _ _ _ _); [|by w1].
  destruct (reset_attrs _ _ _ _); [|by w1|by w1]. unfold objSetProp. w1. w1. w1. w1. w1. w1. w1. w1. w1. w1. w1.
  apply (wp_mono _ _ _ (fun _ _ => True)).
  { apply foreach_nf. intros k s' _. w1. w1. destruct (_ !! k); [|by w1]. apply twp_triv, playerSet_fuel. }
  intros [] s' _. unfold updPlayer. by w1.
Qed.
Lemma doStart_nf o s : twp (doStart D o) (fun _ _ => True) s.
Proof. apply wp_doStart; auto. Qed.
Lemma doStop_nf o s : twp (doStop D o) (fun _ _ => True) s.
Proof. apply wp_doStop; auto. Qed.
Lemma mediaDoStop_nf o s : twp (mediaDoStop D o) (fun _ _ => True) s.
Proof.
  unfold mediaDoStop. w1. w1. destruct (o_player _).
  - w1. w1. w1. w1. apply doStop_nf.
  - w1. apply t_isSleeping. intros ob Ho. by w1.
Qed.
Lemma evalPredicate_nf p s : twp (evalPredicate D p) (fun _ s' => s' = s) s.
Proof. unfold evalPredicate, wp. destruct (eval_pred _ _); done. Qed.

Lemma twp_and {S A} (m : M S A) (P Q : A -> S -> Prop) s : twp m P s -> pwp m Q s -> twp m (fun a s' => P a s' /\ Q a s') s.
Proof. unfold wp. destruct (m s); auto. Qed.
Lemma twp_T {S A} (m : M S A) (P : A -> S -> Prop) s : twp m P s -> twp m (fun _ _ => True) s.
Proof. unfold wp. by destruct (m s). Qed.

(** ** START. *)
Context (R : nat) (HR : forall o ob, d_obj D !! o = Some ob -> rank o < R).
Lemma startParent_t n o ob s : d_obj D !! o = Some ob ->
  (forall p pb s, d_obj D !! p = Some pb -> ob_kind pb = KContext -> R - rank p + 1 <= n -> twp (tr D n (ob_lambda pb) START) (fun _ _ => True) s) ->
  R - rank o <= n ->
  twp (startParent D (tr D n) o) (fun _ s' => lowkeep D rank (S (rank o)) s s') s.
Proof.
  intros Ho IH Hn. apply twp_of; [|by eapply startParent_low; eauto; intros; eapply tr_ctx_start; eauto].
  unfold startParent. w1. wgetO ob' Ho'. assert (ob' = ob) as -> by congruence.
  destruct (ob_parent ob) as [p|] eqn:Hp; [|by w1].
  destruct (wo_parent _ _ _ _ (wf_o _ _ WF _ _ Ho) _ Hp) as (pb & Hpb & _ & _ & Hlt).
  w1. apply t_isContext. intros pb' Hpb'. assert (pb' = pb) as -> by congruence.
  cbv beta. w1. apply bool_decide_eq_true in H.
  w1. apply t_isSleeping. intros pb' _. cbv beta. w1. w1. wgetO pb'' Hpb''. assert (pb'' = pb) as -> by congruence.
  w1. unfold setParam. w1. w1. pose proof (HR _ _ Hpb). eapply wp_mono; [eapply IH; eauto; lia|]. done.
Qed.
Lemma addPorts_nf o l s : twp (foreach (fun p => do pe <- getE D p;
                    whenm (bool_decide (ev_type pe = PRESENTATION))
                          (addDelayed o p START "" 0)) l) (fun _ _ => True) s.
Proof. apply foreach_nf. intros x s' _. w1. wgetE pe Hpe. unfold addDelayed. w1; try w1. Qed.
Lemma ctx_start_t n : forall e ev ob s, d_evt D !! e = Some ev -> d_obj D !! ev_obj ev = Some ob -> ob_kind ob = KContext ->
  R - rank (ev_obj ev) + 1 <= n -> twp (tr D n e START) (fun _ _ => True) s.
Proof.
  induction n as [|n IH]; intros e ev ob s He Ho Hk Hn; [lia|].
  rewrite tr_S. unfold tr_body. w1. wgetE ev' He'. assert (ev' = ev) as -> by congruence.
  w1. w1. w1. w1. unfold before. w1. wgetO pb' Hp'.
  assert (pb' = ob) as -> by congruence. rewrite Hk. 
  eapply (wp_mono _ _ _ (fun _ _ => True)); [unfold ctx_before; destruct (ev_type ev); try done; try w1; w1|].
  intros b s1 _. w1. w1. w1. w1. w1. w1. eapply (wp_mono _ _ _ (fun _ _ => True)).
  2:{ intros a s2 _. w1. }
  unfold after. w1. wgetO pb' Hp''. assert (pb' = ob) as -> by congruence. rewrite Hk.
  unfold ctx_after. destruct (ev_type ev); try done.
  - w1. eapply wp_mono; [apply attribStart_nf|]. done.
  - w1. w1. w1. eapply wp_mono; [apply doStart_nf|]. intros [] s2 _. w1. eapply wp_mono.
    { eapply startParent_t; [exact Ho| |lia]. intros p pb s3 Hp Hkp Hr.
      destruct (lambda_evt D rank WF _ _ Hp) as (pev & Hpe & _ & Hpo). eapply IH; [exact Hpe|by rewrite Hpo|done|by rewrite Hpo]. }
    intros [] s3 _. w1. unfold getParam. w1. w1. eapply (wp_mono _ _ _ (fun _ _ => True)); [|done].
    w1. w1. wgetO ob' Ho'. w1. eapply wp_mono; [apply addPorts_nf|]. done.
Qed.
Lemma lambda_start_t n p pb s : d_obj D !! p = Some pb -> ob_kind pb = KContext -> R - rank p + 1 <= n -> twp (tr D n (ob_lambda pb) START) (fun _ _ => True) s.
Proof.
  intros Hp Hk Hr. destruct (lambda_evt D rank WF _ _ Hp) as (pev & Hpe & _ & Hpo).
  eapply ctx_start_t; [exact Hpe|by rewrite Hpo|done|by rewrite Hpo].
Qed.
Lemma mediaSched_t o l s : twp (foreach (fun e' => do ev' <- getE D e';
                   if (negb (isLambda ev') && bool_decide (ev_type ev' = PRESENTATION)
                       && negb (hasLabel ev'))%bool
                   then addDelayed o e' START "" (ev_begin ev') ;;
                        addDelayed o e' STOP "" (ev_end ev')
                   else ret tt) l) (fun _ s' => evsame s s') s.
Proof.
  apply (wp_foreach_inv True False _ _ (fun s' => evsame s s')); [done| |done].
  intros x s' _ HE. w1. wgetE pe Hpe. unfold addDelayed.
  w1; [w1; w1; w1; by apply evsame_sched, evsame_sched|by w1].
Qed.
Lemma media_after_t o e ev s : d_evt D !! e = Some ev -> twp (media_after D o e ev START) (fun _ s' => evsame s s') s.
Proof.
  intros He. unfold media_after. w1. w1. cbv zeta. destruct (ev_type ev); try (by w1).
  - w1. eapply wp_mono; [eapply twp_of; [apply attribStart_nf|apply (attribStart_ev D); by eexists]|].
    intros [] s1 HE. by w1.
  - w1; [|w1; [destruct (o_player _); by w1|by w1]]. w1. w1. w1.
    eapply wp_mono; [eapply twp_of; [apply doStart_nf|apply doStart_ev]|]. intros [] s3 E. cbv beta in E |- *. w1. wgetO ob2 Ho2. w1.
    eapply wp_mono; [apply mediaSched_t|]. intros [] s4 E2. cbv beta in E2 |- *. w1. intros e'. by rewrite E2, E.
Qed.
(** An event of a media that is active, or its lambda. *)
Lemma media_start_t n e ev ob s : d_evt D !! e = Some ev -> d_obj D !! ev_obj ev = Some ob -> is_media (ob_kind ob) = true ->
  R - rank (ev_obj ev) + 1 <= n -> isLambda ev = true \/ evState s (ob_lambda ob) <> SLEEPING \/ ev_type ev <> PRESENTATION ->
  twp (tr D n e START) (fun _ s' => evState s (ob_lambda ob) <> SLEEPING -> evState s' (ob_lambda ob) <> SLEEPING) s.
Proof.
  intros He Ho Hk Hn Hc. destruct n as [|n]; [lia|].
  destruct (lambda_evt D rank WF _ _ Ho) as (lev & Hle & _ & Hlo).
  rewrite tr_S. unfold tr_body. w1. wgetE ev' He'. assert (ev' = ev) as -> by congruence.
  w1. w1. w1; [by w1|]. w1. eapply (wp_mono _ _ _ (fun b s' => b = true /\ (evState s (ob_lambda ob) <> SLEEPING -> evState s' (ob_lambda ob) <> SLEEPING))).
  { unfold before. w1. wgetO ob' Ho'. assert (ob' = ob) as -> by congruence.
    assert (HM : twp (media_before D (tr D n) (fun a => loop D n [a]) (ev_obj ev) e ev START) (fun b s' => b = true /\ (evState s (ob_lambda ob) <> SLEEPING -> evState s' (ob_lambda ob) <> SLEEPING)) s).
    { unfold media_before. destruct (ev_type ev) eqn:Hty; try (by w1). w1.
      eapply wp_mono; [eapply startParent_t; [exact Ho|intros; eapply lambda_start_t; eauto|lia]|].
      intros [] s1 HL. cbv beta in HL |- *. w1. w1.
      assert (EL : evState s1 (ob_lambda ob) = evState s (ob_lambda ob)) by (eapply HL; [exact Hle|rewrite Hlo; lia]).
      destruct (evState s1 e) eqn:Ese; try (w1; split; [done|congruence]).
      destruct (isLambda ev) eqn:Hl.
      - w1. eapply wp_mono; [eapply twp_of; [apply createPlayer_nf|apply createPlayer_cframe]|].
        intros [] s2 F. cbv beta in F. w1. split; [done|]. intros Hne. unfold evState, estOf. rewrite (cf_ev _ _ _ F). fold (estOf s1 (ob_lambda ob)).
        fold (evState s1 (ob_lambda ob)). congruence.
      - w1. wgetO ob' Ho2. assert (ob' = ob) as -> by congruence. w1. w1. destruct Hc as [Hc|[Hc|Hc]]; try done.
        rewrite EL. destruct (evState s (ob_lambda ob)); try done; w1; split; try done; by rewrite EL. }
    destruct (ob_kind ob); try done; exact HM. }
  intros b s1 [-> HS]. cbv beta. cbn [negb]. w1. w1. w1. w1. fold (commit e START s1). w1.
  eapply (wp_mono _ _ _ (fun _ s' => evsame (commit e START s1) s')).
  { unfold after. w1. wgetO ob' Ho'. assert (ob' = ob) as -> by congruence. destruct (ob_kind ob); try done; by apply media_after_t. }
  intros a s2 E. cbv beta in E |- *.
  assert (HC : evState s (ob_lambda ob) <> SLEEPING -> evState s2 (ob_lambda ob) <> SLEEPING).
  { intros H0%HS. rewrite E. sts. by destruct (decide _). }
  w1; [by w1|]. w1. w1. w1. intros Hsl. sts. destruct (decide (e = ob_lambda ob)) as [->|]; [done|by apply HC].
Qed.

Definition lamOn (ob : obj) (s : st) : Prop := evState s (ob_lambda ob) <> SLEEPING.
Lemma anchor_seek_t n o ob begin fin k i s : d_obj D !! o = Some ob -> is_media (ob_kind ob) = true -> seekable D ob ->
  R - rank o + 1 <= n -> BInv D s -> lamOn ob s ->
  twp (anchor_seek (tr D n) o begin fin k i) (fun _ _ => True) s.
Proof.
  intros Ho Hk Hsk Hn. revert i s. induction k as [|k IHk]; intros i s HB Hon; cbn [anchor_seek]; [by w1|].
  w1. w1. destruct (_ !! i) as [[a x]|] eqn:Ei; [|done].
  assert (Hin : ac_evt a ∈ ob_events ob).
  { destruct HB as (_ & _ & HO). eapply HO; eauto using elem_of_list_lookup_2. intros E. by rewrite E in Hk. }
  destruct (wo_events _ _ _ _ (wf_o _ _ WF _ _ Ho) _ Hin) as (ev & He & Hob).
  w1.
  - w1. eapply (wp_mono _ _ _ (fun _ s' => BInv D s' /\ lamOn ob s')).
    { destruct (bool_decide (ac_tr a = START) && _)%bool eqn:E; [|by w1]. apply andb_prop in E as [E _]. apply bool_decide_eq_true in E. rewrite E.
      w1. eapply wp_mono; [eapply twp_and; [eapply (media_start_t n _ ev ob); [exact He|by rewrite Hob|done|by rewrite Hob|by right; left]|eapply (BInv_tr D rank WF); [by eexists|done]]|].
      intros b s1 [H1 H2]. cbv beta in H1, H2 |- *. w1. split; [exact H2|exact (H1 Hon)]. }
    intros [] s1 [HB1 HS1]. cbv beta. w1. w1. destruct (bool_decide _) eqn:E; [|done]. w1. w1. w1. w1.
    apply IHk; [|done].
    eapply (BInv_step D); [exact HB1|]. constructor. eapply ms_erase; eauto. by apply bool_decide_eq_true in E.
  - w1. w1. w1. w1. apply IHk; [|done].
    eapply (BInv_step D); [exact HB|]. constructor.
    apply orb_false_iff in H as [H _]. apply orb_false_iff in H as [H1 H2].
    eapply ms_shift; eauto; [by apply N.eqb_neq|by apply N.ltb_ge].
Qed.

(** START of the lambda of a sleeping media never fails. *)
Lemma media_lambda_true n o ob s : d_obj D !! o = Some ob -> is_media (ob_kind ob) = true -> evState s (ob_lambda ob) = SLEEPING ->
  pwp (tr D n (ob_lambda ob) START) (fun b _ => b = true) s.
Proof.
  intros Ho Hk Hs. destruct n as [|n]; [done|].
  destruct (lambda_evt D rank WF _ _ Ho) as (ev & He & Hl & Hob).
  rewrite tr_S. unfold tr_body. w1. wgetE ev' He'. assert (ev' = ev) as -> by congruence.
  w1. w1. rewrite Hs. cbn [legal negb]. w1. eapply (wp_mono _ _ _ (fun b _ => b = true)).
  { unfold before. w1. wgetO ob' Ho'. assert (ob' = ob) as -> by congruence.
    assert (HM : pwp (media_before D (tr D n) (fun a => loop D n [a]) (ev_obj ev) (ob_lambda ob) ev START) (fun b s' => b = true) s).
    { unfold media_before. rewrite Hl. destruct (ev_type ev); try (by w1).
      w1. apply pwp_intro. intros [] s1 _. w1. w1. destruct (evState s1 _); try (by w1). w1. apply pwp_intro. intros [] s2 _. by w1. }
    destruct (ob_kind ob); try done; exact HM. }
  intros b s1 ->. cbv beta. cbn [negb]. w1. w1. w1. w1. fold (commit (ob_lambda ob) START s1). w1.
  eapply wp_mono; [eapply (after_target D rank WF n); eauto; [by rewrite Hob|sts; by rewrite decide_True|]|].
  { intros E. by rewrite E in Hk. }
  intros a s2 [-> _]. cbv beta iota. by w1.
Qed.
Lemma media_any_t n e ev ob s : d_evt D !! e = Some ev -> d_obj D !! ev_obj ev = Some ob -> is_media (ob_kind ob) = true ->
  R - rank (ev_obj ev) + 2 <= n -> BInv D s -> twp (tr D n e START) (fun _ _ => True) s.
Proof.
  intros He Ho Hk Hn HB.
  destruct (decide (isLambda ev = true \/ evState s (ob_lambda ob) <> SLEEPING \/ ev_type ev <> PRESENTATION)) as [Hc|Hc].
  { eapply twp_T, media_start_t; eauto; lia. }
  assert (Hl : isLambda ev = false) by (destruct (isLambda ev); [by destruct Hc; left|done]).
  assert (Hs : evState s (ob_lambda ob) = SLEEPING) by (destruct (decide (evState s (ob_lambda ob) = SLEEPING)); [done|destruct Hc; by right; left]).
  assert (Hty : ev_type ev = PRESENTATION) by (destruct (decide (ev_type ev = PRESENTATION)); [done|destruct Hc; by right; right]).
  clear Hc. destruct n as [|n]; [lia|].
  destruct (lambda_evt D rank WF _ _ Ho) as (lev & Hle & Hll & Hlo).
  assert (Hin : e ∈ ob_events ob) by (by eapply evt_in).
  assert (Hsk : seekable D ob) by (split; [done|]; by exists e, ev).
  rewrite tr_S. unfold tr_body. w1. wgetE ev' He'. assert (ev' = ev) as -> by congruence.
  w1. w1. w1. w1. eapply (wp_mono _ _ _ (fun b s' => True)).
  { unfold before. w1. wgetO ob' Ho'. assert (ob' = ob) as -> by congruence.
    assert (HM : twp (media_before D (tr D n) (fun a => loop D n [a]) (ev_obj ev) e ev START) (fun b s' => True) s).
    { unfold media_before. rewrite Hty, Hl. w1.
      eapply wp_mono; [eapply twp_and; [eapply startParent_t; [exact Ho|intros; eapply lambda_start_t; eauto|lia]|]|].
      { apply (keeps_startParent D rank WF (BInv D)) with (trn := tr D n); [| |exact HB].
        - intros s1 s2 H1 H2. eapply (BInv_step D); [exact H1|by constructor].
        - intros e' t' Hv s1 HB1. by eapply (BInv_tr D rank WF). }
      intros [] s1 [HL HB1]. cbv beta in HL, HB1 |- *. w1. w1. destruct (evState s1 e); try (by w1).
      w1. wgetO ob' Ho2. assert (ob' = ob) as -> by congruence. w1. w1. destruct (evState s1 (ob_lambda ob)) eqn:EL; try (by w1).
      w1. unfold media_start_anchor. w1.
      eapply wp_mono.
      { eapply twp_and; [|eapply wp_conj; [eapply (BInv_tr D rank WF); [by eexists|exact HB1]|
          eapply wp_conj; [eapply media_lambda_true; eauto|eapply (tr_ok_wp D rank WF); exact Hle]]].
        eapply media_start_t; [exact Hle|by rewrite Hlo|done|rewrite Hlo; lia|by left]. }
      intros b s2 (_ & HB2 & -> & _ & Hok). cbv beta in *. destruct (Hok eq_refl) as [_ Hon].
      assert (Hlam : lamOn ob s2) by (unfold lamOn; rewrite Hon; done). clear Hok Hon. w1.
      eapply wp_mono; [eapply twp_and; [apply twp_triv, playerSet_fuel|]|].
      { eapply wp_conj; [eapply (keeps_playerSet D (BInv D)); [|by eexists|exact HB2]|].
        - intros s3 s4 H1 H2. eapply (BInv_step D); [exact H1|by constructor].
        - eapply (playerSetProperty_pframe D). }
      intros [] s3 (_ & HB3 & F3). cbv beta in *. 
      assert (Hlam3 : lamOn ob s3) by (unfold lamOn; by rewrite (pframe_evState _ _ _ _ F3)).
      w1. eapply (wp_mono _ _ _ (fun _ s' => BInv D s' /\ lamOn ob s')).
      - destruct (_ =? _)%N; [by w1|]. w1.
        eapply wp_mono; [eapply twp_and; [apply twp_triv, playerSet_fuel|]|].
        { eapply wp_conj; [eapply (keeps_playerSet D (BInv D)); [|by eexists|exact HB3]|].
          - intros s5 s4 H1 H2. eapply (BInv_step D); [exact H1|by constructor].
          - eapply (playerSetProperty_pframe D). }
        intros [] s4 (_ & HB4 & F4). cbv beta in *. unfold addDelayed. w1. split.
        + eapply (BInv_step D); [exact HB4|]. constructor. eapply ms_sched; eauto. by eexists.
        + unfold lamOn, sched. sts. by rewrite (pframe_evState _ _ _ _ F4).
      - intros [] s4 [HB4 Hon4]. cbv beta. w1. w1. eapply wp_mono; [eapply anchor_seek_t; eauto; lia|]. intros [] s5 _. by w1. }
    destruct (ob_kind ob); try done; exact HM. }
  intros b s1 _. cbv beta. w1. w1. w1. w1. w1. fold (commit e START s1). w1.
  eapply (wp_mono _ _ _ (fun _ s' => True)); [|intros a s2 _; w1].
  unfold after. w1. wgetO ob' Ho'. assert (ob' = ob) as -> by congruence. destruct (ob_kind ob); try done; by eapply twp_T, media_after_t.
Qed.
Lemma candidates_nf o ev s : twp (sw_candidates D o ev) (fun _ _ => True) s.
Proof.
  unfold sw_candidates. w1. wgetO ob Ho. destruct (isLambda ev).
  - generalize (ob_children ob) as l. induction l as [|x l IHl]; [by w1|]. w1. wgetO xb Hxb. w1. eapply wp_mono; [apply IHl|]. done.
  - case_match; by w1.
Qed.
Lemma sw_find_nf c l acc s : twp (sw_find D c l acc) (fun _ _ => True) s.
Proof. revert acc. induction l as [|x l IH]; intros acc; cbn [sw_find]; [by w1|]. w1. wgetE ev He. apply IH. Qed.
(** START of any event. *)
Lemma start_t n : forall e ev s, d_evt D !! e = Some ev -> BInv D s -> R + 2 + rank (ev_obj ev) <= n -> twp (tr D n e START) (fun _ _ => True) s.
Proof.
  induction n as [|n IH]; intros e ev s He HB Hn; [lia|].
  destruct (wf_e _ _ WF _ _ He) as (ob & Ho & _ & _).
  destruct (decide (ob_kind ob = KContext)) as [Hk|Hk]; [eapply ctx_start_t; eauto; lia|].
  destruct (is_media (ob_kind ob)) eqn:Hm; [eapply media_any_t; eauto; lia|].
  assert (Hsw : ob_kind ob = KSwitch) by (destruct (ob_kind ob); done). clear Hk Hm.
  rewrite tr_S. unfold tr_body. w1. wgetE ev' He'. assert (ev' = ev) as -> by congruence.
  w1. w1. w1. w1. eapply (wp_mono _ _ _ (fun b s' => b = true -> is_Some (o_selected (ostOf s' (ev_obj ev))))).
  { unfold before. w1. wgetO ob' Ho'. assert (ob' = ob) as -> by congruence. rewrite Hsw. destruct (decide (ev_type ev = PRESENTATION)) as [Hty|Hty].
    2:{ unfold sw_before. w1. eapply wp_mono; [apply candidates_nf|]. intros cands s1 _. destruct (ev_type ev); done. }
    apply twp_of; [|by apply sw_before_selected]. unfold sw_before. rewrite Hty. w1.
    eapply wp_mono; [eapply twp_and; [apply candidates_nf|by apply (sw_candidates_pure D rank WF)]|]. intros cands s1 [_ [-> _]]. cbv beta.
    w1. w1. w1. w1. w1. wgetO ob' Ho2. assert (ob' = ob) as -> by congruence.
    assert (Hr : forall c p, (c, p) ∈ ob_rules ob -> c ∈ ob_children ob) by apply (wo_rules _ _ _ _ (wf_o _ _ WF _ _ Ho)).
    revert Hr. generalize (ob_rules ob) as rules. induction rules as [|[c p] rules IHr]; intros Hr; cbn [sw_choose]; [by w1|].
    w1. eapply wp_mono; [eapply twp_and; [apply sw_find_nf|by apply sw_find_spec]|]. intros sel s1 (_ & -> & Hf & _). cbv beta.
    destruct sel as [e'|]; [|apply IHr; intros; eapply Hr; by right].
    w1. eapply wp_mono; [apply evalPredicate_nf|]. intros b s1 ->. cbv beta. destruct b; [|apply IHr; intros; eapply Hr; by right].
    destruct (Hf e' eq_refl) as (_ & ev' & He2 & Hob').
    assert (Hch : c ∈ ob_children ob) by (eapply Hr; left).
    destruct (wo_children _ _ _ _ (wf_o _ _ WF _ _ Ho) _ Hch) as (cb & Hcb & Hpar).
    destruct (wo_parent _ _ _ _ (wf_o _ _ WF _ _ Hcb) _ Hpar) as (pb & _ & _ & _ & Hlt).
    w1. eapply wp_mono; [eapply IH; [exact He2|exact HB|rewrite Hob'; lia]|]. intros [] s1 _; by w1. }
  intros b s1 Hsel. cbv beta. w1. apply negb_false_iff in H0 as ->. w1. w1. w1. w1. fold (commit e START s1). w1.
  eapply (wp_mono _ _ _ (fun _ s' => True)); [|intros a s2 _; w1].
  unfold after. w1. wgetO ob' Ho'. assert (ob' = ob) as -> by congruence. rewrite Hsw.
  unfold sw_after. destruct (ev_type ev) eqn:Hty; try done.
  w1. apply wp_doStart; [done|done|]. intros s3 E1 _ _ _ _ _ E2. w1. w1.
  destruct (Hsel eq_refl) as [c Hc]. rewrite E2. cbn [os_set_time os_set_awake o_selected]. sts. rewrite Hc. by w1.
Qed.

(** ** The other transitions. *)
Lemma inside_child o c cb x : d_obj D !! c = Some cb -> ob_parent cb = Some o -> inside D c x -> inside D o x.
Proof.
  intros Hc Hp Hi. induction Hi as [|y yb p Hy Hyp _ IH].
  - eapply in_nested; [exact Hc|exact Hp|constructor].
  - eapply in_nested; eauto.
Qed.
Lemma BInv_loop n l s : valid_acts D l -> BInv D s -> pwp (loop D n l) (fun _ s' => BInv D s') s.
Proof.
  intros Hl. revert s. eapply (tr_loop_inv D rank WF (BInv D)); [by intros s (?&?&?)|by intros s (?&?&?)| |done].
  intros s s' Hs Hm. eapply BInv_step; [exact Hs|]. by constructor.
Qed.
(** [loop] of [a] alone does not run out of fuel when given [G]. *)
Definition fueled (G : nat) (a : action) : Prop := forall m s, G <= m -> BInv D s -> twp (loop D m [a]) (fun _ _ => True) s.
Definition held (o : oid) (t : trans) (e' : eid) : Prop :=
  exists x mb ev', inside D o x /\ d_obj D !! x = Some mb /\ is_media (ob_kind mb) = true /\ e' ∈ ob_events mb /\
    d_evt D !! e' = Some ev' /\ ev_type ev' = PRESENTATION /\ isLambda ev' = false.
Lemma nostart_t G t : t <> START -> forall n e ev ob s, d_evt D !! e = Some ev -> d_obj D !! ev_obj ev = Some ob -> BInv D s ->
  rank (ev_obj ev) + 1 + G <= n ->
  (t = PAUSE \/ t = RESUME -> isLambda ev = true \/ ob_kind ob = KSwitch -> forall e', held (ev_obj ev) t e' -> fueled G (mkA e' t "")) ->
  twp (tr D n e t) (fun _ _ => True) s.
Proof.
  intros Ht. induction n as [|n IH]; intros e ev ob s He Ho HB Hn HG; [lia|].
  rewrite tr_S. unfold tr_body. w1. wgetE ev' He'. assert (ev' = ev) as -> by congruence.
  w1. w1. w1. w1. eapply (wp_mono _ _ _ (fun b s' => True)).
  - unfold before. w1. wgetO ob' Ho'. assert (ob' = ob) as -> by congruence.
    assert (Hch : forall c cb s1, c ∈ ob_children ob -> d_obj D !! c = Some cb -> BInv D s1 ->
      (t = PAUSE \/ t = RESUME -> isLambda ev = true \/ ob_kind ob = KSwitch) ->
      twp (tr D n (ob_lambda cb) t) (fun _ s' => BInv D s') s1).
    { intros c cb s1 Hin Hcb HB1 Hm. destruct (lambda_evt D rank WF _ _ Hcb) as (cev & Hce & Hcl & Hco).
      eapply twp_of; [|eapply (BInv_tr D rank WF); [by eexists|done]].
      destruct (wo_children _ _ _ _ (wf_o _ _ WF _ _ Ho) _ Hin) as (cb' & Hcb' & Hpar). assert (cb' = cb) as -> by congruence.
      destruct (wo_parent _ _ _ _ (wf_o _ _ WF _ _ Hcb) _ Hpar) as (pb & _ & _ & _ & Hlt).
      eapply IH; [exact Hce|by rewrite Hco|done|rewrite Hco; lia|]. rewrite Hco.
      intros Hpr _ e' (x & mb & ev' & Hi & Hrest). apply HG; auto. exists x, mb, ev'. split; [|done]. by eapply inside_child. }
    assert (Hctx : isLambda ev = true -> twp (foreach (fun c => do cb <- getO D c; tr D n (ob_lambda cb) t ;; ret tt) (ob_children ob)) (fun _ _ => True) s).
    { intros Hl. apply (wp_foreach_inv True False _ _ (BInv D)); [done| |done]. intros c s1 Hc HB1. w1. wgetO cb Hcb. w1.
      eapply wp_mono; [eapply Hch; eauto|]. intros b s2 HB2. by w1. }
    assert (Hsw : ob_kind ob = KSwitch -> twp (do s0 <- get;
         match o_selected (ostOf s0 (ev_obj ev)) with
         | None => ret true
         | Some c => do cb <- getO D c; tr D n (ob_lambda cb) t ;; modify (upd_ob (ev_obj ev) (os_set_selected None)) ;; ret true
         end) (fun _ _ => True) s).
    { intros Hk. w1. w1. destruct (o_selected _) as [c|] eqn:Es; [|by w1]. w1. wgetO cb Hcb. w1.
      eapply wp_mono; [eapply Hch; eauto|].
      - destruct HB as (HS & _). by eapply HS.
      - intros b s1 _. by w1. }
    assert (Hmed : is_media (ob_kind ob) = true -> twp (media_before D (tr D n) (fun a => loop D n [a]) (ev_obj ev) e ev t) (fun _ _ => True) s).
    { intros Hm. unfold media_before. destruct (ev_type ev) eqn:Hty; try (by w1). 
      assert (HH : t = PAUSE \/ t = RESUME -> isLambda ev = true -> twp (foreach (fun e' => do ev' <- getE D e';
                   if (negb (isLambda ev') && bool_decide (ev_type ev' = PRESENTATION))%bool
                   then loop D n [mkA e' t ""] ;; ret tt else ret tt) (ob_events ob)) (fun _ _ => True) s).
      { intros Hpr Hl. apply (wp_foreach_inv True False _ _ (BInv D)); [done| |done]. intros e' s1 Hin HB1. w1. wgetE ev' Hev'.
        destruct (negb _ && _)%bool eqn:E; [|by w1]. apply andb_prop in E as [E1 E2]. apply negb_true_iff in E1. apply bool_decide_eq_true in E2.
        w1. eapply wp_mono; [eapply twp_and; [apply HG; auto; [|lia]|apply BInv_loop; [|done]]|].
        - exists (ev_obj ev), ob, ev'. split; [constructor|]. done.
        - intros a ->%elem_of_list_singleton. cbn. by eexists.
        - intros k s2 [_ HB2]. by w1. }
      destruct t; try done.
      - w1. w1. wgetO ob' Ho2. assert (ob' = ob) as -> by congruence. w1. eapply wp_mono; [apply HH; auto|]. intros [] s1 _. w1.
        unfold playerPause. w1. w1. case_match; [|done]. w1. w1; w1. w1; unfold updPlayer; by w1.
      - w1. w1. wgetO ob' Ho2. assert (ob' = ob) as -> by congruence. w1. eapply wp_mono; [apply HH; auto|]. intros [] s1 _. w1.
        unfold playerResume. w1. w1. case_match; [|done]. w1. w1; w1. w1; unfold updPlayer; by w1. }
    destruct (ob_kind ob) eqn:Hk.
    + unfold ctx_before. destruct (ev_type ev); try done. w1. w1. destruct t; try done.
      all: w1; wgetO ob' Ho2; assert (ob' = ob) as -> by congruence; w1; eapply wp_mono; [by apply Hctx|]; done.
    + unfold sw_before. w1. eapply wp_mono; [eapply twp_and; [apply candidates_nf|by apply (sw_candidates_pure D rank WF)]|]. intros cands s1 [_ [-> _]]. cbv beta.
      destruct (ev_type ev); try done. destruct t; try done; by apply Hsw.
    + by apply Hmed.
    + by apply Hmed.
  - intros b s1 _. cbv beta. w1. w1. w1. w1. w1. w1.
    eapply (wp_mono _ _ _ (fun _ s' => True)); [|intros a s2 _; w1].
    unfold after. w1. wgetO ob' Ho'. assert (ob' = ob) as -> by congruence.
    assert (Hma : forall s1, twp (media_after D (ev_obj ev) e ev t) (fun _ _ => True) s1).
    { intros s2. unfold media_after. w1. w1. cbv zeta. destruct (ev_type ev), t; try done.
      all: w1; [w1; w1; w1; eapply wp_mono; [apply mediaDoStop_nf|done]|w1; [destruct (o_player _); done|]].
      all: w1; apply t_isOccurring; intros ob' _; cbv beta; w1; by w1. }
    destruct (ob_kind ob) eqn:Hk; [| |apply Hma|apply Hma].
    + unfold ctx_after. destruct (ev_type ev), t; try done; w1; w1; try done; w1; eapply wp_mono; [apply doStop_nf|done|apply doStop_nf|done].
    + unfold sw_after. destruct (ev_type ev), t; try done; w1; eapply wp_mono; [apply doStop_nf|done|apply doStop_nf|done].
Qed.

(** ** What one action triggers. *)
Definition linksize (l : list (list action * list action)) : nat := list_sum (map (fun ca => length (fst ca) * length (snd ca)) l).
Definition now (x : action) : Prop := exists s, immediate D s x = true.
Lemma fire_acts_t ctx l s : twp (fire_acts D ctx l) (fun r _ => length r <= length l /\ forall x, x ∈ r -> x ∈ l /\ now x) s.
Proof.
  revert s. induction l as [|a l IH]; intros s; cbn [fire_acts]; [w1; split; [done|by intros x ?%elem_of_nil]|]. w1. w1. w1.
  apply (wp_mono _ _ _ (fun d _ => delayOf D s a = Some d)).
  { unfold wp, parse_time, delayOf, valueOf. destruct (try_parse_time _) eqn:E; try done. }
  intros d s1 Hd. cbv beta.
  destruct (_ || _)%bool eqn:E.
  - w1. eapply wp_mono; [apply IH|]. intros r s2 [H1 H2]. cbv beta. w1. cbn. split; [lia|].
    intros x [->|Hx]%elem_of_cons; [split; [left|]|split; [right|]; by apply H2]. exists s. unfold immediate. by rewrite Hd.
  - w1. unfold addDelayed. w1. eapply wp_mono; [apply IH|]. intros r s2 [H1 H2]. cbn. split; [lia|]. intros x Hx. apply H2 in Hx as [? ?]. split; [by right|done].
Qed.
Definition outs (a : action) (links : list (list action * list action)) (x : action) : Prop :=
  exists conds acts k, (conds, acts) ∈ links /\ k ∈ conds /\ x ∈ acts /\ now x /\ ac_evt k = ac_evt a /\ ac_tr k = ac_tr a.
Lemma fire_conds_t ctx e t conds acts s : twp (fire_conds D ctx e t conds acts)
  (fun r _ => length r <= length conds * length acts /\ forall x, x ∈ r -> x ∈ acts /\ now x /\ exists k, k ∈ conds /\ ac_evt k = e /\ ac_tr k = t) s.
Proof.
  revert s. induction conds as [|c conds IH]; intros s; cbn [fire_conds].
  { w1. split; [done|]. by intros x ?%elem_of_nil. }
  assert (HI : forall s, twp (fire_conds D ctx e t conds acts) (fun r _ => length r <= length (c :: conds) * length acts /\
     forall x, x ∈ r -> x ∈ acts /\ now x /\ exists k, k ∈ c :: conds /\ ac_evt k = e /\ ac_tr k = t) s).
  { intros s1. eapply wp_mono; [apply IH|]. intros r s2 [H1 H2]. cbn. split; [lia|]. intros x Hx.
    destruct (H2 x Hx) as (? & ? & k & ? & ?). split; [done|]. split; [done|]. exists k. split; [by right|done]. }
  destruct (_ && _)%bool eqn:E; [|apply HI]. apply andb_prop in E as [E1 E2].
  apply bool_decide_eq_true in E1. apply bool_decide_eq_true in E2.
  w1. apply (wp_mono _ _ _ (fun _ s' => True)).
  { case_match; [|by w1]. eapply wp_mono; [apply evalPredicate_nf|done]. }
  intros b s1 _. cbv beta. destruct b; [|apply HI]. w1. eapply wp_mono; [apply fire_acts_t|].
  intros r1 s2 [H1 H2]. cbv beta. w1. eapply wp_mono; [apply IH|]. intros r2 s3 [H3 H4]. cbv beta. w1.
  rewrite app_length. rewrite rev_length in H1. cbn. split; [lia|]. intros x [Hx|Hx]%elem_of_app.
  - apply H2 in Hx as [Hx Hn]. rewrite elem_of_list_In, <- in_rev, <- elem_of_list_In in Hx. split; [done|]. split; [done|]. exists c. split; [left|done].
  - destruct (H4 x Hx) as (? & ? & k & ? & ?). split; [done|]. split; [done|]. exists k. split; [by right|done].
Qed.
Lemma fire_links_t ctx a links s : twp (fire_links D ctx (ac_evt a) (ac_tr a) links)
  (fun r _ => length r <= linksize links /\ forall x, x ∈ r -> outs a links x) s.
Proof.
  revert s. induction links as [|[conds acts] links IH]; intros s; cbn [fire_links].
  { w1. split; [done|]. by intros x ?%elem_of_nil. }
  w1. eapply wp_mono; [apply fire_conds_t|]. intros r1 s1 [H1 H2]. cbv beta. w1. eapply wp_mono; [apply IH|].
  intros r2 s2 [H3 H4]. cbv beta. w1. rewrite app_length. split.
  - change (linksize ((conds, acts) :: links)) with (length conds * length acts + linksize links). lia.
  - intros x [Hx|Hx]%elem_of_app.
    + destruct (H2 x Hx) as (? & ? & k & ? & ? & ?). exists conds, acts, k. split; [left|done].
    + destruct (H4 x Hx) as (cs & acs & k & ? & ?). exists cs, acs, k. split; [by right|done].
Qed.
Context (L P A : nat).
Context (HL : forall o ob, d_obj D !! o = Some ob -> linksize (ob_links ob) <= L).
Context (HP : forall o ob, d_obj D !! o = Some ob -> length (ob_ports ob) <= P).
Context (HA : forall o ob, d_obj D !! o = Some ob -> length (ob_aliases ob) <= A).
Definition caused (a x : action) : Prop := causes D (ac_evt a, ac_tr a) (ac_evt x, ac_tr x).
Lemma inCtx_t a c s : twp (evalActionInContext D a c) (fun r _ => length r <= L /\ forall x, x ∈ r -> caused a x) s.
Proof.
  unfold evalActionInContext. w1. wgetO ob Ho. w1. w1. case_match.
  - eapply wp_mono; [apply fire_links_t|]. intros r s1 [H1 H2]. split; [pose proof (HL _ _ Ho); lia|].
    intros x Hx. destruct (H2 x Hx) as (cs & acs & k & ? & ? & ? & ? & E1 & E2). unfold caused. rewrite <- E1, <- E2. by eapply ca_link.
  - w1. split; [cbn; lia|]. by intros x ?%elem_of_nil.
Qed.
Lemma fire_ports_t a o gp ports s : twp (fire_ports D a o gp ports) (fun r _ => length r <= length ports * L /\ forall x, x ∈ r -> caused a x) s.
Proof.
  revert s. induction ports as [|p ports IH]; intros s; cbn [fire_ports].
  { w1. split; [done|]. by intros x ?%elem_of_nil. }
  w1. wgetE pe Hpe. case_match.
  - w1. eapply wp_mono; [apply inCtx_t|]. intros r1 s1 [H1 H2]. cbv beta. w1. eapply wp_mono; [apply IH|].
    intros r2 s2 [H3 H4]. cbv beta. w1. rewrite app_length. cbn. split; [lia|]. intros x [Hx|Hx]%elem_of_app; auto.
  - eapply wp_mono; [apply IH|]. intros r2 s2 [H3 H4]. cbn. split; [lia|done].
Qed.
Lemma fire_aliases_t a als s : twp (fire_aliases D a als) (fun r _ => length r <= length als * L /\ forall x, x ∈ r -> caused a x) s.
Proof.
  revert s. induction als as [|[i [c|]] als IH]; intros s; cbn [fire_aliases].
  { w1. split; [done|]. by intros x ?%elem_of_nil. }
  - w1. apply t_isContext. intros cb Hcb. cbv beta. destruct (bool_decide _).
    + w1. eapply wp_mono; [apply inCtx_t|]. intros r1 s1 [H1 H2]. cbv beta. w1. eapply wp_mono; [apply IH|].
      intros r2 s2 [H3 H4]. cbv beta. w1. rewrite app_length. cbn. split; [lia|]. intros x [Hx|Hx]%elem_of_app; auto.
    + eapply wp_mono; [apply IH|]. intros r2 s2 [H3 H4]. cbn. split; [lia|done].
  - eapply wp_mono; [apply IH|]. intros r2 s2 [H3 H4]. cbn. split; [lia|done].
Qed.
Lemma find_label_t name l s :
  twp ((fix find (l : list eid) : ME eid :=
                  match l with
                  | [] => crashm (CAssert "Document.cpp:390")
                  | x :: l => do xe <- getE D x;
                              if (bool_decide (ev_type xe = PRESENTATION)
                                  && String.eqb (ev_id xe) name)%bool
                              then ret x else find l
                  end) l) (fun e s' => s' = s /\ e ∈ l /\ exists le, d_evt D !! e = Some le /\ ev_type le = PRESENTATION /\ ev_id le = name) s.
Proof.
  revert s. induction l as [|x l IH]; intros s; [done|]. w1. wgetE xe Hxe. destruct (_ && _)%bool eqn:E.
  - apply andb_prop in E as [E1 E2]. apply bool_decide_eq_true in E1. apply String.eqb_eq in E2.
    w1. split; [done|]. split; [left|]. eauto.
  - eapply wp_mono; [apply IH|]. intros e s' (H1 & H2 & H3). split; [done|]. split; [by right|done].
Qed.
Definition KMAX : nat := L + P * L + L + A * L.
Lemma triggered_t evalA a s :
  (forall b s, caused a b -> valid_evt D (ac_evt b) -> BInv D s -> twp (evalA b) (fun _ s' => BInv D s') s) -> BInv D s ->
  twp (triggered D evalA a) (fun r s' => length r <= KMAX /\ (forall x, x ∈ r -> caused a x)) s.
Proof.
  intros Hev HB. unfold triggered. w1. wgetE ev He. w1. wgetO ob Ho. w1.
  eapply (wp_mono _ _ _ (fun r s' => length r <= L + P * L /\ (forall x, x ∈ r -> caused a x))).
  { assert (Hnil : forall s, twp (ret []) (fun (r : list action) (_ : st) => length r <= L + P * L /\ (forall x, x ∈ r -> caused a x)) s).
    { intros s1. w1. split; [cbn; lia|]. by intros x ?%elem_of_nil. }
    unfold fire_parent. destruct (ob_parent ob) as [p|] eqn:Hp; [|apply Hnil].
    w1. wgetO pb Hpb. destruct (ob_kind pb) eqn:Hkp; try apply Hnil.
    - w1. apply t_isOccurring. intros pb' _. cbv beta. case_match; [|apply Hnil].
      w1. eapply wp_mono; [apply inCtx_t|]. intros r1 s1 [H1 H2]. cbv beta. w1.
      eapply (wp_mono _ _ _ (fun r s' => length r <= P * L /\ (forall x, x ∈ r -> caused a x))).
      { assert (Hnil' : forall s, twp (ret []) (fun (r : list action) (_ : st) => length r <= P * L /\ (forall x, x ∈ r -> caused a x)) s).
        { intros s2. w1. split; [cbn; lia|]. by intros x ?%elem_of_nil. }
        destruct (ob_parent pb) as [gp|]; [|apply Hnil']. w1. wgetO gb Hgb. w1. apply t_isOccurring. intros gb' _. cbv beta.
        case_match; [|apply Hnil']. eapply wp_mono; [apply fire_ports_t|]. intros r s2 [H3 H4]. split; [|done].
        pose proof (HP _ _ Hpb). pose proof (Nat.mul_le_mono_r _ _ L H5). lia. }
      intros r2 s2 [H3 H4]. cbv beta. w1. rewrite app_length. split; [lia|]. intros x [Hx|Hx]%elem_of_app; auto.
    - w1. eapply (wp_mono _ _ _ (fun _ _ => True)); [|intros [] s1 _; apply Hnil].
      apply (wp_foreach_inv True False _ _ (BInv D)); [done| |done]. intros [name mapped] s1 Hsp HB1. cbn [fst snd]. unfold fire_swport.
      apply (wp_foreach_inv True False _ _ (BInv D)); [done| |done]. intros m s2 Hm HB2.
      w1. wgetE me Hme. w1. wgetO sb Hsb. assert (sb = pb) as -> by congruence. destruct (_ && _)%bool eqn:E; [|by w1].
      apply andb_prop in E as [E1 _]. apply bool_decide_eq_true in E1.
      w1. eapply wp_mono; [apply find_label_t|]. intros le s3 (-> & Hin & lev & Hle & Hlt & Hln). cbv beta. w1.
      eapply wp_mono; [apply Hev; [|by eexists|done]|].
      + unfold caused. eapply (ca_echo D a (mkAct le _ _ _ _ _)).
        exists ev, ob, p, pb, name, mapped, m, me, lev. cbn [ac_evt ac_tr]. done.
      + intros k s3 HB3. by w1. }
  intros r1 s1 [H1 H2]. cbv beta. w1.
  eapply (wp_mono _ _ _ (fun r s' => length r <= L + A * L /\ (forall x, x ∈ r -> caused a x))).
  { unfold fire_self. pose proof (HA _ _ Ho) as HAo. pose proof (Nat.mul_le_mono_r _ _ L HAo).
    destruct (ob_kind ob); [eapply wp_mono; [apply inCtx_t|]|eapply wp_mono; [apply fire_aliases_t|]..].
    all: intros r s2 [H3 H4]; split; [lia|done]. }
  intros r2 s2 [H3 H4]. cbv beta. w1. rewrite app_length. unfold KMAX. split; [lia|]. intros x [Hx|Hx]%elem_of_app; auto.
Qed.

(** ** Action evaluation. *)
Fixpoint cost (k : nat) : nat :=
  match k with O => O | S k => 1 + (R + R + 2 + S (cost k)) + (cost k + 1) + KMAX * cost k end.
Lemma attempt_t n a s G : valid_evt D (ac_evt a) -> BInv D s -> R + R + 2 + G <= n ->
  (forall e', (ac_tr a = PAUSE \/ ac_tr a = RESUME) -> causes D (ac_evt a, ac_tr a) (e', ac_tr a) -> valid_evt D e' -> fueled G (mkA e' (ac_tr a) "")) ->
  twp (attempt D (tr D n) a) (fun _ s' => BInv D s') s.
Proof.
  intros [ev He] HB Hn HG. apply twp_of.
  2:{ eapply (attempt_keeps D (BInv D)); [|intros e t Hv s1 HB1; by eapply (BInv_tr D rank WF)|done].
      intros s1 s2 H1 H2. eapply (BInv_step D); [exact H1|by constructor]. }
  assert (Hlog : BInv D (log (OBegin a) s)) by (eapply (BInv_step D); [exact HB|]; constructor; apply ms_log).
  assert (Hpar : forall e k v s, BInv D s -> BInv D (upd_ev e (es_set_param k v) s)).
  { intros e k v s1 H1. eapply (BInv_step D); [exact H1|]. constructor. apply ms_param. }
  unfold attempt. w1. w1. w1. wgetE ev' He'. assert (ev' = ev) as -> by congruence. w1. unfold setParam. w1.
  w1. eapply (wp_mono _ _ _ (fun _ s' => BInv D s')); [w1; [w1; auto|auto]|].
  intros [] s1 HB1. cbv beta in HB1. destruct (wf_e _ _ WF _ _ He) as (ob & Ho & _ & _). pose proof (HR _ _ Ho).
  destruct (decide (ac_tr a = START)) as [->|Hns].
  - eapply start_t; eauto. lia.
  - eapply (nostart_t G); eauto; [lia|]. intros Hpr Hl e' (x & mb & ev' & Hi & Hx & Hmx & Hin & He2 & Hty & Hnl).
    apply HG; [done| |by eexists]. eapply ca_hold; eauto.
Qed.
Lemma loop_t k : forall a stack m n s, short D k (ac_evt a, ac_tr a) -> valid_evt D (ac_evt a) -> valid_acts D stack -> BInv D s ->
  (forall m' s', m <= m' -> BInv D s' -> twp (loop D m' stack) (fun _ _ => True) s') ->
  cost k + m <= n -> twp (loop D n (a :: stack)) (fun _ _ => True) s.
Proof.
  induction k as [|k IH]; intros a stack m n s Hsh Hv Hvs HB Hst Hn.
  { exfalso. eapply Hsh. constructor. }
  destruct n as [|n]; [cbn in Hn; lia|]. cbn [cost] in Hn. rewrite loop_S. unfold loop_body.
  assert (Hone : forall b, short D k (ac_evt b, ac_tr b) -> valid_evt D (ac_evt b) -> forall m s, cost k + 1 <= m -> BInv D s ->
     twp (loop D m [b]) (fun _ s' => BInv D s') s).
  { intros b Hb Hvb m' s' Hm' HB'. apply twp_of; [|apply BInv_loop; [|done]; intros x ->%elem_of_list_singleton; done].
    apply (IH b [] 1 m' s'); auto; [apply valid_nil|]. intros m2 s2 Hm2 _. destruct m2; [lia|]. rewrite loop_S. done. }
  w1. eapply wp_mono; [apply (attempt_t n a s (cost k + 1)); auto; [lia|]|].
  { intros e' Hpr Hc Hve m' s' Hm' HB'. eapply twp_T, Hone; auto. by eapply short_step. }
  intros ok s1 HB1. cbv beta in HB1 |- *. destruct ok; [|apply Hst; [lia|done]].
  w1. eapply wp_mono; [eapply twp_and; [apply triggered_t; [|done]|eapply (triggered_keeps D rank WF (BInv D)); [| |done]]|].
  - intros b s2 Hc Hvb HB2. apply Hone; auto; [by eapply short_step|lia].
  - intros s2 s3 H1 H2. eapply (BInv_step D); [exact H1|by constructor].
  - intros b Hvb s2 HB2. apply BInv_loop; [|done]. by intros x ->%elem_of_list_singleton.
  - intros r s2 ((Hlen & Hcs) & HB2 & Hvr). cbv beta. w1.
    eapply (wp_mono _ _ _ (fun _ _ => True)); [|done].
    (* the pushed actions, then the rest of the stack *)
    assert (Hgen : forall l m n s, (forall x, x ∈ l -> caused a x) -> valid_acts D l -> BInv D s ->
      (forall m' s', m <= m' -> BInv D s' -> twp (loop D m' stack) (fun _ _ => True) s') ->
      length l * cost k + m <= n -> twp (loop D n (l ++ stack)) (fun _ _ => True) s).
    { clear - IH Hvs Hsh. induction l as [|x l IHl]; intros m n s Hc Hv HB Hst Hn; cbn [app]; [apply Hst; [cbn in Hn; lia|done]|].
      apply (IH x (l ++ stack) (length l * cost k + m)); auto.
      - eapply short_step; [exact Hsh|]. apply Hc. left.
      - apply Hv. left.
      - apply valid_app; [|done]. intros y Hy. apply Hv. by right.
      - intros m' s' Hm' HB'. apply (IHl m); auto; [intros y Hy; apply Hc; by right|intros y Hy; apply Hv; by right].
      - cbn in Hn. lia. }
    apply (Hgen (rev r) m); auto.
    + intros x Hx. apply Hcs. by rewrite elem_of_list_In, <- in_rev, <- elem_of_list_In in Hx.
    + by apply valid_rev.
    + rewrite rev_length. pose proof (Nat.mul_le_mono_r _ _ (cost k) Hlen). lia.
Qed.
End Term.

(** ** Putting it together. *)
Lemma map_bound {A} (m : gmap positive A) (f : positive -> A -> nat) : exists B, forall k a, m !! k = Some a -> f k a <= B.
Proof.
  assert (H : forall l : list (positive * A), exists B, forall k a, (k, a) ∈ l -> f k a <= B).
  { induction l as [|[k a] l [B IH]]; [exists 0; intros k a H; by apply elem_of_nil in H|].
    exists (Nat.max (f k a) B). intros k' a' [E|Hin]%elem_of_cons; [simplify_eq; lia|]. specialize (IH _ _ Hin). lia. }
  destruct (H (map_to_list m)) as [B HB]. exists B. intros k a Hk. apply HB. by apply elem_of_map_to_list.
Qed.
Definition nodes (D : doc) : list node := 
  concat (map (fun x => map (pair (fst x)) [ABORT; PAUSE; RESUME; START; STOP]) (map_to_list (d_evt D))).
Lemma nodes_in D e t : valid_evt D e -> (e, t) ∈ nodes D.
Proof.
  intros [ev He]. unfold nodes. apply elem_of_list_In, in_concat. exists (map (pair e) [ABORT; PAUSE; RESUME; START; STOP]). split.
  - apply in_map_iff. exists (e, ev). split; [done|]. by apply elem_of_list_In, elem_of_map_to_list.
  - apply in_map. destruct t; cbn; tauto.
Qed.
Lemma causes_valid D rank : wf_at D rank -> forall x y, causes D x y -> valid_evt D (fst y).
Proof.
  intros WF x y Hc. destruct Hc as [c cb conds acts k x Hcb Hl Hk Hx _|a b H|]; cbn.
  - by eapply (wo_acts _ _ _ _ (wf_o _ _ WF _ _ Hcb)).
  - destruct H as (ev & ob & p & pb & name & mapped & m & me & le & H). destruct H as (_ & _ & _ & _ & _ & _ & _ & _ & _ & _ & Hb & _). by eexists.
  - by eexists.
Qed.
Theorem eval_terminates D a : wf_doc D -> valid_evt D (ac_evt a) -> acyclicFrom D (ac_evt a, ac_tr a) ->
  exists n0, forall n s, n0 <= n -> reach D s -> evalAction D n a s <> NoFuel.
Proof.
  intros [rank WF] Hv Ha.
  destruct (map_bound (d_obj D) (fun o _ => S (rank o))) as [R HR].
  destruct (map_bound (d_obj D) (fun _ ob => linksize (ob_links ob))) as [L HL].
  destruct (map_bound (d_obj D) (fun _ ob => length (ob_ports ob))) as [P HP].
  destruct (map_bound (d_obj D) (fun _ ob => length (ob_aliases ob))) as [A HA].
  assert (Hsh : short D (length (nodes D)) (ac_evt a, ac_tr a)).
  { apply acyclic_short; [|done]. intros [e t] Hr. apply nodes_in.
    apply rtc_inv_r in Hr as [[= <- <-]|(z & _ & Hc)]; [done|]. by apply (causes_valid D rank WF _ _ Hc). }
  exists (cost R L P A (length (nodes D)) + 1). intros n s Hn Hs E.
  assert (HT : twp (loop D n [a]) (fun _ _ => True) s).
  { eapply (loop_t D rank WF R HR L P A HL HP HA (length (nodes D)) a [] 1); auto; [apply valid_nil|by eapply BInv_reach|].
    intros m' s' Hm' _. destruct m'; [lia|]. done. }
  unfold wp in HT. unfold evalAction in E. by rewrite E in HT.
Qed.

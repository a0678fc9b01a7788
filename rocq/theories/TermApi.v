(** TermApi.v -- without trigger cycles every call of the API terminates (C11). *)
From Verif Require Export Term Fuel FReach.
Open Scope string_scope.
Open Scope list_scope.
Open Scope m_scope.
Notation ext := Fuel.ext.

Lemma eval_uniform D : wf_doc D -> noCycle D ->
  exists n0, forall n a s, n0 <= n -> valid_evt D (ac_evt a) -> BInv D s -> evalAction D n a s <> NoFuel.
Proof.
  intros [rank WF] Hn.
  destruct (map_bound (d_obj D) (fun o _ => S (rank o))) as [R HR].
  destruct (map_bound (d_obj D) (fun _ ob => linksize (ob_links ob))) as [L HL].
  destruct (map_bound (d_obj D) (fun _ ob => length (ob_ports ob))) as [P HP].
  destruct (map_bound (d_obj D) (fun _ ob => length (ob_aliases ob))) as [A HA].
  exists (cost R L P A (length (nodes D)) + 1). intros n a s Hle Hv Hs E.
  assert (Hsh : short D (length (nodes D)) (ac_evt a, ac_tr a)).
  { apply acyclic_short; [|intros y _; apply Hn]. intros [e t] Hr. apply nodes_in.
    apply rtc_inv_r in Hr as [[= <- <-]|(z & _ & Hc)]; [done|]. by apply (causes_valid D rank WF _ _ Hc). }
  assert (HT : twp (loop D n [a]) (fun _ _ => True) s).
  { eapply (loop_t D rank WF R HR L P A HL HP HA (length (nodes D)) a [] 1); auto; [apply valid_nil|].
    intros m' s' Hm' _. destruct m'; [lia|]. done. }
  unfold wp in HT. unfold evalAction in E. by rewrite E in HT.
Qed.

Section Api.
Context (D : doc) (rank : oid -> nat) (WF : wf_at D rank) (n : nat).
Context (Hev : forall a s, valid_evt D (ac_evt a) -> BInv D s -> evalAction D n a s <> NoFuel).
Notation I := (BInv D).
Notation tk m := (forall s, I s -> twp m (fun _ s' => I s') s).
Lemma BI_m s s' : I s -> mstep D s s' -> I s'.
Proof. intros. eapply BInv_step; eauto. by constructor. Qed.
Lemma tk_eval a : valid_evt D (ac_evt a) -> tk (evalAction D n a).
Proof.
  intros Hv s Hs. apply twp_pwp; [by apply Hev|].
  eapply (keeps_eval D rank WF I); eauto; try (by intros ? (?&?&?)).
  intros s1 s2 H1 H2. eapply (Hbs D I); [|exact H1|exact H2]. apply BInv_step.
Qed.
Lemma tk_lam o ob t : d_obj D !! o = Some ob -> tk (evalAction D n (mkA (ob_lambda ob) t "") ;; ret tt).
Proof. intros Ho s Hs. w1. eapply wp_mono; [apply tk_eval; [by eapply valid_lambda|done]|]. intros k s' Hs'. by w1. Qed.
Lemma tk_run o ob l : d_obj D !! o = Some ob -> valid_acts D l -> tk (run_triggered D n o l).
Proof.
  intros Ho. induction l as [|a l IH]; intros Hv s Hs; cbn [run_triggered]; [by w1|].
  w1. w1. w1. eapply wp_mono; [apply tk_eval; [apply Hv; left|]|].
  - eapply BInv_step; [exact Hs|]. apply as_trig.
  - intros k s1 Hs1. cbv beta in Hs1 |- *. w1. apply t_isOccurring. intros ob' Ho'. cbv beta.
    destruct (bool_decide _); [|by w1]. apply IH; [|done]. intros x Hx. apply Hv. by right.
Qed.
Lemma tk_objTick o d : tk (objTick D n o d).
Proof.
  intros s Hs. apply twp_of.
  2:{ eapply (keeps_objTick D rank WF I); eauto; try (by intros ? (?&?&?)). apply BInv_step. }
  unfold objTick. w1. w1. w1.
  apply t_isOccurring. intros ob Ho. cbv beta. sts. 
  pose proof (BInv_step D s (tickState D o ob d s) Hs) as HT. unfold tickState in HT.
  destruct (decide (evState s (ob_lambda ob) = OCCURRING)) as [E|E].
  - rewrite bool_decide_true by done. w1. w1. w1. w1. w1. w1. w1. w1. w1. w1. w1.
    sts_in H. sts. rewrite decide_True by done. cbn [os_set_time o_delayed].
    assert (HT' : I (upd_ob o (os_set_delayed (mark (tadd (o_time (ostOf s o)) d) (o_delayed (ostOf s o))))
       (upd_ob o (os_set_time (tadd (o_time (ostOf s o)) d)) (log (OTick o d) s)))).
    { apply HT. pose proof (as_tick D s o ob d Ho) as A. unfold tickState in A.
      rewrite decide_True in A by done. by apply A. }
    eapply wp_mono.
    { eapply tk_run; [exact Ho| |exact HT'].
      apply due_valid. intros a x Hin. destruct Hs as (_ & HQ & _). exact (HQ o ob a x Ho Hin). }
    intros fin s1 Hs1. cbv beta in Hs1 |- *. destruct fin; by w1.
  - rewrite bool_decide_false by done. by w1.
Qed.
Lemma tk_mediaTick o ob d : d_obj D !! o = Some ob -> tk (mediaTick D n o d).
Proof.
  intros Ho s Hs. unfold mediaTick. w1. eapply wp_mono; [by apply tk_objTick|].
  intros [] s1 Hs1. cbv beta in Hs1 |- *. w1. w1.
  destruct (o_player (ostOf s1 o)) as [p|] eqn:Ep; [|by w1]. w1. unfold updPlayer. w1.
  assert (Hs2 : I (upd_ob o (fun x => os_set_player ((fun p => p_set_time (tadd (p_time p) d) p) <$> o_player x) x) s1)).
  { eapply BI_m; [exact Hs1|]. by eapply ms_player. }
  destruct (_ || _)%bool; [|by w1]. w1. wgetO ob' Ho'. assert (ob' = ob) as -> by congruence. by eapply tk_lam.
Qed.
Lemma tk_ctxTick o d : tk (ctxTick D n o d).
Proof.
  intros s Hs. unfold ctxTick. w1. eapply wp_mono; [by apply tk_objTick|].
  intros [] s1 Hs1. cbv beta in Hs1 |- *. w1. w1. w1. wgetO ob Ho. cbv zeta. destruct (_ && _)%bool.
  - w1. apply t_isOccurring. intros ob' Ho'. cbv beta. destruct (bool_decide _); [by eapply tk_lam|by w1].
  - destruct (_ =? _)%Z; [by eapply tk_lam|by w1].
Qed.
Lemma tk_focus i : tk (updateCurrentFocus D n i).
Proof.
  intros s Hs. unfold updateCurrentFocus. w1. w1. cbv zeta. w1. wgetO ob Ho. w1. w1.
  w1. eapply wp_mono; [apply tk_eval; [|exact Hs]|].
  - eapply find_event_valid; eauto.
  - intros k s1 Hs1. by w1.
Qed.
Lemma tk_sendTick o d : tk (sendTick D n o d).
Proof.
  intros s Hs. unfold sendTick. w1. wgetO ob Ho. destruct (ob_kind ob).
  - by apply tk_ctxTick.
  - by apply tk_objTick.
  - by eapply tk_mediaTick.
  - unfold settingsTick. w1. w1. w1. eapply (wp_mono _ _ _ (fun _ s' => I s')).
    { destruct (s_next s); [|by w1]. w1. eapply wp_mono; [by apply tk_focus|].
      intros [] s1 Hs1. cbv beta in Hs1 |- *. w1. eapply BI_m; [exact Hs1|]. apply ms_next. }
    intros [] s1 Hs1. by eapply tk_mediaTick.
Qed.
Lemma tk_sendKey o k p : tk (sendKey D n o k p).
Proof.
  intros s Hs. unfold sendKey. w1. w1. assert (Hs1 : I (log (OKey o k p) s)) by (eapply BInv_step; [exact Hs|apply as_key]).
  revert Hs1. generalize (log (OKey o k p) s). clear s Hs. intros s Hs.
  w1. wgetO ob Ho. destruct (is_media _); [|by w1]. unfold mediaKey. w1. apply t_isSleeping. intros ob' Ho'. cbv beta.
  destruct (bool_decide _); [by w1|]. w1. w1. destruct (o_player (ostOf s o)) as [pl|]; [|by w1]. w1.
  eapply (wp_mono _ _ _ (fun _ s' => I s')).
  { destruct (_ && _)%bool; [|by w1]. cbv zeta. destruct (is_empty _); [by w1|]. unfold scheduleFocus. w1. eapply BI_m; [exact Hs|]. apply ms_next. }
  intros [] s1 Hs1. cbv beta in Hs1 |- *. w1. wgetO ob2 Ho2. assert (ob2 = ob) as -> by congruence.
  apply (wp_foreach_inv _ _ _ _ I); [done| |done]. intros e s2 He Hs2. w1.
  eapply wp_mono; [apply tk_eval; [|exact Hs2]|].
  - rewrite elem_of_list_In, filter_In, <- elem_of_list_In in He. destruct He as [He _].
    destruct (wo_events _ _ _ _ (wf_o _ _ WF _ _ Ho) _ He) as (ev & ? & _). by eexists.
  - intros n' s3 Hs3. by w1.
Qed.
Lemma tk_stop o ob : d_obj D !! o = Some ob -> rank o + 1 <= n -> tk (tr D n (ob_lambda ob) STOP).
Proof.
  intros Ho Hn s Hs. destruct (lambda_evt D rank WF _ _ Ho) as (ev & He & Hl & Hob). apply twp_of; [|apply (BInv_tr D rank WF); [by eexists|done]].
  eapply (nostart_t D rank WF 0); eauto; [by rewrite Hob|rewrite Hob; lia|]. by intros [?|?].
Qed.
Lemma BI_mediaDoStop o s : I s -> pwp (mediaDoStop D o) (fun _ s' => I s') s.
Proof.
  intros Hs. destruct (o_player (ostOf s o)) eqn:Ep.
  2:{ unfold mediaDoStop. w1. w1. rewrite Ep. w1. unfold isSleeping, objState. w1. w1. wgetO ob Ho. w1. w1. by w1. }
  apply wp_mediaDoStop; [done|done|by eexists|]. intros s' E1 E2 E3 E4 E5 E6 E7. destruct Hs as (H1 & H2 & H3).
  split; [|split].
  - intros o1 ob1 c Ho1. rewrite E7. cbn. destruct (decide _); cbn; by apply H1.
  - intros o' ob' a x Ho'. rewrite E7. cbn. destruct (decide _); cbn; [intros Hin; by apply elem_of_nil in Hin|]. intros Hin. by eapply H2.
  - eapply QOwn_sub; [|exact H3]. intros o' ax. rewrite E7. cbn. destruct (decide _); cbn; [intros Hin; by apply elem_of_nil in Hin|].
    destruct ax as [a x]; eauto.
Qed.
Lemma tk_destroy k : forall o, rank o + 1 <= k -> k <= n -> tk (destroy D n k o).
Proof.
  induction k as [|k IH]; intros o Hk Hn s Hs; [lia|]. cbn [destroy]. w1. wgetO ob Ho. destruct (ob_kind ob) eqn:Ek.
  - w1. eapply wp_mono; [eapply tk_stop; eauto; lia|]. intros b s1 Hs1. cbv beta in Hs1 |- *.
    apply (wp_foreach_inv _ _ _ _ I); [done| |done]. intros c s2 Hc Hs2. apply IH; [|lia|done].
    destruct (wo_children _ _ _ _ (wf_o _ _ WF _ _ Ho) _ Hc) as (cb & Hcb & Hpar).
    destruct (wo_parent _ _ _ _ (wf_o _ _ WF _ _ Hcb) _ Hpar) as (pb & _ & _ & _ & Hr). lia.
  - by w1.
  - apply twp_of; [apply mediaDoStop_nf|]. by apply BI_mediaDoStop.
  - apply twp_of; [apply mediaDoStop_nf|]. by apply BI_mediaDoStop.
Qed.
End Api.

(** ** The formatter. *)
Lemma onDoc_twp {A} (m : doc -> ME A) f D s (Q : A -> fmt -> Prop) :
  f_doc f = Some (D, s) ->
  twp (m D) (fun a s' => Q a (f_set_focus (s_focus s') (f_set_doc (Some (D, s')) f))) s ->
  twp (onDoc m) Q f.
Proof. unfold wp, onDoc. intros ->. by destruct (m D s). Qed.

Section Fmt.
Context (D : doc) (rank : oid -> nat) (WF : wf_at D rank) (n : nat).
Context (Hev : forall a s, valid_evt D (ac_evt a) -> BInv D s -> evalAction D n a s <> NoFuel).
Context (Hrk : forall o ob, d_obj D !! o = Some ob -> S (rank o) <= n).
Context (Htr : forall o ob s, d_obj D !! o = Some ob -> BInv D s -> tr D n (ob_lambda ob) START s <> NoFuel).
Lemma fstop_t f s : f_doc f = Some (D, s) -> BInv D s -> twp (fstop n) (fun b f' => f_playing f' = false) f.
Proof.
  intros Ed Hs. unfold fstop. w1. w1. destruct (f_playing f) eqn:Ep; [|by w1].
  w1. eapply onDoc_twp; [exact Ed|]. eapply wp_mono.
  - apply (tk_destroy D rank WF n); [|done|exact Hs]. destruct (wf_root _ _ WF) as (rb & Hrb & _). pose proof (Hrk _ _ Hrb). lia.
  - intros [] s' _. cbv beta. w1. w1. by w1.
Qed.
Lemma check_t f s : f_doc f = Some (D, s) -> BInv D s -> f_playing f = true ->
  twp (checkEOS n) (fun _ f' => f_playing f' = false \/ exists s', f_doc f' = Some (D, s') /\ BInv D s') f.
Proof.
  intros Ed Hs Hp. unfold checkEOS. w1. eapply onDoc_twp; [exact Ed|]. apply t_isSleeping. intros rb Hrb. cbv beta.
  w1. eapply (wp_mono _ _ _ (fun _ f' => f_doc f' = Some (D, s))).
  { destruct (bool_decide _); by w1. }
  intros [] f' Ed'. cbv beta. w1. w1. destruct (f_eos f').
  - w1. w1. w1. w1. w1. eapply wp_mono; [by apply (fstop_t _ s)|]. intros b f2 H2. cbv beta. w1. by left.
  - w1. right. by exists s.
Qed.
Lemma ftick_t f s d : f_doc f = Some (D, s) -> BInv D s -> twp (ftick n d) (fun _ _ => True) f.
Proof.
  intros Ed Hs. unfold ftick. w1. w1. destruct (f_playing f) eqn:Hp; [|by w1]. cbn [negb]. w1.
  eapply wp_mono; [by eapply check_t|]. intros [] f1 H1. cbv beta in H1 |- *. w1. w1.
  destruct (f_playing f1) eqn:Hp1; [|by w1]. cbn [negb]. destruct H1 as [?|(s1 & Ed1 & Hs1)]; [congruence|]. w1.
  eapply onDoc_twp; [exact Ed1|]. w1. w1. eapply wp_mono.
  - apply (wp_foreach_inv _ _ _ _ (BInv D)) with (Q := fun _ _ => True); [done| |done]. intros o s2 _ Hs2. by apply (tk_sendTick D rank WF n Hev).
  - intros [] s2 _. by w1.
Qed.
Lemma fkey_t f s k p : f_doc f = Some (D, s) -> BInv D s -> twp (fkey n k p) (fun _ _ => True) f.
Proof.
  intros Ed Hs. unfold fkey. w1. w1. destruct (f_playing f) eqn:Hp; [|by w1]. cbn [negb]. w1.
  eapply wp_mono; [by eapply check_t|]. intros [] f1 H1. cbv beta in H1 |- *. w1. w1.
  destruct (f_playing f1) eqn:Hp1; [|by w1]. cbn [negb]. destruct H1 as [?|(s1 & Ed1 & Hs1)]; [congruence|]. w1.
  eapply onDoc_twp; [exact Ed1|]. w1. w1. eapply wp_mono.
  - apply (wp_foreach_inv _ _ _ _ (BInv D)) with (Q := fun _ _ => True); [done| |done]. intros o s2 _ Hs2. by apply (tk_sendKey D rank WF n Hev).
  - intros [] s2 _. by w1.
Qed.
Lemma fstart_t f F s : F (f_w f) (f_h f) (f_focus f) = Some (D, s) -> init_ok D s -> twp (fstart n F) (fun _ _ => True) f.
Proof.
  intros EF Hin. unfold fstart. w1. w1. destruct (f_playing f); [by w1|]. w1. w1. rewrite EF.
  assert (Hs0 : BInv D (Formatter.set_size (f_w f) (f_h f) s)).
  { apply (BInv_reach D rank WF). apply r_size. by apply r_init. }
  w1. w1. w1. w1. w1. eapply onDoc_twp; [reflexivity|]. w1. wgetO rb Hrb.
  eapply wp_mono; [apply (tk_eval D rank WF n Hev); [by eapply valid_lambda|exact Hs0]|].
  intros k s1 Hs1. cbv beta in Hs1 |- *. destruct k as [|k]; [by w1|]. w1. eapply onDoc_twp; [reflexivity|].
  w1. wgetO sb Hsb. eapply wp_mono; [apply twp_triv; by eapply Htr|]. intros b s2 _. cbv beta. repeat w1.
Qed.
End Fmt.

(** ** More fuel changes nothing, at the level of the API. *)
Section FuelApi.
Context (D : doc) (n m : nat) (Hnm : n <= m).
Ltac e1 := first [ apply ext_refl | assumption | match goal with H : _ |- ext _ _ => apply H end
  | apply ext_bind; [|intros ?] | apply ext_foreach; intros ? | apply ext_if
  | match goal with |- ext (match ?x with _ => _ end) _ => destruct x end ].
Ltac es := repeat e1.
Lemma ext_tr e t : ext (tr D n e t) (tr D m e t). Proof. intros s H. by apply fuel_tr. Qed.
Lemma ext_eval a : ext (evalAction D n a) (evalAction D m a). Proof. intros s H. by apply fuel_loop. Qed.
Lemma ext_run o l : ext (run_triggered D n o l) (run_triggered D m o l).
Proof. pose proof ext_eval. induction l; cbn [run_triggered]; es. Qed.
Lemma ext_objTick o d : ext (objTick D n o d) (objTick D m o d).
Proof. unfold objTick. pose proof ext_run. es. Qed.
Lemma ext_mediaTick o d : ext (mediaTick D n o d) (mediaTick D m o d).
Proof. unfold mediaTick. pose proof ext_objTick. pose proof ext_eval. es. Qed.
Lemma ext_sendTick o d : ext (sendTick D n o d) (sendTick D m o d).
Proof.
  pose proof ext_mediaTick. pose proof ext_objTick. pose proof ext_eval.
  unfold sendTick, settingsTick, updateCurrentFocus, ctxTick. cbv zeta. es.
Qed.
Lemma ext_sendKey o k p : ext (sendKey D n o k p) (sendKey D m o k p).
Proof. unfold sendKey, mediaKey. pose proof ext_eval. es. Qed.
Lemma ext_destroy k k' : k <= k' -> forall o, ext (destroy D n k o) (destroy D m k' o).
Proof.
  pose proof ext_tr. revert k'. induction k as [|k IH]; intros k' Hk o; [intros s E; by destruct E|].
  destruct k' as [|k']; [lia|]. cbn [destroy].
  assert (HH : forall o, ext (destroy D n k o) (destroy D m k' o)) by (intros; apply IH; lia). es.
Qed.
End FuelApi.
Lemma ext_onDoc {A} (m1 m2 : doc -> ME A) : (forall D, ext (m1 D) (m2 D)) -> ext (onDoc m1) (onDoc m2).
Proof.
  intros H f. unfold onDoc. destruct (f_doc f) as [[D s]|]; [|done]. intros E. rewrite H; [done|]. by destruct (m1 D s).
Qed.
Section FuelFmt.
Context (n m : nat) (Hnm : n <= m).
Ltac e1 := first [ apply ext_refl | assumption | match goal with H : _ |- ext _ _ => apply H end
  | apply ext_onDoc; intros ? | apply ext_bind; [|intros ?] | apply ext_foreach; intros ? | apply ext_if
  | match goal with |- ext (match ?x with _ => _ end) _ => destruct x end ].
Ltac es := repeat e1.
Lemma ext_fstop : ext (fstop n) (fstop m).
Proof. unfold fstop. pose proof (fun D => ext_destroy D n m Hnm n m Hnm) as HD. es. Qed.
Lemma ext_check : ext (checkEOS n) (checkEOS m).
Proof. unfold checkEOS. pose proof ext_fstop. es. Qed.
Lemma ext_ftick d : ext (ftick n d) (ftick m d).
Proof. unfold ftick. pose proof ext_check. pose proof (fun D => ext_sendTick D n m Hnm). es. Qed.
Lemma ext_fkey k p : ext (fkey n k p) (fkey m k p).
Proof. unfold fkey. pose proof ext_check. pose proof (fun D => ext_sendKey D n m Hnm). es. Qed.
Lemma ext_fstart F : ext (fstart n F) (fstart m F).
Proof. unfold fstart. pose proof (fun D => ext_tr D n m Hnm). pose proof (fun D => ext_eval D n m Hnm). es. Qed.
End FuelFmt.

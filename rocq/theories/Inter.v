(** Inter.v -- switches, set actions, focus and keys: proofs for C14-C17. *)
From Verif Require Export Trans InterSpec SetProps PredFacts Links.
Open Scope string_scope.
Open Scope list_scope.

Section Inter.
Context (D : doc) (rank : oid -> nat) (WF : wf_at D rank).

(** ** The queue of a media or switch only holds its own events. *)
Definition QOwn (s : st) : Prop :=
  forall o ob a x, d_obj D !! o = Some ob -> ob_kind ob <> KContext -> (a, x) ∈ o_delayed (ostOf s o) -> ac_evt a ∈ ob_events ob.
Lemma QOwn_sub s s' : (forall o ax, ax ∈ o_delayed (ostOf s' o) ->
    exists x, (ax.1, x) ∈ o_delayed (ostOf s o)) -> QOwn s -> QOwn s'.
Proof. intros E H o ob a x Ho Hk Hin. apply E in Hin as [x' Hin]. eauto. Qed.
Lemma QOwn_step s s' : QOwn s -> astep D s s' -> QOwn s'.
Proof.
  intros HS Hst.
  assert (Hself : forall (o : oid) (ax : action * N), ax ∈ o_delayed (ostOf s o) ->
     exists x, (ax.1, x) ∈ o_delayed (ostOf s o)) by (intros ? [a x] ?; eauto).
  destruct Hst as [s s' Hm| | | | | |].
  - destruct Hm; try (eapply QOwn_sub; [|exact HS]; intros o' ax; unfold sched; sts; 
      try (destruct (decide _) as [->|]); by eauto).
    + intros o' ob' a x Ho' Hk'. unfold sched. sts. destruct (decide (o = o')) as [->|]; [|eauto].
      cbn. intros [?|Hx]%elem_of_app; [eauto|]. apply elem_of_list_singleton in Hx. simplify_eq. cbn. by destruct H1.
    + eapply QOwn_sub; [|exact HS]. intros o' ax. sts. destruct (decide (o = o')) as [->|]; [|eauto].
      cbn. intros Hx. apply elem_of_list_lookup in Hx as [j Hj].
      destruct ax as [a0 x0]. exists x0. cbn.
      destruct (decide (j < i)).
      * rewrite lookup_delete_lt in Hj by done. by eapply elem_of_list_lookup_2.
      * rewrite lookup_delete_ge in Hj by lia. by eapply elem_of_list_lookup_2.
    + eapply QOwn_sub; [|exact HS]. intros o' ax. sts. destruct (decide (o = o')) as [->|]; [|eauto].
      cbn. intros Hx. apply elem_of_list_lookup in Hx as [j Hj].
      destruct (decide (i = j)) as [->|Hne].
      * rewrite list_lookup_alter in Hj. destruct (_ !! j) as [[a0 x0]|] eqn:Ej; [|done].
        cbn in Hj. simplify_eq. eexists. by eapply elem_of_list_lookup_2.
      * rewrite list_lookup_alter_ne in Hj by done.
        destruct ax as [a0 x0]. exists x0. by eapply elem_of_list_lookup_2.
    + destruct (doStart_ok _ _ _ _ _ H H3) as (_ & _ & E). eapply QOwn_sub; [|exact HS].
      intros o'. rewrite E. apply Hself.
    + destruct (doStart_ok _ _ _ _ _ H H4) as (_ & _ & E). eapply QOwn_sub; [|exact HS].
      intros o'. rewrite E. cbn. destruct (createPlayer_ok _ _ _ _ H3). sts.
      destruct (decide (o' = o)) as [->|]; [rewrite cf_delayed|rewrite cf_other by done]; apply Hself.
    + destruct (doStop_ok _ _ _ _ _ H H5) as (_ & _ & E). eapply QOwn_sub; [|exact HS].
      intros o' ax. rewrite E. cbn. destruct (decide _); [by intros ?%elem_of_nil|]. apply Hself.
    + destruct (mediaDoStop_ok _ _ _ (commit _ t s) _ H H4 H5) as (_ & _ & E). eapply QOwn_sub; [|exact HS].
      intros o' ax. rewrite E. cbn. destruct (decide _); [by intros ?%elem_of_nil|]. apply Hself.
  - eapply QOwn_sub; [|exact HS]; intros o' ax. rewrite tick_ob. destruct (decide _) as [[-> _]|]; [|apply Hself].
    cbn. unfold mark. intros ([a x] & -> & Hin)%elem_of_list_fmap. exists x. cbn. by destruct (_ <=? _)%N.
  - eapply QOwn_sub; [|exact HS]; intros o' ax. sts. destruct (decide (o = o')) as [->|]; [|apply Hself].
    cbn. unfold purge. rewrite elem_of_list_In, filter_In, <- elem_of_list_In. intros [Hin _].
    destruct ax as [a x]; eauto.
  - done.
  - done.
  - done.
  - eapply QOwn_sub; [|exact HS]; intros o' ax. sts. destruct (decide (o = o')) as [->|]; apply Hself.
Qed.
Definition BInv (s : st) : Prop := SelInv D s /\ QInv D s /\ QOwn s.
Lemma BInv_step s s' : BInv s -> astep D s s' -> BInv s'.
Proof.
  intros (H1 & H2 & H3) Hst. split; [eapply SelInv_step; eauto|]. split; [eapply QInv_step; eauto|eapply QOwn_step; eauto].
Qed.
Lemma BInv_reach s : reach D s -> BInv s.
Proof.
  revert s. apply (reach_inv D rank WF); [by intros s (?&?&?)|by intros s (?&?&?)|apply BInv_step|].
  intros s Hin. split; [|split].
  - intros o ob c Ho Hc. by rewrite (in_selected _ _ Hin) in Hc.
  - intros o ob a x Ho Hc. rewrite (in_delayed _ _ Hin) in Hc. by apply elem_of_nil in Hc.
  - intros o ob a x Ho Hk Hc. rewrite (in_delayed _ _ Hin) in Hc. by apply elem_of_nil in Hc.
Qed.
Lemma BInv_tr n e t s : valid_evt D e -> BInv s -> pwp (tr D n e t) (fun _ s' => BInv s') s.
Proof.
  intros He. revert s. eapply (tr_loop_inv D rank WF BInv); [by intros s (?&?&?)|by intros s (?&?&?)| |done].
  intros s s' Hs Hm. eapply BInv_step; [exact Hs|]. by constructor.
Qed.

(** ** A start that fails changes nothing. *)
Lemma sw_choose_false trn o cands rules s :
  (forall e s, pwp (trn e START) (fun b s' => b = false -> s' = s) s) ->
  pwp (sw_choose D trn o cands rules) (fun b s' => b = false -> s' = s) s.
Proof.
  intros IH. induction rules as [|[c p] rules IHr]; cbn [sw_choose]; [by w1|].
  w1. apply (wp_mono _ _ _ (fun _ s' => s' = s)).
  { clear. generalize (@None eid). induction cands as [|x l IHl]; intros acc; cbn [sw_find]; [by w1|]. w1. wgetE ev He. apply IHl. }
  intros sel s' ->. destruct sel as [e'|]; [|apply IHr].
  w1. eapply wp_mono; [apply (evalPredicate_pure D)|]. intros b s1 ->. cbv beta. w1; [|apply IHr].
  w1. eapply wp_mono; [apply IH|]. intros ok s2 Hf. cbv beta in Hf |- *. w1; [|by w1; auto]. w1. w1. by w1.
Qed.
Lemma start_false n : forall e s, pwp (tr D n e START) (fun b s' => b = false -> s' = s) s.
Proof.
  induction n as [|n IH]; intros e s; [done|]. rewrite tr_S. unfold tr_body.
  w1. wgetE ev He. w1. w1. w1; [by w1|]. destruct (wf_e _ _ WF _ _ He) as (ob & Ho & _).
  w1. eapply (wp_mono _ _ _ (fun b s1 => (b = false -> s1 = s) /\ (b = true -> ob_kind ob = KSwitch -> is_Some (o_selected (ostOf s1 (ev_obj ev)))))).
  { unfold before. w1. wgetO ob' Ho'. assert (ob' = ob) as -> by congruence. destruct (ob_kind ob) eqn:Hk.
    - unfold ctx_before. destruct (ev_type ev); try done; try (by w1). w1. w1. by w1.
    - apply wp_conj.
      + unfold sw_before. w1. eapply wp_mono; [apply (sw_candidates_pure D rank WF)|]. intros cands s1 [-> _]. cbv beta.
        destruct (ev_type ev) eqn:Hty; try done. w1. w1. w1. w1. w1. wgetO ob2 Ho2. by apply sw_choose_false.
      + destruct (ev_type ev) eqn:Hty.
        2:{ eapply wp_mono; [by apply sw_before_selected|]. auto. }
        all: unfold sw_before; w1; apply pwp_intro; intros ???; by rewrite Hty.
    - apply (wp_mono _ _ _ (fun b _ => b = true)); [|intros b s' ->; done].
      unfold media_before. destruct (ev_type ev); try (by w1).
      w1. apply pwp_intro. intros [] s1 _. w1. w1. destruct (evState s1 e); try (by w1). w1; [w1; apply pwp_intro; intros [] ? _; by w1|].
      w1. wgetO ob2 Ho2. w1. w1. destruct (evState s1 _); try (by w1). w1. apply pwp_intro; intros [] ? _; by w1.
    - apply (wp_mono _ _ _ (fun b _ => b = true)); [|intros b s' ->; done].
      unfold media_before. destruct (ev_type ev); try (by w1).
      w1. apply pwp_intro. intros [] s1 _. w1. w1. destruct (evState s1 e); try (by w1). w1; [w1; apply pwp_intro; intros [] ? _; by w1|].
      w1. wgetO ob2 Ho2. w1. w1. destruct (evState s1 _); try (by w1). w1. apply pwp_intro; intros [] ? _; by w1. }
  intros b s1 [Hf Hsel]. cbv beta. w1; [w1; intros _; apply Hf; by destruct b|]. apply negb_false_iff in H0 as ->.
  w1. w1. w1. w1. fold (commit e START s1). w1.
  eapply wp_mono; [eapply (after_target D rank WF n); eauto; sts; by rewrite decide_True|].
  intros a s2 [-> _]. cbv beta iota. by w1.
Qed.

(** ** Starting a component of a switch stays inside it. *)
Definition same_out (o : oid) (s s' : st) : Prop :=
  forall e ev, d_evt D !! e = Some ev -> ~ inside D o (ev_obj ev) -> evState s' e = evState s e.
Lemma so_refl o s : same_out o s s. Proof. by intros e ev. Qed.
Lemma so_trans o s1 s2 s3 : same_out o s1 s2 -> same_out o s2 s3 -> same_out o s1 s3.
Proof. intros H1 H2 e ev He Hr. rewrite (H2 e ev), (H1 e ev); auto. Qed.
Lemma so_ev o s s' : evsame s s' -> same_out o s s'.
Proof. intros H e ev _ _. apply H. Qed.
Lemma so_commit e ev t s : d_evt D !! e = Some ev -> same_out (ev_obj ev) s (commit e t s).
Proof.
  intros He e' ev' He' Hn. sts. rewrite decide_False; [done|]. intros <-. apply Hn. simplify_eq. constructor.
Qed.
Lemma so_nest o c cb s s' : d_obj D !! c = Some cb -> ob_parent cb = Some o -> same_out c s s' -> same_out o s s'.
Proof.
  intros Hc Hp H e ev He Hn. apply (H e ev He). intros Hi. apply Hn. clear -Hi Hc Hp.
  induction Hi as [|x xb p Hx Hxp _ IH].
  - eapply in_nested; [exact Hc|exact Hp|constructor].
  - eapply in_nested; eauto.
Qed.

Definition inSwitch (o : oid) : Prop :=
  exists ob p pb, d_obj D !! o = Some ob /\ ob_parent ob = Some p /\ d_obj D !! p = Some pb /\ ob_kind pb = KSwitch.
Lemma startParent_inSwitch trn o s : inSwitch o -> pwp (startParent D trn o) (fun _ s' => s' = s) s.
Proof.
  intros (ob & p & pb & Ho & Hp & Hpb & Hk). unfold startParent. w1. wgetO ob' Ho'. assert (ob' = ob) as -> by congruence.
  rewrite Hp. unfold isContext. w1. w1. wgetO pb' Hpb'. assert (pb' = pb) as -> by congruence. w1. rewrite Hk.
  by w1.
Qed.

Lemma anchor_seek_out trn o ob begin fin k i s : d_obj D !! o = Some ob -> ob_kind ob <> KContext ->
  (forall e ev s, d_evt D !! e = Some ev -> ev_obj ev = o -> BInv s ->
     pwp (trn e START) (fun _ s' => BInv s' /\ same_out o s s') s) ->
  BInv s -> seekable D ob ->
  pwp (anchor_seek trn o begin fin k i) (fun _ s' => same_out o s s') s.
Proof.
  intros Ho Hk IH. revert i s. induction k as [|k IHk]; intros i s HB Hsk; cbn [anchor_seek]; [w1; apply so_refl|].
  w1. w1. destruct (_ !! i) as [[a x]|] eqn:Ei; [|done].
  w1.
  - w1. eapply (wp_mono _ _ _ (fun _ s' => BInv s' /\ same_out o s s')).
    { w1; [|w1; split; [done|apply so_refl]]. apply andb_prop in H0 as [H0 _]. apply bool_decide_eq_true in H0. rewrite H0.
      assert (Hin : ac_evt a ∈ ob_events ob).
      { destruct HB as (_ & _ & HO). eapply HO; eauto using elem_of_list_lookup_2. }
      destruct (wo_events _ _ _ _ (wf_o _ _ WF _ _ Ho) _ Hin) as (ev & He & Hob).
      w1. eapply wp_mono; [eapply IH; eauto|]. intros b s1 Hs1. by w1. }
    intros [] s1 [HB1 HS1]. cbv beta. w1. w1. w1. w1. w1. w1. w1.
    eapply wp_mono; [apply IHk; [|done]|].
    + eapply BInv_step; [exact HB1|]. constructor. eapply ms_erase; eauto. by apply bool_decide_eq_true in H0.
    + intros [] s2 HS2. eapply so_trans; [exact HS1|]. eapply so_trans; [|exact HS2]. apply so_ev. intros e'. by sts.
  - w1. w1. w1. w1. eapply wp_mono; [apply IHk; [|done]|].
    + eapply BInv_step; [exact HB|]. constructor.
      apply orb_false_iff in H as [H _]. apply orb_false_iff in H as [H1 H2].
      eapply ms_shift; eauto; [by apply N.eqb_neq|by apply N.ltb_ge].
    + intros [] s2 HS2. eapply so_trans; [|exact HS2]. apply so_ev. intros e'. by sts.
Qed.

(** ** The choice of a component. *)
Lemma candidates_spec o ob ev s : d_obj D !! o = Some ob ->
  pwp (sw_candidates D o ev) (fun cands s' => s' = s /\
    forall e' c, (e' ∈ cands /\ exists ev', d_evt D !! e' = Some ev' /\ ev_obj ev' = c) <-> eligible D ob ev c e') s.
Proof.
  intros Ho. unfold sw_candidates, eligible. w1. wgetO ob' Ho'. assert (ob' = ob) as -> by congruence.
  destruct (isLambda ev).
  - pose proof (wo_children _ _ _ _ (wf_o _ _ WF _ _ Ho)) as Hch.
    revert Hch. generalize (ob_children ob) as l. induction l as [|x l IHl]; intros Hch.
    + w1. split; [done|]. intros e' c. split; [intros [Hin _]; by apply elem_of_nil in Hin|].
      intros (cb & Hin & _). by apply elem_of_nil in Hin.
    + w1. wgetO xb Hxb. w1. eapply wp_mono; [apply IHl; intros c Hc; apply Hch; by right|].
      intros r s' [-> Hr]. cbv beta. w1. split; [done|]. intros e' c. split.
      * intros [Hin (ev' & He' & Hob)]. apply elem_of_cons in Hin as [->|Hin].
        -- destruct (lambda_evt D rank WF _ _ Hxb) as (lev & Hl & _ & Hlo).
           assert (lev = ev') as -> by congruence. assert (x = c) as -> by congruence. exists xb. split; [left|done].
        -- destruct (proj1 (Hr e' c)) as (cb & ? & ? & ?); [eauto|]. exists cb. split; [by right|done].
      * intros (cb & Hin & Hcb & ->). apply elem_of_cons in Hin as [->|Hin].
        -- assert (cb = xb) as -> by congruence. split; [left|].
           destruct (lambda_evt D rank WF _ _ Hxb) as (lev & Hl & _ & Hlo). eauto.
        -- destruct (proj2 (Hr (ob_lambda cb) c)) as [? ?]; [by exists cb|]. split; [by right|done].
  - destruct (assoc (ev_id ev) (ob_swports ob)) as [l|] eqn:Ea; [|done]. w1. split; [done|]. intros e' c. split.
    + intros [Hin (ev' & He' & Hob)]. exists l, ev'. done.
    + intros (l' & ev' & [= <-] & Hin & He' & Hob). eauto.
Qed.
Lemma sw_find_spec c l acc s :
  (forall e, acc = Some e -> exists ev, d_evt D !! e = Some ev /\ ev_obj ev = c) ->
  pwp (sw_find D c l acc) (fun r s' => s' = s /\
    (forall e, r = Some e -> (e ∈ l \/ acc = Some e) /\ exists ev, d_evt D !! e = Some ev /\ ev_obj ev = c) /\
    (r = None -> acc = None /\ forall e ev, e ∈ l -> d_evt D !! e = Some ev -> ev_obj ev <> c)) s.
Proof.
  revert acc. induction l as [|x l IH]; intros acc Hacc; cbn [sw_find].
  - w1. split; [done|]. split; [auto|]. intros ->. split; [done|]. intros e ev Hin. by apply elem_of_nil in Hin.
  - w1. wgetE ev He. eapply wp_mono; [apply IH|].
    + intros e. destruct (bool_decide (ev_obj ev = c)) eqn:E; [|auto]. apply bool_decide_eq_true in E.
      intros [= <-]. eauto.
    + intros r s' (-> & H1 & H2). split; [done|]. split.
      * intros e Hr. destruct (H1 e Hr) as [Hin Hev]. split; [|done].
        destruct Hin as [Hin|Hin]; [left; by right|]. destruct (bool_decide _); [|auto].
        injection Hin as ->. left. left.
      * intros Hr. destruct (H2 Hr) as [Ha Hn]. destruct (bool_decide (ev_obj ev = c)) eqn:E; [done|].
        apply bool_decide_eq_false in E. split; [done|]. intros e ev' [->|Hin]%elem_of_cons He'; [congruence|eauto].
Qed.
Lemma sw_choose_spec trn o ob ev cands rules s :
  (forall e' c, (e' ∈ cands /\ exists ev', d_evt D !! e' = Some ev' /\ ev_obj ev' = c) <-> eligible D ob ev c e') ->
  pwp (sw_choose D trn o cands rules) (fun b s' =>
    (exists l1 c p l2 e' s1, rules = l1 ++ (c, p) :: l2 /\ (forall r, r ∈ l1 -> ~ applies D s ob ev r) /\
       applies D s ob ev (c, p) /\ eligible D ob ev c e' /\ trn e' START s = Ok b s1 /\
       s' = if b then upd_ob o (os_set_selected (Some c)) s1 else s1) \/
    (b = false /\ s' = s /\ forall r, r ∈ rules -> ~ applies D s ob ev r)) s.
Proof.
  intros Hc. induction rules as [|[c p] rules IH]; cbn [sw_choose].
  - w1. right. split; [done|]. split; [done|]. intros r Hr. by apply elem_of_nil in Hr.
  - assert (Hskip : ~ applies D s ob ev (c, p) -> pwp (sw_choose D trn o cands rules) (fun b s' =>
       (exists l1 c0 p0 l2 e' s1, (c, p) :: rules = l1 ++ (c0, p0) :: l2 /\ (forall r, r ∈ l1 -> ~ applies D s ob ev r) /\
       applies D s ob ev (c0, p0) /\ eligible D ob ev c0 e' /\ trn e' START s = Ok b s1 /\
       s' = if b then upd_ob o (os_set_selected (Some c0)) s1 else s1) \/
       (b = false /\ s' = s /\ forall r, r ∈ (c, p) :: rules -> ~ applies D s ob ev r)) s).
    { intros Hna. eapply wp_mono; [exact IH|]. intros b s' [(l1 & c' & p' & l2 & e' & s1 & -> & H2 & H3)|(H1 & H2 & H3)].
      - left. exists ((c, p) :: l1), c', p', l2, e', s1. split; [done|]. split; [|done].
        intros r [->|Hr]%elem_of_cons; auto.
      - right. split; [done|]. split; [done|]. intros r [->|Hr]%elem_of_cons; auto. }
    w1. eapply wp_mono; [apply (sw_find_spec c cands None s); done|]. intros sel s' (-> & H1 & H2). cbv beta.
    destruct sel as [e'|].
    + destruct (H1 e' eq_refl) as [[Hin|?] Hev]; [|done]. assert (Hel : eligible D ob ev c e') by (apply Hc; eauto).
      w1. unfold wp at 1. destruct (evalPredicate D p s) as [b s1| |] eqn:Ep; [|done|done].
      apply evalPredicate_ok in Ep as [-> Hb]. w1.
      * w1. unfold wp at 1. destruct (trn e' START s) as [ok s2| |] eqn:Et; [|done|done].
        destruct ok.
        -- w1. w1. w1. left. exists [], c, p, rules, e', s2. split; [done|].
           split; [intros r Hr; by apply elem_of_nil in Hr|]. split; [split; [by exists e'|by apply Hb]|]. done.
        -- w1. left. exists [], c, p, rules, e', s2. split; [done|].
           split; [intros r Hr; by apply elem_of_nil in Hr|]. split; [split; [by exists e'|by apply Hb]|]. done.
      * apply Hskip. intros [_ Hh]. cbn in Hh. apply Hb in Hh. congruence.
    + apply Hskip. intros [(e' & He') _]. cbn in He'. apply Hc in He' as [Hin (ev' & Hev & Hob)].
      destruct (H2 eq_refl) as [_ Hn]. exact (Hn e' ev' Hin Hev Hob).
Qed.

Lemma start_out n : forall e ev s, d_evt D !! e = Some ev -> inSwitch (ev_obj ev) -> BInv s ->
  pwp (tr D n e START) (fun _ s' => same_out (ev_obj ev) s s') s.
Proof.
  induction n as [|n IH]; intros e ev s He Hsw HB; [done|]. rewrite tr_S. unfold tr_body.
  w1. wgetE ev' He'. assert (ev' = ev) as -> by congruence. w1. w1. w1; [w1; apply so_refl|].
  destruct (wf_e _ _ WF _ _ He) as (ob & Ho & Hin & _). set (o := ev_obj ev) in *.
  w1. eapply (wp_mono _ _ _ (fun b s1 => same_out o s s1 /\ (b = true -> ob_kind ob = KSwitch -> is_Some (o_selected (ostOf s1 o))))).
  { apply wp_conj.
    - unfold before. w1. wgetO ob' Ho'. assert (ob' = ob) as -> by congruence.
      assert (Hmed : is_media (ob_kind ob) = true -> pwp (media_before D (tr D n) (fun a => loop D n [a]) o e ev START) (fun _ s1 => same_out o s s1) s).
      { intros Hm. unfold media_before. destruct (ev_type ev) eqn:Hty; try (w1; apply so_refl).
        w1. eapply wp_mono; [by apply startParent_inSwitch|]. intros [] s1 ->. cbv beta. w1. w1.
        destruct (evState s e) eqn:Es; try (w1; apply so_refl).
        destruct (isLambda ev) eqn:Hl.
        - w1. eapply wp_mono; [apply createPlayer_cframe|]. intros [] s1 F. cbv beta in F |- *. w1. apply so_ev.
          intros e2. apply evState_sev, F.
        - w1. wgetO ob2 Ho2. assert (ob2 = ob) as -> by congruence. w1. w1.
          destruct (evState s (ob_lambda ob)); try (w1; apply so_refl).
          w1. eapply (wp_mono _ _ _ (fun _ s' => same_out o s s')); [|intros [] s1 HS; by w1].
          destruct (lambda_evt D rank WF _ _ Ho) as (lev & Hlev & Hll & Hlo).
          assert (IH' : forall e ev s, d_evt D !! e = Some ev -> ev_obj ev = o -> BInv s ->
             pwp (tr D n e START) (fun _ s' => BInv s' /\ same_out o s s') s).
          { intros e1 ev1 s1 He1 Hob1 HB1. apply wp_conj; [apply BInv_tr; [by eexists|done]|].
            rewrite <- Hob1. apply IH; [done|rewrite Hob1; done|done]. }
          unfold media_start_anchor. w1. eapply wp_mono; [eapply IH'; eauto|].
          intros b s1 [HB1 HS1]. cbv beta zeta. w1.
          assert (Hsk : seekable D ob) by (split; [done|]; eauto 6).
          assert (Hpl : forall k v s0, BInv s0 -> pwp (playerSetProperty D o k v) (fun _ s' => BInv s' /\ same_out o s0 s') s0).
          { intros k v s0 HB0. apply wp_conj.
            - eapply (keeps_playerSet D BInv); [|by eexists|done]. intros s2 s3 H2 Hm2. eapply BInv_step; [exact H2|]. by constructor.
            - eapply wp_mono; [apply playerSetProperty_pframe|]. intros [] s2 F. apply so_ev. intros e2. by eapply pframe_evState. }
          eapply wp_mono; [by apply Hpl|]. intros [] s2 [HB2 HS2]. cbv beta. w1.
          assert (HS02 : same_out o s s2) by (eapply so_trans; eauto).
          eapply (wp_mono _ _ _ (fun _ s' => BInv s' /\ same_out o s s')).
          { w1; [by w1|]. w1. eapply wp_mono; [by apply Hpl|]. intros [] s3 [HB3 HS3]. cbv beta. unfold addDelayed. w1. split.
            - eapply BInv_step; [exact HB3|]. constructor. eapply ms_sched; eauto. by eexists.
            - eapply so_trans; [exact HS02|]. eapply so_trans; [exact HS3|]. apply so_ev. intros e2. unfold sched. by sts. }
          intros [] s3 [HB3 HS3]. cbv beta. w1. w1.
          eapply wp_mono; [eapply anchor_seek_out; eauto; by destruct (ob_kind ob)|].
          intros [] s4 HS4. eapply so_trans; eauto. }
      destruct (ob_kind ob) eqn:Hk; [| |by apply Hmed|by apply Hmed].
      + unfold ctx_before. destruct (ev_type ev); try done; try (w1; apply so_refl). w1. w1. w1. apply so_refl.
      + unfold sw_before. w1. eapply wp_mono; [by apply candidates_spec|]. intros cands s1 [-> Hc]. cbv beta.
        destruct (ev_type ev) eqn:Hty; try done. w1. w1. w1. w1. w1. wgetO ob2 Ho2. assert (ob2 = ob) as -> by congruence.
        eapply wp_mono; [by apply sw_choose_spec|]. intros b s' [(l1 & c & p & l2 & e' & s1 & Hr & _ & _ & Hel & Et & Hs')|(_ & -> & _)]; [|apply so_refl].
        apply Hc in Hel as [_ (ev' & He2 & Hob')].
        assert (Hch : c ∈ ob_children ob).
        { eapply (wo_rules _ _ _ _ (wf_o _ _ WF _ _ Ho)). rewrite Hr. apply elem_of_app. right. left. }
        destruct (wo_children _ _ _ _ (wf_o _ _ WF _ _ Ho) _ Hch) as (cb & Hcb & Hpar).
        assert (HS1 : same_out o s s1).
        { eapply so_nest; [exact Hcb|exact Hpar|]. rewrite <- Hob'.
          refine (wp_ok _ _ _ _ _ (IH e' ev' s He2 _ HB) _ _ Et). rewrite Hob'. exists cb, o, ob. done. }
        subst s'. destruct b; [|done]. eapply so_trans; [exact HS1|]. apply so_ev. intros e2. by sts.
    - unfold before. w1. wgetO ob' Ho'. assert (ob' = ob) as -> by congruence.
      destruct (ob_kind ob) eqn:Hk; try (apply pwp_intro; done).
      destruct (ev_type ev) eqn:Hty.
      2:{ eapply wp_mono; [by apply sw_before_selected|]. auto. }
      all: unfold sw_before; w1; apply pwp_intro; intros ???; by rewrite Hty. }
  intros b s1 [HS1 Hsel]. cbv beta. w1; [by w1|]. apply negb_false_iff in H0 as ->.
  w1. w1. w1. w1. fold (commit e START s1). w1.
  assert (HSc : same_out o s (commit e START s1)) by (eapply so_trans; [exact HS1|by apply so_commit]).
  eapply (wp_mono _ _ _ (fun a s' => a = true /\ same_out o s s')); [|intros a s2 [-> HS2]; by w1].
  assert (Hev : evState (commit e START s1) e = target START) by (sts; by rewrite decide_True).
  assert (Hsel' : ob_kind ob = KSwitch -> is_Some (o_selected (ostOf (commit e START s1) o))) by auto.
  clear Hsel. set (s2 := commit e START s1) in *. clearbody s2.
  unfold after. w1. wgetO ob' Ho'. assert (ob' = ob) as -> by congruence.
  assert (Hve : valid_evt D e) by (by eexists).
  assert (Hmed : pwp (media_after D o e ev START) (fun a s' => a = true /\ same_out o s s') s2).
  { unfold media_after. w1. w1. cbv zeta. destruct (ev_type ev); try (by w1).
    - w1. eapply wp_mono; [by apply attribStart_ev|]. intros [] s3 E. cbv beta in E |- *. w1. split; [done|].
      eapply so_trans; [exact HSc|by apply so_ev].
    - w1; [|w1; [destruct (o_player _); by w1|by w1]]. w1. w1. w1. eapply wp_mono; [apply doStart_ev|].
      intros [] s3 E. cbv beta in E |- *. w1. wgetO ob2 Ho2. w1.
      eapply (wp_mono _ _ _ (fun _ s' => evsame s3 s')).
      { apply (wp_foreach_inv True True _ _ (fun s' => evsame s3 s')); [done| |done].
        intros x s' _ HE. w1. wgetE pe Hpe. unfold addDelayed.
        w1; [w1; w1; w1; by apply evsame_sched, evsame_sched|by w1]. }
      intros [] s4 E2. cbv beta in E2 |- *. w1. split; [done|]. eapply so_trans; [exact HSc|]. apply so_ev.
      intros e2. by rewrite E2, E. }
  destruct (ob_kind ob) eqn:Hk; [| |exact Hmed|exact Hmed].
  - unfold ctx_after. destruct (ev_type ev); try done.
    + w1. eapply wp_mono; [by apply attribStart_ev|]. intros [] s3 E. cbv beta in E |- *. w1. split; [done|].
      eapply so_trans; [exact HSc|by apply so_ev].
    + w1. w1. w1. eapply wp_mono; [apply doStart_ev|]. intros [] s3 E. cbv beta in E |- *. w1.
      eapply wp_mono; [by apply startParent_inSwitch|]. intros [] s4 ->. cbv beta.
      w1. unfold getParam. w1. w1. eapply (wp_mono _ _ _ (fun _ s' => evsame s3 s')).
      { w1; [|by w1]. w1. wgetO ob2 Ho2. w1. eapply wp_mono; [apply addPorts_ev|].
        intros [] s4 HE. cbv beta in HE |- *. unfold setParam. w1. intros e2. sts. apply HE. }
      intros [] s4 HE. cbv beta. w1. split; [done|]. eapply so_trans; [exact HSc|]. apply so_ev.
      intros e2. by rewrite HE, E.
  - unfold sw_after. destruct (ev_type ev) eqn:Hty; try done.
    w1. apply wp_doStart; [done|done|]. intros s3 E1 _ _ _ _ _ E2. w1. w1.
    destruct (Hsel' eq_refl) as [c Hc]. rewrite E2. cbn [os_set_time os_set_awake o_selected]. rewrite Hc.
    w1. split; [done|]. eapply so_trans; [exact HSc|]. apply so_ev. intros e2. by apply evState_sev.
Qed.
End Inter.

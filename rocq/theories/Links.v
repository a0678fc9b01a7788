(** Links.v -- action evaluation produces a cascade that obeys LinkSpec.v. *)
From Verif Require Export LinkSpec PredFacts Inv.
Open Scope string_scope.
Open Scope list_scope.

Notation onlyQ := sameButQueues.
Lemma oq_prop s s' (H : onlyQ s s') o k : propOf s' o k = propOf s o k.
Proof. pose proof (sq_ob _ _ H o) as E. unfold propOf. by injection E as _ -> _ _ _ _. Qed.
Lemma oq_on s s' (H : onlyQ s s') o : o_links_on (ostOf s' o) = o_links_on (ostOf s o).
Proof. pose proof (sq_ob _ _ H o) as E. by injection E as _ _ _ -> _ _. Qed.
Lemma oq_time s s' (H : onlyQ s s') o : o_time (ostOf s' o) = o_time (ostOf s o).
Proof. pose proof (sq_ob _ _ H o) as E. by injection E as -> _ _ _ _ _. Qed.
Lemma onlyQ_refl s : onlyQ s s.
Proof. constructor; try done. exists []. split; [done|]. by intros ? ?%elem_of_nil. Qed.
Lemma onlyQ_trans s1 s2 s3 : onlyQ s1 s2 -> onlyQ s2 s3 -> onlyQ s1 s3.
Proof.
  intros [A1 A2 A3 A4 A5 A6 (h1 & E1 & K1)] [B1 B2 B3 B4 B5 B6 (h2 & E2 & K2)]. constructor; intros; try congruence.
  exists (h2 ++ h1). split; [by rewrite E2, E1, app_assoc|]. intros x [H|H]%elem_of_app; auto.
Qed.

Section Links.
Context (D : doc) (rank : oid -> nat) (WF : wf_at D rank).

Lemma onlyQ_ref s s' x : onlyQ s s' -> evalPropertyRef D s' x = evalPropertyRef D s x.
Proof.
  intros H. unfold evalPropertyRef. repeat case_match; try done. by rewrite (oq_prop _ _ H).
Qed.
Lemma holds_ext rf rf' p : (forall x, rf x = rf' x) -> holds rf p <-> holds rf' p.
Proof.
  intros E. induction p as [| |l t r|cs IH|cs IH|cs IH] using pred_ind'; cbn [holds]; try done.
  - unfold valueOf. by rewrite !E.
  - apply not_iff_compat. induction IH as [|c cs Hc Hcs IHc]; [done|]. by rewrite Hc, IHc.
  - induction IH as [|c cs Hc Hcs IHc]; [done|]. by rewrite Hc, IHc.
  - induction IH as [|c cs Hc Hcs IHc]; [done|]. by rewrite Hc, IHc.
Qed.
Lemma onlyQ_delay s s' x : onlyQ s s' -> delayOf D s' x = delayOf D s x.
Proof. intros H. unfold delayOf, valueOf. by rewrite (onlyQ_ref s s'). Qed.
Lemma onlyQ_imm s s' x : onlyQ s s' -> immediate D s' x = immediate D s x.
Proof. intros H. unfold immediate. by rewrite (onlyQ_delay s s'). Qed.
Lemma onlyQ_holds s s' p : onlyQ s s' -> holdsOpt D s' p <-> holdsOpt D s p.
Proof. intros H. destruct p; [|done]. apply holds_ext. intros x. by apply onlyQ_ref. Qed.
Lemma onlyQ_evState s s' e : onlyQ s s' -> evState s' e = evState s e.
Proof. intros H. unfold evState, estOf. by rewrite (sq_ev _ _ H). Qed.
Lemma onlyQ_sched c e t v d s : onlyQ s (sched c e t v d s).
Proof.
  unfold sched. constructor; try done.
  - intros o. sts. by destruct (decide (c = o)) as [->|].
  - eexists [_]. split; [reflexivity|]. intros x ->%elem_of_list_singleton. eauto.
Qed.

(** Queueing several delayed actions, in reference state [s0]. *)
Definition qadd (s0 : st) (l : list (oid * action)) (s s' : st) : Prop :=
  onlyQ s s' /\ forall c, o_delayed (ostOf s' c) =
    o_delayed (ostOf s c) ++ map (entry D s0 c) (map snd (List.filter (fun cx => bool_decide (fst cx = c)) l)).
Lemma qadd_nil s0 s : qadd s0 [] s s.
Proof. split; [apply onlyQ_refl|]. intros c. cbn. by rewrite app_nil_r. Qed.
Lemma qadd_app s0 l1 l2 s1 s2 s3 : qadd s0 l1 s1 s2 -> qadd s0 l2 s2 s3 -> qadd s0 (l1 ++ l2) s1 s3.
Proof.
  intros [H1 E1] [H2 E2]. split; [by eapply onlyQ_trans|]. intros c.
  rewrite E2, E1, List.filter_app, !map_app, app_assoc. done.
Qed.
Lemma qadd_sched s0 s c x d : onlyQ s0 s -> delayOf D s0 x = Some d ->
  qadd s0 [(c, x)] s (sched c (ac_evt x) (ac_tr x) (ac_value x) d s).
Proof.
  intros H Hd. split; [apply onlyQ_sched|]. intros c'. cbn. destruct (decide (c = c')) as [->|Hne].
  - rewrite bool_decide_true by done. unfold sched. sts. rewrite decide_True by done. cbn.
    unfold entry. rewrite Hd. by rewrite (oq_time _ _ H).
  - rewrite bool_decide_false by done. unfold sched. sts. rewrite decide_False by done. cbn. by rewrite app_nil_r.
Qed.

Definition fimm (s0 : st) (f : firing) : list action := List.filter (immediate D s0) (f_acts f).
Definition fdel (s0 : st) (f : firing) : list (oid * action) :=
  map (pair (f_ctx f)) (List.filter (fun x => negb (immediate D s0 x)) (f_acts f)).
(** What firing the list [fo] (in that order) pushes and queues. *)
Definition pushes (s0 : st) (fo : list firing) : list action := concat (map (fun f => rev (fimm s0 f)) fo).
Definition queues (s0 : st) (fo : list firing) : list (oid * action) := concat (map (fun f => rev (fdel s0 f)) fo).
Lemma pushes_app s0 l1 l2 : pushes s0 (l1 ++ l2) = pushes s0 l1 ++ pushes s0 l2.
Proof. unfold pushes. by rewrite map_app, concat_app. Qed.
Lemma queues_app s0 l1 l2 : queues s0 (l1 ++ l2) = queues s0 l1 ++ queues s0 l2.
Proof. unfold queues. by rewrite map_app, concat_app. Qed.

Lemma filter_rev {A} (f : A -> bool) l : List.filter f (rev l) = rev (List.filter f l).
Proof.
  induction l as [|x l IH]; [done|]. cbn [rev]. rewrite List.filter_app, IH. cbn [List.filter].
  destruct (f x); cbn; [done|]. by rewrite app_nil_r.
Qed.

Lemma fire_acts_ok s0 ctx l s r s' : onlyQ s0 s -> fire_acts D ctx l s = Ok r s' ->
  r = List.filter (immediate D s0) l /\
  qadd s0 (map (pair ctx) (List.filter (fun x => negb (immediate D s0 x)) l)) s s'.
Proof.
  revert s r s'. induction l as [|x l IH]; intros s r s' Hq; cbn [fire_acts].
  - intros [= <- <-]. split; [done|]. apply qadd_nil.
  - unfold bind, get. unfold parse_time.
    assert (Hd : delayOf D s x = delayOf D s0 x) by (by apply onlyQ_delay).
    assert (Hv : valueOf (evalPropertyRef D s) (ac_delay x) = default (ac_delay x) (evalPropertyRef D s (ac_delay x))).
    { unfold valueOf. by destruct (evalPropertyRef D s (ac_delay x)). }
    rewrite <- Hv. cbn [List.filter].
    assert (Him : immediate D s0 x = match delayOf D s x with Some d => ((d =? 0) || (d =? TIME_NONE))%N | None => false end)
      by (by rewrite Hd).
    unfold delayOf in Him at 1. rewrite Him.
    destruct (try_parse_time (valueOf (evalPropertyRef D s) (ac_delay x))) as [d| | |] eqn:E; try done.
    unfold ret at 1. cbv beta iota. cbn [negb map].
    destruct ((d =? 0) || (d =? TIME_NONE))%N eqn:Ei.
    + cbn [negb]. destruct (fire_acts D ctx l s) as [r1 s1| |] eqn:E1; try done. intros [= <- <-].
      destruct (IH _ _ _ Hq E1) as [-> H2]. done.
    + cbn [negb map]. unfold addDelayed, modify.
      destruct (fire_acts D ctx l _) as [r1 s1| |] eqn:E1; try done. intros [= <- <-].
      apply IH in E1 as [-> H2]; [|eapply onlyQ_trans; [exact Hq|apply onlyQ_sched]]. split; [done|].
      apply (qadd_app s0 [(ctx, x)] _ s _ s1 (qadd_sched s0 s ctx x d Hq ltac:(rewrite <- Hd; unfold delayOf; by rewrite E)) H2).
Qed.

(** Firings of a given link list. *)
Definition fires (s0 : st) (ctx : oid) (a : action) (links : list (list action * list action)) (f : firing) : Prop :=
  f_ctx f = ctx /\ (f_conds f, f_acts f) ∈ links /\ f_cond f ∈ f_conds f /\
  ac_evt (f_cond f) = ac_evt a /\ ac_tr (f_cond f) = ac_tr a /\ holdsOpt D s0 (ac_pred (f_cond f)).

Lemma fire_conds_ok s0 ctx a conds0 conds acts s r s' :
  onlyQ s0 s -> fire_conds D ctx (ac_evt a) (ac_tr a) conds acts s = Ok r s' ->
  exists fo, (forall f, f ∈ fo <-> f_ctx f = ctx /\ f_conds f = conds0 /\ f_acts f = acts /\ f_cond f ∈ conds /\
     ac_evt (f_cond f) = ac_evt a /\ ac_tr (f_cond f) = ac_tr a /\ holdsOpt D s0 (ac_pred (f_cond f))) /\
    r = pushes s0 fo /\ qadd s0 (queues s0 fo) s s'.
Proof.
  revert s r s'. induction conds as [|c conds IH]; intros s r s' Hq; cbn [fire_conds].
  - intros [= <- <-]. exists []. split; [|split; [done|apply qadd_nil]]. intros f. split; [by intros ?%elem_of_nil|].
    intros (_ & _ & _ & H & _). by apply elem_of_nil in H.
  - destruct (bool_decide_reflect (ac_evt c = ac_evt a)) as [He|He]; cbn [andb].
    2:{ intros (fo & H1 & H2 & H3)%IH; [|done]. exists fo. split; [|done]. intros f. rewrite H1, elem_of_cons.
        split; [tauto|]. intros (? & ? & ? & [->|?] & ? & ?); [done|tauto]. }
    destruct (bool_decide_reflect (ac_tr c = ac_tr a)) as [Ht|Ht].
    2:{ intros (fo & H1 & H2 & H3)%IH; [|done]. exists fo. split; [|done]. intros f. rewrite H1, elem_of_cons.
        split; [tauto|]. intros (? & ? & ? & [->|?] & ? & ? & ?); [done|tauto]. }
    unfold bind at 1.
    destruct (match ac_pred c with None => ret true | Some p => evalPredicate D p end s) as [b s1| |] eqn:Eb; try done.
    assert (s1 = s /\ (b = true <-> holdsOpt D s0 (ac_pred c))) as [-> Hb].
    { destruct (ac_pred c) as [p|] eqn:Ep.
      - apply evalPredicate_ok in Eb as [-> Hb]. split; [done|]. rewrite Hb. apply holds_ext.
        intros x. by apply onlyQ_ref.
      - injection Eb as <- <-. done. }
    destruct b.
    + unfold bind. destruct (fire_acts D ctx (rev acts) s) as [r1 s1| |] eqn:E1; try done.
      destruct (fire_conds D ctx (ac_evt a) (ac_tr a) conds acts s1) as [r2 s2| |] eqn:E2; try done.
      intros [= <- <-]. apply (fire_acts_ok s0) in E1 as [-> H1]; [|done].
      apply IH in E2 as (fo & H2 & -> & H3); [|eapply onlyQ_trans; [exact Hq|apply H1]].
      set (f0 := mkFiring ctx conds0 acts c). exists (f0 :: fo). split; [|split].
      * intros f. rewrite elem_of_cons, H2, elem_of_cons. split.
        { intros [->|H]; [|tauto]. unfold f0. cbn. repeat (split; [by auto|]). by apply Hb. }
        { intros (F1 & F2 & F3 & [F4|F4] & F5); [left|right; tauto]. destruct f; cbn in *. by subst. }
      * unfold pushes. cbn. unfold fimm. cbn. by rewrite filter_rev.
      * unfold queues. cbn [map concat]. eapply qadd_app; [|exact H3]. unfold fdel. cbn [f_ctx f_acts f0].
        rewrite <- map_rev, <- filter_rev. exact H1.
    + intros (fo & H1 & H2 & H3)%IH; [|done]. exists fo. split; [|done]. intros f. rewrite H1, elem_of_cons.
      split; [tauto|]. intros (? & ? & ? & [Hc|?] & ? & ? & Hp); [|tauto]. rewrite Hc in Hp. by apply Hb in Hp.
Qed.
Lemma fire_links_ok s0 ctx a links s r s' :
  onlyQ s0 s -> fire_links D ctx (ac_evt a) (ac_tr a) links s = Ok r s' ->
  exists fo, (forall f, f ∈ fo <-> fires s0 ctx a links f) /\ r = pushes s0 fo /\ qadd s0 (queues s0 fo) s s'.
Proof.
  revert s r s'. induction links as [|[conds acts] links IH]; intros s r s' Hq; cbn [fire_links].
  - intros [= <- <-]. exists []. split; [|split; [done|apply qadd_nil]]. intros f. split; [by intros ?%elem_of_nil|].
    intros (_ & H & _). by apply elem_of_nil in H.
  - unfold bind. destruct (fire_conds D ctx (ac_evt a) (ac_tr a) conds acts s) as [r1 s1| |] eqn:E1; try done.
    destruct (fire_links D ctx (ac_evt a) (ac_tr a) links s1) as [r2 s2| |] eqn:E2; try done.
    intros [= <- <-]. apply (fire_conds_ok s0 ctx a conds) in E1 as (fo1 & H1 & -> & H1'); [|done].
    apply IH in E2 as (fo2 & H2 & -> & H2'); [|eapply onlyQ_trans; [exact Hq|apply H1']].
    exists (fo1 ++ fo2). split; [|split; [by rewrite pushes_app|rewrite queues_app; by eapply qadd_app]].
    intros f. rewrite elem_of_app, H1, H2. unfold fires. rewrite elem_of_cons. split.
    + intros [(F1 & F2 & F3 & F4 & F5)|H]; [|tauto]. rewrite F2, F3. tauto.
    + intros (F1 & [[= F2 F3]|F2] & F4); [left|right; tauto]. rewrite <- F2. tauto.
Qed.

(** Firings in a context, if its links are enabled. *)
Definition cfires (s0 : st) (a : action) (ctx : oid) (f : firing) : Prop :=
  exists cb, d_obj D !! ctx = Some cb /\ o_links_on (ostOf s0 ctx) = true /\ fires s0 ctx a (ob_links cb) f.
Definition result (s0 : st) (P : firing -> Prop) (s : st) (r : list action) (s' : st) : Prop :=
  exists fo, (forall f, f ∈ fo <-> P f) /\ r = pushes s0 fo /\ qadd s0 (queues s0 fo) s s'.
Lemma result_nil s0 (P : firing -> Prop) s : (forall f, ~ P f) -> result s0 P s [] s.
Proof. intros H. exists []. split; [|split; [done|apply qadd_nil]]. intros f. rewrite elem_of_nil. split; [done|]. apply H. Qed.
Lemma result_app s0 (P Q R : firing -> Prop) s s1 s2 r1 r2 : (forall f, R f <-> P f \/ Q f) ->
  result s0 P s r1 s1 -> result s0 Q s1 r2 s2 -> result s0 R s (r1 ++ r2) s2.
Proof.
  intros HR (f1 & H1 & -> & H1') (f2 & H2 & -> & H2'). exists (f1 ++ f2).
  split; [intros f; by rewrite elem_of_app, H1, H2, HR|]. rewrite pushes_app, queues_app. split; [done|]. by eapply qadd_app.
Qed.
Lemma result_iff s0 (P Q : firing -> Prop) s r s' : (forall f, P f <-> Q f) -> result s0 P s r s' -> result s0 Q s r s'.
Proof. intros H (fo & H1 & H2). exists fo. split; [|done]. intros f. by rewrite H1. Qed.
Lemma result_onlyQ s0 P s r s' : onlyQ s0 s -> result s0 P s r s' -> onlyQ s0 s'.
Proof. intros H (fo & _ & _ & H2 & _). by eapply onlyQ_trans. Qed.

Lemma inCtx_ok s0 a ctx s r s' : onlyQ s0 s -> evalActionInContext D a ctx s = Ok r s' ->
  result s0 (cfires s0 a ctx) s r s'.
Proof.
  intros Hq. unfold evalActionInContext, bind, getO, ofoption. destruct (d_obj D !! ctx) as [cb|] eqn:Ec; [|done].
  unfold ret at 1, gets. rewrite (oq_on _ _ Hq). destruct (o_links_on (ostOf s0 ctx)) eqn:Eon.
  - intros (fo & H1 & H2 & H3)%(fire_links_ok s0); [|done]. exists fo. split; [|done].
    intros f. rewrite H1. unfold cfires. rewrite Ec, Eon. split; [eauto|]. intros (cb' & [= <-] & _ & H). done.
  - intros [= <- <-]. apply result_nil. intros f (cb' & _ & H & _). congruence.
Qed.
Lemma fire_ports_ok s0 a o gp ports s r s' : onlyQ s0 s -> fire_ports D a o gp ports s = Ok r s' ->
  result s0 (fun f => cfires s0 a gp f /\ exists p pe, p ∈ ports /\ d_evt D !! p = Some pe /\ ev_obj pe = o) s r s'.
Proof.
  revert s r s'. induction ports as [|p ports IH]; intros s r s' Hq; cbn [fire_ports].
  - intros [= <- <-]. apply result_nil. intros f (_ & p & pe & H & _). by apply elem_of_nil in H.
  - unfold bind at 1. unfold getE, ofoption. destruct (d_evt D !! p) as [pe|] eqn:Ep; [|done]. unfold ret at 1.
    destruct (bool_decide_reflect (ev_obj pe = o)) as [Ho|Ho].
    + unfold bind. destruct (evalActionInContext D a gp s) as [r1 s1| |] eqn:E1; try done.
      destruct (fire_ports D a o gp ports s1) as [r2 s2| |] eqn:E2; try done. intros [= <- <-].
      apply (inCtx_ok s0) in E1; [|done]. apply IH in E2; [|by eapply result_onlyQ].
      eapply result_app; [|exact E1|exact E2]. intros f. split.
      * intros (H1 & H2). by left.
      * intros [H1|(H1 & p' & pe' & H2 & H3)]; (split; [done|]); [exists p, pe|exists p', pe']; rewrite elem_of_cons; auto.
    + intros H%IH; [|done]. eapply result_iff; [|exact H]. intros f. split; intros (H1 & p' & pe' & H2 & H3 & H4).
      * split; [done|]. exists p', pe'. rewrite elem_of_cons. auto.
      * split; [done|]. exists p', pe'. rewrite elem_of_cons in H2. destruct H2 as [->|H2]; [congruence|auto].
Qed.
Lemma fire_aliases_ok s0 a als s r s' : onlyQ s0 s -> fire_aliases D a als s = Ok r s' ->
  result s0 (fun f => exists i c cb, (i, Some c) ∈ als /\ d_obj D !! c = Some cb /\ ob_kind cb = KContext /\ cfires s0 a c f) s r s'.
Proof.
  revert s r s'. induction als as [|[i [c|]] als IH]; intros s r s' Hq; cbn [fire_aliases].
  - intros [= <- <-]. apply result_nil. intros f (i & c & cb & H & _). by apply elem_of_nil in H.
  - unfold bind at 1. unfold isContext, bind at 1. unfold getO, ofoption. destruct (d_obj D !! c) as [cb|] eqn:Ec; [|done].
    unfold ret at 1 2. destruct (bool_decide_reflect (ob_kind cb = KContext)) as [Hk|Hk].
    + unfold bind. destruct (evalActionInContext D a c s) as [r1 s1| |] eqn:E1; try done.
      destruct (fire_aliases D a als s1) as [r2 s2| |] eqn:E2; try done. intros [= <- <-].
      apply (inCtx_ok s0) in E1; [|done]. apply IH in E2; [|by eapply result_onlyQ].
      eapply result_app; [|exact E1|exact E2]. intros f. split.
      * intros (i' & c' & cb' & H1 & H2 & H3 & H4). rewrite elem_of_cons in H1. destruct H1 as [[= -> ->]|H1]; [by left|].
        right. exists i', c', cb'. auto.
      * intros [H1|(i' & c' & cb' & H1 & H2 & H3 & H4)]; [exists i, c, cb|exists i', c', cb']; rewrite elem_of_cons; auto.
    + intros H%IH; [|done]. eapply result_iff; [|exact H]. intros f. split; intros (i' & c' & cb' & H1 & H2 & H3 & H4);
        exists i', c', cb'; rewrite elem_of_cons in *; [auto|].
      destruct H1 as [[= -> ->]|H1]; [congruence|auto].
  - intros H%IH; [|done]. eapply result_iff; [|exact H]. intros f. split; intros (i' & c' & cb' & H1 & H2);
      exists i', c', cb'; rewrite elem_of_cons in *; [auto|]. destruct H1 as [[=]|H1]; auto.
Qed.
Lemma fire_self_ok s0 a o ob s r s' : onlyQ s0 s -> d_obj D !! o = Some ob -> fire_self D a o ob s = Ok r s' ->
  result s0 (fun f => (ob_kind ob = KContext /\ cfires s0 a o f) \/ (ob_kind ob <> KContext /\
     exists i c cb, (i, Some c) ∈ ob_aliases ob /\ d_obj D !! c = Some cb /\ ob_kind cb = KContext /\ cfires s0 a c f)) s r s'.
Proof.
  intros Hq Ho. unfold fire_self. destruct (ob_kind ob) eqn:Ek.
  - intros H%(inCtx_ok s0); [|done]. eapply result_iff; [|exact H]. intros f. split; [by left|]. intros [[_ H']|[H' _]]; done.
  - intros H%(fire_aliases_ok s0); [|done]. eapply result_iff; [|exact H]. intros f. split; [by right|]. intros [[H' _]|[_ H']]; done.
  - intros H%(fire_aliases_ok s0); [|done]. eapply result_iff; [|exact H]. intros f. split; [by right|]. intros [[H' _]|[_ H']]; done.
  - intros H%(fire_aliases_ok s0); [|done]. eapply result_iff; [|exact H]. intros f. split; [by right|]. intros [[H' _]|[_ H']]; done.
Qed.

(** The parent, when it is not a switch. *)
Lemma occ_ok o ob s b s' : d_obj D !! o = Some ob -> isOccurring D o s = Ok b s' ->
  s' = s /\ b = bool_decide (evState s (ob_lambda ob) = OCCURRING).
Proof. intros Ho. unfold isOccurring, objState, getO, ofoption, bind, gets, ret. rewrite Ho. by intros [= <- <-]. Qed.

Definition pfires (s0 : st) (a : action) (o : oid) (ob : obj) (f : firing) : Prop :=
  exists p pb, ob_parent ob = Some p /\ d_obj D !! p = Some pb /\ ob_kind pb = KContext /\
    evState s0 (ob_lambda pb) = OCCURRING /\
    (cfires s0 a p f \/ exists g gb, ob_parent pb = Some g /\ d_obj D !! g = Some gb /\ ob_kind gb = KContext /\
       evState s0 (ob_lambda gb) = OCCURRING /\ cfires s0 a g f /\
       exists q qe, q ∈ ob_ports pb /\ d_evt D !! q = Some qe /\ ev_obj qe = o).
Definition switchParent (ob : obj) : Prop := exists p pb, ob_parent ob = Some p /\ d_obj D !! p = Some pb /\ ob_kind pb = KSwitch.
Lemma fire_parent_ok evalA a o ob s0 r s' : ~ switchParent ob -> fire_parent D evalA a o ob s0 = Ok r s' ->
  result s0 (pfires s0 a o ob) s0 r s'.
Proof.
  intros Hns. unfold fire_parent. destruct (ob_parent ob) as [p|] eqn:Ep.
  2:{ intros [= <- <-]. apply result_nil. intros f (p & pb & H & _). congruence. }
  unfold bind at 1. unfold getO at 1, ofoption. destruct (d_obj D !! p) as [pb|] eqn:Epb; [|done]. unfold ret at 1.
  destruct (ob_kind pb) eqn:Ek.
  - unfold bind at 1. destruct (isOccurring D p s0) as [b s1| |] eqn:Eo; try done.
    apply (occ_ok _ _ _ _ _ Epb) in Eo as [-> ->].
    destruct (bool_decide_reflect (evState s0 (ob_lambda pb) = OCCURRING)) as [Hoc|Hoc].
    2:{ intros [= <- <-]. apply result_nil. intros f (p' & pb' & H1 & H2 & H3 & H4 & _). congruence. }
    unfold bind at 1. destruct (evalActionInContext D a p s0) as [r1 s1| |] eqn:E1; try done.
    apply (inCtx_ok s0) in E1; [|apply onlyQ_refl].
    assert (Hq1 : onlyQ s0 s1) by (eapply result_onlyQ; [apply onlyQ_refl|exact E1]).
    destruct (ob_parent pb) as [g|] eqn:Eg.
    2:{ unfold bind, ret. intros [= <- <-]. eapply result_app; [|exact E1|apply result_nil with (P := fun _ => False); tauto].
        intros f. split.
        - intros (p' & pb' & H1 & H2 & H3 & H4 & [H5|(g & gb & H5 & _)]); [left|congruence].
          assert (p' = p) as -> by congruence. done.
        - intros [H|[]]. exists p, pb. repeat (split; [done|]). by left. }
    unfold bind at 1. unfold bind at 1. unfold getO, ofoption. destruct (d_obj D !! g) as [gb|] eqn:Egb; [|done]. unfold ret at 1.
    unfold bind at 1. destruct (isOccurring D g s1) as [b s2| |] eqn:Eo; try done.
    apply (occ_ok _ _ _ _ _ Egb) in Eo as [-> ->]. rewrite (onlyQ_evState _ _ _ Hq1).
    destruct (bool_decide_reflect (ob_kind gb = KContext)) as [Hgk|Hgk]; cbn [andb];
      [destruct (bool_decide_reflect (evState s0 (ob_lambda gb) = OCCURRING)) as [Hgo|Hgo]|].
    + destruct (fire_ports D a o g (ob_ports pb) s1) as [r2 s2| |] eqn:E2; try done. unfold ret. intros [= <- <-].
      apply (fire_ports_ok s0) in E2; [|done]. eapply result_app; [|exact E1|exact E2].
      intros f. split.
      * intros (p' & pb' & H1 & H2 & H3 & H4 & [H5|(g' & gb' & H5 & H6 & H7 & H8 & H9 & H10)]).
        { left. assert (p' = p) as -> by congruence. done. }
        right. assert (p' = p) as -> by congruence. assert (pb' = pb) as -> by congruence. assert (g' = g) as -> by congruence. done.
      * intros [H|[H1 H2]]; exists p, pb; (repeat (split; [done|])); [by left|right]. exists g, gb. auto 10.
    + unfold ret. intros [= <- <-]. eapply result_app; [|exact E1|apply result_nil with (P := fun _ => False); tauto].
      intros f. split.
      * intros (p' & pb' & H1 & H2 & H3 & H4 & [H5|(g' & gb' & H5 & H6 & H7 & H8 & _)]).
        { left. assert (p' = p) as -> by congruence. done. }
        exfalso. apply Hgo. assert (p' = p) as -> by congruence. assert (pb' = pb) as -> by congruence.
        assert (g' = g) as -> by congruence. congruence.
      * intros [H|[]]. exists p, pb. repeat (split; [done|]). by left.
    + unfold ret. intros [= <- <-]. eapply result_app; [|exact E1|apply result_nil with (P := fun _ => False); tauto].
      intros f. split.
      * intros (p' & pb' & H1 & H2 & H3 & H4 & [H5|(g' & gb' & H5 & H6 & H7 & H8 & _)]).
        { left. assert (p' = p) as -> by congruence. done. }
        exfalso. apply Hgk. assert (p' = p) as -> by congruence. assert (pb' = pb) as -> by congruence.
        assert (g' = g) as -> by congruence. congruence.
      * intros [H|[]]. exists p, pb. repeat (split; [done|]). by left.
  - exfalso. apply Hns. exists p, pb. auto.
  - intros [= <- <-]. apply result_nil. intros f (p' & pb' & H1 & H2 & H3 & _). congruence.
  - intros [= <- <-]. apply result_nil. intros f (p' & pb' & H1 & H2 & H3 & _). congruence.
Qed.
Lemma switchParent_dec ob : {switchParent ob} + {~ switchParent ob}.
Proof.
  destruct (ob_parent ob) as [p|] eqn:Ep; [|right; intros (? & ? & ? & _); congruence].
  destruct (d_obj D !! p) as [pb|] eqn:Epb; [|right; intros (? & ? & ? & ? & _); congruence].
  destruct (decide (ob_kind pb = KSwitch)); [left; exists p, pb; auto|right; intros (? & ? & ? & ? & ?); congruence].
Qed.

(** All firings of a successful action. *)
Lemma satisfied_iff s0 a ev ob f : d_evt D !! ac_evt a = Some ev -> d_obj D !! ev_obj ev = Some ob ->
  satisfied D s0 a f <-> pfires s0 a (ev_obj ev) ob f \/
    (ob_kind ob = KContext /\ cfires s0 a (ev_obj ev) f) \/ (ob_kind ob <> KContext /\
     exists i c cb, (i, Some c) ∈ ob_aliases ob /\ d_obj D !! c = Some cb /\ ob_kind cb = KContext /\ cfires s0 a c f).
Proof.
  intros He Ho. split.
  - intros (Hl & Hon & (cb & Hcb & Hin) & Hc & H1 & H2 & H3).
    assert (Hcf : cfires s0 a (f_ctx f) f) by (exists cb; unfold fires; auto 10).
    remember (f_ctx f) as c eqn:Ec. clear Ec. destruct Hl.
    + left. simplify_eq. exists p, pb. auto 10.
    + left. simplify_eq. exists p, pb. repeat (split; [done|]). right. exists g, gb. repeat (split; [done|]). eauto.
    + right. left. simplify_eq. auto.
    + right. right. simplify_eq. eauto 10.
  - assert (Hcs : forall c, listens D s0 a c -> cfires s0 a c f -> satisfied D s0 a f).
    { intros c Hl (cb & Hcb & Hon & <- & H2 & H3 & H4 & H5 & H6). unfold satisfied. eauto 10. }
    intros [(p & pb & H1 & H2 & H3 & H4 & [H5|(g & gb & H5 & H6 & H7 & H8 & H9 & q & qe & H10 & H11 & H12)])|[[H1 H2]|(H1 & i & c & cb & H2 & H3 & H4 & H5)]].
    + apply (Hcs p); [|done]. by eapply ls_parent.
    + apply (Hcs g); [|done]. by eapply ls_grand.
    + apply (Hcs (ev_obj ev)); [|done]. by eapply ls_self.
    + apply (Hcs c); [|done]. by eapply ls_alias.
Qed.

(** Turning the bookkeeping into the properties of LinkSpec.v. *)
Lemma pushes_rev s0 fo : rev (pushes s0 fo) = concat (map (fun f => List.filter (immediate D s0) (f_acts f)) (rev fo)).
Proof.
  unfold pushes. induction fo as [|f fo IH]; [done|]. cbn [map concat rev]. rewrite rev_app_distr, IH, map_app, concat_app.
  cbn. by rewrite rev_involutive, app_nil_r.
Qed.
Lemma queues_rev s0 fo c : map (entry D s0 c) (map snd (List.filter (fun cx => bool_decide (fst cx = c)) (queues s0 fo))) =
  rev (map (entry D s0 c) (concat (map (fun f => List.filter (fun x => negb (immediate D s0 x)) (f_acts f))
               (List.filter (fun f => bool_decide (f_ctx f = c)) (rev fo))))).
Proof.
  rewrite <- map_rev. f_equal. unfold queues. induction fo as [|f fo IH]; [done|]. cbn [map concat rev].
  rewrite !List.filter_app, !map_app, IH, concat_app, rev_app_distr. f_equal. cbn.
  unfold fdel. rewrite <- map_rev. destruct (bool_decide_reflect (f_ctx f = c)) as [<-|Hne]; cbn.
  - rewrite app_nil_r. set (l := rev _). clearbody l. induction l as [|x l IHl]; [done|]. cbn.
    rewrite bool_decide_true by done. cbn. by rewrite IHl.
  - set (l := rev _). clearbody l. induction l as [|x l IHl]; [done|]. cbn. by rewrite bool_decide_false.
Qed.
Lemma result_node s0 a P s3 r ok sa sb echoes subs :
  (forall f, P f <-> satisfied D s0 a f) -> result s0 P s0 r s3 -> map root subs = rev r -> ok = true ->
  (forall t, t ∈ echoes -> isEcho D a (root t)) ->
  sound D (Node a ok sa sb s0 s3 echoes subs) /\ complete D (Node a ok sa sb s0 s3 echoes subs) /\
  ordered D (Node a ok sa sb s0 s3 echoes subs).
Proof.
  intros HP (fo & Hfo & -> & [Hoq Hqu]) Hr -> Hech. rewrite pushes_rev in Hr.
  assert (Hq : forall c, o_delayed (ostOf s3 c) = o_delayed (ostOf s0 c) ++
    rev (map (entry D s0 c) (concat (map (fun f => List.filter (fun x => negb (immediate D s0 x)) (f_acts f))
               (List.filter (fun f => bool_decide (f_ctx f = c)) (rev fo)))))).
  { intros c. rewrite Hqu, queues_rev. done. }
  assert (HF : forall f, f ∈ rev fo <-> satisfied D s0 a f).
  { intros f. rewrite <- HP, <- Hfo. by rewrite elem_of_list_In, <- in_rev, <- elem_of_list_In. }
  split; [|split].
  - split; [done|]. split; [done|]. split.
    + intros t Ht. assert (Hin : root t ∈ map root subs) by (by apply elem_of_list_fmap_1).
      rewrite Hr in Hin. apply elem_of_list_In, in_concat in Hin as (l & Hl & Hx). apply in_map_iff in Hl as (f & <- & Hf).
      apply filter_In in Hx as [Hx1 Hx2]. exists f. split; [apply HF; by apply elem_of_list_In|].
      split; [by apply elem_of_list_In|done].
    + intros c ax. rewrite Hq, elem_of_app. intros [H|H]; [by left|right].
      rewrite elem_of_list_In, <- in_rev in H. apply in_map_iff in H as (x & <- & Hx).
      apply in_concat in Hx as (l & Hl & Hx). apply in_map_iff in Hl as (f & <- & Hf).
      apply filter_In in Hx as [Hx1 Hx2]. apply filter_In in Hf as [Hf1 Hf2]. apply bool_decide_eq_true in Hf2.
      exists f, x. split; [apply HF; by apply elem_of_list_In|]. split; [done|]. split; [by apply elem_of_list_In|].
      split; [by apply negb_true_iff|done].
  - intros _ f x Hs Hx. apply HF in Hs. destruct (immediate D s0 x) eqn:Ei.
    + assert (Hin : x ∈ map root subs).
      { rewrite Hr. apply elem_of_list_In, in_concat. eexists. split; [apply in_map_iff; exists f; split; [reflexivity|by apply elem_of_list_In]|].
        apply filter_In. split; [by apply elem_of_list_In|done]. }
      apply elem_of_list_fmap in Hin as (t & -> & Ht). eauto.
    + rewrite Hq, elem_of_app. right. rewrite elem_of_list_In, <- in_rev. apply in_map. apply in_concat.
      eexists. split; [apply in_map_iff; exists f; split; [reflexivity|]|].
      * apply filter_In. split; [by apply elem_of_list_In|]. by apply bool_decide_eq_true.
      * apply filter_In. split; [by apply elem_of_list_In|]. by rewrite Ei.
  - exists (rev fo). split; [apply HF|]. split; [done|exact Hq].
Qed.

(** Every node of the forest obeys the three properties. *)
Definition lawful (t : tree) : Prop := forall n, within n t -> (sound D n /\ complete D n /\ ordered D n) /\ echoed D n.
Lemma lawful_node a ok s0 s1 s2 s3 echoes subs :
  let n := Node a ok s0 s1 s2 s3 echoes subs in
  (sound D n /\ complete D n /\ ordered D n) /\ echoed D n -> Forall lawful echoes -> Forall lawful subs -> lawful n.
Proof.
  intros n H He Hs m Hm. inversion Hm; subst; [done|]. match goal with H : _ ∨ _ |- _ => destruct H as [Hi|Hi] end.
  - rewrite stdpp.list.Forall_forall in He. apply (He _ Hi); assumption.
  - rewrite stdpp.list.Forall_forall in Hs. apply (Hs _ Hi); assumption.
Qed.
Lemma lawful_fail a s0 s1 : lawful (Node a false s0 s1 s1 s1 [] []).
Proof.
  apply lawful_node; [|constructor|constructor]. split; [|done]. split; [|split].
  - repeat split; try done; try (by intros ? ?%elem_of_nil). intros c ax H. by left.
  - done.
  - exists []. split; [by intros ? ?%elem_of_nil|]. split; [done|]. intros c. cbn. by rewrite app_nil_r.
Qed.
Lemma Cascade_app s t1 s1 t2 s2 : Cascade D s t1 s1 -> Cascade D s1 t2 s2 -> Cascade D s (t1 ++ t2) s2.
Proof.
  intros H1 H2. revert H2. induction H1; intros H2; cbn [app].
  - done.
  - eapply C_fail; [done|]. auto.
  - eapply C_ok; eauto.
Qed.

(** The echoes on switch ports. *)
Definition forested (m : action -> ME nat) : Prop := forall b s k s', m b s = Ok k s' ->
  exists ts, Cascade D s ts s' /\ map root ts = [b] /\ Forall lawful ts.
Lemma fire_swport_ok evalA a o p pb name mapped0 mapped s s' : forested evalA ->
  d_obj D !! p = Some pb ->
  (forall m, m ∈ mapped -> m ∈ mapped0) -> (name, mapped0) ∈ ob_swports pb -> 
  fire_swport D evalA a o p name mapped s = Ok tt s' ->
  exists ts, Cascade D s ts s' /\ Forall lawful ts /\ (forall t, t ∈ ts ->
    exists m me le, m ∈ mapped0 /\ d_evt D !! m = Some me /\ ev_obj me = o /\ ac_evt (root t) ∈ ob_events pb /\
      d_evt D !! ac_evt (root t) = Some le /\ ev_type le = PRESENTATION /\ ev_id le = name /\ ac_tr (root t) = ac_tr a) /\
    (ob_parent pb <> None -> Forall2 (fun nm t => portEcho D pb a nm (root t)) (map (fun _ => name) (List.filter (mappedTo D o) mapped)) ts).
Proof.
  intros HF Hp Hsub Hin. revert s. induction mapped as [|m mapped IH]; intros s; unfold fire_swport at 1; cbn [foreach].
  - intros [= <-]. exists []. split; [constructor|]. split; [constructor|]. split; [by intros ? ?%elem_of_nil|]. constructor.
  - change (foreach _ mapped) with (fire_swport D evalA a o p name mapped).
    specialize (IH (fun m Hm => Hsub m (elem_of_list_further _ _ _ Hm))). revert IH.
    generalize (fire_swport D evalA a o p name mapped). intros rest IH.
    unfold bind at 1. unfold bind at 1. unfold getE at 1, ofoption at 1. destruct (d_evt D !! m) as [me|] eqn:Em; [|done].
    unfold ret at 1. unfold bind at 1. unfold getO, ofoption at 1. rewrite Hp. unfold ret at 1.
    destruct (bool_decide_reflect (ev_obj me = o)) as [Ho|Ho]; cbn [andb];
      [destruct (bool_decide_reflect (ob_parent pb <> None)) as [Hpar|Hpar]|].
    2:{ intros H. unfold ret in H. destruct (IH _ H) as (ts & K1 & K2 & K3 & _). by exists ts. }
    2:{ intros H. unfold ret in H. destruct (IH _ H) as (ts & K1 & K2 & K3 & K4). exists ts. do 3 (split; [done|]).
        cbn [List.filter]. unfold mappedTo at 1. rewrite Em, bool_decide_false by done. exact K4. }
    unfold bind at 1.
    match goal with |- context [ ?f (ob_events pb) s ] => set (fnd := f) end.
    assert (Hfind : forall l s b s1, fnd l s = Ok b s1 -> s1 = s /\ b ∈ l /\ exists le, d_evt D !! b = Some le /\ ev_type le = PRESENTATION /\ ev_id le = name).
    { clear. induction l as [|x l IHl]; intros s b s1; cbn.
      - done.
      - unfold bind, getE, ofoption. destruct (d_evt D !! x) as [xe|] eqn:Ex; [|done]. unfold ret at 1.
        destruct (bool_decide_reflect (ev_type xe = PRESENTATION)) as [Ht|Ht]; cbn [andb];
          [destruct (String.eqb_spec (ev_id xe) name) as [Hn|Hn]|].
        + intros [= <- <-]. split; [done|]. split; [left|eauto].
        + intros (-> & ? & ?)%IHl. split; [done|]. split; [by right|done].
        + intros (-> & ? & ?)%IHl. split; [done|]. split; [by right|done]. }
    destruct (fnd (ob_events pb) s) as [le s1| |] eqn:Ef; try done.
    apply Hfind in Ef as (-> & Hle & lev & Hl1 & Hl2 & Hl3).
    unfold bind at 1. destruct (evalA _ s) as [k s1| |] eqn:Ea; try done. unfold ret at 1.
    destruct (HF _ _ _ _ Ea) as (ts & Hts & Hroot & Hlaw).
    intros H. destruct (IH s1 H) as (ts2 & Hts2 & Hlaw2 & Hall & Hex).
    exists (ts ++ ts2). split; [by eapply Cascade_app|]. split; [by apply Forall_app|].
    split.
    2:{ intros Hne. cbn [List.filter]. unfold mappedTo at 1. rewrite Em, bool_decide_true by done. cbn [map].
        destruct ts as [|t [|]]; try done. injection Hroot as Hroot. constructor; [|by apply Hex]. rewrite Hroot.
        split; [done|]. split; [by exists lev|]. done. }
    intros t [Ht|Ht]%elem_of_app; [|auto].
    assert (Hr : root t ∈ map root ts) by (by apply elem_of_list_fmap_1). rewrite Hroot in Hr.
    apply elem_of_list_singleton in Hr. rewrite Hr. cbn. exists m, me, lev.
    split; [apply Hsub; left|]. auto 10.
Qed.
Lemma fire_swports_ok evalA a o p pb sps s s' : forested evalA ->
  d_obj D !! p = Some pb -> (forall x, x ∈ sps -> x ∈ ob_swports pb) ->
  foreach (fun sp => fire_swport D evalA a o p (fst sp) (snd sp)) sps s = Ok tt s' ->
  exists ts, Cascade D s ts s' /\ Forall lawful ts /\ (forall t, t ∈ ts ->
    exists name mapped m me le, (name, mapped) ∈ ob_swports pb /\ m ∈ mapped /\ d_evt D !! m = Some me /\ ev_obj me = o /\ ac_evt (root t) ∈ ob_events pb /\
      d_evt D !! ac_evt (root t) = Some le /\ ev_type le = PRESENTATION /\ ev_id le = name /\ ac_tr (root t) = ac_tr a) /\
    (ob_parent pb <> None -> Forall2 (fun nm t => portEcho D pb a nm (root t)) (repeatedOn D o sps) ts).
Proof.
  intros HF Hp. revert s. induction sps as [|[name mapped] sps IH]; intros s Hsub; cbn [foreach fst snd].
  - intros [= <-]. exists []. split; [constructor|]. split; [constructor|]. split; [by intros ? ?%elem_of_nil|]. constructor.
  - unfold bind. destruct (fire_swport D evalA a o p name mapped s) as [[] s1| |] eqn:E; try done. intros H.
    apply (fire_swport_ok evalA a o p pb name mapped) in E as (ts & H1 & H2 & H3 & H4); [|done|done|done|apply Hsub; left].
    destruct (IH s1 (fun x Hx => Hsub x (elem_of_list_further _ _ _ Hx)) H) as (ts2 & Hts2 & Hlaw2 & Hall & Hex).
    exists (ts ++ ts2). split; [by eapply Cascade_app|]. split; [by apply Forall_app|].
    split; [|intros Hne; unfold repeatedOn; cbn [map concat fst snd]; apply Forall2_app; [by apply H4|by apply Hex]].
    intros t [Ht|Ht]%elem_of_app; [|auto]. destruct (H3 t Ht) as (m & me & le & K).
    exists name, mapped, m, me, le. split; [apply Hsub; left|]. done.
Qed.

Lemma triggered_ok evalA a s1 pushed s3 ok sa sb subs :
  forested evalA -> triggered D evalA a s1 = Ok pushed s3 -> map root subs = rev pushed -> ok = true ->
  exists echoes s2, Cascade D s1 echoes s2 /\ Forall lawful echoes /\ onlyQ s2 s3 /\
    (sound D (Node a ok sa sb s2 s3 echoes subs) /\ complete D (Node a ok sa sb s2 s3 echoes subs) /\
    ordered D (Node a ok sa sb s2 s3 echoes subs)) /\ echoed D (Node a ok sa sb s2 s3 echoes subs).
Proof.
  intros HF. unfold triggered. unfold bind at 1. unfold getE, ofoption at 1.
  destruct (d_evt D !! ac_evt a) as [ev|] eqn:He; [|done]. unfold ret at 1.
  unfold bind at 1. unfold getO, ofoption at 1. destruct (d_obj D !! ev_obj ev) as [ob|] eqn:Ho; [|done]. unfold ret at 1.
  unfold bind at 1. destruct (fire_parent D evalA a (ev_obj ev) ob s1) as [r1 s2| |] eqn:E1; try done.
  unfold bind at 1. destruct (fire_self D a (ev_obj ev) ob s2) as [r2 s4| |] eqn:E2; try done.
  unfold ret. intros [= <- <-] Hroots ->.
  destruct (switchParent_dec ob) as [(p & pb & Hp & Hpb & Hk)|Hns].
  - unfold fire_parent in E1. rewrite Hp in E1. unfold bind at 1 in E1. unfold getO, ofoption in E1. rewrite Hpb in E1.
    unfold ret at 1 in E1. rewrite Hk in E1. unfold bind in E1.
    destruct (foreach _ (ob_swports pb) s1) as [[] s1'| |] eqn:Ef; try done. injection E1 as <- <-.
    apply (fire_swports_ok evalA a (ev_obj ev) p pb (ob_swports pb)) in Ef as (ts & H1 & H2 & H3 & H4); [|done|done|done].
    exists ts, s1'. split; [done|]. split; [done|].
    apply (fire_self_ok s1') in E2; [|apply onlyQ_refl|done].
    split; [eapply result_onlyQ; [apply onlyQ_refl|exact E2]|]. split.
    2:{ intros _ ev' ob' He' Ho'. assert (ev' = ev) as -> by congruence. assert (ob' = ob) as -> by congruence. split.
        - intros p' pb' K1 K2 _ Hne. assert (p' = p) as -> by congruence. assert (pb' = pb) as -> by congruence. by apply H4.
        - intros Hno. by destruct (Hno p pb Hp Hpb). }
    eapply result_node; [|exact E2|done|done|].
    + intros f. rewrite (satisfied_iff s1' a ev ob f He Ho). split; [by right|].
      intros [(p' & pb' & K1 & K2 & K3 & _)|H]; [|done]. congruence.
    + intros t Ht. destruct (H3 t Ht) as (name & mapped & m & me & le & K1 & K2 & K3 & K4 & K5 & K6 & K7 & K8 & K9).
      exists ev, ob, p, pb, name, mapped, m, me, le. auto 20.
  - exists [], s1. split; [constructor|]. split; [constructor|].
    apply (fire_parent_ok evalA) in E1; [|done]. apply (fire_self_ok s1) in E2; [|eapply result_onlyQ; [apply onlyQ_refl|exact E1]|done].
    pose proof (result_app s1 _ _ (satisfied D s1 a) s1 s2 s4 r1 r2 (fun f => satisfied_iff s1 a ev ob f He Ho) E1 E2) as E.
    split; [eapply result_onlyQ; [apply onlyQ_refl|exact E]|]. split.
    2:{ intros _ ev' ob' He' Ho'. assert (ev' = ev) as -> by congruence. assert (ob' = ob) as -> by congruence. split; [|done].
        intros p pb K1 K2 K3. destruct Hns. by exists p, pb. }
    eapply result_node; [|exact E|done|done|by intros ? ?%elem_of_nil]. done.
Qed.

Fixpoint oks (t : tree) : nat :=
  match t with Node _ ok _ _ _ _ _ subs => (if ok then 1 else 0) + list_sum (map oks subs) end.

Theorem loop_cascade n : forall l s k s', loop D n l s = Ok k s' ->
  exists ts, Cascade D s ts s' /\ map root ts = l /\ Forall lawful ts /\ list_sum (map oks ts) = k.
Proof.
  induction n as [|n IH]; intros l s k s'; [done|]. change (loop D (S n) l) with (loop_body D (tr D n) (loop D n) l). unfold loop_body.
  destruct l as [|a l].
  - intros [= <- <-]. exists []. split; [constructor|]. done.
  - unfold bind at 1. destruct (attempt D (tr D n) a s) as [ok s1| |] eqn:Ea; try done. destruct ok.
    + unfold bind at 1. destruct (triggered D (fun a => loop D n [a]) a s1) as [pushed s3| |] eqn:Et; try done.
      unfold bind at 1. destruct (loop D n (rev pushed ++ l) s3) as [k1 s4| |] eqn:El; try done.
      unfold ret. intros [= <- <-]. apply IH in El as (ts & Hc & Hr & Hl & Hk).
      apply map_eq_app in Hr as (subs & ts' & -> & Hr1 & Hr2).
      assert (Hf : forested (fun a => loop D n [a])).
      { intros b s0 k0 s0' (ts0 & K1 & K2 & K3 & _)%IH. eauto. }
      destruct (triggered_ok _ a s1 pushed s3 true s s1 subs Hf Et Hr1 eq_refl) as (echoes & s2 & H1 & H2 & HQ & H3).
      assert (exists s5, Cascade D s3 subs s5 /\ Cascade D s5 ts' s4) as (s5 & H5 & H6).
      { clear -Hc. remember (subs ++ ts') as ts eqn:E. revert subs E.
        induction Hc as [s|n a s s1 ts s' Ha Hc IHc|n a s s1 s2 s3 s4 ec sbs ts s' Ha H1 _ HQ H2 _ H3 IHc]; intros sb E.
        - symmetry in E. apply app_eq_nil in E as [-> ->]. exists s. split; constructor.
        - destruct sb as [|x sb]; cbn in E.
          + exists s. split; [constructor|]. subst ts'. by eapply C_fail.
          + injection E as <- ->. destruct (IHc sb eq_refl) as (s5 & K1 & K2). exists s5. split; [by eapply C_fail|done].
        - destruct sb as [|x sb]; cbn in E.
          + exists s. split; [constructor|]. subst ts'. by eapply C_ok.
          + injection E as <- ->. destruct (IHc sb eq_refl) as (s5 & K1 & K2). exists s5. split; [by eapply C_ok|done]. }
      apply Forall_app in Hl as [Hl1 Hl2].
      exists (Node a true s s1 s2 s3 echoes subs :: ts'). split; [by eapply C_ok|].
      split; [cbn; by rewrite Hr2|]. split.
      * constructor; [|done]. by apply lawful_node.
      * rewrite map_app, list_sum_app in Hk. change (list_sum (map oks (Node a true s s1 s2 s3 echoes subs :: ts'))) with (S (list_sum (map oks subs)) + list_sum (map oks ts'))%nat. lia.
    + intros (ts & Hc & Hr & Hl & Hk)%IH. exists (Node a false s s1 s1 s1 [] [] :: ts). split; [by eapply C_fail|].
      split; [cbn; by rewrite Hr|]. split; [constructor; [apply lawful_fail|done]|]. done.
Qed.
End Links.

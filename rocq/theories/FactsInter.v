(** FactsInter.v -- proofs of the theorems of Props_Inter.v. *)
From Verif Require Export Inter FactsLinks FactsPres Witness.
Open Scope string_scope.
Open Scope list_scope.

(** From a run to its weakest precondition. *)
Ltac byrun E b s' := pattern b, s'; refine (wp_ok True True _ _ _ _ b s' E); clear E b s'.

(** ** C14 *)
Lemma f_C14 : forall D, wf_doc D -> forall s, reach D s ->
  forall n o ob e ev b s', d_obj D !! o = Some ob -> ob_kind ob = KSwitch ->
  d_evt D !! e = Some ev -> ev_obj ev = o -> evState s e <> OCCURRING ->
  tr D n e START s = Ok b s' ->
  (b = true -> exists c e', firstRule D s ob ev c /\ eligible D ob ev c e' /\
     evState s e' <> OCCURRING /\ evState s' e' = OCCURRING /\ o_selected (ostOf s' o) = Some c /\
     forall e2 ev2, d_evt D !! e2 = Some ev2 -> e2 <> e -> ~ inside D c (ev_obj ev2) -> evState s' e2 = evState s e2) /\
  (b = false -> s' = s /\ forall c, firstRule D s ob ev c ->
     exists e' n', eligible D ob ev c e' /\ tr D n' e' START s = Ok false s).
Proof.
  intros D [rank WF] s Hr n o ob e ev b s' Ho Hk He <- Hocc E.
  pose proof (BInv_reach D rank WF s Hr) as HB.
  destruct n as [|n]; [done|]. byrun E b s'.
  rewrite tr_S. unfold tr_body. w1. wgetE ev' He'. assert (ev' = ev) as -> by congruence. w1. w1.
  w1. { exfalso. apply negb_true_iff in H. by destruct (evState s e). }
  w1. unfold before. w1. wgetO ob' Ho'. assert (ob' = ob) as -> by congruence. rewrite Hk.
  unfold sw_before. w1. eapply wp_mono; [by eapply (candidates_spec D rank WF)|]. intros cands s1 [-> Hc]. cbv beta.
  destruct (ev_type ev) eqn:Hty; try done. w1. w1. w1. w1. w1. wgetO ob2 Ho2. assert (ob2 = ob) as -> by congruence.
  eapply wp_mono; [by apply sw_choose_spec|]. intros b s' Hch. cbv beta.
  destruct Hch as [(l1 & c & p & l2 & e' & s1 & Hru & Hl1 & Hap & Hel & Et & Hs')|(-> & -> & Hno)].
  2:{ w1; [|done]. w1. split; [done|]. intros _. split; [done|]. intros c (l1 & p & l2 & Hru & Hap & _).
      destruct (Hno (c, p)); [|done]. rewrite Hru. apply elem_of_app. right. left. }
  assert (Hfirst : firstRule D s ob ev c) by (exists l1, p, l2; done).
  destruct b.
  2:{ cbn [negb]. w1. split; [done|]. intros _.
      assert (s1 = s) as -> by exact (wp_ok _ _ _ _ _ (start_false D rank WF n e' s) _ _ Et eq_refl).
      split; [done|]. intros c' (l1' & p' & l2' & Hru' & Hap' & Hl1').
      assert (c' = c) as ->; [|eauto].
      destruct Hfirst as (m1 & q & m2 & Hq & Haq & Hm1). rewrite Hru' in Hq. clear -Hq Hap' Hl1' Haq Hm1.
      revert m1 Hq Hm1. induction l1' as [|x l1' IH]; intros [|y m1] Hq Hm1; cbn in Hq.
      - by injection Hq as -> _ _.
      - injection Hq as Hy _. exfalso. apply (Hm1 y); [left|]. by rewrite <- Hy.
      - injection Hq as Hy _. exfalso. apply (Hl1' x); [left|]. by rewrite Hy.
      - injection Hq as _ Hq. eapply IH; [|exact Hq|].
        + intros r Hr. apply Hl1'. by right.
        + intros r Hr. apply Hm1. by right. }
  cbn [negb]. w1. w1. w1. w1. subst s'.
  assert (Hel0 := Hel). apply Hc in Hel as [_ (ev' & He2 & Hob')].
  assert (Hin : c ∈ ob_children ob).
  { eapply (wo_rules _ _ _ _ (wf_o _ _ WF _ _ Ho)). rewrite Hru. apply elem_of_app. right. left. }
  destruct (wo_children _ _ _ _ (wf_o _ _ WF _ _ Ho) _ Hin) as (cb & Hcb & Hpar).
  destruct (wo_parent _ _ _ _ (wf_o _ _ WF _ _ Hcb) _ Hpar) as (_ & _ & _ & _ & Hlt).
  assert (HS1 : same_out D c s s1).
  { rewrite <- Hob'. refine (wp_ok _ _ _ _ _ (start_out D rank WF n e' ev' s He2 _ HB) _ _ Et). rewrite Hob'. exists cb, (ev_obj ev), ob. done. }
  pose proof (tr_ok D rank WF n e' ev' START s true s1 He2 Et) as [_ Hok]. destruct (Hok eq_refl) as [Hleg Hst].
  match goal with |- wp _ _ _ _ ?x => assert (Hx : forall e2, evState x e2 = if decide (e = e2) then OCCURRING else evState s1 e2) end.
  { intros e2. sts. destruct (decide (e = e2)); done. }
  match goal with |- wp _ _ _ _ ?x => assert (Hxs : o_selected (ostOf x (ev_obj ev)) = Some c) end.
  { sts. by rewrite decide_True. }
  match goal with |- wp _ _ _ _ ?x => set (sx := x) in * end. clearbody sx.
  unfold after. w1. w1. wgetO ob' Ho''. assert (ob' = ob) as -> by congruence. rewrite Hk.
  unfold sw_after. rewrite Hty. w1. apply wp_doStart; [done|done|]. intros s3 E1 _ _ _ _ _ E2. w1. w1.
  rewrite E2. cbn [os_set_time os_set_awake o_selected]. rewrite Hxs. w1. w1. split; [|done]. intros _.
  exists c, e'. split; [done|]. split; [done|]. split; [by destruct (evState s e')|].
  assert (Hne : e <> e'). { intros <-. assert (ev = ev') as -> by congruence. rewrite Hob' in Hlt. lia. }
  split; [rewrite (evState_sev _ _ _ E1), Hx, decide_False by done; exact Hst|].
  split; [rewrite E2; exact Hxs|]. intros e2 ev2 He3 Hne2 Hni.
  rewrite (evState_sev _ _ _ E1), Hx, decide_False by done. by eapply HS1.
Qed.

(** ** C15 *)
Lemma readProp_pframe o s s' o' k : pframe o s s' -> o' <> o -> readProp s' o' k = readProp s o' k.
Proof. intros F Hne. unfold readProp. by rewrite (pf_other _ _ _ F). Qed.
Lemma ref_ext D s s' x : (forall o k, propOf s' o k = propOf s o k) -> evalPropertyRef D s' x = evalPropertyRef D s x.
Proof.
  intros H. unfold evalPropertyRef. destruct x as [|c r]; [done|]. destruct c as [[] [] [] [] [] [] [] []]; try done.
  destruct (find_char _ r) as [[i name]|]; [|done]. destruct (getObjectByIdOrAlias D i); [|done]. by rewrite H.
Qed.
(** A transition START of an attribution event. *)
Lemma attrib_tr D n e ev ob s b s' v : d_evt D !! e = Some ev -> ev_type ev = ATTRIBUTION ->
  d_obj D !! ev_obj ev = Some ob ->
  e_params (estOf s e) !! "value" = Some v ->
  tr D n e START s = Ok b s' ->
  (evState s e <> OCCURRING -> b = true) /\
  (b = true -> readProp s' (ev_obj ev) (ev_id ev) = Some (valueOf (evalPropertyRef D s) v) /\
    (forall o k, (o <> ev_obj ev \/ (k <> ev_id ev /\ ~ compound (ev_id ev) k)) -> readProp s' o k = readProp s o k) /\
    (focusProp D (ev_obj ev) (ev_id ev) = true -> s_focus s' = valueOf (evalPropertyRef D s) v)).
Proof.
  intros He Hty Ho Hv E. destruct n as [|n]; [done|].
  byrun E b s'. rewrite tr_S. unfold tr_body.
  w1. wgetE ev' He'. assert (ev' = ev) as -> by congruence. w1. w1.
  w1. { w1. split; [|done]. intros Hn. apply negb_true_iff in H. by destruct (evState s e). }
  w1. eapply (wp_mono _ _ _ (fun b s1 => b = true /\ s1 = s /\ ob_kind ob <> KSwitch)).
  { unfold before. w1. wgetO ob' Ho'. assert (ob' = ob) as -> by congruence. destruct (ob_kind ob).
    - unfold ctx_before. rewrite Hty. by w1.
    - unfold sw_before. w1. apply pwp_intro. intros ???. by rewrite Hty.
    - unfold media_before. rewrite Hty. by w1.
    - unfold media_before. rewrite Hty. by w1. }
  intros b1 s1 (-> & -> & Hk). cbv beta. cbn [negb]. w1. w1. w1. w1. fold (commit e START s). w1.
  eapply (wp_mono _ _ _ (fun a s2 => a = true /\ readProp s2 (ev_obj ev) (ev_id ev) = Some (valueOf (evalPropertyRef D s) v) /\
    (forall o k, (o <> ev_obj ev \/ (k <> ev_id ev /\ ~ compound (ev_id ev) k)) -> readProp s2 o k = readProp s o k) /\
    (focusProp D (ev_obj ev) (ev_id ev) = true -> s_focus s2 = valueOf (evalPropertyRef D s) v))).
  2:{ intros a s2 (-> & H1). cbv beta iota. by w1. }
  assert (Ha : pwp (attribStart D (ev_obj ev) e) (fun _ s2 => readProp s2 (ev_obj ev) (ev_id ev) = Some (valueOf (evalPropertyRef D s) v) /\
    (forall o k, (o <> ev_obj ev \/ (k <> ev_id ev /\ ~ compound (ev_id ev) k)) -> readProp s2 o k = readProp s o k) /\
    (focusProp D (ev_obj ev) (ev_id ev) = true -> s_focus s2 = valueOf (evalPropertyRef D s) v)) (commit e START s)).
  { unfold attribStart. w1. wgetE ev' He''. assert (ev' = ev) as -> by congruence. w1.
    unfold getParam. w1. w1. w1. w1. w1.
    assert (Ep : e_params (estOf (commit e START s) e) !! "value" = Some v).
    { unfold commit. sts. rewrite decide_True by done. exact Hv. }
    rewrite Ep. cbn [default]. rewrite (ref_ext D s (commit e START s)) by done.
    w1. eapply (wp_mono _ _ _ (fun _ s' => s' = commit e START s)).
    { destruct (_ !! "duration"); [|by w1]. unfold parse_time. destruct (try_parse_time _); by w1. }
    intros d s2 ->. cbv beta. w1. eapply wp_mono; [apply wp_conj; [apply setProperty_props|apply setProperty_focus]|].
    intros [] s2 [(H1 & H2 & F) HF]. cbv beta. unfold addDelayed. w1.
    assert (Hrp : forall o k, readProp (sched (ev_obj ev) e STOP (default v (evalPropertyRef D s v)) d s2) o k = readProp s2 o k).
    { intros o k. unfold readProp, sched. sts. by destruct (decide (ev_obj ev = o)) as [->|]. }
    split; [|split; [|exact HF]].
    - rewrite Hrp. unfold readProp. etransitivity; [exact H1|]. done.
    - intros o k Hok. rewrite Hrp. destruct (decide (o = ev_obj ev)) as [->|Hne].
      + destruct Hok as [?|[Hk1 Hk2]]; [done|]. exact (H2 k Hk1 Hk2).
      + rewrite (readProp_pframe _ _ _ _ _ F Hne). done. }
  unfold after. w1. wgetO ob' Ho'. assert (ob' = ob) as -> by congruence.
  destruct (ob_kind ob); [| done| |]; [unfold ctx_after|unfold media_after; w1; w1; cbv zeta|unfold media_after; w1; w1; cbv zeta];
    rewrite Hty; (w1; eapply wp_mono; [exact Ha|]; intros [] s2 Hs2; by w1).
Qed.

Definition setNode (D : doc) (x : tree) : Prop :=
  match x with Node a ok s0 s1 _ _ _ _ => forall ev, d_evt D !! ac_evt a = Some ev -> ev_type ev = ATTRIBUTION -> ac_tr a = START ->
    (evState s0 (ac_evt a) <> OCCURRING -> ok = true) /\ (ok = true -> setDone D a ev s0 s1) end.
Lemma attempt_set D n a s ok s1 ev : (exists r, wf_at D r) -> attempt D (tr D n) a s = Ok ok s1 ->
  d_evt D !! ac_evt a = Some ev -> ev_type ev = ATTRIBUTION -> ac_tr a = START ->
  (evState s (ac_evt a) <> OCCURRING -> ok = true) /\ (ok = true -> setDone D a ev s s1).
Proof.
  intros [rank WF] E He Hty Ht. byrun E ok s1.
  unfold attempt. w1. w1. w1. wgetE ev' He'. assert (ev' = ev) as -> by congruence. unfold setParam. w1. w1.
  rewrite Hty. unfold whenm. rewrite bool_decide_true by done. w1. w1. rewrite Ht.
  destruct (wf_e _ _ WF _ _ He) as (ob & Ho & _).
  match goal with |- wp _ _ _ _ ?x => set (sx := x) end.
  apply pwp_intro. intros b s2 E. eapply attrib_tr in E; [|exact He|done|exact Ho|].
  2:{ unfold sx. sts. rewrite decide_True by done. cbn. by rewrite lookup_insert. }
  assert (Est : evState sx (ac_evt a) = evState s (ac_evt a)).
  { unfold sx. unfold evState. sts. rewrite ?decide_True by done. done. }
  rewrite Est in E. destruct E as [E1 E2]. split; [done|]. intros Hb. destruct (E2 Hb) as (E3 & E4 & _). split.
  - rewrite E3. done.
  - exact E4.
Qed.
Lemma cascade_set D : (exists r, wf_at D r) -> forall s ts s', Cascade D s ts s' -> forall t, t ∈ ts -> forall x, within x t -> setNode D x.
Proof.
  intros WF s ts s' HC. induction HC as [|n a s s1 ts s' Ha _ IH|n a s s1 s2 s3 s4 echoes subs ts s' Ha _ IHe _ _ IHs _ IH];
    intros t Ht; [by apply elem_of_nil in Ht| |].
  - apply elem_of_cons in Ht as [->|Ht]; [|by apply IH]. intros x Hx. inversion Hx; subst.
    + intros ev He Hty Htr. by eapply attempt_set.
    + match goal with HH : _ \/ _ |- _ => destruct HH as [HH|HH]; by apply elem_of_nil in HH end.
  - apply elem_of_cons in Ht as [->|Ht]; [|by apply IH]. intros x Hx. inversion Hx; subst.
    + intros ev He Hty Htr. by eapply attempt_set.
    + match goal with HH : _ \/ _ |- _ => destruct HH as [HH|HH]; eauto end.
Qed.
Lemma f_C15 : forall D, wf_doc D -> forall n a s k s', evalAction D n a s = Ok k s' ->
  exists t, Cascade D s [t] s' /\ root t = a /\ forall x, within x t -> setNode D x.
Proof.
  intros D WF n a s k s' E. destruct (f_C08 D n a s k s' E) as (t & HC & Hr & _). exists t.
  split; [done|]. split; [done|]. eapply cascade_set; eauto. left.
Qed.

(** ** C16 *)
Lemma lex_irrefl a : ~ lex a a.
Proof. intros H. remember a as b eqn:Eb in H at 2. induction H; simplify_eq; try lia; eauto. Qed.
Lemma lex_trans a b c : lex a b -> lex b c -> lex a c.
Proof.
  intros H. revert c. induction H as [d b|c d a b Hlt|c a b _ IH]; intros z Hz; inversion Hz; subst; try constructor; auto; lia.
Qed.
Lemma lex_total a b : a = b \/ lex a b \/ lex b a.
Proof.
  revert b. induction a as [|c a IH]; intros [|d b]; [auto|right; left; constructor|right; right; constructor|].
  destruct (N.lt_trichotomy (N_of_ascii c) (N_of_ascii d)) as [H|[H|H]].
  - right; left. by constructor.
  - assert (c = d) as ->. { rewrite <- (ascii_N_embedding c), <- (ascii_N_embedding d). by f_equal. }
    destruct (IH b) as [->|[?|?]]; [auto|right; left; by constructor|right; right; by constructor].
  - right; right. by constructor.
Qed.
Lemma candidate_spec D s o i : focus_candidate D s o = Some i <->
  i <> "" /\ exists ob, d_obj D !! o = Some ob /\ evState s (ob_lambda ob) = OCCURRING /\ readProp s o "focusIndex" = Some i.
Proof.
  unfold focus_candidate. destruct (d_obj D !! o) as [ob|]; [|split; [done|intros (_ & ? & ? & _); done]].
  unfold propOf, readProp. destruct (o_props (ostOf s o) !! "focusIndex") as [x|]; cbn [default].
  - split.
    + destruct (_ && _)%bool eqn:E; [|done]. apply andb_prop in E as [E1 E2]. apply bool_decide_eq_true in E1.
      intros [= <-]. split; [by destruct x|]. eauto.
    + intros (Hi & ob' & [= <-] & Ho & [= ->]). rewrite bool_decide_true by done. by destruct i.
  - rewrite andb_false_r. split; [done|]. by intros (_ & ? & _ & _ & ?).
Qed.
Lemma focus_min_spec D s l next :
  let v := focus_min D s l next in
  (v = next \/ exists o, o ∈ l /\ focus_candidate D s o = Some v) /\
  (next <> "" -> v = next \/ lex v next) /\
  (forall o i, o ∈ l -> focus_candidate D s o = Some i -> i = v \/ lex v i).
Proof.
  cbv zeta. revert next. induction l as [|x l IH]; intros next; cbn [focus_min].
  - split; [auto|]. split; [auto|]. intros o i Hin. by apply elem_of_nil in Hin.
  - destruct (focus_candidate D s x) as [j|] eqn:Ex.
    + assert (Hj : j <> "") by (by apply candidate_spec in Ex as [? _]).
      set (nx := if (is_empty next || str_lt j next)%bool then j else next).
      specialize (IH nx) as (I1 & I2 & I3). set (v := focus_min D s l nx) in *.
      assert (Hnx : nx <> "") by (unfold nx; destruct (is_empty next) eqn:En; [done|]; cbn; destruct (str_lt j next); [done|]; by destruct next).
      specialize (I2 Hnx).
      assert (Hle : j = nx \/ lex nx j).
      { unfold nx. destruct (is_empty next) eqn:En; cbn; [auto|]. destruct (str_lt j next) eqn:El; [auto|].
        destruct (lex_total j next) as [?|[Hl|?]]; [auto| |auto]. apply str_lt_lex in Hl. congruence. }
      assert (Hle2 : next <> "" -> nx = next \/ lex nx next).
      { intros Hn. unfold nx. destruct (is_empty next) eqn:En; [by destruct next|]. cbn. destruct (str_lt j next) eqn:El; [|auto].
        right. by apply str_lt_lex. }
      split; [|split].
      * destruct I1 as [I1|(o & Hin & Ho)]; [|right; exists o; split; [by right|done]].
        rewrite I1. unfold nx. destruct (_ || _)%bool; [right; exists x; split; [left|done]|by left].
      * intros Hn. destruct (Hle2 Hn) as [Hx|Hx], I2 as [Hy|Hy].
        -- left. congruence. -- right. congruence. -- right. by rewrite Hy. -- right. by eapply lex_trans.
      * intros o i [->|Hin]%elem_of_cons Ho; [|by eapply I3]. rewrite Ho in Ex. injection Ex as ->.
        destruct Hle as [Hx|Hx], I2 as [Hy|Hy].
        -- left. congruence. -- right. congruence. -- right. by rewrite Hy. -- right. by eapply lex_trans.
    + destruct (IH next) as (I1 & I2 & I3). split; [|split].
      * destruct I1 as [I1|(o & Hin & Ho)]; [by left|right; exists o; split; [by right|done]].
      * done.
      * intros o i [->|Hin]%elem_of_cons Ho; [congruence|by eapply I3].
Qed.
Lemma focus_min_nonempty D s l next :
  (next <> "" \/ exists o i, o ∈ l /\ focus_candidate D s o = Some i) -> focus_min D s l next <> "".
Proof.
  revert next. induction l as [|x l IH]; intros next Hx; cbn [focus_min].
  - destruct Hx as [?|(o & i & Hin & _)]; [done|by apply elem_of_nil in Hin].
  - destruct (focus_candidate D s x) as [j|] eqn:Ex.
    + apply IH. left. apply candidate_spec in Ex as [Hj _]. destruct next; cbn; [done|]. by destruct (str_lt _ _).
    + apply IH. destruct Hx as [?|(o & i & [->|Hin]%elem_of_cons & Hc)]; [auto|congruence|eauto].
Qed.
Lemma smallest D s : wf_doc D -> smallestFocus D s (focus_min D s (d_medias D) "").
Proof.
  intros [rank WF]. destruct (focus_min_spec D s (d_medias D) "") as (H1 & _ & H3).
  pose proof (focus_min_nonempty D s (d_medias D) "") as H4.
  set (v := focus_min D s (d_medias D) "") in *.
  assert (Hf : forall i, focusable D s i <-> exists o, o ∈ d_medias D /\ focus_candidate D s o = Some i).
  { intros i. unfold focusable. split.
    - intros (Hi & o & ob & Ho & Hm & Hocc & Hr). exists o. split; [apply (wf_medias _ _ WF); eauto|].
      apply candidate_spec. split; [done|]. eauto.
    - intros (o & Hin & Hc). apply candidate_spec in Hc as (Hi & ob & Ho & Hocc & Hr). split; [done|].
      apply (wf_medias _ _ WF) in Hin as (ob' & Ho' & Hm). simplify_eq. eauto 6. }
  destruct (decide (v = "")) as [Ev|Ev].
  - left. split; [done|]. intros i Hi. apply Hf in Hi as (o & Hin & Hc). apply H4; eauto.
  - right. destruct H1 as [?|H1]; [done|]. split; [by apply Hf|].
    intros i (o & Hin & Hc)%Hf. eauto.
Qed.

(** The settings object's attribution of the focus. *)
Definition focusEvent (D : doc) (e : eid) : Prop :=
  exists sb ev, d_obj D !! d_settings D = Some sb /\ e ∈ ob_events sb /\ d_evt D !! e = Some ev /\
    ev_type ev = ATTRIBUTION /\ ev_id ev = "service.currentFocus".
Lemma find_event_some D ty i l e : find_event D ty i l = Some e ->
  e ∈ l /\ exists ev, d_evt D !! e = Some ev /\ ev_type ev = ty /\ ev_id ev = i.
Proof.
  induction l as [|x l IH]; cbn; [done|]. destruct (d_evt D !! x) as [ev|] eqn:Ex.
  - destruct (_ && _)%bool eqn:E.
    + intros [= ->]. apply andb_prop in E as [E1 E2]. apply bool_decide_eq_true in E1. apply String.eqb_eq in E2.
      split; [left|]. eauto.
    + intros H. destruct (IH H). split; [by right|done].
  - intros H. destruct (IH H). split; [by right|done].
Qed.
Lemma f_C16_update : forall D, wf_doc D -> forall n s s', updateCurrentFocus D n "" s = Ok tt s' ->
  exists e v k, focusEvent D e /\ smallestFocus D s v /\ evalAction D n (mkAct e START None v "" "") s = Ok k s'.
Proof.
  intros D WF n s s' E. unfold updateCurrentFocus, bind, get, getO, ofoption in E. cbn [is_empty] in E.
  destruct (d_obj D !! d_settings D) as [sb|] eqn:Hs; [|done]. unfold ret in E.
  destruct (find_event D _ _ _) as [e|] eqn:Ef; [|done].
  destruct (evalAction D n _ s) as [k s1| |] eqn:Ee; [|done|done]. injection E as ->.
  apply find_event_some in Ef as (Hin & ev & He & Hty & Hid).
  exists e, (focus_min D s (d_medias D) ""), k. split; [exists sb, ev; done|]. split; [by apply smallest|done].
Qed.
(** The update of the focus by a tick of the settings. *)
Definition focusNode (D : doc) (v : string) (x : tree) : Prop :=
  match x with Node a ok s0 s1 _ _ _ _ =>
    (evState s0 (ac_evt a) <> OCCURRING -> ok = true) /\ (ok = true -> s_focus s1 = valueOf (evalPropertyRef D s0) v) end.
Lemma attempt_focus D n e s ok s1 v : (exists r, wf_at D r) -> focusEvent D e -> attempt D (tr D n) (mkAct e START None v "" "") s = Ok ok s1 ->
  (evState s e <> OCCURRING -> ok = true) /\ (ok = true -> s_focus s1 = valueOf (evalPropertyRef D s) v).
Proof.
  intros [rank WF] (sb & ev & Hsb & Hin & He & Hty & Hid) E.
  assert (Hobj : ev_obj ev = d_settings D) by (eapply event_obj; eauto).
  assert (Hfp : focusProp D (ev_obj ev) (ev_id ev) = true).
  { unfold focusProp. rewrite Hobj, Hsb, Hid. destruct (wf_settings _ _ WF) as (sb' & Hsb' & Hk & _). simplify_eq. by rewrite Hk. }
  byrun E ok s1. unfold attempt. w1. w1. w1. wgetE ev' He'. cbn [ac_evt] in He'. assert (ev' = ev) as -> by congruence. unfold setParam. w1. w1.
  rewrite Hty. unfold whenm. rewrite bool_decide_true by done. w1. w1. cbn [ac_tr ac_evt ac_value].
  match goal with |- wp _ _ _ _ ?x => set (sx := x) end.
  apply pwp_intro. intros b s2 E. rewrite <- Hobj in Hsb. eapply attrib_tr in E; [|exact He|done|exact Hsb|].
  2:{ unfold sx. sts. rewrite decide_True by done. cbn. by rewrite lookup_insert. }
  assert (Est : evState sx e = evState s e).
  { unfold sx. unfold evState. sts. rewrite ?decide_True by done. done. }
  rewrite Est in E. destruct E as [E1 E2]. split; [done|]. intros Hb. destruct (E2 Hb) as (_ & _ & E3).
  rewrite (E3 Hfp). done.
Qed.
Lemma cascade_root D s t s' : Cascade D s [t] s' -> exists ok s1 ec fs su d n, t = Node (root t) ok s s1 ec fs su d /\
  attempt D (tr D n) (root t) s = Ok ok s1.
Proof. intros H. inversion H; subst; cbn [root]; repeat eexists; eauto. Qed.
Lemma f_C16 : forall D, wf_doc D -> forall n d s s', s_next s = Some "" -> sendTick D n (d_settings D) d s = Ok tt s' ->
  exists e v t s1, focusEvent D e /\ smallestFocus D s v /\ Cascade D s [t] s1 /\ root t = mkAct e START None v "" "" /\
    focusNode D v t /\ mediaTick D n (d_settings D) d (set_next None s1) = Ok tt s'.
Proof.
  intros D WF n d s s' Hn E. destruct WF as [rank WF]. unfold sendTick, bind, getO, ofoption in E.
  destruct (wf_settings _ _ WF) as (sb & Hsb & Hk & _). rewrite Hsb in E. unfold ret in E. rewrite Hk in E.
  unfold settingsTick, bind, gets in E. rewrite Hn in E.
  destruct (updateCurrentFocus D n "" s) as [[] s1| |] eqn:Eu; [|done|done]. unfold modify in E.
  destruct (f_C16_update D (ex_intro _ rank WF) n s s1 Eu) as (e & v & k & Hf & Hs & Ee).
  destruct (f_C08 D n _ s k s1 Ee) as (t & HC & Hr & _).
  exists e, v, t, s1. split; [done|]. split; [done|]. split; [done|]. split; [done|]. split; [|done].
  destruct (cascade_root _ _ _ _ HC) as (ok & s2 & ec & fs & su & dd & m & Et & Ea). rewrite Hr in Ea.
  rewrite Et, Hr. cbn [focusNode ac_evt]. eapply attempt_focus; eauto.
Qed.

(** ** C17 *)
Lemma evaluated_run D n (f : eid -> action) l s s' :
  foreach (fun e => evalAction D n (f e) ;; ret tt) l s = Ok tt s' -> evaluated D n (map f l) s s'.
Proof.
  revert s. induction l as [|e l IH]; intros s; cbn [foreach map]; unfold ret; [intros [= ->]; constructor|].
  unfold bind. destruct (evalAction D n (f e) s) as [k s1| |] eqn:E; [|done|done]. intros H.
  econstructor; eauto.
Qed.
Lemma key_matches_spec D s o p key e : o_player (ostOf s o) = Some p ->
  key_matches D s p key e = true <-> waitsFor D s o key e.
Proof.
  intros Hp. unfold key_matches, waitsFor. destruct (d_evt D !! e) as [ev|]; [|split; [done|intros (? & ? & _); done]].
  assert (HF : playerFocused s p = true <-> hasFocus s o).
  { unfold playerFocused, hasFocus. rewrite Hp. split.
    - intros [H1 H2]%andb_prop. apply String.eqb_eq in H2. exists p. split; [done|]. split; [by destruct (p_focusIndex p)|done].
    - intros (p' & [= <-] & H1 & H2). rewrite H2, String.eqb_refl, andb_true_r. rewrite <- H2. by destruct (p_focusIndex p). }
  set (k := default "" (e_params (estOf s e) !! "key")).
  assert (Hk : (is_empty k || String.prefix "$" k)%bool = is_empty (if Ascii.eqb (char0 k) "$" then "" else k)).
  { destruct k as [|c r]; [done|]. cbn [is_empty char0 orb String.prefix]. rewrite Ascii.eqb_sym. unfold Ascii.eqb.
    destruct (ascii_dec _ _) as [<-|Hne]; [by destruct r|].
    destruct c as [[] [] [] [] [] [] [] []]; done. }
  destruct (ev_type ev) eqn:Et; try (split; [done|intros (? & [= <-] & ? & _); congruence]).
  split.
  - intros H. exists ev. split; [done|]. split; [done|]. cbv zeta. fold k. rewrite Hk.
    apply orb_prop in H as [H|H].
    + apply andb_prop in H as [[H1 H2]%andb_prop H3]. rewrite H1. apply String.eqb_eq in H2. split; [done|by apply HF].
    + apply andb_prop in H as [H1 H2]. apply String.eqb_eq in H2. apply negb_true_iff in H1. rewrite H1.
      destruct (Ascii.eqb (char0 k) "$"); [done|done].
  - intros (ev' & [= <-] & _ & H). cbv zeta in H. fold k in H. rewrite Hk in H. cbv zeta.
    destruct (is_empty (if Ascii.eqb (char0 k) "$" then "" else k)) eqn:E0.
    + destruct H as [-> H]. apply HF in H. rewrite H. done.
    + cbn [negb andb orb]. subst key. destruct (Ascii.eqb (char0 k) "$"); [done|]. apply String.eqb_refl.
Qed.
Lemma moves p key : xstrhasprefix key "CURSOR_" = true \/ True ->
  move_target p key = match moveProp key with Some k => default "" (p_props p !! k) | None => "" end.
Proof.
  intros _. unfold move_target, moveProp.
  destruct (String.eqb_spec key "CURSOR_UP"), (decide (key = "CURSOR_UP")); try done.
  destruct (String.eqb_spec key "CURSOR_DOWN"), (decide (key = "CURSOR_DOWN")); try done.
  destruct (String.eqb_spec key "CURSOR_LEFT"), (decide (key = "CURSOR_LEFT")); try done.
  destruct (String.eqb_spec key "CURSOR_RIGHT"), (decide (key = "CURSOR_RIGHT")); done.
Qed.
Lemma moveProp_prefix key k : moveProp key = Some k -> xstrhasprefix key "CURSOR_" = true.
Proof.
  unfold moveProp. destruct (decide _) as [->|]; [done|]. destruct (decide _) as [->|]; [done|].
  destruct (decide _) as [->|]; [done|]. destruct (decide _) as [->|]; done.
Qed.
Lemma nav_spec s o p key press : o_player (ostOf s o) = Some p -> forall i,
  navigates s o key press i <-> ((press && xstrhasprefix key "CURSOR_" && playerFocused s p)%bool = true /\ move_target p key = i /\ i <> "").
Proof.
  intros Hp i. rewrite moves by auto. unfold navigates, playerFocused, hasFocus. rewrite Hp. split.
  - intros (-> & (p' & [= <-] & H1 & H2) & Hi & k & p'' & Hm & [= <-] & Hk). rewrite Hm, Hk. cbn.
    rewrite (moveProp_prefix _ _ Hm), H2, String.eqb_refl. rewrite <- H2. split; [by destruct (p_focusIndex p)|done].
  - intros (H & H1 & H2). apply andb_prop in H as [[-> Hx]%andb_prop [H3 H4]%andb_prop]. apply String.eqb_eq in H4.
    split; [done|]. split; [exists p; split; [done|split; [by destruct (p_focusIndex p)|done]]|]. split; [done|].
    destruct (moveProp key) as [k|]; [|by subst i]. exists k, p. split; [done|]. split; [done|].
    by destruct (p_props p !! k); cbn in H1; subst i.
Qed.
Lemma f_C17_ignored : forall D, wf_doc D -> forall n o ob key press s, d_obj D !! o = Some ob ->
  is_media (ob_kind ob) = false \/ evState s (ob_lambda ob) = SLEEPING ->
  sendKey D n o key press s = Ok tt (log (OKey o key press) s).
Proof.
  intros D WF n o ob key press s Ho H. unfold sendKey, modify, bind, getO, ofoption. rewrite Ho. unfold ret.
  destruct (is_media (ob_kind ob)) eqn:Hm; [|done]. destruct H as [?|H]; [done|].
  unfold mediaKey, isSleeping, objState, bind, getO, ofoption, gets. rewrite Ho. unfold ret. rewrite evState_log.
  by rewrite bool_decide_true.
Qed.
Lemma f_C17 : forall D, wf_doc D -> forall s, reach D s -> forall n o ob key press s', d_obj D !! o = Some ob ->
  is_media (ob_kind ob) = true -> evState s (ob_lambda ob) <> SLEEPING -> sendKey D n o key press s = Ok tt s' ->
  exists s1 es, (forall e, e ∈ es <-> e ∈ ob_events ob /\ waitsFor D s o key e) /\ sublist es (ob_events ob) /\
    evaluated D n (map (fun e => mkAct e (if press then START else STOP) None "" "" "") es) s1 s' /\
    ((s1 = log (OKey o key press) s /\ forall i, ~ navigates s o key press i) \/
     exists i, navigates s o key press i /\ s1 = set_next (Some i) (log (OKey o key press) s)).
Proof.
  intros D WF s Hr n o ob key press s' Ho Hm Hns E.
  destruct (o_player (ostOf s o)) as [p|] eqn:Hp.
  2:{ exfalso. destruct (f_C02 D WF s Hr o ob Ho Hm) as [_ H]. by apply H. }
  unfold sendKey, modify, bind, getO, ofoption in E. rewrite Ho in E. unfold ret in E. rewrite Hm in E.
  unfold mediaKey, isSleeping, objState, bind, getO, ofoption, gets, get in E. rewrite Ho in E. unfold ret in E.
  rewrite evState_log, bool_decide_false in E by done. rewrite ostOf_log, Hp in E.
  set (s0 := log (OKey o key press) s) in *.
  assert (Hkm : forall e, key_matches D s0 p key e = true <-> waitsFor D s o key e).
  { intros e. rewrite <- (key_matches_spec D s o p key e Hp). done. }
  assert (Hpf : playerFocused s0 p = playerFocused s p) by done. rewrite Hpf in E. clear Hpf.
  pose proof (nav_spec s o p key press Hp) as Hnav.
  exists (if (press && xstrhasprefix key "CURSOR_" && playerFocused s p && negb (is_empty (move_target p key)))%bool
          then set_next (Some (move_target p key)) s0 else s0), (List.filter (key_matches D s0 p key) (ob_events ob)).
  split; [|split; [|split]].
  - intros e. rewrite elem_of_list_In, filter_In, Hkm, <- elem_of_list_In. done.
  - clear. induction (ob_events ob) as [|x l IH]; cbn; [done|]. destruct (key_matches _ _ _ _ _); by constructor.
  - destruct (press && xstrhasprefix key "CURSOR_" && playerFocused s p)%bool; cbn [andb].
    + cbv zeta in E. destruct (is_empty (move_target p key)); cbn [negb].
      * apply evaluated_run. exact E.
      * unfold scheduleFocus, modify in E. apply evaluated_run. exact E.
    + apply evaluated_run. exact E.
  - destruct (press && xstrhasprefix key "CURSOR_" && playerFocused s p)%bool eqn:Ec; cbn [andb].
    + destruct (is_empty (move_target p key)) eqn:Em; cbn [negb].
      * left. split; [done|]. intros i. rewrite Hnav. intros (_ & <- & H). by destruct (move_target p key).
      * right. exists (move_target p key). split; [|done]. apply Hnav. split; [done|]. split; [done|].
        intros H. by rewrite H in Em.
    + left. split; [done|]. intros i. rewrite Hnav. by intros (? & _).
Qed.

(** ** Refutations. *)
Lemma f_C15_refuted_bounds : exists D s a ev s', wf_doc D /\ reach D s /\ d_evt D !! ac_evt a = Some ev /\
  ev_type ev = ATTRIBUTION /\ ac_tr a = START /\ 
  evalAction D 60 a s = Ok 1 s' /\ ev_id ev <> "left" /\
  readProp s (ev_obj ev) "left" = Some "10%" /\ readProp s' (ev_obj ev) "left" = Some "1%".
Proof.
  destruct (check_reach w_bounds w_bounds0 (play ++ [CAct (act 103 START)]) (fun s =>
    bool_decide (readProp s 3 "left" = Some "10%") &&
    run_is (evalAction w_bounds 60 (setv 131 "1%,2%,3%,4%") s) (fun k s' => (k =? 1)%nat && bool_decide (readProp s' 3 "left" = Some "1%"))))%bool
    as (s & Hr & Hs); [apply init_init|vm_compute; reflexivity|].
  splitb Hs. match goal with HH : run_is _ _ = true |- _ => apply run_is_ok in HH as (k & s' & E & Hs') end. splitb Hs'.
  exists w_bounds, s, (setv 131 "1%,2%,3%,4%"), (attr 3 "bounds"), s'.
  split; [apply w_bounds_wf|]. split; [exact Hr|]. split; [reflexivity|]. split; [reflexivity|]. split; [reflexivity|].
  split; [rewrite Hs' in E; exact E|]. split; [discriminate|].
  change (ev_obj (attr 3 "bounds")) with 3%positive. split; [hyp|hyp].
Qed.
Lemma f_C15_refuted_successive : exists D s a b k s1 k' s2, wf_doc D /\ reach D s /\
  ac_evt a = ac_evt b /\ ac_tr a = START /\ ac_tr b = START /\
  (exists ev, d_evt D !! ac_evt a = Some ev /\ ev_type ev = ATTRIBUTION /\ ev_obj ev = 3%positive /\ ev_id ev = "x") /\
  ac_value a = "9" /\ ac_value b = "7" /\
  evalAction D 60 a s = Ok k s1 /\ evalAction D 60 b s1 = Ok k' s2 /\ readProp s2 3 "x" = Some "9".
Proof.
  destruct (check_reach demo demo0 (play ++ [CAct (act 103 START)]) (fun s =>
    run_is (evalAction demo 60 (setv 131 "9") s) (fun k s1 =>
      run_is (evalAction demo 60 (setv 131 "7") s1) (fun k' s2 => bool_decide (readProp s2 3 "x" = Some "9")))))
    as (s & Hr & Hs); [apply init_init|vm_compute; reflexivity|].
  apply run_is_ok in Hs as (k & s1 & E1 & Hs). apply run_is_ok in Hs as (k' & s2 & E2 & Hs). splitb Hs.
  exists demo, s, (setv 131 "9"), (setv 131 "7"), k, s1, k', s2.
  split; [apply demo_wf|]. split; [exact Hr|]. split; [reflexivity|]. split; [reflexivity|]. split; [reflexivity|].
  split; [exists (attr 3 "x"); by repeat split|]. split; [reflexivity|]. split; [reflexivity|].
  split; [exact E1|]. split; [exact E2|]. hyp.
Qed.

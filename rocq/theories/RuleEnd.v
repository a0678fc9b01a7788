(** RuleEnd.v -- C50: the rules of the switches of a parsed document. *)
From Verif Require Import BuildInv BuildOps BuildSpec BuildFacts Frame ParserFrame ParserEnd LtabBody.
From Verif Require Export PortEnd RuleSpec.
Open Scope string_scope.
Open Scope list_scope.

Record ruly (x : xml) (s : pst) : Prop := mkRy { ry_c : cinv s; ry_i : pinv (p_unique s) None [] s; ry_o : ordOk s; ry_u : uqi s; ry_r : rulesN 1 s (elementsOf x) }.
Lemma mv_ruly x s s' : ruly x s -> mv s s' -> ruly x s'.
Proof.
  intros [C I O U R] M. assert (C' : cinv s') by (eapply cfr_cinv; [apply M|done]). destruct (mv_l _ _ M) as [LF _]. pose proof (fr_unique _ _ (mv_f _ _ M)) as EU. split; [done| | | |].
  - rewrite EU. eapply gq_pinv; [exact I|apply M|apply M].
  - by eapply ordOk_lf.
  - eapply uqi_step; [exact LF|done|apply M|exact O|by rewrite EU|exact U].
  - intros y Hy Hr. destruct (R y Hy Hr) as [m Hm]. exists m. eapply (ruleN_step none none); [exact C|exact LF|apply M|apply below_none|reflexivity|exact Hm].
Qed.
Lemma mv_switch s s' y m : cinv s -> GInv (p_graph s) -> mv s s' -> aq s s' -> switchN 1 s y m -> switchN 1 s' y m.
Proof. intros C I M A H. eapply (switchN_step none none 1 1); [exact C|apply (mv_l _ _ M)|exact A|intros n []|apply mv_gm; done|reflexivity|exact H]. Qed.

(** ** One rule. *)
Lemma rulePred_ok b k y P q s : predAt b s P q -> ruleMeans y P -> pw (rulePred k q) (fun r s' => s' = s /\ ruleHolds y r) s.
Proof.
  intros HP HM. unfold rulePred. p1. apply pw_cell. intros x Hx.
  assert (HR : ~ (x_tag y = "compositeRule" /\ List.filter isRule (x_kids y) = []) -> pw (readPred k q) (fun r s' => s' = s /\ ruleHolds y r) s).
  { intros Hn. eapply pw_mono; [by eapply readPred_ok|]. intros r s' [-> ->]. split; [done|]. right. done. }
  inversion HM as [y' t H1 H2 E1 E2|y' c l H1 H2 H3 H4 E1 E2]; subst.
  - destruct HP as (_ & _ & Hc). assert (x = CellAtom ("$__settings__." ++ attrOf "var" y)%string t (attrOf "value" y)) as -> by congruence. apply HR. intros [Hz _]. rewrite H1 in Hz. discriminate Hz.
  - apply predAt_conn in HP as (_ & _ & cs & Hc & HF). assert (x = CellConn c cs) as -> by congruence. destruct cs as [|c0 cs].
    + inversion HF; subst. inversion H4 as [Hz|]; subst. p1. split; [done|]. left. split; [done|]. split; [done|done].
    + apply HR. intros [_ Hz]. rewrite Hz in H4. inversion H4; subst. inversion HF.
Qed.
Lemma rule_found x s y r m re : ruly x s -> y ∈ elementsOf x -> isRule y = true -> aget "id" (x_attrs y) = Some r -> ruleN 1 s y m -> List.find (hasId r) (List.concat (map (tagged s) ["rule"; "compositeRule"])) = Some re -> p_cache s !! m = Some re.
Proof.
  intros [_ _ _ [_ U] _] Hy Hr Hi [(e & He & Het & _ & Ha) _] Hf. apply find_some in Hf as [Hf Eid]. unfold hasId in Eid. destruct (attr re "id") as [j|] eqn:Ej; [|done]. apply String.eqb_eq in Eid as ->.
  assert (X : exists m' t, p_cache s !! m' = Some re /\ el_tag re = t /\ idTag t = true). { cbn in Hf. rewrite app_nil_r in Hf. apply in_app_or in Hf as [Hf|Hf]; apply elem_of_list_In, tagged_in in Hf as (m' & Hm & Hpe & Htp); [exists m', "rule"|exists m', "compositeRule"]; done. }
  destruct X as (m' & t & Hpe & Htp & Hid). assert (m = m') as <-; [|done]. apply (U m m' e re r); try done; [|by rewrite Htp|by rewrite Ha].
  rewrite Het. rewrite isRule_mem in Hr. unfold idTag. apply mem_spec in Hr. repeat (apply elem_of_cons in Hr as [Hr|Hr]; [by rewrite Hr|]). by apply elem_of_nil in Hr.
Qed.

(** ** One switch. *)
Definition ruleGrow (c : oid) (l : list (oid * npred)) (g g' : graph) : Prop := forall o ob', g_obj g' !! o = Some ob' -> exists ob, g_obj g !! o = Some ob /\ ob_rules ob' = ob_rules ob ++ onC o c l.
Lemma ruleGrow_nil c g : ruleGrow c [] g g. Proof. intros o ob H. exists ob. split; [done|]. by rewrite onC_nil, app_nil_r. Qed.
Lemma ruleGrow_add c l g g0 o p : ruleGrow c l g0 g -> pwp (addRule c o p) (fun _ g' => ruleGrow c (l ++ [(o, p)]) g0 g') g.
Proof.
  intros H. apply wp_oupd. intros ob Ho o' ob'. cbn. destruct (decide (c = o')) as [<-|Hn].
  - rewrite lookup_insert. intros [= <-]. destruct (H _ _ Ho) as (ob0 & H0 & E). exists ob0. split; [done|]. cbn. rewrite E. unfold onC. rewrite !decide_True by done. by rewrite app_assoc.
  - rewrite lookup_insert_ne by done. intros Ho'. destruct (H _ _ Ho') as (ob0 & H0 & E). exists ob0. split; [done|]. rewrite E. unfold onC. by rewrite !decide_False by congruence.
Qed.
Definition inGraph (s : pst) (s' : pst) : Prop := exists g, s' = p_set_graph g s.
Lemma switch_id x s c cb : ruly x s -> g_obj (p_graph s) !! c = Some cb -> ob_kind cb = KSwitch -> g_byid (p_graph s) !! ob_id cb = Some c.
Proof.
  intros L Hc Kc. pose proof (pi_g _ _ _ _ (ry_i _ _ L)) as GI. apply (gi_byid _ GI). split; [|eauto]. destruct (pi_orphan _ _ _ _ (ry_i _ _ L) _ _ Hc) as [Hin|[Hin|(Hk & _)]]; [done|by apply elem_of_nil in Hin|congruence].
Qed.
(** ** The rules of one switch, read one after the other. *)
Lemma readPred_pure k : forall q s, pw (readPred k q) (fun _ s' => s' = s) s.
Proof.
  induction k as [|k IH]; intros q s; [apply pw_nofuel|]. cbn [readPred]. p1. apply pw_cell. intros x Hx.
  assert (R : forall cs, pw (pmap (readPred k) cs) (fun _ s' => s' = s) s). { intros cs. apply (pw_map _ _ (fun _ s' => s' = s)); [done|]. intros c ys s' _ ->. apply IH. }
  destruct x as [l t r|c cs]; [by p1|]. p1. eapply pw_mono; [apply R|]. intros r s' ->. cbv beta. destruct c; by p1.
Qed.
Lemma rulePred_pure k q s : pw (rulePred k q) (fun _ s' => s' = s) s.
Proof. unfold rulePred. p1. apply pw_cell. intros x Hx. destruct x as [l t r|c [|c0 cs]]; [apply readPred_pure|by p1|apply readPred_pure]. Qed.
Lemma inGraph_pred b s s' P q : inGraph s s' -> predAt b s P q -> predAt b s' P q.
Proof. intros [g ->] H. eapply (predAt_cf none b b s); [apply cf_same; done|apply below_none|reflexivity|exact H]. Qed.
Lemma rules_read x k c sw s0 : ruly x s0 -> forall Y l lb0 s, inGraph s0 s -> Forall2 (ruleTo (p_graph s0) s0 c sw) Y l -> (forall y, y ∈ Y -> isRuleTag y = true) -> ruleGrow c lb0 (p_graph s0) (p_graph s) ->
  pw (pmap (fun r : nid * option oid => let* be := cacheIndex (fst r) "element" in let* o := pof (snd r) "Parser.cpp:2524" in
    if String.eqb (el_tag be) "defaultComponent" then pret [o] else
    let* ri := pattr be "rule" in let* re := cacheById ["rule"; "compositeRule"] ri in let* re := pofe re EBadAttribute in let* p := udata (el_pred re) in let* q := rulePred k p in lift (addRule c o q) ;;; pret []) l)
    (fun ds s' => inGraph s0 s' /\ exists lb ld, Forall2 (boundRule (p_graph s0) x sw c) (List.filter (tagIs "bindRule") Y) lb /\ Forall2 (fun z o => exists i, aget "component" (x_attrs z) = Some i /\ componentOf (p_graph s0) c i o /\ ownTarget (p_graph s0) sw c i o) (List.filter (tagIs "defaultComponent") Y) ld /\ List.concat ds = ld /\ ruleGrow c (lb0 ++ lb) (p_graph s0) (p_graph s')) s.
Proof.
  intros L. induction Y as [|y Y IH]; intros l lb0 s IG F HT G; inversion F as [|? r ? l' Hy F']; subst; cbn [pmap].
  { p1. split; [done|]. exists [], []. rewrite app_nil_r. split; [constructor|]. split; [constructor|]. done. }
  assert (Hyt : isRuleTag y = true) by (apply HT; left). assert (HT' : forall z, z ∈ Y -> isRuleTag z = true) by (intros z Hz; apply HT; by right).
  destruct Hy as [(be & Hbe & Hbt & _ & Hba) (o & i & Hr & Hti & Hco & Hown)]. assert (Ec : p_cache s = p_cache s0) by (destruct IG as [g ->]; done).
  p1. apply (pw_mono _ (fun ds s' => inGraph s0 s' /\ exists lb ld, Forall2 (boundRule (p_graph s0) x sw c) (List.filter (tagIs "bindRule") [y]) lb /\ Forall2 (fun z o => exists i, aget "component" (x_attrs z) = Some i /\ componentOf (p_graph s0) c i o /\ ownTarget (p_graph s0) sw c i o) (List.filter (tagIs "defaultComponent") [y]) ld /\ ds = ld /\ ruleGrow c (lb0 ++ lb) (p_graph s0) (p_graph s'))).
  - p1. apply pw_index. intros be' Hbe'. rewrite Ec in Hbe'. assert (be' = be) as -> by congruence. p1. p1. match goal with Hz : snd r = Some ?z |- _ => assert (z = o) as -> by congruence end. rewrite Hbt. unfold PortPop.target in Hti. cbn [List.filter]. unfold tagIs in *. destruct (String.eqb_spec (x_tag y) "defaultComponent") as [Hd|Hd].
    + p1. split; [done|]. rewrite Hd in *. cbn [String.eqb Ascii.eqb Bool.eqb] in *. exists [], [o]. split; [constructor|]. split; [constructor; [by exists i|constructor]|]. split; [done|]. by rewrite app_nil_r.
    + unfold isRuleTag in Hyt. apply orb_true_iff in Hyt as [Hyt|Hyt]; apply String.eqb_eq in Hyt; [|congruence]. rewrite Hyt in *. cbn [String.eqb Ascii.eqb Bool.eqb] in *.
      apply pw_bind, pw_attr. intros ri Hri. rewrite Hba in Hri. unfold cacheById. p1. p1. p1. p1. match goal with Hz : List.find _ _ = Some ?z |- _ => rename z into re; rename Hz into Hf end. unfold udata at 1. p1. p1. match goal with Hz : el_pred re = Some ?z |- _ => rename z into q; rename Hz into Hq end.
      assert (Ef : List.find (hasId ri) (List.concat (map (tagged s0) ["rule"; "compositeRule"])) = Some re) by (destruct IG as [g ->]; exact Hf).
      p1. eapply (pw_mono _ (fun r s' => s' = s /\ forall z, z ∈ elementsOf x -> isRule z = true -> aget "id" (x_attrs z) = Some ri -> ruleHolds z r)).
      { apply pw_conj; [apply rulePred_pure|]. unfold pw. destruct (rulePred k q s) as [p s'| | |] eqn:Ep; try done. intros z Hz Hzr Hzi. destruct (ry_r _ _ L z Hz Hzr) as [m Hm]. pose proof (rule_found x s0 z ri m re L Hz Hzr Hzi Hm Ef) as Hre.
        destruct Hm as [_ (e & q' & P & He & Hq' & HP & HM)]. assert (e = re) as -> by congruence. assert (q' = q) as -> by congruence. exact (proj2 (pw_ok _ _ _ _ _ (rulePred_ok 1 k z P q s (inGraph_pred _ _ _ _ _ IG HP) HM) Ep)). }
      intros p s' [-> Hp]. cbv beta. p1. apply pw_lift. eapply wp_mono; [by apply ruleGrow_add|]. intros [] g' G2. cbv beta. p1. split; [destruct IG as [g ->]; by exists g'|]. exists [(o, p)], []. split; [|split; [constructor|done]].
      constructor; [|constructor]. exists i, ri. done.
  - intros ds s1 (IG1 & lb & ld & F1 & F2 & -> & G1). cbv beta. p1. eapply pw_mono; [by apply (IH l' (lb0 ++ lb) s1)|]. intros dss s2 (IG2 & lb2 & ld2 & F3 & F4 & Ed & G2). cbv beta. p1. split; [done|]. exists (lb ++ lb2), (ld ++ ld2).
    change (y :: Y) with ([y] ++ Y). rewrite !List.filter_app. split; [by apply Forall2_app|]. split; [by apply Forall2_app|]. cbn [List.concat]. rewrite Ed. split; [done|]. by rewrite app_assoc.
Qed.
Lemma filter_sub {A} (f g : A -> bool) l : (forall a, f a = true -> g a = true) -> List.filter f (List.filter g l) = List.filter f l.
Proof. intros H. induction l as [|a l IH]; [done|]. cbn [List.filter]. destruct (g a) eqn:Eg; cbn [List.filter]; rewrite IH; [done|]. destruct (f a) eqn:Ef; [|done]. rewrite (H _ Ef) in Eg. discriminate Eg. Qed.
Lemma switch_rules x k y d s : ruly x s -> y ∈ elementsOf x -> x_tag y = "switch" -> switchN 1 s y d ->
  pw (solveSwitch k d) (fun _ s' => exists c lb ld, objectOf (p_graph s) y c /\ Forall2 (boundRule (p_graph s) x y c) (List.filter (tagIs "bindRule") (x_kids y)) lb /\ Forall2 (defaultRule (p_graph s) y c) (List.filter (tagIs "defaultComponent") (x_kids y)) ld /\ ruleGrow c (lb ++ ld) (p_graph s) (p_graph s')) s.
Proof.
  intros L Hy Hs ((e0 & He0 & _ & _ & Ha0) & _ & e & l & c & He & Hl & HF & Ho). assert (e0 = e) as -> by congruence. unfold solveSwitch. p1. apply pw_index. intros e' He'. assert (e' = e) as -> by congruence.
  apply pw_bind, pw_attr. intros i Hi. rewrite Ha0 in Hi. destruct (of_switch _ _ _ Ho Hs) as (cb & Hcb & Kcb & Hid).
  p1. eapply (pw_mono _ (fun o s' => s' = s /\ o = c)).
  { unfold lookupKind. p1. apply pw_lift. unfold glookup. w1. replace (p_set_graph (p_graph s) s) with s by (by destruct s). assert (Hb : g_byid (p_graph s) !! i = Some c) by (assert (i = ob_id cb) as -> by congruence; by eapply switch_id). rewrite Hb. p1. p1. match goal with Hz : Some c = Some ?z |- _ => injection Hz as <- end. apply pw_bind, pw_gobj. intros cb' Hcb'. repeat p1. done. }
  intros c' s' [-> ->]. cbv beta. p1. unfold udata at 1. p1. match goal with Hz : el_rules e = Some ?z |- _ => assert (z = l) as -> by congruence end.
  p1. apply (pw_mono _ (fun ds s' => inGraph s s' /\ exists lb ld, Forall2 (boundRule (p_graph s) x y c) (List.filter (tagIs "bindRule") (x_kids y)) lb /\ Forall2 (fun z o => exists i, aget "component" (x_attrs z) = Some i /\ componentOf (p_graph s) c i o /\ ownTarget (p_graph s) y c i o) (List.filter (tagIs "defaultComponent") (x_kids y)) ld /\ List.concat ds = ld /\ ruleGrow c lb (p_graph s) (p_graph s'))).
  - eapply pw_mono; [apply (rules_read x k c y s L (List.filter isRuleTag (x_kids y)) l [] s); [by exists (p_graph s); destruct s|done| |apply ruleGrow_nil]|].
    + intros z Hz. apply elem_of_list_In, filter_In in Hz as [_ Hz]. exact Hz.
    + intros ds s1 (IG & lb & ld & F1 & F2 & Ed & G). split; [done|]. exists lb, ld. split; [|split; [|done]].
      * assert (E : List.filter (tagIs "bindRule") (List.filter isRuleTag (x_kids y)) = List.filter (tagIs "bindRule") (x_kids y)); [|by rewrite E in F1]. apply filter_sub. intros z Hz. unfold tagIs in Hz. unfold isRuleTag. by rewrite Hz.
      * assert (E : List.filter (tagIs "defaultComponent") (List.filter isRuleTag (x_kids y)) = List.filter (tagIs "defaultComponent") (x_kids y)); [|by rewrite E in F2]. apply filter_sub. intros z Hz. unfold tagIs in Hz. unfold isRuleTag. rewrite Hz. apply orb_true_r.
  - intros ds s1 (_ & lb & ld & F1 & F2 & Ed & G). cbv beta. rewrite Ed. clear Ed.
    apply (pw_each _ _ (fun r s' => exists p, ld = p ++ r /\ ruleGrow c (lb ++ map (fun o => (o, PVerum)) p) (p_graph s) (p_graph s'))).
    + exists []. cbn [map]. by rewrite app_nil_r.
    + intros o r s' _ (p & E & G'). apply pw_lift. eapply wp_mono; [by apply ruleGrow_add|]. intros [] g' G2. exists (p ++ [o]). split; [by rewrite <- app_assoc|]. rewrite map_app. cbn [map]. rewrite app_assoc. exact G2.
    + intros s' (p & E & G'). rewrite app_nil_r in E. subst p. exists c, lb, (map (fun o => (o, PVerum)) ld). split; [done|]. split; [done|]. split; [|done].
      clear -F2. induction F2 as [|z o Y ld (i & Hi & Hc & Hw) F2 IH]; cbn [map]; constructor; [|done]. exists i. done.
Qed.
(** ** All switches. *)
Lemma compiledRules_tm g g' doc y q : tm g g' -> compiledRules g doc y q -> compiledRules g' doc y q.
Proof.
  intros T [Ho (lb & ld & E & F1 & F2)]. split; [by eapply objectOf_tm|]. exists lb, ld. split; [done|]. split.
  - eapply Forall2_impl; [exact F1|]. intros b r (i & j & H1 & H2 & Ho' & H3 & H4). exists i, j. split; [done|]. split; [by eapply componentOf_tm|]. split; [by eapply ownTarget_tm|done].
  - eapply Forall2_impl; [exact F2|]. intros b r (i & H1 & H2 & Ho' & H3). exists i. split; [done|]. split; [by eapply componentOf_tm|]. split; [by eapply ownTarget_tm|done].
Qed.
Definition hasRules (g : graph) (L : list (oid * list (oid * npred))) : Prop := forall o ob, g_obj g !! o = Some ob -> ob_rules ob = List.concat (map snd (List.filter (fun q => bool_decide (fst q = o)) L)).
Lemma hasRules_step g g' L c l : hasRules g L -> ruleGrow c l g g' -> hasRules g' (L ++ [(c, l)]).
Proof.
  intros H HL o ob' Ho. destruct (HL _ _ Ho) as (ob & Hob & E). rewrite E, (H _ _ Hob), List.filter_app, map_app, List.concat_app. f_equal. cbn [List.filter fst]. unfold onC. destruct (decide (o = c)) as [->|Hn]; [rewrite bool_decide_true by done; cbn; by rewrite app_nil_r|by rewrite bool_decide_false by congruence].
Qed.
Lemma hasRules_nh g g' L : hasRules g L -> nh g g' -> hasRules g' L.
Proof. intros H [_ N] o ob' Ho. destruct (N _ _ Ho) as (ob & Hob & E). unfold hang in E. injection E as _ _ E. rewrite E. by apply H. Qed.
Definition step3 (s s' : pst) : Prop := mv s s' /\ aq s s' /\ sh s s'.
Lemma step3_each {A} (f : A -> P unit) l s : (forall a, km (f a)) -> (forall a, ka (f a)) -> (forall a, kr sh (f a)) -> GInv (p_graph s) -> pw (peach f l) (fun _ s' => step3 s s') s.
Proof.
  intros K B N I. apply pw_conj; [|apply pw_conj; [by apply (kr_each aq)|by apply (kr_each sh)]]. apply pw_each_inv; [by apply mv_refl|]. intros a s1 _ M. eapply pw_mono; [apply K; eapply gg_inv; apply (mv_g _ _ M)|]. intros [] s2 M2. by eapply mv_trans.
Qed.
Lemma popNcl_rules E k x s : hready x s -> pw (popNcl E k) (fun _ s' => rulesCompiled (p_graph s') x) s.
Proof.
  intros R. assert (L : ruly x s) by (split; apply R). destruct (hr_hg _ _ R) as (L1 & L2 & HGx & _). pose proof (hr_sw _ _ R) as SW. clear R. pose proof (pi_g _ _ _ _ (ry_i _ _ L)) as I. unfold popNcl. cbv zeta.
  p1. p1. p1. eapply pw_mono; [apply pw_conj; [apply (mv_descriptors E s (ry_c _ _ L) I)|apply pw_conj; [apply (kr_each aq); intros d; apply ka_descriptor|apply (kr_each sh); intros d; apply sh_descriptor]]|]. intros [] s1 [[M1 _] [A1 N1]]. cbv beta. pose proof (mv_ruly _ _ _ L M1) as Ly1.
  p1. p1. p1. eapply pw_mono; [apply step3_each; [apply km_media|apply ka_media|apply sh_media|apply (pi_g _ _ _ _ (ry_i _ _ Ly1))]|]. intros [] s2 (M2 & A2 & N2). cbv beta. pose proof (mv_ruly _ _ _ Ly1 M2) as Ly2.
  assert (M : mv s s2) by (by eapply mv_trans). assert (A : aq s s2) by (eapply (pr_trans (R := aq)); eauto). 
  assert (H0 : hasRules (p_graph s2) []). { intros o ob Ho. destruct N2 as [_ N2]. destruct (N2 _ _ Ho) as (ob1 & Hob1 & E1). destruct N1 as [_ N1]. destruct (N1 _ _ Hob1) as (ob0 & Hob0 & E0). unfold hang in E0, E1. injection E0 as _ _ E0. injection E1 as _ _ E1. rewrite E1, E0. cbn. by apply (hg_obj _ _ _ HGx _ _ Hob0). }
  assert (F0 : Forall2 (switchN 1 s2) (switchesOf x) (nodesOf "switch" s2)). { rewrite (mv_nodes _ s s2); [|apply L|done]. eapply Forall2_impl; [exact SW|]. intros y m. apply mv_switch; try done. apply L. }
  clear - Ly2 H0 F0. p1. p1. p1. rewrite (nodes_spec "switch" s2) by apply Ly2.
  eapply (pw_mono _ (fun _ s' => ruly x s' /\ rulesCompiled (p_graph s') x)).
  { apply (pw_each _ _ (fun l s' => ruly x s' /\ exists P R L, switchesOf x = P ++ R /\ Forall2 (switchN 1 s') R l /\ Forall2 (compiledRules (p_graph s') x) P L /\ hasRules (p_graph s') L)).
    - split; [done|]. exists [], (switchesOf x), []. split; [done|]. split; [done|]. split; [constructor|done].
    - intros d l s' _ (L' & P & R & Lk & E1 & F & F2 & HL). inversion F as [|p m R' l' Hp F' E2 E3]; subst.
      assert (Hpx : p ∈ elementsOf x /\ x_tag p = "switch"). { assert (Hin : p ∈ switchesOf x) by (rewrite E1; apply elem_of_app; right; left). unfold switchesOf in Hin. apply elem_of_list_In, filter_In in Hin as [H1 H2]. split; [by apply elem_of_list_In|]. by apply String.eqb_eq. }
      eapply pw_mono; [apply pw_conj; [apply (km_switch k d s'); apply (pi_g _ _ _ _ (ry_i _ _ L'))|apply pw_conj; [apply (ka_switch k d s')|apply (switch_rules x k p d s' L' (proj1 Hpx) (proj2 Hpx) Hp)]]|]. intros [] s'' [M [A (c & lb & ld & Ho & FB & FD & G)]].
      assert (T : tm (p_graph s') (p_graph s'')) by (apply mv_gm; [apply (pi_g _ _ _ _ (ry_i _ _ L'))|done]).
      split; [by eapply mv_ruly|]. exists (P ++ [p]), R', (Lk ++ [(c, lb ++ ld)]). split; [rewrite E1, <- app_assoc; done|]. split; [eapply Forall2_impl; [exact F'|]; intros z m; apply mv_switch; try done; [apply L'|apply (pi_g _ _ _ _ (ry_i _ _ L'))]|]. split; [|by eapply hasRules_step].
      apply Forall2_app; [eapply Forall2_impl; [exact F2|]; intros; by eapply compiledRules_tm|]. constructor; [|constructor]. eapply compiledRules_tm; [exact T|]. split; [done|]. exists lb, ld. done.
    - intros s' (L' & P & R & Lk & E1 & F & F2 & HL). inversion F; subst. rewrite app_nil_r in E1. subst P. split; [done|]. by exists Lk. }
  intros [] s3 [Ly3 (Lk & F & HL)]. cbv beta. p1. p1. p1. eapply pw_mono; [apply step3_each; [apply km_link|apply ka_link|apply sh_link|apply (pi_g _ _ _ _ (ry_i _ _ Ly3))]|]. intros [] s4 (M4 & _ & N4). cbv beta.
  assert (G4 : rulesCompiled (p_graph s4) x). { exists Lk. split; [|by eapply hasRules_nh]. eapply Forall2_impl; [exact F|]. intros y q. apply compiledRules_tm. apply mv_gm; [apply (pi_g _ _ _ _ (ry_i _ _ Ly3))|done]. }
  p1. p1. p1. p1. unfold opop. repeat p1. exact G4.
Qed.
Lemma f_C50 E k addr focus z w h x s : parse E k addr focus z w h x = POk tt s -> settingsPlain x -> rulesCompiled (p_graph s) x.
Proof.
  intros H Hx. pose proof (plain_odd _ _ _ _ _ _ _ _ _ H Hx) as Ho. apply parse_inv in H.
  assert (G : pw (lift newDocument ;;; processNode E k None x) (fun _ s => p_odd s = true \/ rulesCompiled (p_graph s) x) (initial addr focus z w h)).
  { clear. p1. eapply pw_mono; [apply pw_conj; [apply start_good|apply pw_conj; [apply start_lam|apply start_hg]]|]. intros [] s0 [(G0 & C0 & Ca0 & R0 & U0 & O0 & A0) [[L0 S0] (N0 & Or0)]].
    assert (I0 : pinv (p_unique s0) None [] s0) by (destruct G0 as [G0|G0]; [congruence|done]).
    destruct k as [|k]; [done|]. apply root_hang; try done.
    - split; [intros e ev ob He Ht _ _; left; by eapply L0|]. rewrite R0. intros k' m Hk. discriminate Hk.
    - intros s5 R5. by apply popNcl_rules. }
  destruct (pw_ok _ _ _ _ _ G H) as [H1|H1]; [|done]. rewrite Ho in H1. discriminate H1.
Qed.

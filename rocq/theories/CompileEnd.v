(** CompileEnd.v -- C42: the links of a whole document. *)
From Verif Require Import BuildInv BuildOps BuildSpec BuildFacts Frame ParserFrame ParserEnd.
From Verif Require Export CompileWith.
Open Scope string_scope.
Open Scope list_scope.

Lemma linked_one c lk lk' g g' : is_Some (g_obj g' !! c) -> linked c lk g g' -> linked c lk' g g' -> lk = lk'.
Proof.
  intros [ob' Ho] H1 H2. destruct (H1 _ _ Ho) as (ob1 & A1 & B1). destruct (H2 _ _ Ho) as (ob2 & A2 & B2). assert (ob2 = ob1) as -> by congruence. rewrite bool_decide_true in B1, B2 by done. rewrite B1 in B2. by apply app_inj_tail in B2 as [_ B2].
Qed.
Lemma solve_ok x k d p s : live x s -> linkN 1 s p d -> pw (solveLink k d) (fun _ s' => mv s s' /\ exists q, linked (fst q) (snd q) (p_graph s) (p_graph s') /\ compiledLink (p_graph s') x p q) s.
Proof.
  intros L (c & Hl & Ho).
  assert (HA : pw (solveLink k d) (fun _ s' => forall cx, cx ∈ elementsOf x -> x_tag cx = "causalConnector" -> aget "id" (x_attrs cx) = aget "xconnector" (x_attrs (snd p)) ->
     exists lk, linked c lk (p_graph s) (p_graph s') /\ compiledWith (p_graph s') x c (snd p) cx lk) s).
  { unfold pw. destruct (solveLink k d s) as [[] s'| | |] eqn:E; try done. intros cx H1 H2 H3. exact (pw_ok _ _ _ _ _ (solve_compiled x k d (snd p) c cx s L Hl H1 H2 H3) E). }
  eapply pw_mono; [apply pw_conj; [by apply (solve_links x k d (snd p) c s)|exact HA]|].
  intros [] s' [(M & lk & HL & HC) HX]. split; [done|]. exists (c, lk). split; [done|]. split; [eapply objectOf_tm; [|exact Ho]; apply mv_gm; [apply L|done]|]. intros cx H1 H2 H3. destruct (HX cx H1 H2 H3) as (lk' & HL' & HW). cbn [fst snd] in *.
  by rewrite (linked_one _ _ _ _ _ HC HL HL').
Qed.
Definition hasLinks (g : graph) (L : list (oid * (list action * list action))) : Prop := forall o ob, g_obj g !! o = Some ob -> ob_links ob = map snd (List.filter (fun q => bool_decide (fst q = o)) L).
Lemma hasLinks_step g g' L q : hasLinks g L -> linked (fst q) (snd q) g g' -> hasLinks g' (L ++ [q]).
Proof.
  intros H HL o ob' Ho. destruct (HL _ _ Ho) as (ob & Hob & E). rewrite E, (H _ _ Hob), List.filter_app, map_app. f_equal. cbn [List.filter]. destruct (bool_decide (fst q = o)); done.
Qed.
Lemma hasLinks_nl g g' L : hasLinks g L -> nl g g' -> hasLinks g' L.
Proof. intros H N o ob' Ho. destruct (N _ _ Ho) as (ob & Hob & E). rewrite E. by apply H. Qed.
Lemma mv_descriptors E s : cinv s -> GInv (p_graph s) -> pw (peach (solveDescriptor E) (map el_node (tagged s "descriptor"))) (fun _ s' => mv s s' /\ sl s s') s.
Proof.
  intros C I. assert (Q : pw (peach (solveDescriptor E) (map el_node (tagged s "descriptor"))) (fun _ s' => quiet s s') s).
  { apply pw_each_inv; [apply quiet_refl|]. intros d s1 Hd Q. destruct (tagged_node _ _ _ C Hd) as (e & He & Ht). eapply pw_mono; [apply quiet_descriptor|].
    - eapply notMedia_cfr; [apply Q|]. intros e' He'. assert (e' = e) as -> by congruence. by rewrite Ht.
    - intros [] s2 Q2. by eapply quiet_trans. }
  assert (F : pw (peach (solveDescriptor E) (map el_node (tagged s "descriptor"))) (fun _ s' => fr s s') s).
  { apply pw_each_inv; [apply fr_refl|]. intros d s1 Hd F. eapply pw_mono; [apply keep_descriptor|]. intros [] s2 F2. by eapply fr_trans. }
  eapply pw_mono; [apply pw_conj; [exact Q|apply pw_conj; [exact F|apply pw_conj; [by apply lq_descriptors|apply pw_conj; [apply (kr_each po); intros d; apply kw_descriptor|apply (kr_each cq); intros d; apply kx_descriptor]]]]|].
  intros [] s' [Q' [F' [L' [O' X']]]]. split; [split; try done; [by apply gg_quiet|by apply ns_quiet|apply Q']|]. unfold sl. rewrite (proj1 (proj2 Q')). apply nl_refl.
Qed.
Lemma mv_each {A} (f : A -> P unit) l s : (forall a, km (f a)) -> (forall a, kr sl (f a)) -> GInv (p_graph s) -> pw (peach f l) (fun _ s' => mv s s' /\ sl s s') s.
Proof.
  intros K N I. apply pw_conj; [|by apply (kr_each sl)]. apply pw_each_inv; [by apply mv_refl|]. intros a s1 _ M. eapply pw_mono; [apply K; eapply gg_inv; apply (mv_g _ _ M)|]. intros [] s2 M2. by eapply mv_trans.
Qed.
Lemma popNcl_links E k x s : ready x s -> pw (popNcl E k) (fun _ s' => linksCompiled (p_graph s') x) s.
Proof.
  intros [RC RI RT RU RO RL RP RN R0]. assert (L : live x s) by (by split). pose proof (pi_g _ _ _ _ RI) as I. unfold popNcl. cbv zeta.
  p1. p1. p1. eapply pw_mono; [by apply mv_descriptors|]. intros [] s1 [M1 N1]. cbv beta. pose proof (mv_live _ _ _ L M1) as L1.
  p1. p1. p1. eapply pw_mono; [apply mv_each; [apply km_media|apply sl_media|apply L1]|]. intros [] s2 [M2 N2]. cbv beta. pose proof (mv_live _ _ _ L1 M2) as L2. 
  p1. p1. p1. eapply pw_mono; [apply mv_each; [apply km_switch|apply sl_switch|apply L2]|]. intros [] s3 [M3 N3]. cbv beta. pose proof (mv_live _ _ _ L2 M3) as L3.
  assert (M : mv s s3) by (eapply mv_trans; [exact M1|]; by eapply mv_trans). assert (N : nl (p_graph s) (p_graph s3)) by (eapply nl_trans; [exact N1|]; by eapply nl_trans).
  assert (H0 : hasLinks (p_graph s3) []). { intros o ob Ho. destruct (N _ _ Ho) as (ob0 & Hob & ->). by apply (R0 _ _ Hob). }
  assert (F0 : Forall2 (linkN 1 s3) (linksOf x) (nodesOf "link" s3)). { rewrite (mv_nodes _ s s3); [|done|done]. eapply Forall2_impl; [exact RL|]. intros p m. by apply (mv_link s s3 x m L). }
  clear - L3 H0 F0. p1. p1. p1. rewrite (nodes_spec "link" s3) by apply L3.
  eapply (pw_mono _ (fun _ s' => linksCompiled (p_graph s') x)).
  { apply (pw_each _ _ (fun l s' => live x s' /\ exists P R L, linksOf x = P ++ R /\ Forall2 (linkN 1 s') R l /\ Forall2 (compiledLink (p_graph s') x) P L /\ hasLinks (p_graph s') L)).
    - split; [done|]. exists [], (linksOf x), []. split; [done|]. split; [done|]. split; [constructor|done].
    - intros d l s' _ (L' & P & R & Lk & E1 & F & F2 & HL). inversion F as [|p m R' l' Hp F' E2 E3]; subst. eapply pw_mono; [apply (solve_ok x k d p s' L' Hp)|]. intros [] s'' (M & q & Hq & Hc). split; [by eapply mv_live|].
      exists (P ++ [p]), R', (Lk ++ [q]). split; [rewrite E1, <- app_assoc; done|]. split; [eapply Forall2_impl; [exact F'|]; intros z m; by apply (mv_link s' s'' x m L')|]. split; [|by eapply hasLinks_step].
      apply Forall2_app; [|by constructor]. eapply Forall2_impl; [exact F2|]. intros a b. apply compiledLink_gm. apply mv_gm; [apply L'|done].
    - intros s' (_ & P & R & Lk & E1 & F & F2 & HL). inversion F; subst. rewrite app_nil_r in E1. subst P. by exists Lk. }
  intros [] s4 H. cbv beta. p1. p1. p1. p1. unfold opop. repeat p1. exact H.
Qed.
Lemma start_none addr focus z w h : pw (lift newDocument) (fun _ s => noLinks (p_graph s) /\ p_order s = [] /\ p_conn s = None) (initial addr focus z w h).
Proof.
  apply pw_lift. eapply (wp_mono _ _ _ (fun _ g' => n0 (emptyGraph addr focus) g')).
  2: { intros [] g' H. split; [|done]. eapply noLinks_n0; [exact H|]. intros o ob. cbn. by rewrite lookup_empty. }
  unfold newDocument. w1. eapply wp_mono; [apply n0_newObject|]. intros r g1 N1. cbv beta. w1. w1. w1. eapply wp_mono; [apply nl_addObject|]. intros b g2 N2. cbv beta. w1. w1. w1.
  eapply wp_mono; [apply n0_newObject|]. intros b1 g3 N3. cbv beta. w1. eapply wp_mono; [apply nl_addChild|]. intros [] g4 N4. cbv beta. w1.
  eapply n0_trans; [exact N1|]. eapply n0_trans; [apply nl_n0; exact N2|]. eapply n0_trans; [exact N3|]. apply nl_n0. exact N4.
Qed.
Lemma f_C42 E k addr focus z w h x s : parse E k addr focus z w h x = POk tt s -> settingsPlain x -> linksCompiled (p_graph s) x.
Proof.
  intros H Hx. pose proof (plain_odd _ _ _ _ _ _ _ _ _ H Hx) as Ho. apply parse_inv in H.
  assert (G : pw (lift newDocument ;;; processNode E k None x) (fun _ s => p_odd s = true \/ linksCompiled (p_graph s) x) (initial addr focus z w h)).
  { clear. p1. eapply pw_mono; [apply pw_conj; [apply start_good|apply pw_conj; [apply start_lam|apply start_none]]|]. intros [] s0 [(G0 & C0 & Ca0 & R0 & U0 & O0 & A0) [[L0 S0] (N0 & Or0 & Cn0)]].
    assert (I0 : pinv (p_unique s0) None [] s0) by (destruct G0 as [G0|G0]; [congruence|done]).
    destruct k as [|k]; [done|]. apply root_rule; try done.
    - split; [intros e ev ob He Ht _ _; left; by eapply L0|]. rewrite R0. intros k' m Hk. discriminate Hk.
    - intros s5 R5. by apply popNcl_links. }
  destruct (pw_ok _ _ _ _ _ G H) as [H1|H1]; [|done]. rewrite Ho in H1. discriminate H1.
Qed.

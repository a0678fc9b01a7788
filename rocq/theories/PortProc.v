(** PortProc.v -- C49, C50: the ports, switchPorts and rules of the elements of a document. *)
From Verif Require Import BuildInv BuildOps BuildSpec BuildFacts Frame ParserFrame ParserEnd LtabBody.
From Verif Require Export PortTree.
Open Scope string_scope.
Open Scope list_scope.

Lemma process_portsIn E k doc up px x s : cinv s -> Par s up -> ordOk s -> p_alias s = [] -> upAs s up px -> portsIn doc s -> x ∈ elementsOf doc -> px ∈ elementsOf doc -> x ∈ x_kids px ->
  pw (processNode E k up x) (fun _ s' => portsIn doc s') s.
Proof.
  intros C Hp O Ha Hu HP Hx Hpx Hk. eapply pw_mono; [apply pw_conj; [apply (process_ports E k up px x s); done|by apply process_lf]|]. intros [] s' [H [L _]] m Hm. destruct (H m Hm) as [Hm'|(p & x' & H1 & [[-> ->]|[H2 H3]])].
  - destruct (HP m Hm') as (p & x' & H1 & H2). exists p, x'. split; [by eapply portAt_lf|done].
  - exists x, px. split; [exact H1|]. split; [exact Hpx|exact Hk].
  - exists p, x'. split; [exact H1|]. split; [|exact H3]. exact (elements_in _ _ _ Hx H2).
Qed.
Lemma uqi_mid up x s sy attrs s1 e s4 : checked true (option_map snd up) x s sy attrs s1 -> sy_push sy <> PuImport -> ordOk s -> cinv s4 -> mid up x s sy attrs e s4 -> p_unique s1 ⊆ p_unique s4 -> p_unique s ⊆ p_unique s4 -> uqi s -> uqi s4.
Proof.
  intros K1 D O C4 M4 HU HU0 [U1 U2].
  assert (B : forall n e' i, p_cache s4 !! n = Some e' -> idTag (el_tag e') = true -> attr e' "id" = Some i -> (exists e, p_cache s !! n = Some e /\ idTag (el_tag e) = true /\ attr e "id" = Some i /\ i ∈ p_unique s) \/ (n = p_next s /\ i ∉ p_unique s /\ i ∈ p_unique s4)).
  { intros n e' i He Ht Ha. destruct (C4 _ _ He) as (_ & _ & Hin). rewrite (mi_order _ _ _ _ _ _ _ M4 D) in Hin. apply elem_of_app in Hin as [Hin|Hin].
    - left. destruct (lf_back _ _ _ _ _ (mi_lf _ _ _ _ _ _ _ M4) He (O _ Hin)) as (e1 & He0 & Hi). exists e1. split; [done|]. destruct (ident_idt _ _ _ Hi Ht Ha) as [X1 X2]. split; [done|]. split; [done|]. by eapply U1.
    - right. destruct (sy_cache sy) eqn:Ec; [|by apply elem_of_nil in Hin]. apply elem_of_list_singleton in Hin as ->. destruct (mi_elt _ _ _ _ _ _ _ M4 Ec) as (X1 & X2 & X3). assert (e' = e) as -> by congruence. split; [done|].
      assert (Hx : idTag (x_tag x) = true) by congruence. destruct (idTag_syn _ _ (ck_syn _ _ _ _ _ _ _ K1) Hx) as (Z1 & Z2 & Z3). unfold attr in Ha. rewrite X3 in Ha by done. destruct (checked_id _ _ _ _ _ _ _ K1 Z3 Ha) as [Y1 Y2]. split; [done|]. by apply HU. }
  split.
  - intros n e' i He Ht Ha. destruct (B _ _ _ He Ht Ha) as [(e1 & X1 & X2 & X3 & X4)|(X1 & X2 & X3)]; [by apply HU0|done].
  - intros n m e1 e2 i He He' Ht Ht' Ha Ha'. destruct (B _ _ _ He Ht Ha) as [(f1 & X1 & X2 & X3 & X4)|(X1 & X2 & X3)]; destruct (B _ _ _ He' Ht' Ha') as [(f2 & Y1 & Y2 & Y3 & Y4)|(Y1 & Y2 & Y3)]; [by eapply U2|done|done|congruence].
Qed.
Lemma ncl_orphan t : possibleChild t "ncl" = true -> False.
Proof. intros H. vm_compute in H. discriminate H. Qed.
Lemma process_hang E k doc : forall up px x s, cinv s -> Par s up -> pinv (p_unique s) None [] s -> p_alias s = [] -> tinv (p_unique s) s -> ordOk s -> uqi s ->
  (option_map snd up = Some "ncl" -> forall o rest, p_objs s = o :: rest -> g_root (p_graph s) = Some o) -> upAs s up px -> portsIn doc s -> x ∈ elementsOf doc -> px ∈ elementsOf doc -> x ∈ x_kids px -> x_tag x <> "ncl" ->
  pw (processNode E k up x) (fun _ s' => p_odd s' = true \/ PK doc x s s') s.
Proof.
  induction k as [|k IH]; intros up px x s C Hp I Ha T O Uq Hb Hu Hpi Hxd Hpd Hxk Hxn; [apply pw_nofuel|].
  destruct (mem (x_tag x) headTags) eqn:Eh.
  { eapply pw_mono; [apply pw_conj; [by apply process_lf|apply pw_conj; [by apply process_headnodes|apply pw_conj; [apply process_heads|by apply process_still]]]|]. intros [] s' [[L _] [Hn [Hh [Eg _]]]]. right. destruct (head_none _ (Hh Eh)) as (H1 & H2 & H3).
    intros L0 L20 HL. exists [], [], []. rewrite !app_nil_r, Eg, H1, H2, H3. split; [done|]. split; [constructor|]. split; [constructor|]. split; [by apply (newIn_nodes isHead _ "switch" s s' L O Hn)|constructor]. }
  apply process_rule2; [done|done|]. intros sy attrs s1 K1 Hn.
  destruct (checked_fresh _ _ _ _ _ _ _ K1) as (_ & Hn2 & Hc & Ho2 & Hcn2 & _ & _ & Ha2). rewrite Hn in *.
  assert (Eg2 : p_graph (p_set_next (Pos.succ (p_next s)) s1) = p_graph s) by (destruct (ck_state _ _ _ _ _ _ _ K1) as [g ->]; done).
  assert (G1 : grows s (p_set_next (Pos.succ (p_next s)) s1)) by (rewrite <- Hn at 1; exact (checked_grows _ _ _ _ _ _ _ K1)).
  assert (Hni : sy_push sy <> PuImport). { intros Hi. rewrite (import_head _ _ (ck_syn _ _ _ _ _ _ _ K1) Hi) in Eh. done. }
  pose proof (push_tree E (pushImport E (processNode E k)) _ x s sy attrs s1 I T Ha K1 Eh) as PT. rewrite Hn in PT.
  set (s2 := p_set_next _ _) in *. set (e0 := newElt _ _ _ _) in *.
  eapply pw_mono; [apply pw_conj; [apply PT|apply pw_conj; [apply (grows_push E (processNode E k)); intros up' x' s'; eapply pw_mono; [apply process_ids|]; intros [] s'' (J1 & J2 & _); by split|apply pw_conj; [apply (sh0_push E (pushImport E (processNode E k)) (sy_push sy) e0 Hni)|apply pw_conj; [apply (push_up E (pushImport E (processNode E k))); intros; apply import_shape|apply push_empty]]]]|].
  { intros Hx o rest Ho. pose proof (ck_syn _ _ _ _ _ _ _ K1) as Es. rewrite Hx in Es. vm_compute in Es. injection Es as <-.
    destruct (ck_up _ _ _ _ _ _ _ K1) as [Hz|(u & Hz & Hi)]; [done|]. apply elem_of_list_singleton in Hi as ->. by apply (Hb Hz o rest). }
  clear PT. intros e s3 [H3 [G3 [S3 [U3 [V3 W3]]]]]. cbv beta in *. cbn [el_up newElt e0] in U3. unfold sh0 in S3. rewrite Eg2 in S3. eapply pw_mono; [apply pw_conj; [apply hd_cache|apply pw_conj; [apply (kr_when os), ko_cacheAdd|apply keep_when, keep_cacheAdd]]|].
  intros [] s4 [D4 [[O4 R4] F4]] P4 Pr4 M4. cbv beta in *. assert (S4 : h0 (p_graph s) (p_graph s4)) by (rewrite (proj1 D4); exact S3).
  assert (G4 : grows s s4) by (eapply grows_trans; [exact G1|]; eapply grows_trans; [exact G3|by apply grows_fr]).
  assert (H4 : p_odd s4 = true \/ (pinv (p_unique s4) None [] s4 /\ pt (p_unique s4) x s s4)).
  { destruct H3 as [H3|H3]; [left; congruence|]. destruct (po_g _ _ P4 (or_intror I)) as [G|G]; [by left|]. right. split; [done|].
    assert (GI : GInv (p_graph s3)) by (rewrite <- (proj1 D4); apply G).
    assert (HU : p_unique s1 ⊆ p_unique s4). { change (p_unique s1) with (p_unique s2). destruct G3 as [_ G3]. rewrite (fr_unique _ _ F4). done. }
    eapply (pt_hd _ _ _ s3); [done| |done|done]. destruct H3 as [A B D F G']. split; try done. by eapply tinv_mono; [|exact B|..]. }
  assert (N4 : nodesOf "switch" s4 = nodesOf "switch" s ++ (if tagIs "switch" x then [p_next s] else [])).
  { rewrite (nodes_new _ "switch" s s4 _ (mi_lf _ _ _ _ _ _ _ M4) O (mi_order _ _ _ _ _ _ _ M4 Hni)). f_equal. unfold tagIs. destruct (sy_cache sy) eqn:Eca.
    - destruct (mi_elt _ _ _ _ _ _ _ M4 Eca) as (X1 & X2 & _). cbn. unfold isTag. rewrite X1, X2. done.
    - cbn. destruct (String.eqb_spec (x_tag x) "switch") as [Hx|_]; [|done]. pose proof (ck_syn _ _ _ _ _ _ _ K1) as Es. rewrite Hx in Es. vm_compute in Es. injection Es as <-. discriminate Eca. }
  assert (Hmn : p_unique s1 ⊆ p_unique s4). { change (p_unique s1) with (p_unique s2). destruct G3 as [_ G3]. rewrite (fr_unique _ _ F4). done. }
  assert (C4 : cinv s4) by apply P4.
  assert (Uq4 : uqi s4) by (eapply (uqi_mid up x s sy attrs s1 e s4); [exact K1|exact Hni|exact O|exact C4|exact M4|exact Hmn|apply G4|exact Uq]).
  assert (E4 : sy_cache sy = true -> sy_push sy <> PuRegion -> p_cache s4 !! p_next s = Some e /\ el_tag e = x_tag x /\ (x_tag x <> "link" -> forall k0, attr e k0 = aget k0 (x_attrs x))).
  { intros Hca Hre. destruct (mi_elt _ _ _ _ _ _ _ M4 Hca) as (X1 & X2 & X3). split; [done|]. split; [done|]. intros Hl k0. apply (checked_same _ _ _ _ _ _ e K1 Ha); [by apply X3|by right]. }
  assert (U4 : upAs s4 (Some (p_next s, x_tag x)) x).
  { intros u t [= <- <-]. split; [done|]. intros Ht. exists e. pose proof (ck_syn _ _ _ _ _ _ _ K1) as Es. destruct Ht as [Ht|Ht]; rewrite Ht in Es; vm_compute in Es; injection Es as <-; (destruct (E4 eq_refl) as (X1 & X2 & X3); [done|]; split; [done|]; split; [congruence|]; apply X3; by rewrite Ht). }
  assert (CA4 : compTag x = true -> compAt s4 x [] (p_next s)).
  { intros Hct. pose proof (ck_syn _ _ _ _ _ _ _ K1) as Es. destruct (compTag_cases _ Hct) as [Ht|Ht].
    - assert (D : sy_cache sy = true /\ sy_push sy = PuContext) by (destruct Ht as [Ht|Ht]; rewrite Ht in Es; vm_compute in Es; by injection Es as <-). destruct D as [D1 D2]. destruct (E4 D1) as (X1 & X2 & X3); [by rewrite D2|]. split.
      + exists e. split; [done|]. split; [done|]. split; [destruct Ht as [Ht|Ht]; rewrite Ht; done|]. apply X3. destruct Ht as [Ht|Ht]; rewrite Ht; done.
      + intros _. exists e, []. split; [done|]. split; [by apply V3|constructor].
      + intros Hz. destruct Ht; congruence.
      + intros Hz. destruct Ht; congruence.
    - assert (D : sy_cache sy = true /\ sy_push sy = PuSwitch) by (rewrite Ht in Es; vm_compute in Es; by injection Es as <-). destruct D as [D1 D2]. destruct (E4 D1) as (X1 & X2 & X3); [by rewrite D2|]. destruct (W3 D2) as [W W']. split.
      + exists e. split; [done|]. split; [done|]. split; [rewrite Ht; done|]. apply X3. rewrite Ht; done.
      + intros Hz. destruct Hz; congruence.
      + intros _. exists e, []. split; [done|]. split; [done|constructor].
      + intros _. exists e, []. split; [done|]. split; [done|constructor]. }
  assert (PI4 : portsIn doc s4).
  { intros m Hm. rewrite (nodes_new _ "port" s s4 _ (mi_lf _ _ _ _ _ _ _ M4) O (mi_order _ _ _ _ _ _ _ M4 Hni)) in Hm. apply elem_of_app in Hm as [Hm|Hm].
    { destruct (Hpi m Hm) as (p & x' & Hq & Hq'). exists p, x'. split; [|exact Hq']. eapply portAt_lf; [exact C|apply M4|exact Hq]. }
    apply elem_of_list_In, filter_In in Hm as [Hm Hmt]. apply elem_of_list_In in Hm. destruct (sy_cache sy) eqn:Eca; [|by apply elem_of_nil in Hm]. apply elem_of_list_singleton in Hm as ->.
    destruct (mi_elt _ _ _ _ _ _ _ M4 Eca) as (X1 & X2 & _). unfold isTag in Hmt. rewrite X1, X2 in Hmt. apply String.eqb_eq in Hmt.
    pose proof (ck_syn _ _ _ _ _ _ _ K1) as Es. rewrite Hmt in Es. vm_compute in Es. injection Es as <-. destruct (E4 eq_refl) as (_ & _ & X3); [done|]. specialize (X3 ltac:(rewrite Hmt; done)).
    destruct (ck_up _ _ _ _ _ _ _ K1) as [Hz|(t & Ht & Hi)]; [done|]. destruct up as [[u t']|]; [|done]. cbn in Ht. injection Ht as ->. cbn in Hi.
    assert (Ht : t = "body" \/ t = "context") by (apply elem_of_cons in Hi as [Hi|Hi]; [tauto|]; apply elem_of_list_singleton in Hi; tauto). destruct (upAs_lf _ _ _ _ _ C (mi_lf _ _ _ _ _ _ _ M4) Hu u t eq_refl) as [H1 H2]. destruct (H2 Ht) as (ue & Hue & Hut & Hua).
    exists x, px. split; [|split; [exact Hpd|exact Hxk]]. exists e, u, ue. split; [done|]. split; [congruence|]. split; [done|]. split; [exact U3|]. split; [done|]. split; [congruence|]. split; [done|]. split; [|done]. destruct Ht; [left|right]; congruence. }
  assert (Od4 : ordOk s4) by (eapply ordOk_lf; [apply M4|done]).
  assert (Hlt : (p_next s < p_next s4)%positive) by (destruct (Pr4 _ _ eq_refl); done).
  assert (A4 : p_alias s4 = []) by (by rewrite (proj1 G4)).
  assert (Hkn : forall y, y ∈ x_kids x -> x_tag y <> "ncl").
  { intros y Hy Hz. pose proof (ck_kids _ _ _ _ _ _ _ K1 y Hy) as Hq. rewrite Hz in Hq. exact (ncl_orphan _ Hq). }
  clearbody s2. clear H3 S3 F4 D4 R4 G3 G1 Eg2 V3 W3 E4 U3 Hc Ho2 Hcn2 Ha2 Hn2.
  eapply pw_mono; [apply (kids_rule E k _ _ _ s4 (fun l s' => cinv s' /\ p_alias s' = [] /\ ordOk s' /\ uqi s' /\ upAs s' (Some (p_next s, x_tag x)) x /\ (p_next s4 <= p_next s')%positive /\ portsIn doc s' /\ (exists p, x_kids x = p ++ l /\ (compTag x = true -> compAt s' x p (p_next s)) /\
     (p_odd s' = true \/ (pinv (p_unique s') None [] s' /\ pt (p_unique s4) x s s4 /\ tm (p_graph s4) (p_graph s') /\ p_objs s' = p_objs s4 /\ tinv (p_unique s') s' /\ (forall y, y ∈ p -> inTop s4 (p_graph s') y) /\
        forall L0 L20, HG L0 L20 (p_graph s) -> exists L L2 l0, HG (L0 ++ L) (L20 ++ L2) (p_graph s') /\ Forall2 (compiledPort (p_graph s') doc) (flat_map portsOf p) L /\ Forall2 (compiledSwitchPort (p_graph s') doc) (flat_map switchPortsOf p) L2 /\
           nodesOf "switch" s' = nodesOf "switch" s4 ++ l0 /\ Forall2 (switchN (p_next s4) s') (flat_map switchesOf p) l0))))); [apply P4|done| |]|].
  - split; [done|]. split; [done|]. split; [done|]. split; [done|]. split; [done|]. split; [lia|]. split; [done|]. exists []. split; [done|]. split; [done|]. destruct H4 as [H4|[H4 H4']]; [by left|right]. split; [done|]. split; [done|]. split; [apply tm_refl|]. split; [done|]. split; [apply H4'|]. split; [intros y Hy; by apply elem_of_nil in Hy|].
    intros L0 L20 HL. exists [], [], []. rewrite !app_nil_r. split; [by eapply HG_h0|]. split; [constructor|]. split; [constructor|]. split; [done|constructor].
  - intros y l' s' [p0 Hp0] C' Hp' (_ & A' & O' & Uq' & U' & Nx & PI' & p & Ek & CA' & H').
    assert (Hy : y ∈ x_kids x) by (rewrite Hp0; apply in_mid).
    assert (Hyd : y ∈ elementsOf doc) by exact (kid_in _ _ _ Hxd Hy).
    assert (CK : pw (processNode E k (Some (p_next s, x_tag x)) y) (fun _ s'' => compTag x = true -> compAt s'' x (p ++ [y]) (p_next s)) s').
    { destruct (compTag x); [|eapply pw_mono; [apply pw_top|]; done]. eapply pw_mono; [apply (comp_kid E k x p (p_next s) y s' C' Hp' A'); [by apply CA'|lia]|]. intros [] s'' Hq _. exact Hq. }
    assert (HB : pw (processNode E k (Some (p_next s, x_tag x)) y) (fun _ s'' => cinv s'' /\ p_alias s'' = [] /\ ordOk s'' /\ uqi s'' /\ upAs s'' (Some (p_next s, x_tag x)) x /\ (p_next s4 <= p_next s'')%positive /\ portsIn doc s'' /\ (compTag x = true -> compAt s'' x (p ++ [y]) (p_next s)) /\ post s' s'' /\ lf (opened (Some (p_next s, x_tag x)) s') s' s'' /\ af (grew (Some (p_next s, x_tag x)) y) s' s'') s').
    { eapply pw_mono; [apply pw_conj; [by apply process_post|apply pw_conj; [apply process_ids|apply pw_conj; [by apply process_lf|apply pw_conj; [by apply process_af|apply pw_conj; [by apply process_uqi|apply pw_conj; [apply (process_portsIn E k doc _ x y s'); done|exact CK]]]]]]|].
      intros [] s'' [[P'' _] [(J1 & _) [[L'' _] [AF'' [UQ'' [PI'' CA'']]]]]]. split; [apply P''|]. split; [congruence|]. split; [by eapply ordOk_lf|]. split; [done|]. split; [by eapply upAs_lf|]. split; [pose proof (lf_next _ _ _ L''); lia|]. done. }
    assert (Ek' : x_kids x = (p ++ [y]) ++ l') by (by rewrite <- app_assoc).
    destruct H' as [H'|(I' & P' & TM & Eo & T' & HPl' & HL')].
    { eapply pw_mono; [exact HB|]. intros [] s'' (B1 & B2 & B3 & B4 & B5 & B6 & B7 & B8 & B9 & _). do 7 (split; [assumption|]). exists (p ++ [y]). split; [exact Ek'|]. split; [exact B8|]. left. by apply (ex_odd _ _ (po_x _ _ B9)). }
    assert (Hb' : option_map snd (Some (p_next s, x_tag x)) = Some "ncl" -> forall o rest, p_objs s' = o :: rest -> g_root (p_graph s') = Some o) by (cbn [option_map snd]; intros [= Ht]; done).
    eapply pw_mono; [apply pw_conj; [exact HB|apply pw_conj; [by apply (tree E k _ y s')|apply (IH _ x y s'); try done; by apply Hkn]]|].
    intros [] s'' [(B1 & B2 & B3 & B4 & B5 & B6 & B7 & B8 & B9 & B10 & B11) [HT HL]]. do 7 (split; [assumption|]). exists (p ++ [y]). split; [exact Ek'|]. split; [exact B8|].
    destruct HT as [HT|HT]; [by left|]. destruct HL as [HL|HL]; [by left|]. destruct (po_g _ _ B9 (or_intror I')) as [G|G]; [by left|]. right. split; [done|]. split; [done|].
    split; [eapply tm_trans; [exact TM|apply HT]|]. split; [rewrite (tR_objs _ _ _ HT); done|]. split; [apply HT|].
    split.
    { intros z Hz. apply elem_of_app in Hz as [Hz|Hz]; [intros o rest Ho; eapply inPlace_tm; [apply HT|]; by apply (HPl' z Hz o rest)|]. apply elem_of_list_singleton in Hz as ->. intros o rest Ho. apply (tR_top _ _ _ HT o rest). congruence. }
    intros L0 L20 HG0. destruct (HL' _ _ HG0) as (L & L2 & l0 & HG1 & F1 & F2 & N1 & F3). destruct (HL _ _ HG1) as (M & M2 & l1 & HG2 & F4 & F5 & N2 & F6). exists (L ++ M), (L2 ++ M2), (l0 ++ l1).
    rewrite !app_assoc. split; [exact HG2|]. rewrite !flat_map_app. cbn [flat_map]. rewrite !app_nil_r. pose proof (tR_tm _ _ _ HT) as TM'. split; [apply Forall2_app; [eapply Forall2_impl; [exact F1|]; intros; by eapply compiledPort_tm|exact F4]|]. split; [apply Forall2_app; [eapply Forall2_impl; [exact F2|]; intros; by eapply compiledSwitchPort_tm|exact F5]|].
    split; [by rewrite N2, N1|]. apply Forall2_app.
    + eapply Forall2_impl; [exact F3|]. intros q m Hq. eapply switchN_step; [exact C'|exact B10|exact B11| |exact TM'|reflexivity|exact Hq]. intros m' [Hm' _]. unfold upAt in Hm'. cbn in Hm'. injection Hm' as <-. exact Hlt.
    + eapply Forall2_impl; [exact F6|]. intros q m Hq. eapply switchN_lo; [exact Nx|exact Hq].
  - intros [] s5 (C5 & A5 & O5 & Uq5 & U5 & Nx & PI5 & p & Ek & CA5 & H5). cbv beta in *.
    destruct H5 as [H5|(I5 & P5 & TM & Eo & T5 & HPl5 & HL5)].
    { eapply pw_mono; [apply keep_pop|]. intros [] s6 F6. left. by apply (fr_odd _ _ F6). }
    rewrite app_nil_r in Ek. subst p.
    assert (Ly : lively doc s5) by (split; [split; [exact C5|exact I5|exact T5|exact PI5]|exact O5|exact Uq5]).
    eapply pw_mono; [apply pw_conj; [apply (pop_gg E (S k) (sy_pop sy) (p_next s) s5 C5), I5|apply pw_conj; [by apply pop_lf|apply pw_conj; [apply kw_pop|apply (pop_hang E k doc x sy (p_next s) s5 (ck_syn _ _ _ _ _ _ _ K1) Hxn (ck_kids _ _ _ _ _ _ _ K1) Ly)]]]|].
    { intros Hct. split; [by apply CA5|]. destruct (pt_obj _ _ _ _ P5) as (o & Ho & Hob); [unfold standing; destruct (compTag_cases _ Hct) as [[]|]; tauto|]. exists o, (p_objs s). split; [congruence|]. split; [by eapply objectOf_tm|]. intros z Hz. by apply (HPl5 z Hz o (p_objs s)). }
    intros [] s6 [[[G6 R6] N6] [[L6 _] [O6 [AF6 HP6]]]]. right. apply gsm_tm in G6. intros L0 L20 HG0. destruct (HL5 _ _ HG0) as (L & L2 & l0 & HG1 & F1 & F2 & N1 & F3). destruct (HP6 _ _ HG1) as (M & M2 & HG2 & F4 & F5 & F6).
    exists (L ++ M), (L2 ++ M2), ((if tagIs "switch" x then [p_next s] else []) ++ l0). rewrite !app_assoc. split; [exact HG2|]. rewrite portsOf_eq, switchPortsOf_eq, switchesOf_eq. split; [apply Forall2_app; [eapply Forall2_impl; [exact F1|]; intros; by eapply compiledPort_tm|exact F4]|]. split; [apply Forall2_app; [eapply Forall2_impl; [exact F2|]; intros; by eapply compiledSwitchPort_tm|exact F5]|].
    split.
    + rewrite (nodes_new _ "switch" s5 s6 [] L6 O5) by (rewrite app_nil_r; exact O6). cbn [List.filter]. rewrite app_nil_r, N1, N4. done.
    + apply Forall2_app.
      * unfold tagIs. destruct (String.eqb_spec (x_tag x) "switch") as [Hx|_]; constructor; [|constructor]. by apply F6.
      * eapply Forall2_impl; [exact F3|]. intros q m Hq. eapply switchN_step; [exact C5|exact L6|exact AF6| |exact G6| |exact Hq]; [|lia]. intros m' <-. exact Hlt.
Qed.

(** PortRoot.v -- C49, C50: what is known when the whole document has been read. *)
From Verif Require Import BuildInv BuildOps BuildSpec BuildFacts Frame ParserFrame ParserEnd LtabBody.
From Verif Require Export PortProc CompileEnd RuleProc.
Open Scope string_scope.
Open Scope list_scope.

Record hready (x : xml) (s : pst) : Prop := mkHr {
  hr_c : cinv s; hr_i : pinv (p_unique s) None [] s; hr_t : tinv (p_unique s) s; hr_ord : ordOk s; hr_uqi : uqi s; hr_hg : exists L L2, HG L L2 (p_graph s) /\ Forall2 (compiledPort (p_graph s) x) (portsOf x) L /\ Forall2 (compiledSwitchPort (p_graph s) x) (switchPortsOf x) L2;
  hr_sw : Forall2 (switchN 1 s) (switchesOf x) (nodesOf "switch" s);
  hr_rules : rulesN 1 s (elementsOf x) }.
Lemma root_hang E k x s (Q : unit -> pst -> Prop) : cinv s -> p_order s = [] -> p_cache s = ∅ -> pinv (p_unique s) None [] s -> p_alias s = [] -> tinv (p_unique s) s -> p_objs s = [] -> HG [] [] (p_graph s) ->
  (forall s5, hready x s5 -> pw (popNcl E (S k)) Q s5) -> pw (processNode E (S k) None x) (fun u s' => p_odd s' = true \/ Q u s') s.
Proof.
  intros C Eor Eca I Ha T Eob NL HQ. assert (O : ordOk s) by (intros n Hn; rewrite Eor in Hn; by apply elem_of_nil in Hn).
  assert (Hp : Par s None) by (intros n t H; done).
  assert (U : uqi s). { split; intros n; rewrite Eca; [intros e i H; by rewrite lookup_empty in H|intros m e e' i H; by rewrite lookup_empty in H]. }
  apply process_rule2; [done|done|]. intros sy attrs s1 K1 Hn.
  assert (Hx : x_tag x = "ncl"). { destruct (ck_up _ _ _ _ _ _ _ K1) as [Hz|(u & Hu & _)]; [|done]. exact (root_syn _ _ (ck_syn _ _ _ _ _ _ _ K1) Hz). }
  assert (Eh : mem (x_tag x) headTags = false) by (rewrite Hx; done).
  assert (Es : sy_push sy = PuNcl /\ sy_pop sy = PoNcl /\ sy_cache sy = false). { pose proof (ck_syn _ _ _ _ _ _ _ K1) as Es. rewrite Hx in Es; vm_compute in Es; injection Es as <-; done. }
  destruct Es as (Epu & Epo & Ech).
  destruct (checked_fresh _ _ _ _ _ _ _ K1) as (_ & Hn2 & Hc & Ho2 & Hcn2 & _ & Hg2 & Ha2). rewrite Hn in *.
  assert (G1 : grows s (p_set_next (Pos.succ (p_next s)) s1)) by (rewrite <- Hn at 1; exact (checked_grows _ _ _ _ _ _ _ K1)).
  pose proof (push_tree E (pushImport E (processNode E k)) _ x s sy attrs s1 I T Ha K1 Eh) as PT. rewrite Hn in PT.
  set (s2 := p_set_next _ _) in *. set (e0 := newElt _ _ _ _) in *.
  eapply pw_mono; [apply pw_conj; [apply PT|apply pw_conj; [apply sh0_push; by rewrite Epu|apply (grows_push E (processNode E k)); intros up' x' s'; eapply pw_mono; [apply process_ids|]; intros [] s'' (J1 & J2 & _); by split]]|].
  { intros Hb. congruence. }
  clear PT. intros e s3 [H3 [N3 G3]]. cbv beta in *. eapply pw_mono; [apply pw_conj; [apply hd_cache|apply pw_conj; [apply (kr_when os), ko_cacheAdd|apply keep_when, keep_cacheAdd]]|].
  intros [] s4 [D4 [[O4 R4] F4]] P4 Pr4 M4. cbv beta in *.
  assert (G4 : grows s s4) by (eapply grows_trans; [exact G1|]; eapply grows_trans; [exact G3|by apply grows_fr]).
  assert (H4 : p_odd s4 = true \/ (pinv (p_unique s4) None [] s4 /\ pt (p_unique s4) x s s4)).
  { destruct H3 as [H3|H3]; [left; congruence|]. destruct (po_g _ _ P4 (or_intror I)) as [G|G]; [by left|]. right. split; [done|].
    assert (GI : GInv (p_graph s3)) by (rewrite <- (proj1 D4); apply G).
    assert (HU : p_unique s1 ⊆ p_unique s4). { change (p_unique s1) with (p_unique s2). destruct G3 as [_ G3]. rewrite (fr_unique _ _ F4). done. }
    eapply (pt_hd _ _ _ s3); [done| |done|done]. destruct H3 as [A B D F G']. split; try done. by eapply tinv_mono; [|exact B|..]. }
  assert (NL4 : HG [] [] (p_graph s4)). { rewrite (proj1 D4). eapply HG_h0; [|exact N3]. by rewrite Hg2. }
  assert (Or4 : p_order s4 = []). { rewrite (mi_order _ _ _ _ _ _ _ M4) by (by rewrite Epu). by rewrite Eor, Ech. }
  assert (Ca4 : p_cache s4 = ∅). { apply map_eq. intros n. rewrite lookup_empty. destruct (p_cache s4 !! n) as [e'|] eqn:Ee; [|done]. destruct (po_c _ _ P4 _ _ Ee) as (_ & _ & Hin). rewrite Or4 in Hin. by apply elem_of_nil in Hin. }
  assert (Od4 : ordOk s4) by (eapply ordOk_lf; [apply M4|done]).
  assert (U4 : uqi s4). { split; intros n; rewrite Ca4; [intros e' i H; by rewrite lookup_empty in H|intros m e' e'' i H; by rewrite lookup_empty in H]. }
  assert (Hlt : (p_next s < p_next s4)%positive) by (destruct (Pr4 _ _ eq_refl); done).
  assert (Nz : forall t, nodesOf t s4 = []) by (intros t; unfold nodesOf; by rewrite Or4).
  assert (A4 : p_alias s4 = []) by (by rewrite (proj1 G4)).
  assert (Hxd : x ∈ elementsOf x) by (rewrite elements_eq; left).
  clearbody s2. clear H3 N3 G3 D4 F4 R4 G1.
  eapply pw_mono; [apply (kids_rule E k _ _ _ s4 (fun l s' => cinv s' /\ p_alias s' = [] /\ ordOk s' /\ uqi s' /\ (p_next s4 <= p_next s')%positive /\ portsIn x s' /\ p_cache s' !! p_next s = None /\ (exists p, x_kids x = p ++ l /\ rulesN (p_next s4) s' (flat_map elementsOf p)) /\ (p_odd s' = true \/ (pinv (p_unique s') None [] s' /\ pt (p_unique s4) x s s4 /\ tm (p_graph s4) (p_graph s') /\
     p_objs s' = p_objs s4 /\ tinv (p_unique s') s' /\ exists p L L2, x_kids x = p ++ l /\ HG L L2 (p_graph s') /\ Forall2 (compiledPort (p_graph s') x) (flat_map portsOf p) L /\ Forall2 (compiledSwitchPort (p_graph s') x) (flat_map switchPortsOf p) L2 /\
     Forall2 (switchN (p_next s4) s') (flat_map switchesOf p) (nodesOf "switch" s'))))); [apply P4|done| |]|].
  - split; [apply P4|]. split; [done|]. split; [done|]. split; [done|]. split; [lia|]. split; [intros m Hm; rewrite Nz in Hm; by apply elem_of_nil in Hm|]. split; [by rewrite Ca4|]. split; [exists []; split; [done|]; intros z Hz; by apply elem_of_nil in Hz|]. destruct H4 as [H4|[H4 H4']]; [by left|right]. split; [done|]. split; [done|]. split; [apply tm_refl|]. split; [done|]. split; [apply H4'|]. exists [], [], []. split; [done|]. split; [done|]. rewrite Nz. split; [constructor|]. split; constructor.
  - intros y l' s' [p0 Hp0] C' Hp' (_ & A' & O' & U' & Nx & PI' & CZ' & (pr & Ekr & RN') & H').
    assert (Hy : y ∈ x_kids x) by (rewrite Hp0; apply in_mid).
    assert (Hyn : x_tag y <> "ncl"). { intros Hy'. pose proof (ck_kids _ _ _ _ _ _ _ K1 y Hy) as Hk. rewrite Hy' in Hk. by apply (ncl_kid (x_tag x)). }
    assert (Hyd : y ∈ elementsOf x) by exact (kid_in _ _ _ Hxd Hy).
    assert (UA : upAs s' (Some (p_next s, x_tag x)) x). { intros u t [= <- <-]. split; [done|]. rewrite Hx. intros [Hz|Hz]; discriminate Hz. }
    assert (HB : pw (processNode E k (Some (p_next s, x_tag x)) y) (fun _ s'' => cinv s'' /\ p_alias s'' = [] /\ ordOk s'' /\ uqi s'' /\ (p_next s4 <= p_next s'')%positive /\ portsIn x s'' /\ p_cache s'' !! p_next s = None /\ (exists p, x_kids x = p ++ l' /\ rulesN (p_next s4) s'' (flat_map elementsOf p)) /\ post s' s'' /\ lf (opened (Some (p_next s, x_tag x)) s') s' s'' /\ af (grew (Some (p_next s, x_tag x)) y) s' s'') s').
    { eapply pw_mono; [apply pw_conj; [by apply process_post|apply pw_conj; [apply process_ids|apply pw_conj; [by apply process_lf|apply pw_conj; [by apply process_af|apply pw_conj; [by apply process_uqi|apply pw_conj; [apply (process_portsIn E k x _ x y s'); done|apply pw_conj; [by apply process_cf|apply (process_rules E k (Some (p_next s, x_tag x)) y s'); try done]]]]]]]|].
      { intros Hyr. exfalso. pose proof (ck_kids _ _ _ _ _ _ _ K1 y Hy) as Hk. assert (Hz : x_tag x = "ruleBase") by (apply (rule_home x y); [unfold isRule, tagIs; by rewrite Hx|done|done]). rewrite Hx in Hz. discriminate Hz. }
      intros [] s'' [[P'' _] [(J1 & _) [[L'' _] [AF'' [UQ'' [PI'' [CF'' RN'']]]]]]]. split; [apply P''|]. split; [congruence|]. split; [by eapply ordOk_lf|]. split; [done|]. split; [pose proof (lf_next _ _ _ L''); lia|]. split; [done|].
      split; [destruct (p_cache s'' !! p_next s) as [em|] eqn:Eem; [|done]; destruct (lf_back _ _ _ _ _ L'' Eem) as (e' & He' & _); [lia|congruence]|]. split; [|done].
      exists (pr ++ [y]). split; [by rewrite <- app_assoc|]. intros z Hz Hzr. rewrite flat_map_app in Hz. cbn [flat_map] in Hz. rewrite app_nil_r in Hz. apply elem_of_app in Hz as [Hz|Hz].
      - destruct (RN' z Hz Hzr) as [m Hm]. exists m. eapply ruleN_step; [exact C'|exact L''|exact CF''| |reflexivity|exact Hm]. intros m' em pm Hm' Hem Hpm. unfold upX in Hm'. cbn in Hm'. injection Hm' as <-. congruence.
      - destruct (RN'' z Hz Hzr) as [m Hm]. exists m. eapply ruleN_low; [|exact Hm]. lia. }
    destruct H' as [H'|(I' & P' & TM & Eo & T' & p & L & L2 & Ek & HL' & F1 & F2 & F3)].
    { eapply pw_mono; [exact HB|]. intros [] s'' (B1 & B2 & B3 & B4 & B6 & B7 & B7a & B7b & B9 & _). do 8 (split; [assumption|]). left. by apply (ex_odd _ _ (po_x _ _ B9)). }
    assert (Hb' : option_map snd (Some (p_next s, x_tag x)) = Some "ncl" -> forall o rest, p_objs s' = o :: rest -> g_root (p_graph s') = Some o).
    { cbn [option_map snd]. intros [= Ht] o rest Ho. rewrite Eo in Ho. destruct (pt_obj _ _ _ _ P') as (o1 & Ho1 & Hx1); [by left|]. assert (o1 = o) as -> by congruence.
      rewrite (gx_root _ _ (tm_ext _ _ TM)). apply (of_root _ _ _ Hx1). by left. }
    eapply pw_mono; [apply pw_conj; [exact HB|apply pw_conj; [by apply (tree E k _ y s')|apply (process_hang E k x _ x y s'); done]]|].
    intros [] s'' [(B1 & B2 & B3 & B4 & B6 & B7 & B7a & B7b & B9 & B10 & B11) [HT HL]]. do 8 (split; [assumption|]).
    destruct HT as [HT|HT]; [by left|]. destruct HL as [HL|HL]; [by left|]. destruct (po_g _ _ B9 (or_intror I')) as [G|G]; [by left|]. right. split; [done|]. split; [done|].
    split; [eapply tm_trans; [exact TM|apply HT]|]. split; [rewrite (tR_objs _ _ _ HT); done|]. split; [apply HT|].
    destruct (HL _ _ HL') as (M & M2 & l1 & HG2 & F4 & F5 & N2 & F6). exists (p ++ [y]), (L ++ M), (L2 ++ M2). split; [by rewrite <- app_assoc|]. split; [exact HG2|].
    rewrite !flat_map_app. cbn [flat_map]. rewrite !app_nil_r. pose proof (tR_tm _ _ _ HT) as TM'. split; [apply Forall2_app; [eapply Forall2_impl; [exact F1|]; intros; by eapply compiledPort_tm|exact F4]|]. split; [apply Forall2_app; [eapply Forall2_impl; [exact F2|]; intros; by eapply compiledSwitchPort_tm|exact F5]|].
    rewrite N2. apply Forall2_app.
    + eapply Forall2_impl; [exact F3|]. intros q m Hq. eapply switchN_step; [exact C'|exact B10|exact B11| |exact TM'|reflexivity|exact Hq]. intros m' [Hm' _]. unfold upAt in Hm'. cbn in Hm'. injection Hm' as <-. exact Hlt.
    + eapply Forall2_impl; [exact F6|]. intros q m Hq. eapply switchN_lo; [exact Nx|exact Hq].
  - intros [] s5 (C5 & A5 & O5 & U5 & Nx & PI5 & CZ5 & (pr & Ekr & RN5) & H5). cbv beta in *. rewrite Epo. cbn [pop].
    destruct H5 as [H5|(I5 & P5 & TM & Eo & T5 & p & L & L2 & Ek & HL' & F1 & F2 & F3)].
    { eapply pw_mono; [apply (keep_pop E (S k) PoNcl (p_next s))|]. intros [] s6 F6. left. by apply (fr_odd _ _ F6). }
    rewrite app_nil_r in Ek, Ekr. subst p pr.
    assert (NP : List.filter (tagIs "port") (x_kids x) = [] /\ List.filter (tagIs "switchPort") (x_kids x) = []).
    { split; apply filter_none; intros y Hy; unfold tagIs; pose proof (ck_kids _ _ _ _ _ _ _ K1 y Hy) as Hk; rewrite Hx in Hk.
      - destruct (String.eqb_spec (x_tag y) "port") as [Ey|_]; [|done]. rewrite Ey in Hk. vm_compute in Hk. discriminate Hk.
      - destruct (String.eqb_spec (x_tag y) "switchPort") as [Ey|_]; [|done]. rewrite Ey in Hk. vm_compute in Hk. discriminate Hk. }
    destruct NP as [NP1 NP2].
    eapply pw_mono; [apply HQ|intros [] s6 H6; by right]. split; try done.
    + exists L, L2. rewrite portsOf_eq, switchPortsOf_eq, NP1, NP2. cbn [map]. rewrite !app_nil_r. done.
    + rewrite switchesOf_eq. unfold tagIs. rewrite Hx. cbn [String.eqb Ascii.eqb Bool.eqb app]. eapply Forall2_impl; [exact F3|]. intros q m Hq. eapply switchN_lo; [|exact Hq]. lia.
    + intros z Hz Hzr. rewrite elements_eq in Hz. apply elem_of_cons in Hz as [->|Hz]; [unfold isRule, tagIs in Hzr; rewrite Hx in Hzr; discriminate Hzr|]. destruct (RN5 z Hz Hzr) as [m Hm]. exists m. eapply ruleN_low; [|exact Hm]. lia.
Qed.

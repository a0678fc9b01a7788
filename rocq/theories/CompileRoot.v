(** CompileRoot.v -- C42: what is known when the whole document has been read and its links
    are about to be made. *)
From Verif Require Import BuildInv BuildOps BuildSpec BuildFacts Frame ParserFrame ParserEnd.
From Verif Require Export CompileKept CompileLinks.
Open Scope string_scope.
Open Scope list_scope.

Definition noLinks (g : graph) : Prop := forall o ob, g_obj g !! o = Some ob -> ob_links ob = [].
Lemma noLinks_n0 g g' : n0 g g' -> noLinks g -> noLinks g'.
Proof. intros H N o ob Ho. destruct (H _ _ Ho) as [E|(ob0 & H0 & E)]; [done|]. rewrite E. by eapply N. Qed.
Record ready (x : xml) (s : pst) : Prop := mkRd {
  rd_c : cinv s; rd_i : pinv (p_unique s) None [] s; rd_t : tinv (p_unique s) s; rd_uq : uq s; rd_ord : ordOk s;
  rd_links : Forall2 (linkN 1 s) (linksOf x) (nodesOf "link" s);
  rd_ports : forall m, m ∈ nodesOf "port" s -> exists p x', portAt s p x' m /\ x' ∈ elementsOf x /\ p ∈ x_kids x';
  rd_conns : forall cx, cx ∈ elementsOf x -> x_tag cx = "causalConnector" -> exists m, connAt s cx m /\ connG 1 s cx m;
  rd_none : noLinks (p_graph s) }.
Lemma root_syn t sy : synOf t = Some sy -> sy_parents sy = [] -> t = "ncl".
Proof.
  intros Es Hpu. apply look_some in Es. assert (F : forallb (fun p : string * syn => match sy_parents (snd p) with nil => String.eqb (fst p) "ncl" | _ => true end) syntax = true) by (vm_compute; reflexivity).
  apply (forall_elem _ _ _ F) in Es. cbn [fst snd] in Es. rewrite Hpu in Es. by apply String.eqb_eq in Es.
Qed.
Lemma root_rule E k x s (Q : unit -> pst -> Prop) : cinv s -> p_order s = [] -> p_cache s = ∅ -> pinv (p_unique s) None [] s -> p_alias s = [] -> tinv (p_unique s) s -> p_conn s = None -> p_objs s = [] -> noLinks (p_graph s) ->
  (forall s5, ready x s5 -> pw (popNcl E (S k)) Q s5) -> pw (processNode E (S k) None x) (fun u s' => p_odd s' = true \/ Q u s') s.
Proof.
  intros C Eor Eca I Ha T Hcn Eob NL HQ. assert (O : ordOk s) by (intros n Hn; rewrite Eor in Hn; by apply elem_of_nil in Hn).
  assert (Hp : Par s None) by (intros n t H; done).
  assert (U : uq s). { split; intros n; rewrite Eca; [intros e i H; by rewrite lookup_empty in H|intros m e e' i H; by rewrite lookup_empty in H]. }
  apply process_rule2; [done|done|]. intros sy attrs s1 K1 Hn.
  assert (Hx : x_tag x = "ncl"). { destruct (ck_up _ _ _ _ _ _ _ K1) as [Hz|(u & Hu & _)]; [|done]. exact (root_syn _ _ (ck_syn _ _ _ _ _ _ _ K1) Hz). }
  assert (Eh : mem (x_tag x) headTags = false) by (rewrite Hx; done).
  assert (Es : sy_push sy = PuNcl /\ sy_pop sy = PoNcl /\ sy_cache sy = false). { pose proof (ck_syn _ _ _ _ _ _ _ K1) as Es. rewrite Hx in Es; vm_compute in Es; injection Es as <-; done. }
  destruct Es as (Epu & Epo & Ech).
  destruct (checked_fresh _ _ _ _ _ _ _ K1) as (_ & Hn2 & Hc & Ho2 & Hcn2 & _ & Hg2 & Ha2). rewrite Hn in *.
  assert (G1 : grows s (p_set_next (Pos.succ (p_next s)) s1)) by (rewrite <- Hn at 1; exact (checked_grows _ _ _ _ _ _ _ K1)).
  pose proof (push_tree E (pushImport E (processNode E k)) _ x s sy attrs s1 I T Ha K1 Eh) as PT. rewrite Hn in PT.
  set (s2 := p_set_next _ _) in *. set (e0 := newElt _ _ _ _) in *.
  eapply pw_mono; [apply pw_conj; [apply PT|apply pw_conj; [apply s0_push; by rewrite Epu|apply (grows_push E (processNode E k)); intros up' x' s'; eapply pw_mono; [apply process_ids|]; intros [] s'' (J1 & J2 & _); by split]]|].
  { intros Hb. congruence. }
  clear PT. intros e s3 [H3 [N3 G3]]. cbv beta in *. eapply pw_mono; [apply pw_conj; [apply hd_cache|apply pw_conj; [apply (kr_when os), ko_cacheAdd|apply keep_when, keep_cacheAdd]]|].
  intros [] s4 [D4 [[O4 R4] F4]] P4 Pr4 M4. cbv beta in *.
  assert (G4 : grows s s4) by (eapply grows_trans; [exact G1|]; eapply grows_trans; [exact G3|by apply grows_fr]).
  assert (H4 : p_odd s4 = true \/ (pinv (p_unique s4) None [] s4 /\ pt (p_unique s4) x s s4)).
  { destruct H3 as [H3|H3]; [left; congruence|]. destruct (po_g _ _ P4 (or_intror I)) as [G|G]; [by left|]. right. split; [done|].
    assert (GI : GInv (p_graph s3)) by (rewrite <- (proj1 D4); apply G).
    assert (HU : p_unique s1 ⊆ p_unique s4). { change (p_unique s1) with (p_unique s2). destruct G3 as [_ G3]. rewrite (fr_unique _ _ F4). done. }
    eapply (pt_hd _ _ _ s3); [done| |done|done]. destruct H3 as [A B D F G']. split; try done. by eapply tinv_mono; [|exact B|..]. }
  assert (NL4 : noLinks (p_graph s4)). { rewrite (proj1 D4). eapply noLinks_n0; [exact N3|]. by rewrite Hg2. }
  assert (Or4 : p_order s4 = []). { rewrite (mi_order _ _ _ _ _ _ _ M4) by (by rewrite Epu). by rewrite Eor, Ech. }
  assert (Ca4 : p_cache s4 = ∅). { apply map_eq. intros n. rewrite lookup_empty. destruct (p_cache s4 !! n) as [e'|] eqn:Ee; [|done]. destruct (po_c _ _ P4 _ _ Ee) as (_ & _ & Hin). rewrite Or4 in Hin. by apply elem_of_nil in Hin. }
  assert (Od4 : ordOk s4) by (eapply ordOk_lf; [apply M4|done]).
  assert (U4 : uq s4). { split; intros n; rewrite Ca4; [intros e' i H; by rewrite lookup_empty in H|intros m e' e'' i H; by rewrite lookup_empty in H]. }
  assert (Hlt : (p_next s < p_next s4)%positive) by (destruct (Pr4 _ _ eq_refl); done).
  assert (Cn4 : p_conn s4 = None) by (apply (mi_conn _ _ _ _ _ _ _ M4); [done|by rewrite Epu]).
  assert (Nz : forall t, nodesOf t s4 = []) by (intros t; unfold nodesOf; by rewrite Or4).
  eapply pw_mono; [apply (kids_rule E k _ _ _ s4 (fun l s' => cinv s' /\ p_alias s' = [] /\ ordOk s' /\ uq s' /\ p_conn s' = None /\ (p_next s4 <= p_next s')%positive /\ noLinks (p_graph s') /\ (p_odd s' = true \/ (pinv (p_unique s') None [] s' /\ pt (p_unique s4) x s s4 /\ tm (p_graph s4) (p_graph s') /\
     p_objs s' = p_objs s4 /\ tinv (p_unique s') s' /\ exists p, x_kids x = p ++ l /\ Forall2 (linkN (p_next s4) s') (flat_map (under x) p) (nodesOf "link" s') /\
     (forall m, m ∈ nodesOf "port" s' -> exists q x', portAt s' q x' m /\ exists y, y ∈ p /\ portIn x y q x') /\ p_cache s' !! p_next s = None /\ conns (p_next s4) s4 s' (flat_map elementsOf p))))); [apply P4|done| |]|].
  - split; [apply P4|]. split; [by rewrite (proj1 G4)|]. split; [done|]. split; [done|]. split; [done|]. split; [lia|]. split; [done|]. destruct H4 as [H4|[H4 H4']]; [by left|right]. split; [done|]. split; [done|]. split; [apply tm_refl|]. split; [done|]. split; [apply H4'|]. exists []. split; [done|]. rewrite !Nz. split; [constructor|].
    split; [intros m Hm; by apply elem_of_nil in Hm|]. split; [by rewrite Ca4|]. intros cx Hm; by apply elem_of_nil in Hm.
  - intros y l' s' [p0 Hp0] C' Hp' (_ & A' & O' & U' & Cn' & Nx & NL' & H').
    assert (Hy : y ∈ x_kids x) by (rewrite Hp0; apply in_mid).
    assert (Hyn : x_tag y <> "ncl"). { intros Hy'. pose proof (ck_kids _ _ _ _ _ _ _ K1 y Hy) as Hk. rewrite Hy' in Hk. by apply (ncl_kid (x_tag x)). }
    destruct H' as [H'|(I' & P' & TM & Eo & T' & p & Ek & HF & HP & HZ & HC)].
    { eapply pw_mono; [apply pw_conj; [by apply process_post|apply pw_conj; [apply process_ids|apply pw_conj; [by apply process_lf|apply pw_conj; [by apply process_uq|by apply process_nolinks]]]]|]. intros [] s'' [[P'' _] [(J1 & _) [[L'' Cc''] [U'' N'']]]]. split; [apply P''|]. split; [congruence|]. split; [by eapply ordOk_lf|]. split; [done|]. split; [by eapply conn_none|]. split; [pose proof (lf_next _ _ _ L''); lia|].
      split; [by eapply noLinks_n0|]. left. by apply (ex_odd _ _ (po_x _ _ P'')). }
    assert (Hb' : option_map snd (Some (p_next s, x_tag x)) = Some "ncl" -> forall o rest, p_objs s' = o :: rest -> g_root (p_graph s') = Some o).
    { cbn [option_map snd]. intros [= Ht] o rest Ho. rewrite Eo in Ho. destruct (pt_obj _ _ _ _ P') as (o1 & Ho1 & Hx1); [by left|]. assert (o1 = o) as -> by congruence.
      rewrite (gx_root _ _ (tm_ext _ _ TM)). apply (of_root _ _ _ Hx1). by left. }
    assert (UA : upAs s' (Some (p_next s, x_tag x)) x). { intros u t [= <- <-]. split; [done|]. rewrite Hx. intros [Hz|Hz]; discriminate Hz. }
    eapply pw_mono; [apply pw_conj; [apply pw_conj; [by apply process_post|apply pw_conj; [by apply process_uq|by apply process_nolinks]]|apply pw_conj; [apply process_ids|apply pw_conj; [by apply process_lf|apply pw_conj; [by apply (tree E k _ y s')|apply pw_conj; [apply (process_links E k _ x y s'); try done|apply pw_conj; [by apply (process_ports E k _ x y s')|apply pw_conj; [by apply process_cf|by apply (process_connsG E k _ y s')]]]]]]]|].
    { intros t [= <-]. rewrite Hx. intros [Hz|Hz]; discriminate Hz. }
    intros [] s'' [[[P'' _] [U'' N'']] [(J1 & _) [[L'' Cc''] [HT [HL [HP' [F'' HC']]]]]]]. split; [apply P''|]. split; [congruence|]. split; [by eapply ordOk_lf|]. split; [done|]. split; [by eapply conn_none|]. split; [pose proof (lf_next _ _ _ L''); lia|].
    split; [by eapply noLinks_n0|].
    destruct HT as [HT|HT]; [by left|]. destruct HL as [HL|(l1 & El1 & HF1)]; [by left|]. destruct (po_g _ _ P'' (or_intror I')) as [G|G]; [by left|]. right. split; [done|]. split; [done|].
    split; [eapply tm_trans; [exact TM|apply HT]|]. split; [rewrite (tR_objs _ _ _ HT); done|]. split; [apply HT|].
    assert (HX : forall n, opened (Some (p_next s, x_tag x)) s' n -> (n < p_next s4)%positive) by (intros n [Hn'|Hn']; [cbn in Hn'; injection Hn' as <-; done|congruence]).
    exists (p ++ [y]). split; [by rewrite <- app_assoc|]. rewrite El1, !flat_map_app. cbn [flat_map]. rewrite !app_nil_r. split; [apply Forall2_app|split; [|split]].
    + eapply Forall2_impl; [exact HF|]. intros q m Hq. eapply linkN_step; [exact C'|exact L''|exact HX|apply HT|reflexivity|exact Hq].
    + eapply Forall2_impl; [exact HF1|]. intros q m (c & Hq & Hqo). exists c. split; [|done]. by eapply linkAt_lo.
    + intros m Hm. destruct (HP' m Hm) as [Hm'|(q & x' & H1 & H2)].
      * destruct (HP m Hm') as (q & x' & H1 & z & H2 & H3'). exists q, x'. split; [by eapply portAt_lf|]. exists z. split; [apply elem_of_app; by left|done].
      * exists q, x'. split; [done|]. exists y. split; [apply elem_of_app; right; left|done].
    + destruct (p_cache s'' !! p_next s) as [em|] eqn:Eem; [|done]. destruct (lf_back _ _ _ _ _ L'' Eem) as (e' & He' & _); [lia|]. congruence.
    + intros cx Hcx Ht. apply elem_of_app in Hcx as [Hcx|Hcx].
      * destruct (HC cx Hcx Ht) as (m & Hm & Hcm & Hgm). exists m. split; [done|]. assert (HXm : ~ opened (Some (p_next s, x_tag x)) s' m) by (intros HXm; specialize (HX _ HXm); lia). split; [by eapply connAt_lf|].
        eapply connG_step; [exact C'|exact F''|exact L''|exact HXm| |reflexivity|exact Hgm]. intros m' em pm Hm' Hem. unfold upX in Hm'. cbn in Hm'. injection Hm' as <-. congruence.
      * destruct (HC' cx Hcx Ht) as (m & Hm & Hcm & Hgm). exists m. split; [lia|]. split; [done|]. by eapply connG_low.
  - intros [] s5 (C5 & A5 & O5 & U5 & Cn5 & Nx & NL5 & H5). cbv beta in *. rewrite Epo. cbn [pop].
    destruct H5 as [H5|(I5 & P5 & TM & Eo & T5 & p & Ek & HF & HP & _ & HC)].
    { eapply pw_mono; [apply (keep_pop E (S k) PoNcl (p_next s))|]. intros [] s6 F6. left. by apply (fr_odd _ _ F6). }
    rewrite app_nil_r in Ek. subst p.
    eapply pw_mono; [apply HQ|intros [] s6 H6; by right]. split; try done.
    + rewrite links_eq. eapply Forall2_impl; [exact HF|]. intros q m (c & Hq & Hqo). exists c. split; [|done]. eapply linkAt_lo; [|exact Hq]. lia.
    + intros m Hm. destruct (HP m Hm) as (q & x' & H1 & y & H2 & [[-> ->]|[H6 H7]]).
      * destruct H1 as (_ & _ & _ & _ & _ & _ & _ & _ & _ & _ & [Hz|Hz] & _); rewrite Hx in Hz; discriminate Hz.
      * exists q, x'. split; [done|]. split; [|done]. rewrite elements_eq. right. apply elem_of_list_In, in_flat_map. exists y. split; by apply elem_of_list_In.
    + intros cx Hcx Ht. rewrite elements_eq in Hcx. apply elem_of_cons in Hcx as [->|Hcx]; [rewrite Hx in Ht; discriminate Ht|]. destruct (HC cx Hcx Ht) as (m & _ & Hm & Hg). exists m. split; [done|]. eapply connG_low; [|exact Hg]. lia.
Qed.

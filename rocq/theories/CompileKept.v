(** CompileKept.v -- C42: connectors keep the statements around their roles. *)
From Verif Require Import BuildOps ParserFrame DecSpec DecFacts PredSpec.
From Verif Require Export CompileCond.
Open Scope string_scope.
Open Scope list_scope.

Definition connG (b : positive) (s : pst) (cx : xml) (m : nid) : Prop := exists e rs, p_cache s !! m = Some e /\ el_roles e = Some rs /\ Forall2 (rg b s (Some m)) (rolesIn cx) rs.
Lemma connG_step X Y b b' s s' cx m : cinv s -> cf X s s' -> lf Y s s' -> ~ Y m -> below b X s -> (b' <= b)%positive -> connG b s cx m -> connG b' s' cx m.
Proof.
  intros C F L HY B Hb (e & rs & He & Hr & H). destruct (lf_get _ _ _ m _ L He) as (e' & He' & Hc); [apply (C _ _ He)|done|]. exists e', rs. split; [done|]. unfold core in Hc. split; [congruence|]. by eapply rgs_cf.
Qed.
Lemma connG_low b b' s cx m : (b' <= b)%positive -> connG b s cx m -> connG b' s cx m.
Proof. intros Hb (e & rs & He & Hr & H). exists e, rs. split; [done|]. split; [done|]. by eapply rgs_low. Qed.
Lemma conn_okG E k up x s : cinv s -> Par s up -> p_alias s = [] -> x_tag x = "causalConnector" -> pw (processNode E k up x) (fun _ s' => connG (p_next s) s' x (p_next s)) s.
Proof.
  intros C Hp Ha Hx. destruct k as [|k]; [apply pw_nofuel|]. apply process_rule; [done|done|]. intros sy attrs s1 K1.
  assert (Es : sy_push sy = PuConnector /\ sy_pop sy = PoConnector /\ sy_cache sy = true). { pose proof (ck_syn _ _ _ _ _ _ _ K1) as Es. rewrite Hx in Es; vm_compute in Es; injection Es as <-; done. }
  destruct Es as (-> & -> & ->). destruct (checked_fresh _ _ _ _ _ _ _ K1) as (Hn & Hn2 & Hc & _ & Hcn & Ho & Hg & Ha2). set (s2 := p_set_next _ _) in *. set (e0 := newElt _ _ _ _).
  cbn [push]. unfold pushConnector. p1. p1. p1. cbn [pwhen]. unfold cacheAdd. repeat p1. set (s4 := p_set_order _ _). intros P4 Pr4.
  set (e4 := el_set_roles [] (el_set_tests [] e0)). assert (Hn4 : p_cache s4 !! p_next s = Some e4). { unfold s4. cbn. rewrite Hn. by rewrite lookup_insert. }
  assert (Cn4 : cn s4 (p_next s) attrs [] []). { split; [unfold s4; cbn; by rewrite Hn|]. split; [unfold s4; cbn; lia|]. exists e4. split; [done|]. done. }
  rewrite Hn in Pr4 |- *. assert (Hlt : (p_next s <= p_next s4)%positive) by (destruct (Pr4 _ _ eq_refl); lia).
  eapply pw_mono; [apply (kids_rule E k _ _ _ s4 (fun l s' => cinv s' /\ p_alias s' = [] /\ cf (upX (Some (p_next s, x_tag x))) s4 s' /\ exists p new ts, x_kids x = p ++ l /\ cn s' (p_next s) attrs new ts /\ Forall2 (rg (p_next s4) s' (Some (p_next s))) (flat_map rolesIn p) new)); [apply P4|done| |]|].
  - split; [apply P4|]. split; [change (p_alias s2 = []); congruence|]. split; [apply cf_refl|]. exists [], [], []. split; [done|]. split; [done|constructor].
  - intros y l' s' [p0 Hp0] C' Hp' (_ & A' & F' & p & new & ts & Hpl & Cn' & R').
    assert (Hy : isCond y = true \/ mem (x_tag y) quietTags = true).
    { pose proof (ck_kids _ _ _ _ _ _ _ K1 y ltac:(rewrite Hp0; apply in_mid)) as Hy. rewrite Hx in Hy. assert (Hl : x_tag y ∈ ["connectorParam"; "compoundCondition"; "simpleCondition"; "compoundAction"; "simpleAction"]) by (eapply kids_are; [|exact Hy]; vm_compute; reflexivity).
      unfold isCond, tagIs. repeat (apply elem_of_cons in Hl as [->|Hl]; [vm_compute; auto|]). by apply elem_of_nil in Hl. }
    assert (Bl : below (p_next s4) (upX (Some (p_next s, x_tag x))) s').
    { intros m em pm Hm Hem Hpm. unfold upX in Hm. cbn in Hm. injection Hm as <-. destruct (cf_old _ _ _ F' _ _ Hn4) as (e' & He' & Ep'). assert (em = e') as -> by congruence. rewrite Ep' in Hpm. discriminate Hpm. }
    pose proof (cf_next _ _ _ F') as N'.
    assert (G : pw (processNode E k (Some (p_next s, x_tag x)) y) (fun _ s'' => guards (p_next s4) s' s'' (Some (p_next s)) (p_next s) attrs new (rolesIn y)) s').
    { destruct Hy as [Hy|Hy]; [|by eapply quiet_ok]. eapply pw_mono; [by eapply cond_ok|]. intros [] s'' [_ (n2 & t2 & H1 & H2)]. exists n2, t2. split; [done|]. by eapply rgs_low. }
    eapply pw_mono; [apply pw_conj; [by apply process_post|apply pw_conj; [apply process_ids|apply pw_conj; [by apply process_lf|apply pw_conj; [by apply process_cf|exact G]]]]|].
    intros [] s'' [[P'' _] [(J1 & _) [[L'' _] [F'' (new2 & ts2 & Cn'' & R'')]]]]. split; [apply P''|]. split; [congruence|]. split; [eapply cf_trans; [exact F'|exact F''|done]|].
    exists (p ++ [y]), (new ++ new2), ts2. split; [by rewrite <- app_assoc|]. split; [done|]. rewrite flat_map_app. cbn [flat_map]. rewrite app_nil_r. apply Forall2_app; [|done].
    eapply rgs_cf; [exact C'|exact F''|exact L''|exact Bl|reflexivity|exact R'].
  - intros [] s5 (C5 & A5 & F5 & p & new & ts & Hpl & Cn5 & R5). cbv beta in *. rewrite app_nil_r in Hpl. subst p.
    eapply pw_mono; [apply pw_conj; [apply (pop_lf E (S k) PoConnector (p_next s)); done|apply (kx_pop E (S k) PoConnector (p_next s)); done]|]. intros [] s6 [[L6 _] F6]. destruct Cn5 as (D1 & D2 & ce & D3 & D4 & D5 & D6 & D7).
    apply (connG_step none none (p_next s4) _ s5); [done|done|done|intros []|apply below_none|exact Hlt|]. exists ce, new. split; [done|]. split; [done|]. rewrite rolesIn_eq. unfold isRole, isCondition, tagIs. rewrite Hx. cbn [app String.eqb Ascii.eqb Bool.eqb orb].
    rewrite (map_ext _ (fun q => q)); [by rewrite map_id|]. by intros [].
Qed.
(** Only these elements contain connectors. *)
Definition baseTags : list string := ["ncl"; "head"; "connectorBase"; "causalConnector"].
Definition baseOk (x : string * syn) : bool := negb (mem (fst x) baseTags) || forallb (fun t => mem t baseTags) (sy_parents (snd x)).
Lemma baseOk_all : forallb baseOk syntax = true. Proof. vm_compute. reflexivity. Qed.
Lemma base_kid t c : negb (mem t baseTags) = true -> possibleChild t c = true -> negb (mem c baseTags) = true.
Proof.
  intros Ht H. unfold possibleChild, synOf in H. destruct (look c syntax) as [sy|] eqn:Es; [|done]. apply look_some in Es. pose proof (forall_elem _ _ _ baseOk_all Es) as F. unfold baseOk in F. cbn [fst snd] in F.
  destruct (mem c baseTags) eqn:Em; [|done]. apply orb_true_iff in F as [F|F]; [discriminate F|]. apply mem_spec in H. pose proof (forall_elem _ _ _ F H) as F'. cbv beta in F'. by rewrite F' in Ht.
Qed.
Definition conns (b : positive) (s s' : pst) (l : list xml) : Prop := forall cx, cx ∈ l -> x_tag cx = "causalConnector" -> exists m, (p_next s <= m)%positive /\ connAt s' cx m /\ connG b s' cx m.
Lemma process_connsG E k : forall up x s, cinv s -> Par s up -> p_alias s = [] -> p_conn s = None -> ordOk s -> pw (processNode E k up x) (fun _ s' => conns (p_next s) s s' (elementsOf x)) s.
Proof.
  induction k as [|k IH]; intros up x s C Hp Ha Hc0 O; [apply pw_nofuel|]. destruct (decide (x_tag x = "causalConnector")) as [Hx|Hx].
  { eapply pw_mono; [apply pw_conj; [apply pw_conj; [by apply conn_ok|by apply conn_okG]|apply (process_closed (fun t => mem t innerTags)); [|done|done|]]|].
    - intros t c Ht Hc. apply mem_inner. eapply inner_kid; [|exact Hc]. apply mem_spec. right. by apply mem_spec.
    - intros c Hc. apply mem_inner. eapply inner_kid; [|exact Hc]. rewrite Hx. done.
    - intros [] s' [[Hok Hg] Hin] cx Hcx Ht. rewrite elements_eq in Hcx. apply elem_of_cons in Hcx as [->|Hcx]; [exists (p_next s); split; [lia|done]|]. specialize (Hin _ Hcx). rewrite Ht in Hin. done. }
  destruct (mem (x_tag x) baseTags) eqn:Eb.
  2: { eapply pw_mono; [apply (process_closed (fun t => negb (mem t baseTags))); [apply base_kid|done|done|intros c; apply base_kid; by rewrite Eb]|]. intros [] s' H cx Hcx Ht. rewrite elements_eq in Hcx. apply elem_of_cons in Hcx as [->|Hcx]; [done|]. specialize (H _ Hcx). rewrite Ht in H. discriminate H. }
  apply process_rule2; [done|done|]. intros sy attrs s1 K1 Hn. set (e0 := newElt _ _ _ _).
  assert (Es : sy_push sy <> PuConnector /\ predPush (sy_push sy) = false /\ cqPush (sy_push sy) = true). { pose proof (ck_syn _ _ _ _ _ _ _ K1) as Es. apply mem_spec in Eb. unfold baseTags in Eb. repeat (apply elem_of_cons in Eb as [Eb|Eb]; [rewrite Eb in Es, Hx; try done; vm_compute in Es; injection Es as <-; done|]). by apply elem_of_nil in Eb. }
  destruct Es as (Hnc & Hnp & Hni).
  assert (G1 : grows s (p_set_next (Pos.succ (p_next s1)) s1)) by exact (checked_grows _ _ _ _ _ _ _ K1).
  eapply pw_mono; [apply pw_conj; [apply (push_pred E (pushImport E (processNode E k)) (sy_push sy) e0); [intros; apply import_shape|done]|apply (grows_push E (processNode E k)); intros up' x' s'; eapply pw_mono; [apply process_ids|]; intros [] s'' (J1 & J2 & _); by split]|]. intros e s3 [Ep G3]. cbv beta. change (el_pred e0) with (@None pid) in Ep.
  eapply pw_mono; [apply pw_conj; [apply keep_when, keep_cacheAdd|]|].
  { instantiate (1 := fun _ s4 => forall m em, p_cache s4 !! m = Some em -> p_cache s3 !! m = None -> el_pred em = None). destruct (sy_cache sy); cbn [pwhen].
    - eapply pw_mono; [apply cacheAdd_eq|]. intros [] s4 (_ & _ & E4 & _) m em Hm Hno. rewrite E4 in Hm. destruct (decide (el_node e = m)) as [<-|Hne]; [rewrite lookup_insert in Hm; congruence|rewrite lookup_insert_ne in Hm by done; congruence].
    - p1. intros m em Hm Hno. congruence. }
  intros [] s4 [F4 D4] P4 Pr4 M4.
  assert (Hnn : forall em, p_cache s4 !! p_next s = Some em -> el_pred em = None).
  { intros em Hem. destruct (sy_cache sy) eqn:Ec.
    - destruct (mi_elt _ _ _ _ _ _ _ M4 Ec) as (He & _). congruence.
    - destruct (po_c _ _ P4 _ _ Hem) as (_ & _ & Hin). exfalso. rewrite (mi_order _ _ _ _ _ _ _ M4) in Hin by (intros Hz; by rewrite Hz in Hni). rewrite Ec, app_nil_r in Hin. specialize (O _ Hin). lia. }
  assert (G4 : grows s s4) by (eapply grows_trans; [exact G1|]; eapply grows_trans; [exact G3|by apply grows_fr]).
  assert (Hlt : (p_next s < p_next s4)%positive) by (destruct (Pr4 _ _ eq_refl); done).
  eapply pw_mono; [apply (kids_rule E k _ _ _ s4 (fun l s' => cinv s' /\ p_alias s' = [] /\ p_conn s' = None /\ ordOk s' /\ (p_next s4 <= p_next s')%positive /\ (forall em, p_cache s' !! p_next s = Some em -> el_pred em = None) /\ exists p, x_kids x = p ++ l /\ conns (p_next s4) s4 s' (flat_map elementsOf p))); [apply P4|done| |]|].
  - split; [apply P4|]. split; [by rewrite (proj1 G4)|]. split; [by apply (mi_conn _ _ _ _ _ _ _ M4)|]. split; [eapply ordOk_lf; [apply M4|done]|]. split; [lia|]. split; [done|]. exists []. split; [done|]. intros cx Hcx. by apply elem_of_nil in Hcx.
  - intros y l' s' _ C' Hp' (_ & A' & N' & O' & Nx' & Z' & p & Hpl & H'). eapply pw_mono; [apply pw_conj; [by apply process_post|apply pw_conj; [apply process_ids|apply pw_conj; [by apply process_lf|apply pw_conj; [by apply process_cf|by apply IH]]]]|].
    intros [] s'' [[P'' _] [(J1 & _) [[L'' O''] [F'' H'']]]]. split; [apply P''|]. split; [congruence|]. split; [by eapply conn_none|]. split; [by eapply ordOk_lf|]. split; [pose proof (cf_next _ _ _ F''); lia|].
    split; [intros em Hem; destruct (lf_back _ _ _ _ _ L'' Hem) as (e' & He' & _); [lia|]; destruct (cf_old _ _ _ F'' _ _ He') as (e'' & He'' & Ee); assert (em = e'') as -> by congruence; rewrite Ee; by apply Z'|]. exists (p ++ [y]). split; [by rewrite <- app_assoc|].
    intros cx Hcx Ht. rewrite flat_map_app in Hcx. cbn [flat_map] in Hcx. rewrite app_nil_r in Hcx. apply elem_of_app in Hcx as [Hcx|Hcx].
    + destruct (H' cx Hcx Ht) as (m & Hm & Hcm & Hgm). exists m. split; [done|]. assert (HX : ~ opened (Some (p_next s, x_tag x)) s' m) by (intros [Hq|Hq]; [cbn in Hq; injection Hq as <-; lia|congruence]). split; [by eapply connAt_lf|].
      eapply connG_step; [exact C'|exact F''|exact L''|exact HX| |reflexivity|exact Hgm]. intros m' em pm Hm' Hem Hpm. unfold upX in Hm'. cbn in Hm'. injection Hm' as <-. rewrite (Z' _ Hem) in Hpm. discriminate Hpm.
    + destruct (H'' cx Hcx Ht) as (m & Hm & Hcm & Hgm). exists m. split; [lia|]. split; [done|]. eapply connG_low; [|exact Hgm]. lia.
  - intros [] s5 (C5 & A5 & N5 & O5 & Nx5 & Z5 & p & Hpl & H5). cbv beta in *. rewrite app_nil_r in Hpl. subst p. eapply pw_mono; [apply pw_conj; [by apply pop_lf|apply kx_pop]|].
    { intros Hz. pose proof (ck_syn _ _ _ _ _ _ _ K1) as Es. apply mem_spec in Eb. unfold baseTags in Eb. repeat (apply elem_of_cons in Eb as [Eb|Eb]; [rewrite Eb in Es, Hx; try done; vm_compute in Es; injection Es as <-; discriminate Hz|]). by apply elem_of_nil in Eb. }
    intros [] s6 [[L6 _] F6]. intros cx Hcx Ht. rewrite elements_eq in Hcx. apply elem_of_cons in Hcx as [->|Hcx]; [done|].
    destruct (H5 cx Hcx Ht) as (m & Hm & Hcm & Hgm). exists m. split; [lia|]. split; [eapply connAt_lf; [exact C5|exact L6|intros []|done]|]. eapply (connG_step none); [exact C5|exact F6|exact L6|intros []|apply below_none| |exact Hgm]. lia.
Qed.

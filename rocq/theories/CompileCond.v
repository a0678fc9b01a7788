(** CompileCond.v -- C42: what the compound conditions of a connector become. *)
From Verif Require Import BuildOps ParserFrame DecSpec DecFacts PredSpec.
From Verif Require Export CompileStat.
Open Scope string_scope.
Open Scope list_scope.

(** From element [o] up to [stop] there are compound conditions; [G] are their statements, outermost first. *)
Inductive chain (b : positive) (s : pst) (stop : option nid) : option nid -> list (list npred) -> Prop :=
| ch_stop : chain b s stop stop []
| ch_up n e p cs g G : p_cache s !! n = Some e -> el_tag e = "compoundCondition" -> el_pred e = Some p -> (b <= p)%positive -> (p < p_next s)%positive -> p_cells s !! p = Some (CellConn CAnd cs) -> Forall2 (predAt b s) g cs ->
    chain b s stop (el_up e) G -> chain b s stop (Some n) (G ++ [g]).
Lemma chain_cf X Y b b' s s' stop o G : cinv s -> cf X s s' -> lf Y s s' -> below b X s -> (b' <= b)%positive -> chain b s stop o G -> chain b' s' stop o G.
Proof.
  intros C F L B Hb H. induction H as [|n e p cs g G H1 H2 H3 H4 H4' H5 H6 H7 IH]; [constructor|].
  destruct (cf_old _ _ _ F _ _ H1) as (e' & He' & Ep). destruct (lf_ident _ _ _ _ _ L H1) as (e'' & He'' & Hi); [apply (C _ _ H1)|]. assert (e'' = e') as -> by congruence.
  apply (ch_up _ _ _ n e' p cs); [done|by rewrite (ident_tag _ _ Hi)|congruence|lia|pose proof (cf_next _ _ _ F); lia| |by eapply preds_cf|by rewrite (ident_up _ _ Hi)].
  rewrite (cf_cell _ _ _ F); [done|done|]. intros m em Hm Hem Hpm. pose proof (B _ _ _ Hm Hem Hpm). lia.
Qed.
Lemma chain_low b b' s stop o G : (b' <= b)%positive -> chain b s stop o G -> chain b' s stop o G.
Proof.
  intros Hb H. induction H as [|n e p cs g G H1 H2 H3 H4 H4' H5 H6 H7 IH]; [constructor|]. apply (ch_up _ _ _ n e p cs); try done; [lia|by eapply preds_low].
Qed.
Lemma chain_out b s n e p cs g o G : p_cache s !! n = Some e -> el_tag e = "compoundCondition" -> el_pred e = Some p -> (b <= p)%positive -> (p < p_next s)%positive -> p_cells s !! p = Some (CellConn CAnd cs) -> Forall2 (predAt b s) g cs ->
  chain b s (Some n) o G -> chain b s (el_up e) o (g :: G).
Proof.
  intros H1 H2 H3 H4 H4' H5 H6 H. induction H as [|n1 e1 p1 cs1 g1 G K1 K2 K3 K4 K4' K5 K6 K7 IH].
  - apply (ch_up _ _ _ n e p cs g []); try done. constructor.
  - change (g :: G ++ [g1]) with ((g :: G) ++ [g1]). by apply (ch_up _ _ _ n1 e1 p1 cs1).
Qed.
(** The statements around a role. *)
Definition rg (b : positive) (s : pst) (stop : option nid) (q : list xml * xml) (r : crole) : Prop :=
  rl_cond r = true -> exists G, chain b s stop (rl_parent r) G /\ Forall2 (fun y g => Forall2 states (statementsOf y) g) (fst q) G.
Lemma rgs_cf X Y b b' s s' stop l rs : cinv s -> cf X s s' -> lf Y s s' -> below b X s -> (b' <= b)%positive -> Forall2 (rg b s stop) l rs -> Forall2 (rg b' s' stop) l rs.
Proof. intros C F L B Hb H. eapply Forall2_impl; [exact H|]. intros q r Hr Hc. destruct (Hr Hc) as (G & H1 & H2). exists G. split; [|done]. by eapply chain_cf. Qed.
Lemma rgs_low b b' s stop l rs : (b' <= b)%positive -> Forall2 (rg b s stop) l rs -> Forall2 (rg b' s stop) l rs.
Proof. intros Hb H. eapply Forall2_impl; [exact H|]. intros q r Hr Hc. destruct (Hr Hc) as (G & H1 & H2). exists G. split; [|done]. by eapply chain_low. Qed.
Lemma rgs_out b s n e p cs g x l rs : p_cache s !! n = Some e -> el_tag e = "compoundCondition" -> el_pred e = Some p -> (b <= p)%positive -> (p < p_next s)%positive -> p_cells s !! p = Some (CellConn CAnd cs) -> Forall2 (predAt b s) g cs ->
  Forall2 states (statementsOf x) g -> Forall2 (rg b s (Some n)) l rs -> Forall2 (rg b s (el_up e)) (map (fun q => ([x] ++ fst q, snd q)) l) rs.
Proof.
  intros H1 H2 H3 H4 H4' H5 H6 H7 H. induction H as [|q r l rs Hr H IH]; [constructor|]. cbn [map]. constructor; [|done]. intros Hc. destruct (Hr Hc) as (G & K1 & K2). exists (g :: G). split; [by eapply chain_out|]. cbn [fst app]. by constructor.
Qed.
Lemma rolesIn_eq x : rolesIn x = (if isRole x then [([], x)] else []) ++ map (fun q => ((if tagIs "compoundCondition" x then [x] else []) ++ fst q, snd q)) (flat_map rolesIn (x_kids x)).
Proof. destruct x as [t a l]. reflexivity. Qed.
Lemma xml_deep (Q : xml -> Prop) : (forall x, (forall y, y ∈ x_kids x -> Q y) -> Q x) -> forall x, Q x.
Proof.
  intros H. fix IH 1. intros [t a l]. apply H. cbn [x_kids]. induction l as [|y l IHl]; intros z Hz; [exfalso; clear IH; by apply elem_of_nil in Hz|]. apply elem_of_cons in Hz as [->|Hz]; [exact (IH y)|exact (IHl z Hz)].
Qed.
Lemma rolesIn_roles x : map snd (rolesIn x) = rolesOf x.
Proof.
  induction x as [x IH] using xml_deep. rewrite rolesIn_eq, rolesOf_eq, map_app, map_map. f_equal; [by destruct (isRole x)|].
  rewrite (map_ext _ snd) by done. assert (forall l, (forall y, y ∈ l -> map snd (rolesIn y) = rolesOf y) -> map snd (flat_map rolesIn l) = flat_map rolesOf l) as M; [|by apply M].
  induction l as [|y l IHl]; intros Hl; [done|]. cbn [flat_map]. rewrite map_app, (Hl y) by left. f_equal. apply IHl. intros z Hz. apply Hl. by right.
Qed.

(** ** Roles without conditions around them. *)
Definition quietTags : list string := ["connectorParam"; "compoundAction"; "simpleAction"; "compoundStatement"; "assessmentStatement"; "attributeAssessment"; "valueAssessment"].
Definition quietOk (x : string * syn) : bool := negb (existsb (fun t => mem t quietTags) (sy_parents (snd x))) || mem (fst x) quietTags.
Lemma quietOk_all : forallb quietOk syntax = true. Proof. vm_compute. reflexivity. Qed.
Lemma quiet_kid t c : mem t quietTags = true -> possibleChild t c = true -> mem c quietTags = true.
Proof.
  intros Ht H. unfold possibleChild, synOf in H. destruct (look c syntax) as [sy|] eqn:Es; [|done]. apply look_some in Es. pose proof (forall_elem _ _ _ quietOk_all Es) as F. unfold quietOk in F. cbn [fst snd] in F.
  assert (existsb (fun t => mem t quietTags) (sy_parents sy) = true) as Hx by (apply existsb_exists; exists t; split; [apply elem_of_list_In; by apply mem_spec|done]). rewrite Hx in F. exact F.
Qed.
Lemma quiet_inner t : mem t quietTags = true -> t ∈ innerTags.
Proof. intros H. apply mem_spec in H. unfold quietTags in H. unfold innerTags. repeat (apply elem_of_cons in H as [->|H]; [set_solver|]). by apply elem_of_nil in H. Qed.
Lemma quiet_roles x : (forall z, z ∈ elementsOf x -> mem (x_tag z) quietTags = true) -> forall r, r ∈ rolesOf x -> isCondition r = false.
Proof.
  intros H r Hr. unfold rolesOf in Hr. apply elem_of_list_In, filter_In in Hr as [Hr _]. apply elem_of_list_In in Hr. specialize (H _ Hr). unfold isCondition, tagIs. apply String.eqb_neq. intros Ht. by rewrite Ht in H.
Qed.
Lemma rgs_quiet b s stop l rs : (forall r, r ∈ map snd l -> isCondition r = false) -> Forall2 roleIs (map snd l) rs -> Forall2 (rg b s stop) l rs.
Proof.
  intros H. revert rs. induction l as [|q l IH]; intros rs F; cbn [map] in F; inversion F as [|a r la lr Hr F']; subst; [constructor|]. constructor.
  - intros Hc. destruct Hr as (_ & Hr & _). rewrite (H (snd q)) in Hr by (cbn; left). congruence.
  - apply IH; [|done]. intros z Hz. apply H. cbn. by right.
Qed.
(** What an element adds to the connector that is open. *)
Definition guards (b : positive) (s s' : pst) (stop : option nid) (c : nid) (A : smapT) (rs : list crole) (l : list (list xml * xml)) : Prop :=
  exists new ts', cn s' c A (rs ++ new) ts' /\ Forall2 (rg b s' stop) l new.
Lemma quiet_ok E k up x s b stop c A rs ts : cinv s -> Par s up -> p_alias s = [] -> mem (x_tag x) quietTags = true -> cn s c A rs ts ->
  pw (processNode E k up x) (fun _ s' => guards b s s' stop c A rs (rolesIn x)) s.
Proof.
  intros C Hp Ha Hx Hcn. eapply pw_mono; [apply pw_conj; [apply (process_inner E k up x s c A rs ts); try done; by apply quiet_inner|apply (process_closed (fun t => mem t quietTags)); [apply quiet_kid|done|done|intros t; by apply quiet_kid]]|].
  intros [] s' [(new & ts' & H1 & H2 & _) H3]. exists new, ts'. split; [done|]. rewrite <- rolesIn_roles in H2. apply rgs_quiet; [|done]. rewrite rolesIn_roles. apply quiet_roles. intros z Hz. rewrite elements_eq in Hz. apply elem_of_cons in Hz as [->|Hz]; [done|by apply H3].
Qed.

(** ** Conditions. *)
Definition isCond (y : xml) : bool := tagIs "compoundCondition" y || tagIs "simpleCondition" y.
Lemma simple_ok E k u t x s c A rs ts : cinv s -> Par s (Some (u, t)) -> p_alias s = [] -> x_tag x = "simpleCondition" -> cn s c A rs ts ->
  pw (processNode E k (Some (u, t)) x) (fun _ s' => cf none s s' /\ guards (p_next s) s s' (Some u) c A rs (rolesIn x)) s.
Proof.
  intros C Hp Ha Hx Hcn. destruct k as [|k]; [apply pw_nofuel|]. apply process_rule2; [done|done|]. intros sy attrs s1 K1 Hn1.
  assert (Es : sy_push sy = PuSimple /\ sy_pop sy = PoNone /\ sy_cache sy = false). { pose proof (ck_syn _ _ _ _ _ _ _ K1) as Es. rewrite Hx in Es; vm_compute in Es; injection Es as <-; done. }
  destruct Es as (Ep & Eo & Ec). rewrite Ep, Eo, Ec. destruct (checked_fresh _ _ _ _ _ _ _ K1) as (Hn & Hn2 & Hc & Ho2 & Hcn2 & _ & _ & Ha2).
  assert (Hce : p_cells (p_set_next (Pos.succ (p_next s1)) s1) = p_cells s) by (destruct (ck_state _ _ _ _ _ _ _ K1) as [g ->]; done).
  assert (Hk : x_kids x = []). { destruct (x_kids x) as [|y l] eqn:Ey; [done|]. exfalso. pose proof (ck_kids _ _ _ _ _ _ _ K1 y ltac:(rewrite Ey; left)) as H. rewrite Hx in H. eapply no_kids; [|exact H]; vm_compute; reflexivity. }
  set (s2 := p_set_next _ _) in *. set (e0 := newElt _ _ _ _). assert (Sa : same_attrs x e0) by (eapply checked_same; [exact K1|done|done]).
  assert (Q2 : lq s s2). { split; [|done]. split; [lia|by rewrite Hc|by rewrite Hc|]. exists []. rewrite Ho2, app_nil_r. split; [done|]. intros nn Hnn. by apply elem_of_nil in Hnn. }
  assert (Cn2 : cn s2 c A rs ts) by (by eapply cn_lq). assert (F2 : cf none s s2) by (apply cf_same; [rewrite Hn2; lia|done|done]).
  rewrite Hk. cbn [push pwhen pop peach]. eapply pw_mono; [apply pw_conj; [apply (kx_push E (pushImport E (processNode E k)) PuSimple e0 eq_refl)|apply (pushSimple_ok e0 x s2 c A rs ts); [by left|done|done|done]]|].
  intros e s3 [F3 (r & Hr & Hpa & Hc3)]. p1. intros _ _ _. p1. p1. split; [eapply cf_trans; [exact F2|exact F3|done]|]. exists [r], ts. split; [done|]. rewrite rolesIn_eq, Hk. unfold isRole, isCondition, tagIs. rewrite Hx. cbn. constructor; [|constructor].
  intros _. exists []. split; [|constructor]. rewrite Hpa. cbn. constructor.
Qed.
Lemma cond_kids y : possibleChild "compoundCondition" (x_tag y) = true -> isCond y = true \/ isStatement y = true.
Proof.
  intros Hy. assert (Hl : x_tag y ∈ ["compoundCondition"; "simpleCondition"; "compoundStatement"; "assessmentStatement"]) by (eapply kids_are; [|exact Hy]; vm_compute; reflexivity). unfold isCond, isStatement, tagIs.
  apply elem_of_cons in Hl as [->|Hl]; [by left|]. apply elem_of_cons in Hl as [->|Hl]; [by left|]. apply elem_of_cons in Hl as [->|Hl]; [by right|]. apply elem_of_list_singleton in Hl as ->. by right.
Qed.
Lemma stat_quiet y : isStatement y = true -> mem (x_tag y) quietTags = true.
Proof. unfold isStatement, tagIs. intros H. apply orb_true_iff in H as [H|H]; apply String.eqb_eq in H; rewrite H; done. Qed.
Lemma cond_stat y : isCond y = true -> isStatement y = false.
Proof. unfold isCond, isStatement, tagIs. intros H. apply orb_true_iff in H as [H|H]; apply String.eqb_eq in H; rewrite H; done. Qed.
Lemma cn_conn s c A rs ts : cn s c A rs ts -> connLow (p_next s) s.
Proof. intros (H1 & H2 & _) m Hm. congruence. Qed.
Lemma cn_eq s c A rs ts A' rs' ts' : cn s c A rs ts -> cn s c A' rs' ts' -> rs = rs' /\ ts = ts'.
Proof. intros (_ & _ & e & H1 & _ & _ & H2 & H3) (_ & _ & e' & K1 & _ & _ & K2 & K3). assert (e' = e) as -> by congruence. split; congruence. Qed.
Lemma cond_ok E k : forall u t x s c A rs ts, cinv s -> Par s (Some (u, t)) -> p_alias s = [] -> isCond x = true -> cn s c A rs ts ->
  pw (processNode E k (Some (u, t)) x) (fun _ s' => cf none s s' /\ guards (p_next s) s s' (Some u) c A rs (rolesIn x)) s.
Proof.
  induction k as [|k IH]; intros u t x s c A rs ts C Hp Ha Hx Hcn; [apply pw_nofuel|]. unfold isCond, tagIs in Hx. apply orb_true_iff in Hx as [Hx|Hx]; apply String.eqb_eq in Hx; [|by eapply simple_ok].
  apply process_rule2; [done|done|]. intros sy attrs s1 K1 Hn1.
  assert (Es : sy_push sy = PuCompound /\ sy_pop sy = PoNone /\ sy_cache sy = true). { pose proof (ck_syn _ _ _ _ _ _ _ K1) as Es. rewrite Hx in Es; vm_compute in Es; injection Es as <-; done. }
  destruct Es as (Ep & Eo & Ec). rewrite Ep, Eo, Ec. destruct (checked_fresh _ _ _ _ _ _ _ K1) as (Hn & Hn2 & Hc & Ho2 & Hcn2 & _ & _ & Ha2).
  assert (Hce : p_cells (p_set_next (Pos.succ (p_next s1)) s1) = p_cells s) by (destruct (ck_state _ _ _ _ _ _ _ K1) as [g ->]; done).
  set (s2 := p_set_next _ _) in *. set (e0 := newElt _ _ _ _).
  assert (Q2 : lq s s2). { split; [|done]. split; [lia|by rewrite Hc|by rewrite Hc|]. exists []. rewrite Ho2, app_nil_r. split; [done|]. intros nn Hnn. by apply elem_of_nil in Hnn. }
  assert (Cn2 : cn s2 c A rs ts) by (by eapply cn_lq). assert (F2 : cf none s s2) by (apply cf_same; [rewrite Hn2; lia|done|done]).
  cbn [push pwhen]. unfold pushCompound. p1. eapply pw_mono; [apply newCell_ok|]. intros pc s3 (-> & F3 & E3). cbv beta. p1. assert (F3' : cf none s s3) by (eapply cf_trans; [exact F2|exact F3|done]).
  set (e := el_set_pred (p_next s2) e0). eapply pw_mono; [apply pw_conj; [apply cacheAdd_eq|apply (cache_cf none e s s3 F3')]|]. { intros q Hq. assert (q = p_next s2) as -> by (cbn in Hq; congruence). rewrite Hn2. lia. }
  intros [] s4 [(E1 & E2 & E4 & E5 & E6) [F4 _]] P4 Pr4 M4. cbv beta in *. change (el_node e) with (p_next s) in E4. assert (He4 : p_cache s4 !! p_next s = Some e) by (rewrite E4; apply lookup_insert).
  set (pc := p_next s2) in *. assert (Hpc : (p_next s < pc)%positive) by (rewrite Hn2; lia). assert (N3 : p_next s3 = Pos.succ pc) by (rewrite E3; done).
  assert (A4 : p_alias s4 = []) by (rewrite E5, E3; change (p_alias s2 = []); congruence).
  assert (Cn4 : cn s4 c A rs ts). { destruct Cn2 as (D1 & D2 & ce & D3 & D4). split; [rewrite E6, E3; done|]. split; [lia|]. exists ce. split; [|done]. rewrite E4, lookup_insert_ne; [rewrite E3; done|]. destruct Hcn as (_ & Hcl & _). lia. }
  assert (Hpc4 : p_cells s4 !! pc = Some (CellConn CAnd [])) by (rewrite E1, E3; cbn; apply lookup_insert).
  eapply pw_mono; [apply (kids_rule E k _ _ _ s4 (fun l s' => cinv s' /\ p_alias s' = [] /\ cf (upX (Some (p_next s, x_tag x))) s4 s' /\ lf (fun _ => True) s4 s' /\ exists p ls cs' new ts', x_kids x = p ++ l /\
     Forall2 states (List.filter isStatement p) ls /\ Forall2 (predAt (p_next s4) s') ls cs' /\ p_cells s' !! pc = Some (CellConn CAnd cs') /\ cn s' c A (rs ++ new) ts' /\ Forall2 (rg (p_next s4) s' (Some (p_next s))) (flat_map rolesIn p) new)); [apply P4|done| |]|].
  - split; [apply P4|]. split; [done|]. split; [apply cf_refl|]. split; [apply lf_refl|]. exists [], [], [], [], ts. split; [done|]. split; [constructor|]. split; [constructor|]. split; [done|]. rewrite app_nil_r. split; [done|constructor].
  - intros y l' s' [p0 Hp0] C' Hp' (_ & A' & F' & L' & p & ls & cs' & new & ts' & Hpl & S' & D' & Hcell' & Cn' & R').
    pose proof (ck_kids _ _ _ _ _ _ _ K1 y ltac:(rewrite Hp0; apply in_mid)) as Hy. rewrite Hx in Hy. destruct (cf_old _ _ _ F' _ _ He4) as (e' & He' & Epe'). pose proof (cf_next _ _ _ F') as N'.
    assert (Bl : below (p_next s4) (upX (Some (p_next s, x_tag x))) s'). { intros m em pm Hm Hem Hpm. unfold upX in Hm. cbn in Hm. injection Hm as <-. assert (em = e') as -> by congruence. rewrite Epe' in Hpm. cbn in Hpm. injection Hpm as <-. lia. }
    destruct (cond_kids _ Hy) as [Hy'|Hy'].
    + eapply pw_mono; [apply pw_conj; [by apply process_post|apply pw_conj; [apply process_ids|apply pw_conj; [by apply process_lf|by apply (IH _ _ y s' c A (rs ++ new) ts')]]]|].
      intros [] s'' [[P'' _] [(J1 & _) [[L'' _] [F'' (new2 & ts2 & Cn'' & R'')]]]]. split; [apply P''|]. split; [congruence|]. split; [eapply cf_trans; [exact F'|exact F''|intros ? _ []]|]. split; [eapply lf_trans; [exact L'|exact L''|done]|].
      exists (p ++ [y]), ls, cs', (new ++ new2), ts2. split; [by rewrite <- app_assoc|]. split; [rewrite List.filter_app; cbn [List.filter]; rewrite (cond_stat _ Hy'), app_nil_r; done|].
      split; [eapply (preds_cf none); [exact F''|apply below_none|reflexivity|exact D']|]. split; [rewrite (cf_cell _ _ _ F''); [done|lia|intros ? ? []]|]. split; [by rewrite app_assoc|]. rewrite flat_map_app. cbn [flat_map]. rewrite app_nil_r. apply Forall2_app.
      * eapply (rgs_cf none); [exact C'|exact F''|exact L''|apply below_none|reflexivity|exact R'].
      * eapply rgs_low; [|exact R'']. done.
    + assert (Hyp : stat_hyp s' (p_next s) (x_tag x) pc CAnd cs'). { split; [done|]. split; [done|]. split; [done|]. split; [by eapply cn_conn|]. split; [lia|]. split; [exists e'; split; [done|by rewrite Epe']|done]. }
      eapply pw_mono; [apply pw_conj; [by apply process_post|apply pw_conj; [apply process_ids|apply pw_conj; [by apply process_lf|apply pw_conj; [by apply process_cf|apply pw_conj; [by apply (statement_ok E k _ _ y s' pc CAnd cs')|apply (quiet_ok E k _ y s' (p_next s4) (Some (p_next s)) c A (rs ++ new) ts'); [done|done|done|by apply stat_quiet|done]]]]]]|].
      intros [] s'' [[P'' _] [(J1 & _) [[L'' _] [F'' [(q & Q & Hq1 & Hq2 & Hq3 & _) (new2 & ts2 & Cn'' & R'')]]]]]. split; [apply P''|]. split; [congruence|]. split; [eapply cf_trans; [exact F'|exact F''|done]|]. split; [eapply lf_trans; [exact L'|exact L''|done]|].
      exists (p ++ [y]), (ls ++ [Q]), (cs' ++ [q]), (new ++ new2), ts2. split; [by rewrite <- app_assoc|]. split; [rewrite List.filter_app; cbn [List.filter]; rewrite Hy'; apply Forall2_app; [done|by constructor]|].
      split; [apply Forall2_app; [eapply preds_cf; [exact F''|exact Bl|reflexivity|exact D']|constructor; [by eapply predAt_low; [|exact Hq2]|constructor]]|]. split; [done|]. split; [by rewrite app_assoc|]. rewrite flat_map_app. cbn [flat_map]. rewrite app_nil_r. apply Forall2_app; [|done].
      eapply rgs_cf; [exact C'|exact F''|exact L''|exact Bl|reflexivity|exact R'].
  - intros [] s5 (C5 & A5 & F5 & L5 & p & ls & cs' & new & ts' & Hpl & S5 & D5 & Hcell5 & Cn5 & R5). cbv beta in *. rewrite app_nil_r in Hpl. subst p. cbn [pop]. p1. pose proof (cf_next _ _ _ F5) as N5. split.
    + eapply cf_trans; [exact F4|exact F5|]. intros m [em Hm] Hm1. unfold upX in Hm1. cbn in Hm1. injection Hm1 as <-. destruct (C _ _ Hm). lia.
    + destruct (cf_old _ _ _ F5 _ _ He4) as (e' & He' & Epe'). destruct (lf_ident _ _ _ _ _ L5 He4) as (e'' & He'' & Hi); [destruct (Pr4 _ _ eq_refl); done|]. assert (e'' = e') as -> by congruence.
      exists new, ts'. split; [done|]. rewrite rolesIn_eq. unfold isRole, isCondition, tagIs. rewrite Hx. cbn [app String.eqb Ascii.eqb Bool.eqb orb]. 
      assert (Eu : Some u = el_up e') by (rewrite (ident_up _ _ Hi); done). rewrite Eu. apply (rgs_out (p_next s) s5 (p_next s) e' pc cs' ls x).
      * done.
      * rewrite (ident_tag _ _ Hi). exact Hx.
      * rewrite Epe'. done.
      * lia.
      * lia.
      * done.
      * eapply preds_low; [|exact D5]. lia.
      * exact S5.
      * eapply rgs_low; [|exact R5]. lia.
Qed.

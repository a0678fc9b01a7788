(** CompileStat.v -- C42: what one statement of a connector becomes. *)
From Verif Require Import BuildOps ParserFrame DecSpec DecFacts PredSpec.
From Verif Require Export CompileGuard.
Open Scope string_scope.
Open Scope list_scope.

(** The predicate of statement [x] has been added to [pp]. *)
Definition added (b : positive) (s : pst) (x : xml) (pp : pid) (kk : conn) (cs : list pid) : Prop :=
  exists q P, p_cells s !! pp = Some (CellConn kk (cs ++ [q])) /\ predAt b s P q /\ states x P /\ (kk = CNeg -> length cs <> 1%nat).
Definition stat_hyp (s : pst) (u : nid) (t : string) (pp : pid) (kk : conn) (cs : list pid) : Prop :=
  cinv s /\ Par s (Some (u, t)) /\ p_alias s = [] /\ connLow (p_next s) s /\ (pp < p_next s)%positive /\ (exists ue, p_cache s !! u = Some ue /\ el_pred ue = Some pp) /\ p_cells s !! pp = Some (CellConn kk cs).
Lemma compound_ok E k u t x s pp kk cs : (forall u t y s pp kk cs, stat_hyp s u t pp kk cs -> isStatement y = true -> pw (processNode E k (Some (u, t)) y) (fun _ s' => added (p_next s) s' y pp kk cs) s) ->
  stat_hyp s u t pp kk cs -> x_tag x = "compoundStatement" -> pw (processNode E (S k) (Some (u, t)) x) (fun _ s' => added (p_next s) s' x pp kk cs) s.
Proof.
  intros IH (C & Hp & Ha & Hcl & Hlt & (ue & Hue & Hpp) & Hcell) Hx. apply process_rule2; [done|done|]. intros sy attrs s1 K1 Hn1.
  assert (Es : sy_push sy = PuStatement /\ sy_pop sy = PoStatement /\ sy_cache sy = true). { pose proof (ck_syn _ _ _ _ _ _ _ K1) as Es. rewrite Hx in Es; vm_compute in Es; injection Es as <-; done. }
  destruct Es as (Ep & Eo & Ec). rewrite Ep, Eo, Ec. destruct (checked_fresh _ _ _ _ _ _ _ K1) as (Hn & Hn2 & Hc & _ & Hcn & _ & _ & Ha2).
  assert (Hce : p_cells (p_set_next (Pos.succ (p_next s1)) s1) = p_cells s) by (destruct (ck_state _ _ _ _ _ _ _ K1) as [g ->]; done).
  set (s2 := p_set_next _ _) in *. set (e0 := newElt _ _ _ _). assert (Sa : same_attrs x e0) by (eapply checked_same; [exact K1|done|done]).
  assert (Hl : forall a, attr e0 a = aget a (x_attrs x)) by (intros a; apply Sa; right; by rewrite Hx).
  assert (Hk : isStatement x = true) by (unfold isStatement, tagIs; by rewrite Hx).
  cbn [push pwhen pop]. eapply pw_mono; [apply pw_conj; [apply (push_shape E (pushImport E (processNode E k)) PuStatement e0 s2); intros; apply import_shape|apply pw_conj; [apply pw_conj; [apply (kl_push E (pushImport E (processNode E k)) PuStatement e0 eq_refl)|apply (keep_push E (fun e => pret e) PuStatement e0); intros; apply keep_ret]|apply (pushStatement_ok e0 x s2 u ue pp kk cs); try done]]|].
  { by rewrite Hc. } { by rewrite Hce. } { rewrite Hn2. lia. }
  intros e s3 [(_ & N3 & _) [[[_ O3] K3] (c & q & Hop & Hfull & Hpe & Hnx & Hca3 & Hcc & Hcp & Hq)]]. cbv beta. change (el_node e0) with (p_next s) in N3. set (pc := p_next s2) in *.
  eapply pw_mono; [apply cacheAdd_eq|]. intros [] s4 (E1 & E2 & E3 & E4 & E5) P4 Pr4 M4. cbv beta in *.
  assert (Hpc : (p_next s < pc)%positive) by (rewrite Hn2; lia).
  destruct (mi_elt _ _ _ _ _ _ _ M4 Ec) as (He4 & _ & _).
  assert (A4 : p_alias s4 = []). { rewrite E4, (fr_alias _ _ K3). congruence. }
  assert (L4 : connLow (p_next s) s4). { intros m Hm. apply Hcl. congruence. }
  eapply pw_mono; [apply (kids_rule E k _ _ _ s4 (fun l s' => cinv s' /\ p_alias s' = [] /\ connLow (p_next s) s' /\ cf (upX (Some (p_next s, x_tag x))) s4 s' /\ exists p ls cs', x_kids x = p ++ l /\
     Forall2 states p ls /\ Forall2 (predAt (p_next s4) s') ls cs' /\ p_cells s' !! pc = Some (CellConn c cs') /\ (c = CNeg -> (length cs' <= 1)%nat))); [apply P4|done| |]|].
  - split; [apply P4|]. split; [done|]. split; [done|]. split; [apply cf_refl|]. exists [], [], []. split; [done|]. split; [constructor|]. split; [constructor|]. split; [by rewrite E1|]. cbn. lia.
  - intros y l' s' [p0 Hp0] C' Hp' (_ & A' & L' & F' & p & ls & cs' & Hpl & S' & D' & Hcell' & Hle').
    assert (Hy : isStatement y = true). { pose proof (statement_kids x y Hk (ck_kids _ _ _ _ _ _ _ K1 y ltac:(rewrite Hp0; apply in_mid))) as H. unfold tagIs in H. rewrite Hx in H. done. }
    destruct (cf_old _ _ _ F' _ _ He4) as (e' & He' & Epe'). pose proof (cf_next _ _ _ F') as N'.
    assert (Hyp : stat_hyp s' (p_next s) (x_tag x) pc c cs'). { split; [done|]. split; [done|]. split; [done|]. split; [intros m Hm; specialize (L' m Hm); destruct (Pr4 _ _ eq_refl); lia|]. split; [rewrite E2 in N'; lia|]. split; [exists e'; split; [done|congruence]|done]. }
    eapply pw_mono; [apply pw_conj; [by apply process_post|apply pw_conj; [apply process_ids|apply pw_conj; [by apply process_lf|apply pw_conj; [by apply process_cf|by apply (IH _ _ y s' pc c cs')]]]]|].
    intros [] s'' [[P'' _] [(J1 & _) [[_ O''] [F'' (q' & Q & Hq1 & Hq2 & Hq3 & Hq4)]]]]. split; [apply P''|]. split; [congruence|]. split; [by eapply connLow_ok|]. split; [eapply cf_trans; [exact F'|exact F''|done]|].
    exists (p ++ [y]), (ls ++ [Q]), (cs' ++ [q']). split; [by rewrite <- app_assoc|]. split; [apply Forall2_app; [done|by constructor]|]. split; [|split; [done|]].
    + apply Forall2_app; [|constructor; [|constructor]].
      * eapply preds_cf; [exact F''| |reflexivity|exact D']. intros m em pm Hm Hem Hpm. unfold upX in Hm. cbn in Hm. injection Hm as <-. assert (em = e') as -> by congruence. rewrite E2. assert (pm = pc) as -> by congruence. lia.
      * by eapply predAt_low; [|exact Hq2].
    + intros Hc2. specialize (Hle' Hc2). specialize (Hq4 Hc2). rewrite app_length. cbn. lia.
  - intros [] s5 (C5 & A5 & L5 & F5 & p & ls & cs' & Hpl & S5 & D5 & Hcell5 & Hle5). cbv beta in *. rewrite app_nil_r in Hpl. subst p.
    destruct (cf_old _ _ _ F5 _ _ He4) as (e' & He' & Epe'). pose proof (cf_next _ _ _ F5) as N5.
    eapply pw_mono; [apply (popStatement_ok (p_next s) e' pc c cs'); [done|congruence|done|done]|]. intros [] s6 [-> Har].
    assert (Keep : forall r, (r < p_next s4)%positive -> r <> pc -> p_cells s5 !! r = p_cells s4 !! r). { intros r Hr Hne. apply (cf_cell _ _ _ F5); [done|]. intros m em Hm Hem Hpm. unfold upX in Hm. cbn in Hm. injection Hm as <-. assert (em = e) as -> by congruence. congruence. }
    assert (Stm : statementsOf x = x_kids x). { unfold statementsOf. apply filter_all. intros y Hy. pose proof (statement_kids x y Hk (ck_kids _ _ _ _ _ _ _ K1 y Hy)) as H. unfold tagIs in H. rewrite Hx in H. done. }
    assert (Hin : predAt (p_next s) s5 (combined c ls) pc). { apply predAt_conn. split; [lia|]. split; [lia|]. exists cs'. split; [done|]. eapply preds_low; [|exact D5]. lia. }
    assert (Hlen : length ls = length cs') by (by eapply Forall2_length).
    assert (Hpp5 : p_cells s5 !! pp = Some (CellConn kk (cs ++ [q]))) by (rewrite Keep; [by rewrite E1|lia|lia]).
    destruct Hq as [[Hng ->]|(Hng & Hq1 & Hq2 & Hq3)].
    + exists pc, (combined c ls). split; [done|]. split; [done|]. split; [|done]. apply St_plain; [done|done|done|by rewrite Hlen|by rewrite Stm].
    + exists q, (PNeg [combined c ls]). split; [done|]. split; [|split; [|done]].
      * apply (predAt_conn _ _ CNeg). split; [lia|]. split; [lia|]. exists [pc]. split; [rewrite Keep; [by rewrite E1|lia|lia]|]. by constructor.
      * apply St_negated; [done|done|done|by rewrite Hlen|by rewrite Stm].
Qed.
Lemma assess_ok E k u t x s pp kk cs : stat_hyp s u t pp kk cs -> x_tag x = "assessmentStatement" -> pw (processNode E (S k) (Some (u, t)) x) (fun _ s' => added (p_next s) s' x pp kk cs) s.
Proof.
  intros (C & Hp & Ha & Hcl & Hlt & (ue & Hue & Hpp) & Hcell) Hx. apply process_rule2; [done|done|]. intros sy attrs s1 K1 Hn1.
  assert (Es : sy_push sy = PuNone /\ sy_pop sy = PoAssess /\ sy_cache sy = true). { pose proof (ck_syn _ _ _ _ _ _ _ K1) as Es. rewrite Hx in Es; vm_compute in Es; injection Es as <-; done. }
  destruct Es as (Ep & Eo & Ec). rewrite Ep, Eo, Ec. destruct (checked_fresh _ _ _ _ _ _ _ K1) as (Hn & Hn2 & Hc & _ & Hcn & _ & _ & Ha2).
  assert (Hce : p_cells (p_set_next (Pos.succ (p_next s1)) s1) = p_cells s) by (destruct (ck_state _ _ _ _ _ _ _ K1) as [g ->]; done).
  set (s2 := p_set_next _ _) in *. set (e0 := newElt _ _ _ _). assert (Sa : same_attrs x e0) by (eapply checked_same; [exact K1|done|done]).
  assert (Hl : forall a, attr e0 a = aget a (x_attrs x)) by (intros a; apply Sa; right; by rewrite Hx).
  assert (Hk : isStatement x = true) by (unfold isStatement, tagIs; by rewrite Hx).
  cbn [push pwhen pop]. p1. assert (F2 : cf none s s2) by (apply cf_same; [rewrite Hn2; lia|done|done]).
  eapply pw_mono; [apply pw_conj; [apply cacheAdd_eq|apply (cache_cf none e0 s s2 F2)]|]. { intros q Hq. discriminate Hq. }
  intros [] s4 [(E1 & E2 & E3 & E4 & E5) [F4 _]] P4 Pr4 M4. cbv beta in *. assert (He4 : p_cache s4 !! p_next s = Some e0) by (rewrite E3; apply lookup_insert).
  assert (A4 : p_alias s4 = []) by congruence. assert (L4 : connLow (p_next s) s4) by (intros m Hm; apply Hcl; congruence).
  eapply pw_mono; [apply (kids_rule E k _ _ _ s4 (fun l s' => cinv s' /\ p_alias s' = [] /\ connLow (p_next s) s' /\ cf (upX (Some (p_next s, x_tag x))) s4 s' /\ exists p e', x_kids x = p ++ l /\
     p_cache s' !! p_next s = Some e' /\ ident e' = ident e0 /\ operandsAre (map operandOf p) (el_left e', el_right e'))); [apply P4|done| |]|].
  - split; [apply P4|]. split; [done|]. split; [done|]. split; [apply cf_refl|]. exists [], e0. done.
  - intros y l' s' [p0 Hp0] C' Hp' (_ & A' & L' & F' & p & e' & Hpl & He' & Hi' & Ho').
    assert (Hy : isOperand y = true). { pose proof (statement_kids x y Hk (ck_kids _ _ _ _ _ _ _ K1 y ltac:(rewrite Hp0; apply in_mid))) as H. unfold tagIs in H. rewrite Hx in H. done. }
    assert (Hne : p_conn s' <> Some (p_next s)) by (intros Hm; specialize (L' _ Hm); lia).
    eapply pw_mono; [apply pw_conj; [by apply process_post|apply pw_conj; [apply process_ids|apply pw_conj; [by apply process_lf|apply pw_conj; [by apply process_cf|by apply (operand_ok E k (p_next s) (x_tag x) y s' e')]]]]|].
    intros [] s'' [[P'' _] [(J1 & _) [[L'' O''] [F'' (e'' & He'' & Ho'')]]]]. split; [apply P''|]. split; [congruence|]. split; [by eapply connLow_ok|]. split; [eapply cf_trans; [exact F'|exact F''|done]|].
    exists (p ++ [y]), e''. split; [by rewrite <- app_assoc|]. split; [done|]. split.
    + destruct (lf_ident _ _ _ _ _ L'' He') as (e3 & He3 & Hi3); [apply (C' _ _ He')|]. congruence.
    + rewrite map_app. cbn [map]. by eapply operands_add.
  - intros [] s5 (C5 & A5 & L5 & F5 & p & e' & Hpl & He5 & Hi5 & Ho5). cbv beta in *. rewrite app_nil_r in Hpl. subst p.
    destruct (cf_old _ _ _ F4 _ _ Hue) as (ue4 & Hue4 & Eu4). destruct (cf_old _ _ _ F5 _ _ Hue4) as (ue5 & Hue5 & Eu5).
    assert (Hcell5 : p_cells s5 !! pp = Some (CellConn kk cs)).
    { rewrite (cf_cell _ _ _ F5); [by rewrite E1, Hce|rewrite E2, Hn2; lia|]. intros m em Hm Hem. unfold upX in Hm. cbn in Hm. injection Hm as <-. assert (em = e0) as -> by congruence. done. }
    unfold popAssess, udata. p1. apply pw_index. intros en Hen. assert (en = e') as -> by congruence. apply pw_bind, pw_attr. intros cmp Hcmp. p1. p1. match goal with Hz : look cmp comparators = Some ?c |- _ => rename c into t0; rename Hz into Ht0 end.
    p1. p1. match goal with Hz : el_left e' = Some ?c |- _ => rename c into l0; rename Hz into Hl0 end. p1. p1. match goal with Hz : el_right e' = Some ?c |- _ => rename c into r0; rename Hz into Hr0 end.
    p1. apply pw_parent. intros n ue' Hn' Hue'. assert (n = u) as ->. { rewrite (ident_up _ _ Hi5) in Hn'. cbn in Hn'. congruence. } assert (ue' = ue5) as -> by congruence.
    p1. apply pw_udata. intros pp' Hpp'. assert (pp' = pp) as -> by congruence. p1. eapply pw_mono; [by apply full_spec|]. intros b s' [-> Hb]. cbv beta. p1. p1. match goal with Hz : negb b = true |- _ => apply negb_true_iff in Hz; specialize (Hb Hz) end.
    p1. eapply pw_mono; [apply newCell_ok|]. intros p s6 (-> & _ & E6). cbv beta. eapply pw_mono; [apply cellAdd_ok|]. intros [] s7 (k7 & cs7 & H7 & ->).
    assert (N5 : (p_next s < p_next s5)%positive) by (destruct (Pr4 _ _ eq_refl) as [Hz _]; pose proof (cf_next _ _ _ F5); lia).
    rewrite E6 in H7. cbn in H7. rewrite lookup_insert_ne in H7 by lia. assert (CellConn k7 cs7 = CellConn kk cs) as [= -> ->] by congruence.
    exists (p_next s5), (PAtom l0 t0 r0). cbn. rewrite lookup_insert. split; [done|]. split; [|split; [|done]].
    + rewrite E6. cbn. split; [lia|]. split; [lia|]. rewrite lookup_insert_ne by lia. by rewrite lookup_insert.
    + assert (Opd : operandsOf x = x_kids x). { unfold operandsOf. apply filter_all. intros y Hy. pose proof (statement_kids x y Hk (ck_kids _ _ _ _ _ _ _ K1 y Hy)) as Hz. unfold tagIs in Hz. rewrite Hx in Hz. exact Hz. }
      rewrite Hl0, Hr0 in Ho5. destruct (x_kids x) as [|a [|b0 [|? ?]]] eqn:Ek; cbn in Ho5; try discriminate Ho5; [|done]. injection Ho5 as -> ->. apply St_test; [done|by rewrite Opd|]. apply look_some in Ht0.
      assert (Ea : attrOf "comparator" x = cmp). { unfold attrOf. rewrite <- Hl. rewrite <- (ident_attr _ _ _ Hi5); [by rewrite Hcmp|]. change (el_tag e0) with (x_tag x). rewrite Hx. done. } rewrite Ea. exact Ht0.
Qed.
Lemma statement_ok E k : forall u t x s pp kk cs, stat_hyp s u t pp kk cs -> isStatement x = true -> pw (processNode E k (Some (u, t)) x) (fun _ s' => added (p_next s) s' x pp kk cs) s.
Proof.
  induction k as [|k IH]; intros u t x s pp kk cs Hs Hx; [apply pw_nofuel|]. unfold isStatement, tagIs in Hx. apply orb_true_iff in Hx as [Hx|Hx]; apply String.eqb_eq in Hx; [by apply compound_ok|by apply assess_ok].
Qed.

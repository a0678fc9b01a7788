(** RuleElts.v -- C50: what the rules of a document become. *)
From Verif Require Import BuildOps ParserFrame DecSpec DecFacts PredSpec.
From Verif Require Export CompileStat CompileKept PortElts RuleSpec.
Open Scope string_scope.
Open Scope list_scope.

(** The rule [y] is in the cache as [m]. *)
Definition ruleN (b : positive) (s : pst) (y : xml) (m : nid) : Prop := nodeAs s y m /\ exists e q P, p_cache s !! m = Some e /\ el_pred e = Some q /\ predAt b s P q /\ ruleMeans y P.
Lemma ruleN_step X Y b b' s s' y m : cinv s -> lf X s s' -> cf Y s s' -> below b Y s -> (b' <= b)%positive -> ruleN b s y m -> ruleN b' s' y m.
Proof.
  intros C L F B Hb [HN (e & q & P & He & Hq & HP & Hr)]. split; [by eapply nodeAs_lf|]. destruct (cf_old _ _ _ F _ _ He) as (e' & He' & Ee). exists e', q, P. split; [done|]. split; [congruence|]. split; [by eapply predAt_cf|done].
Qed.
Lemma ruleN_low b b' s y m : (b' <= b)%positive -> ruleN b s y m -> ruleN b' s y m.
Proof. intros Hb [HN (e & q & P & He & Hq & HP & Hr)]. split; [done|]. exists e, q, P. split; [done|]. split; [done|]. split; [by eapply predAt_low|done]. Qed.
Definition rulesN (b : positive) (s : pst) (l : list xml) : Prop := forall y, y ∈ l -> isRule y = true -> exists m, ruleN b s y m.
Lemma pushRule_ok e x s u ue pp kk cs : el_tag e = x_tag x -> isRule x = true -> (forall a, attr e a = aget a (x_attrs x)) -> el_up e = Some u -> p_cache s !! u = Some ue -> (el_tag ue <> "ruleBase" -> el_pred ue = Some pp /\ p_cells s !! pp = Some (CellConn kk cs) /\ (pp < p_next s)%positive) ->
  pw (pushRule e) (fun e' s' => e' = el_set_pred (p_next s) e /\ p_next s' = Pos.succ (p_next s) /\ p_cache s' = p_cache s /\
     ((x_tag x = "rule" /\ exists t, (attrOf "comparator" x, t) ∈ comparatorWords /\ p_cells s' !! p_next s = Some (CellAtom ("$__settings__." ++ attrOf "var" x)%string t (attrOf "value" x))) \/
      (x_tag x = "compositeRule" /\ exists c, (attrOf "operator" x, c) ∈ connectiveWords /\ p_cells s' !! p_next s = Some (CellConn c []))) /\
     (el_tag ue <> "ruleBase" -> p_cells s' !! pp = Some (CellConn kk (cs ++ [p_next s])) /\ (kk = CNeg -> length cs <> 1%nat))) s.
Proof.
  intros Ht Hx Ha Hu Hue Hpp. unfold pushRule. p1.
  eapply (pw_mono _ (fun p s' => p = p_next s /\ exists c, s' = p_set_cells (<[p := c]> (p_cells s)) (p_set_next (Pos.succ (p_next s)) s) /\ 
     ((x_tag x = "rule" /\ exists t, (attrOf "comparator" x, t) ∈ comparatorWords /\ c = CellAtom ("$__settings__." ++ attrOf "var" x)%string t (attrOf "value" x)) \/ (x_tag x = "compositeRule" /\ exists k, (attrOf "operator" x, k) ∈ connectiveWords /\ c = CellConn k [])))).
  { rewrite Ht. unfold isRule, tagIs in Hx. destruct (String.eqb_spec (x_tag x) "rule") as [Hr|Hr].
    - apply pw_bind, pw_attr. intros var Hv. apply pw_bind, pw_attr. intros cmp Hc. p1. p1. match goal with Hz : look cmp comparators = Some ?c |- _ => rename c into t0; rename Hz into Ht0 end. apply pw_bind, pw_attr. intros v Hvv. eapply pw_mono; [apply newCell_ok|]. intros p s1 (-> & _ & E1). split; [done|]. eexists. split; [exact E1|]. left. split; [done|]. exists t0.
      rewrite Ha in Hv, Hc, Hvv. unfold attrOf. rewrite Hv, Hc, Hvv. cbn [default]. split; [by apply look_some|done].
    - cbn [orb] in Hx. apply String.eqb_eq in Hx. apply pw_bind, pw_attr. intros op Hop. p1. p1. match goal with Hz : look op connectives = Some ?c |- _ => rename c into t0; rename Hz into Ht0 end. eapply pw_mono; [apply newCell_ok|]. intros p s1 (-> & _ & E1). split; [done|]. eexists. split; [exact E1|]. right. split; [done|]. exists t0.
      rewrite Ha in Hop. unfold attrOf. rewrite Hop. cbn [default]. split; [by apply look_some|done]. }
  intros p s1 (-> & c & -> & Hc). cbv beta. p1. apply pw_parent. intros n ue' Hn Hue'. assert (n = u) as -> by congruence. cbn in Hue'. assert (ue' = ue) as -> by congruence. p1.
  destruct (String.eqb_spec (el_tag ue) "ruleBase") as [Hb|Hb].
  - p1. p1. cbn. split; [done|]. split; [done|]. split; [done|]. split; [|done]. rewrite lookup_insert. destruct Hc as [[H1 (t & H2 & ->)]|[H1 (k & H2 & ->)]]; [left|right]; eauto.
  - destruct (Hpp Hb) as (Hp1 & Hp2 & Hlt). p1. apply pw_udata. intros pp' Hpp'. assert (pp' = pp) as -> by congruence. p1. eapply pw_mono; [apply (full_spec pp kk cs); cbn; rewrite lookup_insert_ne by lia; done|]. intros b s' [-> Hbb]. cbv beta. p1. p1. match goal with Hz : negb b = true |- _ => apply negb_true_iff in Hz; specialize (Hbb Hz) end.
    eapply pw_mono; [apply cellAdd_ok|]. intros [] s7 (k7 & cs7 & H7 & ->). cbn in H7. rewrite lookup_insert_ne in H7 by lia. assert (CellConn k7 cs7 = CellConn kk cs) as [= -> ->] by congruence. p1. cbn. split; [done|]. split; [done|]. split; [done|]. rewrite lookup_insert. rewrite lookup_insert_ne by lia. rewrite lookup_insert. split; [|done].
    destruct Hc as [[H1 (t & H2 & ->)]|[H1 (k & H2 & ->)]]; [left|right]; eauto.
Qed.

(** What processing a rule does. *)
Definition ruled (s s' : pst) (x : xml) (ue : elt) (pp : pid) (kk : conn) (cs : list pid) : Prop :=
  (exists q P e, p_cache s' !! p_next s = Some e /\ el_pred e = Some q /\ nodeAs s' x (p_next s) /\ predAt (p_next s) s' P q /\ ruleMeans x P /\ (el_tag ue <> "ruleBase" -> p_cells s' !! pp = Some (CellConn kk (cs ++ [q])) /\ (kk = CNeg -> length cs <> 1%nat))) /\ rulesN (p_next s) s' (elementsOf x).
Definition rule_hyp (s : pst) (u : nid) (t : string) (ue : elt) (pp : pid) (kk : conn) (cs : list pid) : Prop :=
  cinv s /\ Par s (Some (u, t)) /\ p_alias s = [] /\ p_cache s !! u = Some ue /\ (el_tag ue <> "ruleBase" -> el_pred ue = Some pp /\ p_cells s !! pp = Some (CellConn kk cs) /\ (pp < p_next s)%positive).
Definition ruleKid (x : string * syn) : bool := (negb (mem "compositeRule" (sy_parents (snd x))) || String.eqb (fst x) "rule" || String.eqb (fst x) "compositeRule") && negb (mem "rule" (sy_parents (snd x))).
Lemma ruleKid_all : forallb ruleKid syntax = true. Proof. vm_compute. reflexivity. Qed.
Lemma rule_kids x y : isRule x = true -> possibleChild (x_tag x) (x_tag y) = true -> x_tag x = "compositeRule" /\ isRule y = true.
Proof.
  unfold isRule, tagIs. intros H Hy. unfold possibleChild, synOf in Hy. destruct (look (x_tag y) syntax) as [sy|] eqn:Es; [|done]. apply look_some in Es. pose proof (forall_elem _ _ _ ruleKid_all Es) as F. unfold ruleKid in F. cbn [fst snd] in F. apply andb_true_iff in F as [F1 F2].
  apply orb_true_iff in H as [H|H]; apply String.eqb_eq in H; rewrite H in Hy; [rewrite Hy in F2; discriminate F2|]. split; [done|]. rewrite Hy in F1. exact F1.
Qed.
Lemma rule_ok E k : forall u t x s ue pp kk cs, rule_hyp s u t ue pp kk cs -> isRule x = true -> pw (processNode E k (Some (u, t)) x) (fun _ s' => ruled s s' x ue pp kk cs) s.
Proof.
  induction k as [|k IH]; intros u t x s ue pp kk cs (C & Hp & Ha & Hue & Hpp) Hx; [apply pw_nofuel|]. apply process_rule2; [done|done|]. intros sy attrs s1 K1 Hn1.
  assert (Es : sy_push sy = PuRule /\ sy_pop sy = PoNone /\ sy_cache sy = true). { pose proof (ck_syn _ _ _ _ _ _ _ K1) as Es. unfold isRule, tagIs in Hx. apply orb_true_iff in Hx as [Hx|Hx]; apply String.eqb_eq in Hx; rewrite Hx in Es; vm_compute in Es; injection Es as <-; done. }
  destruct Es as (Ep & Eo & Ec). rewrite Ep, Eo, Ec. destruct (checked_fresh _ _ _ _ _ _ _ K1) as (Hn & Hn2 & Hc & _ & Hcn & _ & _ & Ha2).
  assert (Hce : p_cells (p_set_next (Pos.succ (p_next s1)) s1) = p_cells s) by (destruct (ck_state _ _ _ _ _ _ _ K1) as [g ->]; done).
  set (s2 := p_set_next _ _) in *. set (e0 := newElt _ _ _ _). assert (Sa : same_attrs x e0) by (eapply checked_same; [exact K1|done|done]).
  assert (Hxd : x_tag x <> "descriptor" /\ x_tag x <> "link"). { unfold isRule, tagIs in Hx. split; intros Hz; rewrite Hz in Hx; done. }
  assert (Hl : forall a, attr e0 a = aget a (x_attrs x)) by (intros a; apply Sa; right; apply Hxd).
  cbn [push pwhen pop]. eapply pw_mono; [apply pw_conj; [apply (push_shape E (pushImport E (processNode E k)) PuRule e0 s2); intros; apply import_shape|apply pw_conj; [apply (keep_push E (fun e => pret e) PuRule e0); intros; apply keep_ret|apply (pushRule_ok e0 x s2 u ue pp kk cs); try done]]|].
  { by rewrite Hc. } { intros Hb. destruct (Hpp Hb) as (X1 & X2 & X3). split; [done|]. rewrite Hce. split; [done|]. rewrite Hn2. lia. }
  intros e s3 [(_ & N3 & _) [K3 (-> & Hnx & Hca3 & Hcell & Hup)]]. cbv beta. change (el_node e0) with (p_next s) in N3. set (pc := p_next s2) in *. set (e := el_set_pred pc e0) in *.
  eapply pw_mono; [apply cacheAdd_eq|]. intros [] s4 (E1 & E2 & E3 & E4 & E5) P4 Pr4 M4. cbv beta in *.
  assert (Hpc : (p_next s < pc)%positive) by (rewrite Hn2; lia).
  destruct (mi_elt _ _ _ _ _ _ _ M4 Ec) as (He4 & _ & _). change (el_node e0) with (p_next s) in *.
  assert (A4 : p_alias s4 = []). { rewrite E4, (fr_alias _ _ K3). congruence. }
  assert (En4 : el_pred e = Some pc) by done.
  assert (NA4 : nodeAs s4 x (p_next s)) by exact (ex_intro _ e (conj He4 (conj eq_refl (conj (proj1 Hxd) Hl)))).
  destruct Hcell as [[Hx1 (t0 & Ht0 & Hcc)]|[Hx1 (c & Hop & Hcc)]].
  - assert (Hk : x_kids x = []). { destruct (x_kids x) as [|y l] eqn:Ey; [done|]. exfalso. pose proof (ck_kids _ _ _ _ _ _ _ K1 y ltac:(rewrite Ey; left)) as H. destruct (rule_kids x y Hx H) as [Hz _]. rewrite Hz in Hx1. discriminate Hx1. }
    rewrite Hk. cbn [peach]. p1. p1. rewrite <- E1 in Hcc. rewrite <- E1 in Hup.
    assert (HP : predAt (p_next s) s4 (PAtom ("$__settings__." ++ attrOf "var" x)%string t0 (attrOf "value" x)) pc). { split; [lia|]. split; [rewrite E2; lia|]. exact Hcc. }
    assert (HM : ruleMeans x (PAtom ("$__settings__." ++ attrOf "var" x)%string t0 (attrOf "value" x))) by (by constructor).
    split; [exists pc, (PAtom ("$__settings__." ++ attrOf "var" x)%string t0 (attrOf "value" x)), e; done|]. intros y Hy Hyr. rewrite elements_eq, Hk in Hy. apply elem_of_cons in Hy as [->|Hy]; [|by apply elem_of_nil in Hy].
    exists (p_next s). split; [done|]. exists e, pc, (PAtom ("$__settings__." ++ attrOf "var" x)%string t0 (attrOf "value" x)). done.
  - rewrite <- E1 in Hcc. eapply pw_mono; [apply (kids_rule E k _ _ _ s4 (fun l s' => cinv s' /\ p_alias s' = [] /\ cf (upX (Some (p_next s, x_tag x))) s4 s' /\ lf (fun _ => True) s4 s' /\ exists p ls cs', x_kids x = p ++ l /\
      Forall2 ruleMeans p ls /\ Forall2 (predAt (p_next s4) s') ls cs' /\ p_cells s' !! pc = Some (CellConn c cs') /\ (c = CNeg -> (length cs' <= 1)%nat) /\ rulesN (p_next s4) s' (flat_map elementsOf p))); [apply P4|done| |]|].
    + split; [apply P4|]. split; [done|]. split; [apply cf_refl|]. split; [apply lf_refl|]. exists [], [], []. split; [done|]. split; [constructor|]. split; [constructor|]. split; [done|]. split; [cbn; lia|]. intros y Hy. by apply elem_of_nil in Hy.
    + intros y l' s' [p0 Hp0] C' Hp' (_ & A' & F' & L' & p & ls & cs' & Hpl & S' & D' & Hcell' & Hle' & R').
      assert (Hy : isRule y = true) by exact (proj2 (rule_kids x y Hx (ck_kids _ _ _ _ _ _ _ K1 y ltac:(rewrite Hp0; apply in_mid)))).
      destruct (cf_old _ _ _ F' _ _ He4) as (e' & He' & Epe'). rewrite En4 in Epe'. pose proof (CompileCells.cf_next _ _ _ F') as N'.
      assert (Hyp : rule_hyp s' (p_next s) (x_tag x) e' pc c cs'). { split; [done|]. split; [done|]. split; [done|]. split; [done|]. intros _. split; [done|]. split; [done|]. rewrite E2 in N'; lia. }
      assert (Hb : el_tag e' <> "ruleBase"). { destruct (lf_ident _ _ _ _ _ L' He4) as (e3 & He3 & Hi3); [destruct (Pr4 _ _ eq_refl); done|]. assert (e3 = e') as -> by congruence. rewrite (ident_tag _ _ Hi3). change (el_tag e) with (x_tag x). by rewrite Hx1. }
      eapply pw_mono; [apply pw_conj; [by apply process_post|apply pw_conj; [apply process_ids|apply pw_conj; [by apply process_lf|apply pw_conj; [by apply process_cf|by apply (IH _ _ y s' e' pc c cs')]]]]|].
      intros [] s'' [[P'' _] [(J1 & _) [[L'' O''] [F'' [(q' & Q & e2 & Hq1 & Hq2 & Hq3 & Hq4 & Hq5 & Hq6) Hq7]]]]]. destruct (Hq6 Hb) as [Hq8 Hq9].
      assert (Bl : below (p_next s4) (upX (Some (p_next s, x_tag x))) s'). { intros m em pm Hm Hem Hpm. unfold upX in Hm. cbn in Hm. injection Hm as <-. assert (em = e') as -> by congruence. rewrite E2. assert (pm = pc) as -> by congruence. lia. }
      split; [apply P''|]. split; [congruence|]. split; [eapply cf_trans; [exact F'|exact F''|done]|]. split; [eapply lf_trans; [exact L'|exact L''|done]|].
      exists (p ++ [y]), (ls ++ [Q]), (cs' ++ [q']). split; [by rewrite <- app_assoc|]. split; [apply Forall2_app; [done|by constructor]|]. split; [|split; [done|split]].
      * apply Forall2_app; [|constructor; [|constructor]]; [eapply preds_cf; [exact F''|exact Bl|reflexivity|exact D']|by eapply predAt_low; [|exact Hq4]].
      * intros Hc2. specialize (Hle' Hc2). specialize (Hq9 Hc2). rewrite app_length. cbn. lia.
      * intros z Hz Hzr. rewrite flat_map_app in Hz. cbn [flat_map] in Hz. rewrite app_nil_r in Hz. apply elem_of_app in Hz as [Hz|Hz].
        -- destruct (R' z Hz Hzr) as [m Hm]. exists m. eapply ruleN_step; [exact C'|exact L''|exact F''|exact Bl|reflexivity|exact Hm].
        -- destruct (Hq7 z Hz Hzr) as [m Hm]. exists m. eapply ruleN_low; [|exact Hm]. lia.
    + intros [] s5 (C5 & A5 & F5 & L5 & p & ls & cs' & Hpl & S5 & D5 & Hcell5 & Hle5 & R5). cbv beta in *. rewrite app_nil_r in Hpl. subst p. cbn [pop]. p1.
      destruct (cf_old _ _ _ F5 _ _ He4) as (e' & He' & Epe'). rewrite En4 in Epe'. pose proof (CompileCells.cf_next _ _ _ F5) as N5.
      assert (Keep : forall r, (r < p_next s4)%positive -> r <> pc -> p_cells s5 !! r = p_cells s4 !! r). { intros r Hr Hne. apply (cf_cell _ _ _ F5); [done|]. intros m em Hm Hem Hpm. unfold upX in Hm. cbn in Hm. injection Hm as <-. assert (em = e) as -> by congruence. congruence. }
      assert (Rk : List.filter isRule (x_kids x) = x_kids x). { apply CompileGuard.filter_all. intros y Hy. exact (proj2 (rule_kids x y Hx (ck_kids _ _ _ _ _ _ _ K1 y Hy))). }
      assert (Hin : predAt (p_next s) s5 (combined c ls) pc). { apply predAt_conn. split; [lia|]. split; [lia|]. exists cs'. split; [done|]. eapply preds_low; [|exact D5]. lia. }
      assert (Hlen : length ls = length cs') by (by eapply Forall2_length).
      assert (HM : ruleMeans x (combined c ls)) by (apply Rm_composite; [done|done|by rewrite Hlen|by rewrite Rk]).
      assert (NA5 : nodeAs s5 x (p_next s)) by (eapply nodeAs_lf; [apply P4|exact L5|exact NA4]).
      split.
      * exists pc, (combined c ls), e'. split; [done|]. split; [done|]. split; [done|]. split; [done|]. split; [done|]. intros Hb. destruct (Hpp Hb) as (X1 & X2 & X3). destruct (Hup Hb) as [U1 U2]. split; [|done]. rewrite Keep; [by rewrite E1|lia|lia].
      * intros z Hz Hzr. rewrite elements_eq in Hz. apply elem_of_cons in Hz as [->|Hz]; [exists (p_next s); split; [done|]; exists e', pc, (combined c ls); done|].
        destruct (R5 z Hz Hzr) as [m Hm]. exists m. eapply ruleN_low; [|exact Hm]. lia.
Qed.

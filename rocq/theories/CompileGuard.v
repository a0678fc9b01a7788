(** CompileGuard.v -- C42: what the statements of connectors become. *)
From Verif Require Import BuildOps ParserFrame DecSpec DecFacts PredSpec.
From Verif Require Export CompileCells.
Open Scope string_scope.
Open Scope list_scope.

(** ** Predicates in the store. *)
Fixpoint predAt (b : positive) (s : pst) (p : npred) (q : pid) : Prop :=
  (b <= q)%positive /\ (q < p_next s)%positive /\
  let all := (fix all (l : list npred) (cs : list pid) : Prop := match l, cs with [], [] => True | p :: l, c :: cs => predAt b s p c /\ all l cs | _, _ => False end) in
  match p with
  | PAtom l t r => p_cells s !! q = Some (CellAtom l t r)
  | PNeg l => exists cs, p_cells s !! q = Some (CellConn CNeg cs) /\ all l cs
  | PAnd l => exists cs, p_cells s !! q = Some (CellConn CAnd cs) /\ all l cs
  | POr l => exists cs, p_cells s !! q = Some (CellConn COr cs) /\ all l cs
  | _ => False
  end.
Lemma all_forall (R : npred -> pid -> Prop) l : forall cs,
  (fix all (l : list npred) (cs : list pid) : Prop := match l, cs with [], [] => True | p :: l, c :: cs => R p c /\ all l cs | _, _ => False end) l cs <-> Forall2 R l cs.
Proof.
  induction l as [|p l IH]; intros [|c cs]; split; intros H; try done; try (by inversion H).
  - destruct H as [H1 H2]. constructor; [done|by apply IH].
  - inversion H; subst. split; [done|by apply IH].
Qed.
Lemma predAt_conn b s c l q : predAt b s (combined c l) q <-> (b <= q)%positive /\ (q < p_next s)%positive /\ exists cs, p_cells s !! q = Some (CellConn c cs) /\ Forall2 (predAt b s) l cs.
Proof.
  split.
  - intros H. destruct c; cbn in H; destruct H as (H1 & H2 & cs & H3 & H4); (split; [done|]; split; [done|]; exists cs; split; [done|]); apply (all_forall (predAt b s)) in H4; exact H4.
  - intros (H1 & H2 & cs & H3 & H4). destruct c; cbn; (split; [done|]; split; [done|]; exists cs; split; [done|]); apply (all_forall (predAt b s)); exact H4.
Qed.
Lemma npred_deep (Q : npred -> Prop) : Q PFalsum -> Q PVerum -> (forall l t r, Q (PAtom l t r)) -> (forall c l, List.Forall Q l -> Q (combined c l)) -> forall p, Q p.
Proof.
  intros H1 H2 H3 H4. fix IH 1. intros [| |l t r|l|l|l]; [done|done|done|apply (H4 CNeg)|apply (H4 CAnd)|apply (H4 COr)]; induction l; constructor; [apply IH|assumption|apply IH|assumption|apply IH|assumption].
Qed.
(** The predicates of [X] are below [b]. *)
Definition below (b : positive) (X : nid -> Prop) (s : pst) : Prop := forall n e p, X n -> p_cache s !! n = Some e -> el_pred e = Some p -> (p < b)%positive.
Lemma below_none b s : below b none s. Proof. intros n e p []. Qed.
Lemma predAt_cf X b b' s s' p : cf X s s' -> below b X s -> (b' <= b)%positive -> forall q, predAt b s p q -> predAt b' s' p q.
Proof.
  intros L B Hb. assert (K : forall q, (b <= q)%positive -> (q < p_next s)%positive -> p_cells s' !! q = p_cells s !! q).
  { intros q H1 H2. apply (cf_cell _ _ _ L); [done|]. intros n e Hn He Hp. pose proof (B _ _ _ Hn He Hp). lia. }
  pose proof (cf_next _ _ _ L) as N. induction p as [| |l t r|c l IH] using npred_deep; intros q H.
  - by destruct H as (_ & _ & H).
  - by destruct H as (_ & _ & H).
  - destruct H as (H1 & H2 & H3). split; [lia|]. split; [lia|]. rewrite K; done.
  - apply predAt_conn in H as (H1 & H2 & cs & H3 & H4). apply predAt_conn. split; [lia|]. split; [lia|]. exists cs. split; [rewrite K; done|].
    clear H3. induction H4 as [|p c0 l cs Hp H4 IH']; [constructor|]. inversion IH as [|z zs I1 I2]; subst. constructor; [by apply I1|by apply IH'].
Qed.
Lemma preds_cf X b b' s s' l cs : cf X s s' -> below b X s -> (b' <= b)%positive -> Forall2 (predAt b s) l cs -> Forall2 (predAt b' s') l cs.
Proof. intros L B Hb H. eapply Forall2_impl; [exact H|]. intros p q. by eapply predAt_cf. Qed.

(** ** Operands. *)
Definition noKids (t : string) : bool := forallb (fun x : string * syn => negb (mem t (sy_parents (snd x)))) syntax.
Lemma no_kids t c : noKids t = true -> possibleChild t c = true -> False.
Proof.
  intros H Hc. unfold possibleChild, synOf in Hc. destruct (look c syntax) as [sy|] eqn:Es; [|done]. apply look_some in Es. pose proof (forall_elem _ _ _ H Es) as F. cbv beta in F. cbn [snd] in F. apply negb_true_iff in F.
  rewrite (proj2 (mem_spec _ _)) in F; [done|]. apply mem_spec. exact Hc.
Qed.
Definition addOperand (o : option string * option string) (v : string) (o' : option string * option string) : Prop :=
  match o with (None, r) => o' = (Some v, r) | (Some l, None) => o' = (Some l, Some v) | _ => False end.
Lemma operand_ok E k u t x s ue : cinv s -> Par s (Some (u, t)) -> p_alias s = [] -> isOperand x = true -> p_cache s !! u = Some ue -> p_conn s <> Some u ->
  pw (processNode E k (Some (u, t)) x) (fun _ s' => exists ue', p_cache s' !! u = Some ue' /\ addOperand (el_left ue, el_right ue) (operandOf x) (el_left ue', el_right ue')) s.
Proof.
  intros C Hp Ha Hx Hu Hcu. destruct k as [|k]; [apply pw_nofuel|]. apply process_rule; [done|done|]. intros sy attrs s1 K1.
  assert (Hk : x_kids x = []). { destruct (x_kids x) as [|y l] eqn:Ey; [done|]. exfalso. pose proof (ck_kids _ _ _ _ _ _ _ K1 y ltac:(rewrite Ey; left)) as H. unfold isOperand, tagIs in Hx. apply orb_true_iff in Hx as [Hx|Hx]; apply String.eqb_eq in Hx; rewrite Hx in H; (eapply no_kids; [|exact H]; vm_compute; reflexivity). }
  assert (Es : sy_push sy = PuAssess /\ sy_pop sy = PoNone /\ sy_cache sy = false). { pose proof (ck_syn _ _ _ _ _ _ _ K1) as Es. unfold isOperand, tagIs in Hx. apply orb_true_iff in Hx as [Hx|Hx]; apply String.eqb_eq in Hx; rewrite Hx in Es; vm_compute in Es; injection Es as <-; done. }
  destruct Es as (-> & -> & ->). destruct (checked_fresh _ _ _ _ _ _ _ K1) as (Hn & Hn2 & Hc & _ & Hcn & _ & _ & Ha2). set (s2 := p_set_next _ _) in *. set (e0 := newElt _ _ _ _).
  assert (Sa : same_attrs x e0) by (eapply checked_same; [exact K1|done|done]).
  assert (Hl : forall a, attr e0 a = aget a (x_attrs x)). { intros a. apply Sa. right. unfold isOperand, tagIs in Hx. intros Hl. by rewrite Hl in Hx. }
  cbn [push pwhen pop]. rewrite Hk. cbn [peach]. unfold pushAssess. p1. eapply (pw_mono _ (fun v s' => v = operandOf x /\ p_cache s' !! u = Some ue)).
  { unfold operandOf, tagIs. change (el_tag e0) with (x_tag x). destruct (String.eqb_spec (x_tag x) "attributeAssessment") as [Ht|Ht].
    - apply pw_bind, pw_attr. intros r Hr. p1. p1. p1. apply pw_udata. intros c Hcc. p1. p1. p1. p1. p1. apply pw_eupd. intros ce Hce. p1. split; [unfold attrOf; by rewrite <- Hl, Hr|]. cbn. rewrite lookup_insert_ne; [change (p_cache s2 !! u = Some ue); by rewrite Hc|]. intros ->. rewrite Hcn in Hcc. done.
    - apply pw_attr. intros v Hv. split; [unfold attrOf; by rewrite <- Hl, Hv|]. by rewrite Hc. }
  intros v s3 [-> Hu3]. cbv beta. p1. apply pw_parent. intros n ue' Hn' Hue'. cbn in Hn'. injection Hn' as <-. assert (ue' = ue) as -> by congruence. assert (En : el_node ue = u) by apply (C _ _ Hu). rewrite En.
  p1. eapply (pw_mono _ (fun _ s' => exists ue', p_cache s' !! u = Some ue' /\ addOperand (el_left ue, el_right ue) (operandOf x) (el_left ue', el_right ue'))).
  { destruct (el_left ue) as [l|] eqn:El, (el_right ue) as [r|] eqn:Er; try apply pw_fail; apply pw_eupd; intros ue2 Hue2; assert (ue2 = ue) as -> by congruence; (eexists; cbn; rewrite lookup_insert; split; [reflexivity|]); cbn; rewrite ?El, ?Er; done. }
  intros [] s4 H4. p1. p1. intros _ _. p1. p1. exact H4.
Qed.

(** ** Statements. *)
Definition kidsAre (t : string) (l : list string) : bool := forallb (fun x : string * syn => negb (mem t (sy_parents (snd x))) || mem (fst x) l) syntax.
Lemma kids_are t l c : kidsAre t l = true -> possibleChild t c = true -> c ∈ l.
Proof.
  intros H Hc. unfold possibleChild, synOf in Hc. destruct (look c syntax) as [sy|] eqn:Es; [|done]. apply look_some in Es. pose proof (forall_elem _ _ _ H Es) as F. cbv beta in F. cbn [fst snd] in F.
  rewrite (proj2 (mem_spec _ _)) in F; [|by apply mem_spec]. by apply mem_spec.
Qed.
Lemma filter_all {A} (f : A -> bool) l : (forall a, a ∈ l -> f a = true) -> List.filter f l = l.
Proof. induction l as [|a l IH]; intros H; cbn; [done|]. rewrite (H a) by left. f_equal. apply IH. intros b Hb. apply H. by right. Qed.
Lemma cacheAdd_eq e s : pw (cacheAdd e) (fun _ s' => p_cells s' = p_cells s /\ p_next s' = p_next s /\ p_cache s' = <[el_node e := e]> (p_cache s) /\ p_alias s' = p_alias s /\ p_conn s' = p_conn s) s.
Proof. unfold cacheAdd. p1. p1. p1. p1. by p1. Qed.
Lemma full_spec p k cs s : p_cells s !! p = Some (CellConn k cs) -> pw (full p) (fun b s' => s' = s /\ (b = false -> k = CNeg -> length cs <> 1%nat)) s.
Proof.
  intros H. unfold full. p1. apply pw_cell. intros x Hx. assert (x = CellConn k cs) as -> by congruence. p1. split; [done|]. intros Hb ->. by apply bool_decide_eq_false in Hb.
Qed.
Lemma bool_true v : try_parse_bool v = Some true <-> sameWord (cstr v) "true".
Proof.
  unfold try_parse_bool, xstrcaseeq. change (smap tolower (cstr "true")) with "true". change (smap tolower (cstr "false")) with "false".
  rewrite <- smap_iff by (repeat constructor; vm_compute; discriminate). destruct (String.eqb_spec (smap tolower (cstr v)) "true") as [->|Hne]; [done|]. destruct (String.eqb _ _); split; congruence.
Qed.
Lemma pushStatement_ok e x s u ue pp kk cs : x_tag x = "compoundStatement" -> (forall a, attr e a = aget a (x_attrs x)) -> el_up e = Some u -> p_cache s !! u = Some ue -> el_pred ue = Some pp -> p_cells s !! pp = Some (CellConn kk cs) -> (pp < p_next s)%positive ->
  pw (pushStatement e) (fun e' s' => exists c q, (attrOf "operator" x, c) ∈ connectiveWords /\ (kk = CNeg -> length cs <> 1%nat) /\ el_pred e' = Some (p_next s) /\ (p_next s < p_next s')%positive /\ p_cache s' = p_cache s /\
    p_cells s' !! p_next s = Some (CellConn c []) /\ p_cells s' !! pp = Some (CellConn kk (cs ++ [q])) /\
    ((~ negated x /\ q = p_next s) \/ (negated x /\ (p_next s < q)%positive /\ (q < p_next s')%positive /\ p_cells s' !! q = Some (CellConn CNeg [p_next s])))) s.
Proof.
  intros Hx Hk Hu Hue Hpp Hc Hlt. unfold pushStatement, udata. apply pw_bind, pw_attr. intros op Hop. p1. p1. match goal with Hz : look op connectives = Some ?c |- _ => rename c into c0; rename Hz into Hc0 end.
  p1. eapply (pw_mono _ (fun neg s' => s' = s /\ (neg = true <-> negated x))).
  { unfold negated. destruct (attr e "isNegated") as [v|] eqn:Ev; rewrite Hk in Ev.
    - p1. split; [done|]. match goal with Hz : try_parse_bool v = Some ?b |- _ => rename b into b0; rename Hz into Hb end. split.
      + intros ->. exists v. split; [done|]. by apply bool_true.
      + intros (v' & Ev' & Hw). assert (v' = v) as -> by congruence. apply bool_true in Hw. congruence.
    - p1. split; [done|]. split; [done|]. intros (v' & Ev' & _). congruence. }
  intros neg s' [-> Hneg]. cbv beta. p1. apply pw_parent. intros n ue' Hn' Hue'. assert (n = u) as -> by congruence. assert (ue' = ue) as -> by congruence.
  p1. apply pw_udata. intros pp' Hpp'. assert (pp' = pp) as -> by congruence. p1. eapply pw_mono; [by apply full_spec|]. intros b s' [-> Hb]. cbv beta. p1. p1. match goal with Hz : negb b = true |- _ => apply negb_true_iff in Hz; specialize (Hb Hz) end.
  p1. eapply pw_mono; [apply newCell_ok|]. intros p s1 (-> & _ & E1). cbv beta. p1.
  assert (A : (attrOf "operator" x, c0) ∈ connectiveWords). { unfold attrOf. rewrite <- Hk, Hop. cbn [default]. apply look_some in Hc0. exact Hc0. }
  eapply (pw_mono _ (fun _ s' => exists q, (p_next s < p_next s')%positive /\ p_cache s' = p_cache s /\ p_cells s' !! p_next s = Some (CellConn c0 []) /\ p_cells s' !! pp = Some (CellConn kk (cs ++ [q])) /\
    ((~ negated x /\ q = p_next s) \/ (negated x /\ (p_next s < q)%positive /\ (q < p_next s')%positive /\ p_cells s' !! q = Some (CellConn CNeg [p_next s]))))).
  - destruct neg.
    + p1. eapply pw_mono; [apply newCell_ok|]. intros n1 s2 (-> & _ & E2). cbv beta. assert (N1 : p_next s1 = Pos.succ (p_next s)) by (rewrite E1; done). p1. eapply pw_mono; [apply cellAdd_ok|]. intros [] s3 (k3 & cs3 & H3 & ->). cbv beta.
      rewrite E2 in H3. cbn in H3. rewrite lookup_insert in H3. injection H3 as <- <-. eapply pw_mono; [apply cellAdd_ok|]. intros [] s4 (k4 & cs4 & H4 & ->).
      rewrite E2 in H4. cbn in H4. rewrite N1, !lookup_insert_ne in H4 by lia. rewrite E1 in H4. cbn in H4. rewrite lookup_insert_ne in H4 by lia. assert (CellConn k4 cs4 = CellConn kk cs) as [= -> ->] by congruence.
      exists (p_next s1). rewrite E2. cbn. rewrite N1. split; [lia|]. split; [by rewrite E1|]. split; [rewrite !lookup_insert_ne by lia; rewrite E1; cbn; by rewrite lookup_insert|]. split; [by rewrite lookup_insert|].
      right. split; [by apply Hneg|]. split; [lia|]. split; [lia|]. rewrite lookup_insert_ne by lia. by rewrite lookup_insert.
    + eapply pw_mono; [apply cellAdd_ok|]. intros [] s4 (k4 & cs4 & H4 & ->). rewrite E1 in H4. cbn in H4. rewrite lookup_insert_ne in H4 by lia. assert (CellConn k4 cs4 = CellConn kk cs) as [= -> ->] by congruence.
      exists (p_next s). rewrite E1. cbn. split; [lia|]. split; [done|]. split; [rewrite lookup_insert_ne by lia; by rewrite lookup_insert|]. split; [by rewrite lookup_insert|]. left. split; [|done]. intros Hz. apply Hneg in Hz. done.
  - intros [] s5 (q & H5). p1. exists c0, q. split; [done|]. split; [done|]. split; [done|]. exact H5.
Qed.
Lemma popStatement_ok n en p c cs s : p_cache s !! n = Some en -> el_pred en = Some p -> p_cells s !! p = Some (CellConn c cs) -> (c = CNeg -> (length cs <= 1)%nat) -> pw (popStatement n) (fun _ s' => s' = s /\ arity c (length cs)) s.
Proof.
  intros H1 H2 H3 H4. unfold popStatement. p1. apply pw_index. intros e He. assert (e = en) as -> by congruence. p1. apply pw_udata. intros p' Hp'. assert (p' = p) as -> by congruence. p1. apply pw_cell. intros x Hx. assert (x = CellConn c cs) as -> by congruence.
  destruct c; p1; (split; [done|]); cbn; match goal with Hz : negb _ = true |- _ => apply negb_true_iff in Hz end.
  - match goal with Hz : bool_decide _ = false |- _ => apply bool_decide_eq_false in Hz end. specialize (H4 eq_refl). lia.
  - match goal with Hz : (_ <? _)%nat = false |- _ => apply Nat.ltb_ge in Hz end. lia.
  - match goal with Hz : (_ <? _)%nat = false |- _ => apply Nat.ltb_ge in Hz end. lia.
Qed.
Definition connLow (b : positive) (s : pst) : Prop := forall c, p_conn s = Some c -> (c < b)%positive.
Lemma connLow_ok b s s' : connOk s s' -> connLow b s -> connLow b s'.
Proof. intros [H|H] L c Hc; [apply L; congruence|congruence]. Qed.
Lemma predAt_low b b' s p q : (b' <= b)%positive -> predAt b s p q -> predAt b' s p q.
Proof. intros H. by apply (predAt_cf none b b' s s p (cf_refl _ _) (below_none _ _)). Qed.
Lemma preds_low b b' s l cs : (b' <= b)%positive -> Forall2 (predAt b s) l cs -> Forall2 (predAt b' s) l cs.
Proof. intros H F. eapply Forall2_impl; [exact F|]. intros p q. by apply predAt_low. Qed.
(** Two operands, in their order. *)
Definition operandsAre (l : list string) (o : option string * option string) : Prop :=
  match l with [] => o = (None, None) | [a] => o = (Some a, None) | [a; b] => o = (Some a, Some b) | _ => False end.
Lemma operands_add l o v o' : operandsAre l o -> addOperand o v o' -> operandsAre (l ++ [v]) o'.
Proof. destruct l as [|a [|b [|c l]]]; cbn; [intros -> ; cbn; done|intros ->; cbn; done|intros ->; cbn; done|done]. Qed.
Lemma statement_kids x y : isStatement x = true -> possibleChild (x_tag x) (x_tag y) = true -> if tagIs "compoundStatement" x then isStatement y = true else isOperand y = true.
Proof.
  unfold isStatement, tagIs. intros H Hy. destruct (String.eqb_spec (x_tag x) "compoundStatement") as [Hx|Hx].
  - rewrite Hx in Hy. assert (Hl : x_tag y ∈ ["compoundStatement"; "assessmentStatement"]) by (eapply kids_are; [|exact Hy]; vm_compute; reflexivity). unfold tagIs.
    apply elem_of_cons in Hl as [->|Hl]; [done|]. apply elem_of_list_singleton in Hl as ->. done.
  - apply String.eqb_eq in H. rewrite H in Hy. assert (Hl : x_tag y ∈ ["attributeAssessment"; "valueAssessment"]) by (eapply kids_are; [|exact Hy]; vm_compute; reflexivity). unfold isOperand, tagIs.
    apply elem_of_cons in Hl as [->|Hl]; [done|]. apply elem_of_list_singleton in Hl as ->. done.
Qed.

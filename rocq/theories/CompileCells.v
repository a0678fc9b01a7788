(** CompileCells.v -- C42: which predicates an element may change. *)
From Verif Require Import BuildOps ParserFrame.
From Verif Require Export CompileOrder CompileTree.
Open Scope string_scope.
Open Scope list_scope.

(** Only the predicates of the elements in [X] change; predicates of new elements are new. *)
Record cf (X : nid -> Prop) (s s' : pst) : Prop := mkCf {
  cf_next : (p_next s <= p_next s')%positive;
  cf_old : forall n e, p_cache s !! n = Some e -> exists e', p_cache s' !! n = Some e' /\ el_pred e' = el_pred e;
  cf_new : forall n e p, p_cache s !! n = None -> p_cache s' !! n = Some e -> el_pred e = Some p -> (p_next s <= p)%positive;
  cf_cell : forall p, (p < p_next s)%positive -> (forall n e, X n -> p_cache s !! n = Some e -> el_pred e <> Some p) -> p_cells s' !! p = p_cells s !! p }.
Lemma cf_refl X s : cf X s s.
Proof. split; [lia|eauto|congruence|done]. Qed.
Lemma cf_trans (X Y : nid -> Prop) s s1 s2 : cf X s s1 -> cf Y s1 s2 -> (forall n, is_Some (p_cache s !! n) -> Y n -> X n) -> cf X s s2.
Proof.
  intros [A1 A2 A3 A4] [B1 B2 B3 B4] H. split; [lia| | |].
  - intros n e He. destruct (A2 _ _ He) as (e1 & He1 & E1). destruct (B2 _ _ He1) as (e2 & He2 & E2). exists e2. split; [done|congruence].
  - intros n e p Hn He Hp. destruct (p_cache s1 !! n) as [e1|] eqn:E1.
    + destruct (B2 _ _ E1) as (e2 & He2 & E2). eapply (A3 n e1); [done|done|congruence].
    + pose proof (B3 _ _ _ E1 He Hp). lia.
  - intros p Hp HX. rewrite B4; [by apply A4|lia|]. intros n e1 HY He1 Hpe. destruct (p_cache s !! n) as [e|] eqn:E.
    + destruct (A2 _ _ E) as (e1' & He1' & E1). apply (HX n e); [apply H; [by eexists|done]|done|congruence].
    + pose proof (A3 _ _ _ E He1 Hpe). lia.
Qed.
Lemma cf_mono (X Y : nid -> Prop) s s' : (forall n, is_Some (p_cache s !! n) -> X n -> Y n) -> cf X s s' -> cf Y s s'.
Proof. intros H C. split; [apply C|apply C|apply C|]. intros p Hp HY. apply (cf_cell _ _ _ C); [done|]. intros n e Hn He. apply (HY n e); [apply H; [by eexists|done]|done]. Qed.
Lemma cf_same X s s' : (p_next s <= p_next s')%positive -> p_cache s' = p_cache s -> p_cells s' = p_cells s -> cf X s s'.
Proof. intros E1 E2 E3. split; [done|rewrite E2; eauto|rewrite E2; congruence|by rewrite E3]. Qed.

Definition cq : pst -> pst -> Prop := cf none.
#[global] Instance pre_cq : ParserQuiet.preorder cq.
Proof. split; [intros s; apply cf_refl|]. intros a b c A B. eapply cf_trans; [exact A|exact B|done]. Qed.
Lemma cq_cf X s s' : cq s s' -> cf X s s'. Proof. apply cf_mono. intros n _ []. Qed.
Notation kx := (kr cq).
Lemma kx_lift {A} (m : MG A) : kx (lift m). Proof. intros s. apply pw_lift_any. intros a g. by apply cf_same. Qed.
Lemma kx_eupd n f : (forall e, el_pred (f e) = el_pred e) -> kx (eupd n f).
Proof.
  intros H s. apply pw_eupd. intros e He. split; cbn; [lia| | |done].
  - intros m em Hm. destruct (decide (n = m)) as [<-|Hne]; [|rewrite lookup_insert_ne by done; eauto]. rewrite lookup_insert. eexists. split; [reflexivity|]. rewrite H. congruence.
  - intros m em p Hm. destruct (decide (n = m)) as [<-|Hne]; [congruence|]. rewrite lookup_insert_ne by done. congruence.
Qed.
Lemma kx_alloc : kx palloc. Proof. intros s. apply pw_alloc. apply cf_same; [cbn; lia|done|done]. Qed.
Lemma kx_mod f : (forall s, p_next (f s) = p_next s /\ p_cache (f s) = p_cache s /\ p_cells (f s) = p_cells s) -> kx (pmod f).
Proof. intros H s. apply pw_mod. destruct (H s) as (A & B & C). apply cf_same; [rewrite A; lia|done|done]. Qed.
Create HintDb cxs.
Ltac kxt := repeat first
  [ progress intros
  | progress cbv beta
  | solve [eauto with cxs nocore]
  | apply kx_alloc | apply kx_lift
  | (apply kx_eupd; intros; reflexivity)
  | apply (kr_ret cq) | apply (kr_bind cq) | apply (kr_gets cq) | apply (kr_fail cq) | apply (kr_crash cq) | apply (kr_nofuel cq) | apply (kr_assert cq) | apply (kr_check cq)
  | apply (kr_of cq) | apply (kr_ofe cq) | apply (kr_when cq) | apply (kr_cell cq) | apply (kr_index cq) | apply (kr_parent cq) | apply (kr_each cq) | apply (kr_map cq)
  | (apply kx_mod; intros; done)
  | match goal with |- kr cq (if ?b then _ else _) => destruct b | |- kr cq (match ?x with _ => _ end) => destruct x end ].
Lemma kx_peek ok p : kx (peek ok p). Proof. unfold peek. kxt. Qed.
Lemma kx_opush o : kx (opush o). Proof. unfold opush. kxt. Qed.
Lemma kx_opop : kx opop. Proof. unfold opop. kxt. Qed.
Lemma newCell_ok c s : pw (newCell c) (fun p s' => p = p_next s /\ cq s s' /\ s' = p_set_cells (<[p := c]> (p_cells s)) (p_set_next (Pos.succ (p_next s)) s)) s.
Proof.
  unfold newCell. p1. p1. p1. p1. p1. split; [done|]. split; [|done]. split; cbn; [lia|eauto|congruence|]. intros p Hp _. rewrite lookup_insert_ne by lia. done.
Qed.
Lemma kx_newCell c : kx (newCell c). Proof. intros s. eapply pw_mono; [apply newCell_ok|]. by intros p s' (_ & H & _). Qed.
Lemma kx_full p : kx (full p). Proof. unfold full. kxt. Qed.
Lemma kx_cint z : kx (cint z). Proof. unfold cint. kxt. Qed.
Lemma kx_time v d : kx (timeOf v d). Proof. unfold timeOf. kxt. Qed.
#[global] Hint Resolve kx_peek kx_opush kx_opop kx_newCell kx_full kx_cint kx_time : cxs.
Lemma kx_region o r a : kx (regionRect o r a). Proof. unfold regionRect, iadd, isub. kxt. Qed.
Lemma kx_redirect l t m : kx (redirect l t m). Proof. induction l; cbn [redirect]; kxt. Qed.
Lemma kx_referAdd i m : kx (referAdd i m). Proof. unfold referAdd. kxt. Qed.
#[global] Hint Resolve kx_region kx_redirect kx_referAdd : cxs.
Lemma kx_component c e : kx (resolveComponent c e). Proof. unfold resolveComponent, pattr. kxt. Qed.
#[global] Hint Resolve kx_component : cxs.
Lemma kx_interface k c e : kx (resolveInterface k c e).
Proof. revert c e. induction k; intros; cbn [resolveInterface]; unfold pattr, cacheById; kxt. Qed.
#[global] Hint Resolve kx_interface : cxs.
Lemma kx_readPred k p : kx (readPred k p). Proof. revert p. induction k; intros; cbn [readPred]; kxt. Qed.
#[global] Hint Resolve kx_readPred : cxs.
Lemma kx_inherited k n acc : kx (inherited k n acc). Proof. revert n acc. induction k; intros; cbn [inherited]; kxt. Qed.
#[global] Hint Resolve kx_inherited : cxs.
Lemma kx_obtainOne k p : kx (obtainOne k p). Proof. unfold obtainOne, connKids. kxt. Qed.
#[global] Hint Resolve kx_obtainOne : cxs.
Lemma kx_obtain k p : kx (obtainPredicate k p). Proof. unfold obtainPredicate. kxt. Qed.
Lemma kx_lookupKind a b c : kx (lookupKind a b c). Proof. unfold lookupKind. kxt. Qed.
Lemma kx_rulePred k p : kx (rulePred k p). Proof. unfold rulePred. kxt. Qed.
Lemma kx_fullId e : kx (fullId e). Proof. unfold fullId. kxt. Qed.
#[global] Hint Resolve kx_obtain kx_lookupKind kx_rulePred kx_fullId : cxs.
Lemma kx_bindTable k c l acc : kx (bindTable k c l acc). Proof. revert acc. induction l; intros; cbn [bindTable]; kxt. Qed.
Lemma kx_roleAction k c p t g x : kx (roleAction k c p t g x). Proof. unfold roleAction. kxt. Qed.
Lemma kx_moveAttr d a : kx (moveAttr d a). Proof. unfold moveAttr. kxt. Qed.
#[global] Hint Resolve kx_bindTable kx_roleAction kx_moveAttr : cxs.
Lemma kx_media d : kx (solveMedia d). Proof. unfold solveMedia, pattr, cacheById. kxt. Qed.
Lemma kx_switch k d : kx (solveSwitch k d). Proof. unfold solveSwitch, pattr, cacheById, udata. kxt. Qed.
Lemma kx_link k d : kx (solveLink k d). Proof. unfold solveLink, pattr, cacheById, udata. kxt. Qed.
Lemma kx_setAttr n a v : kx (setAttr n a v). Proof. unfold setAttr. kxt. Qed.
#[global] Hint Resolve kx_media kx_switch kx_link kx_setAttr : cxs.
Lemma kx_transition E d a : kx (solveTransition E d a). Proof. unfold solveTransition, cacheById, pattr. kxt. Qed.
#[global] Hint Resolve kx_transition : cxs.
Lemma kx_descriptor E d : kx (solveDescriptor E d). Proof. unfold solveDescriptor, cacheById, pattr. kxt. Qed.
#[global] Hint Resolve kx_descriptor : cxs.
(** Push and pop functions that add nothing to a predicate. *)
Definition cqPush (p : pushk) : bool := match p with PuStatement | PuRule | PuImport => false | _ => true end.
Lemma kx_push E imp p e : cqPush p = true -> kx (push E imp p e).
Proof.
  intros H. destruct p; try discriminate H; cbn [push];
    unfold pushNcl, pushRegion, pushDescParam, pushConnector, pushCompound, pushSimple, pushAssess, pushContext, pushPort, pushSwitch, pushSwitchPort, pushMapping, pushBindRule, pushMedia, pushArea, pushProperty, pushLink, pushLinkParam, pushBind, pushFont, pattr, udata, iadd; cbv zeta; kxt.
Qed.
Lemma kx_pop E k p n : p <> PoAssess -> kx (pop E k p n).
Proof. intros H. destruct p; try done; cbn [pop]; unfold popNcl, popRegion, popConnector, popStatement, popContext, popSwitch, popMedia, pattr, udata, cacheById; cbv zeta; kxt. Qed.

(** ** One element. *)
Definition upX (up : option (nid * string)) (m : nid) : Prop := option_map fst up = Some m.
Definition predPush (p : pushk) : bool := match p with PuCompound | PuStatement | PuRule => true | _ => false end.
Lemma push_pred E imp p e s : (forall e0 s0, pw (imp e0) (fun e' _ => e' = e0) s0) -> predPush p = false -> pw (push E imp p e) (fun e' _ => el_pred e' = el_pred e) s.
Proof.
  intros Hi Hp. assert (T : forall {A} (m : P A) (Q : A -> pst -> Prop) s0, (forall a s', Q a s') -> pw m Q s0) by (intros A m Q s0 H; unfold pw; destruct (m s0); auto).
  destruct p; cbn [push]; try discriminate Hp; try (by p1).
  all: try (unfold pushNcl, pushRegion, pushDescParam, pushConnector, pushSimple, pushAssess, pushContext, pushPort, pushSwitch, pushSwitchPort, pushMapping, pushBindRule, pushMedia, pushArea, pushProperty, pushLink, pushLinkParam, pushBind, pushFont;
    repeat first [by apply pw_ret | apply pw_fail | apply pw_crash | apply pw_bind; apply T; intros | match goal with |- pw (if ?b then _ else _) _ _ => destruct b | |- pw (match ?x with _ => _ end) _ _ => destruct x end | progress cbv zeta]; fail).
  eapply pw_mono; [apply Hi|]. intros e' s' ->. done.
Qed.
Lemma cellAdd_ok p c s : pw (cellAdd p c) (fun _ s' => exists k cs, p_cells s !! p = Some (CellConn k cs) /\ s' = p_set_cells (<[p := CellConn k (cs ++ [c])]> (p_cells s)) s) s.
Proof. unfold cellAdd. p1. apply pw_cell. intros x Hx. destruct x as [|k cs]; [apply pw_crash|]. p1. eauto. Qed.
(** Adding to the predicate of an element of [X]. *)
Lemma cf_add (X : nid -> Prop) s n e p c : X n -> p_cache s !! n = Some e -> el_pred e = Some p -> cf X s (p_set_cells (<[p := c]> (p_cells s)) s).
Proof.
  intros HX He Hp. split; cbn; [lia|eauto|congruence|]. intros q Hq H. destruct (decide (p = q)) as [<-|Hne]; [|by rewrite lookup_insert_ne]. by destruct (H n e HX He).
Qed.
(** Adding to a new predicate. *)
Lemma cf_fresh (X : nid -> Prop) s s1 p c : cf X s s1 -> (p_next s <= p)%positive -> cf X s (p_set_cells (<[p := c]> (p_cells s1)) s1).
Proof.
  intros [A B C D] Hp. split; cbn; [done|done|done|]. intros q Hq H. rewrite lookup_insert_ne by lia. by apply D.
Qed.
Lemma full_ok p s : pw (full p) (fun _ s' => s' = s) s.
Proof. unfold full. p1. apply pw_cell. intros x Hx. by p1. Qed.
Lemma kids_cf (X : nid -> Prop) s n e p c s1 : X n -> p_cache s !! n = Some e -> el_pred e = Some p -> cf X s s1 -> cf X s (p_set_cells (<[p := c]> (p_cells s1)) s1).
Proof.
  intros HX He Hp L. destruct (cf_old _ _ _ L _ _ He) as (e1 & He1 & E1). eapply cf_trans; [exact L|eapply (cf_add X); [exact HX|exact He1|congruence]|]. done.
Qed.
Lemma statement_cf e up s : el_up e = option_map fst up ->
  pw (pushStatement e) (fun e' s' => cf (upX up) s s' /\ forall q, el_pred e' = Some q -> (p_next s <= q)%positive) s.
Proof.
  intros Hu. unfold pushStatement, udata. p1. p1. p1. p1. p1. eapply (pw_mono _ (fun _ s' => s' = s)); [destruct (attr e "isNegated"); by p1|]. intros neg s' ->. cbv beta.
  p1. apply pw_parent. intros n ue Hn Hue. p1. p1. match goal with Hz : el_pred ue = Some ?p |- _ => rename p into pp; rename Hz into Hpp end. p1. eapply pw_mono; [apply full_ok|]. intros b s' ->. cbv beta. p1. p1. p1. eapply pw_mono; [apply newCell_ok|].
  intros p s1 (-> & Q1 & E1). cbv beta. assert (L1 : cf (upX up) s s1) by (by apply cq_cf). assert (HX : upX up n) by (unfold upX; congruence).
  p1. eapply (pw_mono _ (fun _ s' => cf (upX up) s s')).
  - destruct neg.
    + p1. eapply pw_mono; [apply newCell_ok|]. intros n1 s2 (-> & Q2 & _). cbv beta. assert (L2 : cf (upX up) s s2) by (eapply cf_trans; [exact L1|exact Q2|intros ? _ []]). p1. eapply pw_mono; [apply cellAdd_ok|]. intros [] s3 (k3 & cs3 & _ & ->). cbv beta.
      assert (Hn1 : (p_next s <= p_next s1)%positive) by apply L1. pose proof (cf_fresh _ _ _ (p_next s1) (CellConn k3 (cs3 ++ [p_next s])) L2 Hn1) as L3.
      eapply pw_mono; [apply cellAdd_ok|]. intros [] s4 (k4 & cs4 & _ & ->). by eapply kids_cf.
    + eapply pw_mono; [apply cellAdd_ok|]. intros [] s4 (k4 & cs4 & _ & ->). by eapply kids_cf.
  - intros [] s5 L5. p1. split; [done|]. cbn. intros q [= <-]. lia.
Qed.
Lemma rule_cf e up s : el_up e = option_map fst up ->
  pw (pushRule e) (fun e' s' => cf (upX up) s s' /\ forall q, el_pred e' = Some q -> (p_next s <= q)%positive) s.
Proof.
  intros Hu. unfold pushRule, udata. p1. eapply (pw_mono _ (fun p s' => p = p_next s /\ cq s s')).
  { destruct (String.eqb _ _); repeat p1; (eapply pw_mono; [apply newCell_ok|]; by intros p s1 (-> & Q1 & _)). }
  intros p s1 [-> Q1]. cbv beta. assert (L1 : cf (upX up) s s1) by (by apply cq_cf). p1. apply pw_parent. intros n ue Hn Hue. assert (HX : upX up n) by (unfold upX; congruence). p1. eapply (pw_mono _ (fun _ s' => cf (upX up) s s')).
  - destruct (String.eqb _ _); [by p1|]. p1. p1. match goal with Hz : el_pred ue = Some ?p |- _ => rename p into pp; rename Hz into Hpp end. p1. eapply pw_mono; [apply full_ok|]. intros b s' ->. cbv beta. p1. p1. eapply pw_mono; [apply cellAdd_ok|]. intros [] s4 (k4 & cs4 & _ & ->).
    eapply cf_trans; [exact L1|eapply (cf_add (upX up)); [exact HX|exact Hue|exact Hpp]|done].
  - intros [] s5 L5. p1. split; [done|]. cbn. intros q [= <-]. lia.
Qed.
Lemma import_cf E go e up s : cinv s -> (forall up y s', cinv s' -> Par s' up -> pw (go up y) (fun _ s2 => post s' s2 /\ cf (upX up) s' s2) s') -> pw (pushImport E go e) (fun _ s' => cf (upX up) s s') s.
Proof.
  intros C Hgo. unfold pushImport. p1. p1. p1. p1. p1. p1. p1. p1. cbv zeta. p1. p1. p1. p1.
  match goal with |- pw _ _ ?x => set (s1 := x) end. assert (P1 : post s s1) by (apply quiet_post; [done|by apply quiet_simple|done|done]).
  p1. p1. p1. eapply pw_mono; [apply check_post, P1|]. intros r1 s2 [P2 K2]. p1. p1. p1. eapply pw_mono; [apply check_post, P2|]. intros r2 s3 [P3 K3].
  p1. p1. p1. p1. p1. match goal with |- pw _ _ ?x => set (s4 := x) end.
  assert (P4 : post s3 s4). { apply quiet_post; [apply P3| |done|done]. split; [|done]. split; cbn; [lia|done|]. intros nn. by destruct (p_cache s3 !! nn). }
  assert (Pr : Par s4 (Some (p_next s3, "head"))).
  { intros nn t [= <- <-]. split; [cbn; lia|]. intros e0 He0. cbn in He0. destruct (po_c _ _ P3 _ _ He0) as [Hlt _]. lia. }
  assert (E4 : p_cache s4 = p_cache s /\ p_cells s4 = p_cells s /\ (p_next s <= p_next s3)%positive /\ (p_next s <= p_next s4)%positive).
  { destruct (ck_state _ _ _ _ _ _ _ K2) as [g2 ->]. destruct (ck_state _ _ _ _ _ _ _ K3) as [g3 E3]. unfold s4. rewrite E3. cbn. split; [done|]. split; [done|]. lia. }
  destruct E4 as (E1 & E2 & Hn & Hn4). assert (L4 : cf (upX up) s s4) by (by apply cf_same).
  eapply (pw_mono _ (fun _ s' => (cinv s' /\ Par s' (Some (p_next s3, "head"))) /\ cf (upX up) s s')).
  - apply pw_each_inv; [split; [split; [apply P4|exact Pr]|exact L4]|]. intros y s5 _ [[C5 Pr5] L5]. eapply pw_mono; [by apply Hgo|]. intros [] s6 [P6 L6]. split; [split; [apply P6|eapply Par_ext; [apply P6|done]]|].
    eapply cf_trans; [exact L5|exact L6|]. intros m1 [em Hm] Hm1. unfold upX in Hm1. cbn in Hm1. injection Hm1 as <-. destruct (C _ _ Hm) as [Hlt _]. lia.
  - intros [] s5 [_ L5]. p1. p1. p1. eapply cf_trans; [exact L5|apply (cf_same none); done|]. intros ? _ [].
Qed.
Lemma push_cf E go p e up s : cinv s -> el_up e = option_map fst up -> el_pred e = None -> (forall up y s', cinv s' -> Par s' up -> pw (go up y) (fun _ s2 => post s' s2 /\ cf (upX up) s' s2) s') ->
  pw (push E (pushImport E go) p e) (fun e' s' => cf (upX up) s s' /\ forall q, el_pred e' = Some q -> (p_next s <= q)%positive) s.
Proof.
  intros C Hu Hp Hgo. destruct (predPush p) eqn:Ep.
  - destruct p; try discriminate Ep; cbn [push]; [|by apply statement_cf|by apply rule_cf]. unfold pushCompound. p1. eapply pw_mono; [apply newCell_ok|]. intros p s1 (-> & Q1 & _). p1. split; [by apply cq_cf|]. cbn. intros q [= <-]. lia.
  - eapply pw_mono; [apply pw_conj; [apply (push_pred E (pushImport E go) p e s); [intros; apply import_shape|done]|]|].
    + instantiate (1 := fun _ s' => cf (upX up) s s'). destruct (cqPush p) eqn:Eq.
      * eapply pw_mono; [by apply kx_push|]. intros e' s' Q. by apply cq_cf.
      * destruct p; try discriminate Eq; try discriminate Ep. cbn [push]. by apply import_cf.
    + intros e' s' [E1 L]. split; [done|]. rewrite E1, Hp. done.
Qed.
Lemma pop_cf E k p n up s : (forall e, p_cache s !! n = Some e -> el_up e = option_map fst up) -> pw (pop E k p n) (fun _ s' => cf (upX up) s s') s.
Proof.
  intros Hn. assert (Hd : p = PoAssess \/ p <> PoAssess) by (destruct p; (by left) || by right). destruct Hd as [->|Hd]; [|eapply pw_mono; [by apply kx_pop|]; intros [] s' Q; by apply cq_cf].
  cbn [pop]. unfold popAssess, udata. p1. apply pw_index. intros e He. p1. p1. p1. p1. p1. p1. p1. p1. p1. apply pw_parent. intros u ue Hu Hue. p1. p1. match goal with Hz : el_pred ue = Some ?p |- _ => rename p into pp; rename Hz into Hpp end.
  p1. eapply pw_mono; [apply full_ok|]. intros b s' ->. cbv beta. p1. p1. p1. eapply pw_mono; [apply newCell_ok|]. intros p s1 (-> & Q1 & _). cbv beta. eapply pw_mono; [apply cellAdd_ok|]. intros [] s2 (k2 & cs2 & _ & ->).
  eapply kids_cf; [|exact Hue|exact Hpp|by apply cq_cf]. unfold upX. rewrite <- (Hn _ He). done.
Qed.
Lemma cache_cf X e s s3 : cf X s s3 -> (forall q, el_pred e = Some q -> (p_next s <= q)%positive) -> pw (cacheAdd e) (fun _ s' => cf X s s' /\ p_cache s' = <[el_node e := e]> (p_cache s3)) s3.
Proof.
  intros [A B C D] H. unfold cacheAdd. p1. p1. p1. p1. p1. match goal with Hz : match _ with _ => _ end = true |- _ => rename Hz into Hx end. destruct (p_cache s3 !! el_node e) as [?|] eqn:En; [discriminate Hx|].
  split; [|done]. split; cbn; [done| | |done].
  - intros n e0 He0. destruct (B _ _ He0) as (e' & He' & E'). exists e'. split; [|done]. rewrite lookup_insert_ne; [done|]. intros <-. congruence.
  - intros n e0 p Hn He0 Hp. destruct (decide (el_node e = n)) as [<-|Hne]; [rewrite lookup_insert in He0; injection He0 as <-; by apply H|]. rewrite lookup_insert_ne in He0 by done. by eapply C.
Qed.
Lemma assess_cached t sy : synOf t = Some sy -> sy_pop sy = PoAssess -> sy_cache sy = true.
Proof.
  intros Es Hpu. apply look_some in Es. assert (F : forallb (fun p : string * syn => match sy_pop (snd p) with PoAssess => sy_cache (snd p) | _ => true end) syntax = true) by (vm_compute; reflexivity).
  apply (forall_elem _ _ _ F) in Es. cbn [snd] in Es. by rewrite Hpu in Es.
Qed.
Lemma process_cf E k : forall up x s, cinv s -> Par s up -> pw (processNode E k up x) (fun _ s' => cf (upX up) s s') s.
Proof.
  induction k as [|k IH]; intros up x s C Hp; [apply pw_nofuel|]. apply process_rule; [done|done|]. intros sy attrs s1 K1.
  destruct (checked_fresh _ _ _ _ _ _ _ K1) as (Hn & Hn2 & Hc & Ho2 & Hcn2 & _ & _ & Ha2).
  assert (Hce : p_cells (p_set_next (Pos.succ (p_next s1)) s1) = p_cells s) by (destruct (ck_state _ _ _ _ _ _ _ K1) as [g ->]; done).
  set (s2 := p_set_next _ _) in *. set (e0 := newElt _ _ _ _).
  assert (C2 : cinv s2). { intros m em Hm. rewrite Hc in Hm. destruct (C _ _ Hm) as (X1 & X2 & X3). rewrite Ho2, Hn2. split; [lia|done]. }
  assert (L2 : cf (upX up) s s2) by (apply cf_same; [rewrite Hn2; lia|done|done]).
  eapply pw_mono; [apply pw_conj; [apply (push_shape E (pushImport E (processNode E k))); intros; apply import_shape|apply pw_conj; [apply (push_up E (pushImport E (processNode E k))); intros; apply import_shape|apply (push_cf E (processNode E k) (sy_push sy) e0 up s2 C2); try done]]|].
  { intros up' y s' C' Hp'. eapply pw_mono; [apply pw_conj; [by apply process_post|by apply IH]|]. intros [] s3 [[P3 _] L3]. done. }
  intros e s3 [(T1 & T2 & _) [U3 [L3 F3]]]. cbv beta. cbn [el_node el_up newElt e0] in T2, U3.
  assert (L3' : cf (upX up) s s3) by (eapply cf_trans; [exact L2|exact L3|done]).
  eapply (pw_mono _ (fun _ s4 => cf (upX up) s s4 /\ (sy_cache sy = true -> p_cache s4 !! p_next s1 = Some e))).
  { destruct (sy_cache sy); cbn [pwhen]; [|by p1]. eapply pw_mono; [apply (cache_cf _ _ _ _ L3')|].
    - intros q Hq. specialize (F3 q Hq). rewrite Hn2 in F3. lia.
    - intros [] s4 [L4 E4]. split; [done|]. intros _. rewrite E4, T2. by rewrite lookup_insert. }
  intros [] s4 [L4 E4] P4 Pr4. cbv beta in *.
  assert (D4 : sy_cache sy = true -> forall en, p_cache s4 !! p_next s1 = Some en -> el_up en = option_map fst up).
  { intros Hs en Hen. rewrite (E4 Hs) in Hen. injection Hen as <-. exact U3. }
  eapply pw_mono; [apply (kids_rule E k _ _ _ s4 (fun _ s' => cinv s' /\ cf (upX up) s s' /\ (p_next s4 <= p_next s')%positive /\ (sy_cache sy = true -> forall en, p_cache s' !! p_next s1 = Some en -> el_up en = option_map fst up))); [apply P4|done| |]|].
  - split; [apply P4|]. split; [done|]. split; [lia|done].
  - intros y l' s' _ C' Hp' (_ & L' & N' & U'). eapply pw_mono; [apply pw_conj; [by apply process_post|apply pw_conj; [by apply process_lf|by apply IH]]|]. intros [] s5 [[P5 _] [[F5 _] L5]]. split; [apply P5|]. split; [|split].
    + eapply cf_trans; [exact L'|exact L5|]. intros m [em Hm] Hm1. unfold upX in Hm1. cbn in Hm1. injection Hm1 as <-. destruct (C _ _ Hm). lia.
    + pose proof (lf_next _ _ _ F5). lia.
    + intros Hs en Hen. destruct (lf_back _ _ _ _ _ F5 Hen) as (e' & He' & Hi); [destruct (Pr4 _ _ eq_refl); lia|]. rewrite (ident_up _ _ Hi). by apply U'.
  - intros [] s5 (C5 & L5 & N5 & U5). cbv beta in *. eapply (pw_mono _ (fun _ s6 => cf (upX up) s5 s6)).
    + destruct (sy_cache sy) eqn:Eca; [apply (pop_cf _ _ _ _ up); by apply U5|]. eapply pw_mono; [apply kx_pop|intros [] s6 Q6; by apply cq_cf]. intros Hpo. rewrite (assess_cached _ _ (ck_syn _ _ _ _ _ _ _ K1) Hpo) in Eca. discriminate Eca.
    + intros [] s6 L6. eapply cf_trans; [exact L5|exact L6|done].
Qed.

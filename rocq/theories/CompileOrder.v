(** CompileOrder.v -- C42: push and pop functions add no element to the cache. *)
From Verif Require Import BuildOps ParserFrame.
From Verif Require Export CompileConn.
Open Scope string_scope.
Open Scope list_scope.

Definition po (s s' : pst) : Prop := p_order s' = p_order s.
#[global] Instance pre_po : ParserQuiet.preorder po. Proof. split; [done|]. intros a b c A B. unfold po in *. congruence. Qed.
Notation kw := (kr po).
Lemma kw_lift {A} (m : MG A) : kw (lift m). Proof. intros s. by apply pw_lift_any. Qed.
Lemma kw_eupd n f : kw (eupd n f). Proof. intros s. by apply pw_eupd. Qed.
Lemma kw_alloc : kw palloc. Proof. intros s. by apply pw_alloc. Qed.
Lemma kw_mod f : (forall s, po s (f s)) -> kw (pmod f). Proof. intros H s. by apply pw_mod. Qed.
Create HintDb kws.
Ltac kwt := repeat first
  [ progress intros
  | progress cbv beta
  | solve [eauto with kws nocore]
  | apply kw_alloc | apply kw_eupd | apply kw_lift
  | apply (kr_ret po) | apply (kr_gets po) | apply (kr_fail po) | apply (kr_crash po) | apply (kr_nofuel po) | apply (kr_assert po) | apply (kr_check po)
  | apply (kr_of po) | apply (kr_ofe po) | apply (kr_when po) | apply (kr_cell po) | apply (kr_index po) | apply (kr_parent po) | apply (kr_each po) | apply (kr_map po)
  | apply (kr_bind po)
  | (apply kw_mod; intros; done)
  | match goal with |- kr po (if ?b then _ else _) => destruct b | |- kr po (match ?x with _ => _ end) => destruct x end ].
Lemma kw_peek ok p : kw (peek ok p). Proof. unfold peek. kwt. Qed.
Lemma kw_opush o : kw (opush o). Proof. unfold opush. kwt. Qed.
Lemma kw_opop : kw opop. Proof. unfold opop. kwt. Qed.
Lemma kw_newCell c : kw (newCell c). Proof. unfold newCell. kwt. Qed.
Lemma kw_cellAdd p c : kw (cellAdd p c). Proof. unfold cellAdd. kwt. Qed.
Lemma kw_full p : kw (full p). Proof. unfold full. kwt. Qed.
#[global] Hint Resolve kw_peek kw_opush kw_opop kw_newCell kw_cellAdd kw_full : kws.
Lemma kw_cint z : kw (cint z). Proof. unfold cint. kwt. Qed.
#[global] Hint Resolve kw_cint : kws.
Lemma kw_region a b c : kw (regionRect a b c). Proof. unfold regionRect, iadd, isub. cbv zeta. kwt. Qed.
Lemma kw_time a b : kw (timeOf a b). Proof. unfold timeOf. kwt. Qed.
#[global] Hint Resolve kw_region kw_time : kws.
Lemma kw_component c e : kw (resolveComponent c e). Proof. unfold resolveComponent, pattr. kwt. Qed.
#[global] Hint Resolve kw_component : kws.
Lemma kw_interface k c e : kw (resolveInterface k c e).
Proof. revert c e. induction k; intros; cbn [resolveInterface]; unfold pattr, cacheById; kwt. Qed.
#[global] Hint Resolve kw_interface : kws.
Lemma kw_readPred k p : kw (readPred k p). Proof. revert p. induction k; intros; cbn [readPred]; kwt. Qed.
#[global] Hint Resolve kw_readPred : kws.
Lemma kw_inherited k n acc : kw (inherited k n acc). Proof. revert n acc. induction k; intros; cbn [inherited]; kwt. Qed.
#[global] Hint Resolve kw_inherited : kws.
Lemma kw_obtainOne k p : kw (obtainOne k p). Proof. unfold obtainOne, connKids. kwt. Qed.
#[global] Hint Resolve kw_obtainOne : kws.
Lemma kw_obtain k p : kw (obtainPredicate k p). Proof. unfold obtainPredicate. kwt. Qed.
#[global] Hint Resolve kw_obtain : kws.
Lemma kw_lookupKind a b c : kw (lookupKind a b c). Proof. unfold lookupKind. kwt. Qed.
Lemma kw_rulePred k p : kw (rulePred k p). Proof. unfold rulePred. kwt. Qed.
Lemma kw_fullId e : kw (fullId e). Proof. unfold fullId. kwt. Qed.
#[global] Hint Resolve kw_lookupKind kw_rulePred kw_fullId : kws.
Lemma kw_bindTable k c l acc : kw (bindTable k c l acc). Proof. revert acc. induction l; intros; cbn [bindTable]; kwt. Qed.
#[global] Hint Resolve kw_bindTable : kws.
Lemma kw_moveAttr d a : kw (moveAttr d a). Proof. unfold moveAttr. kwt. Qed.
#[global] Hint Resolve kw_moveAttr : kws.
Lemma kw_media d : kw (solveMedia d). Proof. unfold solveMedia, pattr, cacheById. kwt. Qed.
Lemma kw_switch k d : kw (solveSwitch k d). Proof. unfold solveSwitch, pattr, cacheById, udata. kwt. Qed.
Lemma kw_roleAction k c p t g x : kw (roleAction k c p t g x). Proof. unfold roleAction. kwt. Qed.
#[global] Hint Resolve kw_media kw_switch kw_roleAction : kws.
Lemma kw_link k d : kw (solveLink k d). Proof. unfold solveLink, pattr, cacheById, udata. cbv zeta. kwt. Qed.
Lemma kw_transition E d a : kw (solveTransition E d a). Proof. unfold solveTransition, pattr, cacheById, setAttr. kwt. Qed.
#[global] Hint Resolve kw_link kw_transition : kws.
Lemma kw_descriptor E d : kw (solveDescriptor E d). Proof. unfold solveDescriptor, pattr, cacheById, setAttr. kwt. Qed.
#[global] Hint Resolve kw_descriptor : kws.
Lemma kw_redirect l t m : kw (redirect l t m). Proof. induction l; cbn [redirect]; kwt. Qed.
Lemma kw_referAdd i m : kw (referAdd i m). Proof. unfold referAdd. kwt. Qed.
#[global] Hint Resolve kw_redirect kw_referAdd : kws.
Lemma kw_push E imp p e : p <> PuImport -> kw (push E imp p e).
Proof.
  intros H. destruct p; try done; cbn [push]; unfold pushMedia, pushNcl, pushRegion, pushDescParam, pushConnector, pushCompound, pushSimple, pushStatement, pushAssess, pushRule, pushContext, pushPort, pushSwitch, pushSwitchPort, pushMapping, pushBindRule, pushArea, pushProperty, pushLink, pushLinkParam, pushBind, pushFont, pattr, udata, iadd; cbv zeta; kwt.
Qed.
Lemma kw_pop E k p n : kw (pop E k p n).
Proof. destruct p; cbn [pop]; unfold popNcl, popRegion, popConnector, popStatement, popAssess, popContext, popSwitch, popMedia, pattr, udata, cacheById; cbv zeta; kwt. Qed.


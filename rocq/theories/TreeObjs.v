(** TreeObjs.v -- C45: the stack of objects. *)
From Verif Require Import BuildInv BuildOps BuildSpec BuildFacts Frame ParserFrame.
From Verif Require Export TreeEvts.
Open Scope string_scope.
Open Scope list_scope.

Definition pob (s s' : pst) : Prop := p_objs s' = p_objs s.
#[global] Instance pre_pob : ParserQuiet.preorder pob. Proof. split; [done|]. unfold pob. intros a b c. congruence. Qed.
Notation kb := (kr pob).
Lemma kb_lift {A} (m : MG A) : kb (lift m). Proof. intros s. by apply pw_lift_any. Qed.
Lemma kb_eupd n f : kb (eupd n f). Proof. intros s. by apply pw_eupd. Qed.
Lemma kb_alloc : kb palloc. Proof. intros s. by apply pw_alloc. Qed.
Lemma kb_mod f : (forall s, pob s (f s)) -> kb (pmod f). Proof. intros H s. by apply pw_mod. Qed.
Create HintDb kbs.
Ltac kbt := repeat first
  [ progress intros
  | progress cbv beta
  | solve [eauto with kbs nocore]
  | apply kb_alloc | apply kb_eupd | apply kb_lift
  | apply (kr_ret pob) | apply (kr_gets pob) | apply (kr_fail pob) | apply (kr_crash pob) | apply (kr_nofuel pob) | apply (kr_assert pob) | apply (kr_check pob)
  | apply (kr_of pob) | apply (kr_ofe pob) | apply (kr_when pob) | apply (kr_cell pob) | apply (kr_index pob) | apply (kr_parent pob) | apply (kr_each pob) | apply (kr_map pob)
  | apply (kr_bind pob)
  | (apply kb_mod; intros; done)
  | match goal with |- kr pob (if ?b then _ else _) => destruct b | |- kr pob (match ?x with _ => _ end) => destruct x end ].
Lemma kb_peek ok p : kb (peek ok p). Proof. unfold peek. kbt. Qed.
Lemma kb_newCell c : kb (newCell c). Proof. unfold newCell. kbt. Qed.
Lemma kb_cellAdd p c : kb (cellAdd p c). Proof. unfold cellAdd. kbt. Qed.
Lemma kb_full p : kb (full p). Proof. unfold full. kbt. Qed.
#[global] Hint Resolve kb_peek kb_newCell kb_cellAdd kb_full : kbs.
Lemma kb_cint z : kb (cint z). Proof. unfold cint. kbt. Qed.
#[global] Hint Resolve kb_cint : kbs.
Lemma kb_region a b c : kb (regionRect a b c). Proof. unfold regionRect, iadd, isub. cbv zeta. kbt. Qed.
Lemma kb_time a b : kb (timeOf a b). Proof. unfold timeOf. kbt. Qed.
#[global] Hint Resolve kb_region kb_time : kbs.
Lemma kb_component c e : kb (resolveComponent c e). Proof. unfold resolveComponent, pattr. kbt. Qed.
#[global] Hint Resolve kb_component : kbs.
Lemma kb_interface k c e : kb (resolveInterface k c e).
Proof. revert c e. induction k; intros; cbn [resolveInterface]; unfold pattr, cacheById; kbt. Qed.
#[global] Hint Resolve kb_interface : kbs.
Lemma kb_readPred k p : kb (readPred k p). Proof. revert p. induction k; intros; cbn [readPred]; kbt. Qed.
#[global] Hint Resolve kb_readPred : kbs.
Lemma kb_inherited k n acc : kb (inherited k n acc). Proof. revert n acc. induction k; intros; cbn [inherited]; kbt. Qed.
#[global] Hint Resolve kb_inherited : kbs.
Lemma kb_obtainOne k p : kb (obtainOne k p). Proof. unfold obtainOne, connKids. kbt. Qed.
#[global] Hint Resolve kb_obtainOne : kbs.
Lemma kb_obtain k p : kb (obtainPredicate k p). Proof. unfold obtainPredicate. kbt. Qed.
#[global] Hint Resolve kb_obtain : kbs.
Lemma kb_lookupKind a b c : kb (lookupKind a b c). Proof. unfold lookupKind. kbt. Qed.
Lemma kb_rulePred k p : kb (rulePred k p). Proof. unfold rulePred. kbt. Qed.
Lemma kb_fullId e : kb (fullId e). Proof. unfold fullId. kbt. Qed.
#[global] Hint Resolve kb_lookupKind kb_rulePred kb_fullId : kbs.
Lemma kb_bindTable k c l acc : kb (bindTable k c l acc). Proof. revert acc. induction l; intros; cbn [bindTable]; kbt. Qed.
#[global] Hint Resolve kb_bindTable : kbs.
Lemma kb_moveAttr d a : kb (moveAttr d a). Proof. unfold moveAttr. kbt. Qed.
#[global] Hint Resolve kb_moveAttr : kbs.
Lemma kb_media d : kb (solveMedia d). Proof. unfold solveMedia, pattr, cacheById. kbt. Qed.
Lemma kb_switch k d : kb (solveSwitch k d). Proof. unfold solveSwitch, pattr, cacheById, udata. kbt. Qed.
Lemma kb_roleAction k c p t g x : kb (roleAction k c p t g x). Proof. unfold roleAction. kbt. Qed.
#[global] Hint Resolve kb_media kb_switch kb_roleAction : kbs.
Lemma kb_link k d : kb (solveLink k d). Proof. unfold solveLink, pattr, cacheById, udata. cbv zeta. kbt. Qed.
Lemma kb_transition E d a : kb (solveTransition E d a). Proof. unfold solveTransition, pattr, cacheById, setAttr. kbt. Qed.
#[global] Hint Resolve kb_link kb_transition : kbs.
Lemma kb_descriptor E d : kb (solveDescriptor E d). Proof. unfold solveDescriptor, pattr, cacheById, setAttr. kbt. Qed.
#[global] Hint Resolve kb_descriptor : kbs.

Definition stackPush (p : pushk) : bool := match p with PuNcl | PuContext | PuSwitch | PuMedia | PuImport => true | _ => false end.
Lemma kb_push E imp p e : stackPush p = false -> kb (push E imp p e).
Proof.
  intros H. destruct p; try discriminate H; cbn [push]; unfold pushRegion, pushDescParam, pushConnector, pushCompound, pushSimple, pushStatement, pushAssess, pushRule, pushPort, pushSwitchPort, pushMapping, pushBindRule, pushArea, pushProperty, pushLink, pushLinkParam, pushBind, pushFont, pattr, udata, iadd; cbv zeta; kbt.
Qed.
Definition stackPop (p : popk) : bool := match p with PoNcl | PoContext | PoSwitch | PoMedia => true | _ => false end.
Lemma kb_pop E k p n : stackPop p = false -> kb (pop E k p n).
Proof. intros H. destruct p; try discriminate H; cbn [pop]; unfold popRegion, popConnector, popStatement, popAssess, pattr, udata, cacheById; cbv zeta; kbt. Qed.
Lemma kb_cacheAdd e : kb (cacheAdd e). Proof. unfold cacheAdd. kbt. Qed.
(** Popping. *)
Definition pops {A} (m : P A) : Prop := forall s, pw m (fun _ s' => p_objs s' = tl (p_objs s)) s.
Lemma pops_bind {A B} (m : P A) (f : A -> P B) : kb m -> (forall a, pops (f a)) -> pops (pbind m f).
Proof. intros Hm Hf s. apply pw_bind. eapply pw_mono; [apply Hm|]. intros a s' H. eapply pw_mono; [apply Hf|]. intros b s2 H2. cbv beta in *. rewrite H2. by rewrite H. Qed.
Lemma pops_opop : pops opop. Proof. intros s. unfold opop. by p1. Qed.
Lemma pops_pop E k p n : stackPop p = true -> pops (pop E k p n).
Proof.
  intros H. destruct p; try discriminate H; cbn [pop]; unfold popNcl, popContext, popSwitch, popMedia, cacheById, udata; cbv zeta;
    repeat (apply pops_bind; [solve [kbt]|intros]); apply pops_opop.
Qed.

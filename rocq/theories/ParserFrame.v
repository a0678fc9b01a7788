(** ParserFrame.v -- what push and pop functions leave alone. *)
From Verif Require Export ParserWp.
Open Scope string_scope.
Open Scope list_scope.

Record fr (s s' : pst) : Prop := mkFr {
  fr_alias : p_alias s' = p_alias s;
  fr_unique : p_unique s' = p_unique s;
  fr_odd : p_odd s = true -> p_odd s' = true }.
Lemma fr_refl s : fr s s. Proof. by split. Qed.
Lemma fr_trans s1 s2 s3 : fr s1 s2 -> fr s2 s3 -> fr s1 s3.
Proof. intros [] []. split; [congruence|congruence|auto]. Qed.
Lemma pw_lift_any {A} (m : MG A) (Q : A -> pst -> Prop) s : (forall a g, Q a (p_set_graph g s)) -> pw (lift m) Q s.
Proof. intros H. unfold pw, lift. destruct (m (p_graph s)); auto. Qed.

Definition keep {A} (m : P A) : Prop := forall s, pw m (fun _ s' => fr s s') s.
Lemma keep_use {A B} (m : P A) (f : A -> P B) s0 s : keep m -> fr s0 s -> (forall a s', fr s0 s' -> pw (f a) (fun _ => fr s0) s') -> pw (pbind m f) (fun _ => fr s0) s.
Proof. intros Hm H Hf. apply pw_bind. eapply pw_mono; [apply Hm|]. intros a s' F. apply Hf. by eapply fr_trans. Qed.
Lemma keep_end {A} (m : P A) s0 s : keep m -> fr s0 s -> pw m (fun _ => fr s0) s.
Proof. intros Hm H. eapply pw_mono; [apply Hm|]. intros a s' F. by eapply fr_trans. Qed.

(** Automation: primitive steps keep the frame. *)
Lemma keep_ret {A} (a : A) : keep (pret a). Proof. intros s. apply fr_refl. Qed.
Lemma keep_bind {A B} (m : P A) (f : A -> P B) : keep m -> (forall a, keep (f a)) -> keep (pbind m f).
Proof. intros Hm Hf s. apply keep_use; [done|apply fr_refl|]. intros a s' F. by apply keep_end. Qed.
Lemma keep_gets {A} (f : pst -> A) : keep (pgets f). Proof. intros s. apply fr_refl. Qed.
Lemma keep_fail {A} e : keep (pfail e : P A). Proof. intros s. exact I. Qed.
Lemma keep_crash {A} e : keep (pcrash e : P A). Proof. intros s. exact I. Qed.
Lemma keep_nofuel {A} : keep ((fun _ => PNoFuel) : P A). Proof. intros s. exact I. Qed.
Lemma keep_mod f : (forall s, fr s (f s)) -> keep (pmod f). Proof. intros H s. apply H. Qed.
Lemma keep_assert b p : keep (passert b p). Proof. destruct b; intros s; [apply fr_refl|exact I]. Qed.
Lemma keep_check b p : keep (pcheck b p). Proof. destruct b; intros s; [apply fr_refl|exact I]. Qed.
Lemma keep_of {A} (o : option A) p : keep (pof o p). Proof. destruct o; intros s; [apply fr_refl|exact I]. Qed.
Lemma keep_ofe {A} (o : option A) p : keep (pofe o p). Proof. destruct o; intros s; [apply fr_refl|exact I]. Qed.
Lemma keep_when b m : keep m -> keep (pwhen b m). Proof. destruct b; intros H s; [apply H|apply fr_refl]. Qed.
Lemma keep_lift {A} (m : MG A) : keep (lift m). Proof. intros s. apply pw_lift_any. intros a g. by split. Qed.
Lemma keep_alloc : keep palloc. Proof. intros s. by split. Qed.
Lemma keep_cell p : keep (cellOf p). Proof. intros s. apply pw_cell. intros. apply fr_refl. Qed.
Lemma keep_index n p : keep (cacheIndex n p). Proof. intros s. apply pw_index. intros. apply fr_refl. Qed.
Lemma keep_parent n p : keep (cacheParent n p). Proof. intros s. apply pw_parent. intros. apply fr_refl. Qed.
Lemma keep_eupd n f : keep (eupd n f). Proof. intros s. apply pw_eupd. intros. by split. Qed.
Lemma keep_each {A} (f : A -> P unit) l : (forall x, keep (f x)) -> keep (peach f l).
Proof. intros H. induction l; cbn [peach]; [apply keep_ret|]. by apply keep_bind. Qed.
Lemma keep_map {A B} (f : A -> P B) l : (forall x, keep (f x)) -> keep (pmap f l).
Proof. intros H. induction l; cbn [pmap]; [apply keep_ret|]. apply keep_bind; [done|]. intros. apply keep_bind; [done|]. intros. apply keep_ret. Qed.
Create HintDb keeps.
Ltac kp := repeat first
  [ progress intros
  | progress cbv beta
  | solve [eauto with keeps nocore]
  | apply keep_ret | apply keep_bind | apply keep_gets | apply keep_fail | apply keep_crash | apply keep_nofuel | apply keep_assert | apply keep_check
  | apply keep_of | apply keep_ofe | apply keep_when | apply keep_lift | apply keep_alloc | apply keep_cell | apply keep_index | apply keep_parent
  | apply keep_eupd | apply keep_each | apply keep_map
  | (apply keep_mod; intros; split; [done|done|done])
  | match goal with |- keep (if ?b then _ else _) => destruct b | |- keep (match ?x with _ => _ end) => destruct x end ].

Lemma keep_peek ok p : keep (peek ok p). Proof. unfold peek. kp. Qed.
#[global] Hint Resolve keep_peek : keeps.
Lemma keep_opush o : keep (opush o). Proof. unfold opush. kp. Qed.
Lemma keep_opop : keep opop. Proof. unfold opop. kp. Qed.
#[global] Hint Resolve keep_opush keep_opop : keeps.
Lemma keep_component c e : keep (resolveComponent c e). Proof. unfold resolveComponent, pattr. kp. Qed.
#[global] Hint Resolve keep_component : keeps.
Lemma keep_interface k c e : keep (resolveInterface k c e).
Proof. revert c e. induction k; intros; cbn [resolveInterface]; unfold pattr, cacheById; kp. Qed.
#[global] Hint Resolve keep_interface : keeps.
Lemma keep_newCell c : keep (newCell c). Proof. unfold newCell. kp. Qed.
Lemma keep_cellAdd p c : keep (cellAdd p c). Proof. unfold cellAdd. kp. Qed.
Lemma keep_full p : keep (full p). Proof. unfold full. kp. Qed.
Lemma keep_readPred k p : keep (readPred k p). Proof. revert p. induction k; intros; cbn [readPred]; kp. Qed.
#[global] Hint Resolve keep_newCell keep_cellAdd keep_full keep_readPred : keeps.
Lemma keep_inherited k n acc : keep (inherited k n acc). Proof. revert n acc. induction k; intros; cbn [inherited]; kp. Qed.
#[global] Hint Resolve keep_inherited : keeps.
Lemma keep_obtainOne k p : keep (obtainOne k p). Proof. unfold obtainOne, connKids. kp. Qed.
#[global] Hint Resolve keep_obtainOne : keeps.
Lemma keep_obtain k p : keep (obtainPredicate k p). Proof. unfold obtainPredicate. kp. Qed.
#[global] Hint Resolve keep_obtain : keeps.
Lemma keep_referAdd i m : keep (referAdd i m). Proof. unfold referAdd. kp. Qed.
#[global] Hint Resolve keep_referAdd : keeps.
Lemma keep_redirect l t m : keep (redirect l t m). Proof. induction l; cbn [redirect]; kp. Qed.
#[global] Hint Resolve keep_redirect : keeps.
Lemma keep_cint z : keep (cint z). Proof. unfold cint. kp. Qed.
#[global] Hint Resolve keep_cint : keeps.
Lemma keep_region o r a : keep (regionRect o r a). Proof. unfold regionRect, iadd, isub. kp. Qed.
#[global] Hint Resolve keep_region : keeps.
Lemma keep_time v d : keep (timeOf v d). Proof. unfold timeOf. kp. Qed.
#[global] Hint Resolve keep_time : keeps.

Lemma keep_push E imp p e : (forall e, keep (imp e)) -> keep (push E imp p e).
Proof.
  intros Hi. destruct p; cbn [push]; try (solve [kp]);
    unfold pushNcl, pushRegion, pushDescParam, pushConnector, pushCompound, pushSimple, pushStatement, pushAssess, pushRule, pushContext,
      pushPort, pushSwitch, pushSwitchPort, pushMapping, pushBindRule, pushArea, pushProperty, pushLink, pushLinkParam, pushBind, pushFont, pushMedia, pattr, udata, iadd; kp.
Qed.
Lemma keep_setAttr n a b : keep (setAttr n a b). Proof. unfold setAttr. kp. Qed.
#[global] Hint Resolve keep_setAttr : keeps.
Lemma keep_transition E d n : keep (solveTransition E d n). Proof. unfold solveTransition, pattr, cacheById. kp. Qed.
#[global] Hint Resolve keep_transition : keeps.
Lemma keep_descriptor E d : keep (solveDescriptor E d). Proof. unfold solveDescriptor, pattr, cacheById. kp. Qed.
#[global] Hint Resolve keep_descriptor : keeps.
Lemma keep_moveAttr d a : keep (moveAttr d a). Proof. unfold moveAttr. kp. Qed.
Lemma keep_lookupKind a b c : keep (lookupKind a b c). Proof. unfold lookupKind. kp. Qed.
#[global] Hint Resolve keep_moveAttr keep_lookupKind : keeps.
Lemma keep_media d : keep (solveMedia d). Proof. unfold solveMedia, pattr, cacheById. kp. Qed.
Lemma keep_rulePred k p : keep (rulePred k p). Proof. unfold rulePred. kp. Qed.
#[global] Hint Resolve keep_media keep_rulePred : keeps.
Lemma keep_switch k d : keep (solveSwitch k d). Proof. unfold solveSwitch, pattr, cacheById, udata. kp. Qed.
Lemma keep_fullId e : keep (fullId e). Proof. unfold fullId. kp. Qed.
#[global] Hint Resolve keep_switch keep_fullId : keeps.
Lemma keep_bindTable k c l acc : keep (bindTable k c l acc). Proof. revert acc. induction l; intros; cbn [bindTable]; kp. Qed.
Lemma keep_roleAction k c p t g x : keep (roleAction k c p t g x). Proof. unfold roleAction. kp. Qed.
#[global] Hint Resolve keep_bindTable keep_roleAction : keeps.
Lemma keep_link k d : keep (solveLink k d). Proof. unfold solveLink, pattr, cacheById, udata. kp. Qed.
#[global] Hint Resolve keep_link : keeps.
Lemma keep_pop E k p n : keep (pop E k p n).
Proof.
  destruct p; cbn [pop]; unfold popNcl, popRegion, popConnector, popStatement, popAssess, popContext, popSwitch, popMedia, pattr, udata, cacheById; kp.
Qed.

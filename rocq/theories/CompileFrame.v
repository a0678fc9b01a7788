(** CompileFrame.v -- C42: which elements of the cache a step may change. *)
From Verif Require Import BuildOps ParserFrame.
From Verif Require Export TreeHead.
Open Scope string_scope.
Open Scope list_scope.

(** What no step changes of an element: all but what is attached to it, and the attributes
    of descriptors; and what matters of it: what is attached to links, binds and connectors. *)
Definition ident (e : elt) := (el_tag e, el_node e, el_up e, (if String.eqb (el_tag e) "descriptor" then [] else el_attrs e)).
Definition core (e : elt) := (ident e, el_binds e, el_params e, el_ctx e, el_roles e, el_tests e).
Record lf (X : nid -> Prop) (s s' : pst) : Prop := mkLf {
  lf_next : (p_next s <= p_next s')%positive;
  lf_id : forall n, (n < p_next s)%positive -> option_map ident (p_cache s' !! n) = option_map ident (p_cache s !! n);
  lf_core : forall n, (n < p_next s)%positive -> ~ X n -> option_map core (p_cache s' !! n) = option_map core (p_cache s !! n);
  lf_order : exists l, p_order s' = p_order s ++ l /\ forall n, n ∈ l -> (p_next s <= n)%positive /\ (n < p_next s')%positive }.
Lemma lf_refl X s : lf X s s.
Proof. split; [lia|done|done|]. exists []. rewrite app_nil_r. split; [done|]. intros n Hn. by apply elem_of_nil in Hn. Qed.
Lemma lf_trans X Y s s1 s2 : lf X s s1 -> lf Y s1 s2 -> (forall n, (n < p_next s)%positive -> Y n -> X n) -> lf X s s2.
Proof.
  intros [A1 A0 A2 (l1 & A3 & A4)] [B1 B0 B2 (l2 & B3 & B4)] H. split; [lia| | |].
  - intros n Hn. rewrite B0 by lia. by apply A0.
  - intros n Hn HX. rewrite B2; [by apply A2|lia|]. intros HY. apply HX. by apply H.
  - exists (l1 ++ l2). split; [rewrite B3, A3; by rewrite <- app_assoc|]. intros n Hn. apply elem_of_app in Hn as [Hn|Hn]; [destruct (A4 n Hn)|destruct (B4 n Hn)]; lia.
Qed.
Lemma lf_mono (X Y : nid -> Prop) s s' : (forall n, (n < p_next s)%positive -> X n -> Y n) -> lf X s s' -> lf Y s s'.
Proof. intros H L. split; [apply L|apply L| |apply L]. intros n Hn HY. apply (lf_core _ _ _ L); [done|]. intros HX. apply HY. by apply H. Qed.
Lemma lf_same X s s' : p_next s' = p_next s -> p_cache s' = p_cache s -> p_order s' = p_order s -> lf X s s'.
Proof. intros E1 E2 E3. split; [rewrite E1; lia|by rewrite E2|by rewrite E2|]. exists []. rewrite app_nil_r. split; [done|]. intros n Hn. by apply elem_of_nil in Hn. Qed.
Lemma lf_get X s s' n e : lf X s s' -> p_cache s !! n = Some e -> (n < p_next s)%positive -> ~ X n -> exists e', p_cache s' !! n = Some e' /\ core e' = core e.
Proof. intros L H Hn HX. pose proof (lf_core _ _ _ L n Hn HX) as E. rewrite H in E. destruct (p_cache s' !! n) as [e'|]; [|done]. injection E as E. exists e'. split; [done|]. unfold core, ident. congruence. Qed.
Lemma lf_ident X s s' n e : lf X s s' -> p_cache s !! n = Some e -> (n < p_next s)%positive -> exists e', p_cache s' !! n = Some e' /\ ident e' = ident e.
Proof. intros L H Hn. pose proof (lf_id _ _ _ L n Hn) as E. rewrite H in E. destruct (p_cache s' !! n) as [e'|]; [|done]. injection E as E. exists e'. split; [done|]. unfold ident. congruence. Qed.
Lemma lf_back X s s' n e' : lf X s s' -> p_cache s' !! n = Some e' -> (n < p_next s)%positive -> exists e, p_cache s !! n = Some e /\ ident e' = ident e.
Proof. intros L H Hn. pose proof (lf_id _ _ _ L n Hn) as E. rewrite H in E. destruct (p_cache s !! n) as [e|]; [|done]. injection E as E. exists e. split; [done|]. unfold ident. congruence. Qed.
Lemma core_ident e e' : core e' = core e -> ident e' = ident e. Proof. unfold core. congruence. Qed.

(** Steps that change nothing of this. *)
Definition none (n : nid) : Prop := False.
Definition lq (s s' : pst) : Prop := lf none s s' /\ p_conn s' = p_conn s.
#[global] Instance pre_lq : ParserQuiet.preorder lq.
Proof. split; [intros s; split; [apply lf_refl|done]|]. intros a b c [A B] [C D]. split; [|congruence]. by eapply lf_trans. Qed.
Notation kl := (kr lq).
Lemma kl_lift {A} (m : MG A) : kl (lift m). Proof. intros s. apply pw_lift_any. intros a g. split; [by apply lf_same|done]. Qed.
Lemma lf_upd X s n e e' : p_cache s !! n = Some e -> ident e' = ident e -> (X n \/ core e' = core e) -> lf X s (p_set_cache (<[n := e']> (p_cache s)) s).
Proof.
  intros H I D. split; cbn; [lia| | |].
  - intros m Hm. destruct (decide (n = m)) as [<-|Hne]; [|by rewrite lookup_insert_ne]. rewrite lookup_insert, H. cbn. by f_equal.
  - intros m Hm HX. destruct (decide (n = m)) as [<-|Hne]; [|by rewrite lookup_insert_ne]. rewrite lookup_insert, H. destruct D as [D|D]; [done|]. cbn. by f_equal.
  - exists []. rewrite app_nil_r. split; [done|]. intros m Hm. by apply elem_of_nil in Hm.
Qed.
Lemma kl_eupd n f : (forall e, core (f e) = core e) -> kl (eupd n f).
Proof. intros H s. apply pw_eupd. intros e He. split; [|done]. eapply lf_upd; [exact He|apply core_ident, H|]. by right. Qed.
Lemma kl_alloc : kl palloc.
Proof. intros s. apply pw_alloc. split; [|done]. split; cbn; [lia|done|done|]. exists []. rewrite app_nil_r. split; [done|]. intros m Hm. by apply elem_of_nil in Hm. Qed.
Lemma kl_mod f : (forall s, p_next (f s) = p_next s /\ p_cache (f s) = p_cache s /\ p_order (f s) = p_order s /\ p_conn (f s) = p_conn s) -> kl (pmod f).
Proof. intros H s. apply pw_mod. destruct (H s) as (A & B & C & D). split; [by apply lf_same|done]. Qed.
Create HintDb lqs.
Ltac klt := repeat first
  [ progress intros
  | progress cbv beta
  | solve [eauto with lqs nocore]
  | apply kl_alloc | apply kl_lift
  | (apply kl_eupd; intros; reflexivity)
  | apply (kr_ret lq) | apply (kr_bind lq) | apply (kr_gets lq) | apply (kr_fail lq) | apply (kr_crash lq) | apply (kr_nofuel lq) | apply (kr_assert lq) | apply (kr_check lq)
  | apply (kr_of lq) | apply (kr_ofe lq) | apply (kr_when lq) | apply (kr_cell lq) | apply (kr_index lq) | apply (kr_parent lq) | apply (kr_each lq) | apply (kr_map lq)
  | (apply kl_mod; intros; done)
  | match goal with |- kr lq (if ?b then _ else _) => destruct b | |- kr lq (match ?x with _ => _ end) => destruct x end ].
Lemma kl_peek ok p : kl (peek ok p). Proof. unfold peek. klt. Qed.
Lemma kl_opush o : kl (opush o). Proof. unfold opush. klt. Qed.
Lemma kl_opop : kl opop. Proof. unfold opop. klt. Qed.
Lemma kl_newCell c : kl (newCell c). Proof. unfold newCell. klt. Qed.
Lemma kl_cellAdd p c : kl (cellAdd p c). Proof. unfold cellAdd. klt. Qed.
Lemma kl_full p : kl (full p). Proof. unfold full. klt. Qed.
Lemma kl_cint z : kl (cint z). Proof. unfold cint. klt. Qed.
Lemma kl_time v d : kl (timeOf v d). Proof. unfold timeOf. klt. Qed.
#[global] Hint Resolve kl_peek kl_opush kl_opop kl_newCell kl_cellAdd kl_full kl_cint kl_time : lqs.
Lemma kl_region o r a : kl (regionRect o r a). Proof. unfold regionRect, iadd, isub. klt. Qed.
Lemma kl_redirect l t m : kl (redirect l t m). Proof. induction l; cbn [redirect]; klt. Qed.
Lemma kl_referAdd i m : kl (referAdd i m). Proof. unfold referAdd. klt. Qed.
#[global] Hint Resolve kl_region kl_redirect kl_referAdd : lqs.
Lemma kl_component c e : kl (resolveComponent c e). Proof. unfold resolveComponent, pattr. klt. Qed.
#[global] Hint Resolve kl_component : lqs.
Lemma kl_interface k c e : kl (resolveInterface k c e).
Proof. revert c e. induction k; intros; cbn [resolveInterface]; unfold pattr, cacheById; klt. Qed.
#[global] Hint Resolve kl_interface : lqs.
Lemma kl_readPred k p : kl (readPred k p). Proof. revert p. induction k; intros; cbn [readPred]; klt. Qed.
#[global] Hint Resolve kl_readPred : lqs.
Lemma kl_inherited k n acc : kl (inherited k n acc). Proof. revert n acc. induction k; intros; cbn [inherited]; klt. Qed.
#[global] Hint Resolve kl_inherited : lqs.
Lemma kl_obtainOne k p : kl (obtainOne k p). Proof. unfold obtainOne, connKids. klt. Qed.
#[global] Hint Resolve kl_obtainOne : lqs.
Lemma kl_obtain k p : kl (obtainPredicate k p). Proof. unfold obtainPredicate. klt. Qed.
Lemma kl_lookupKind a b c : kl (lookupKind a b c). Proof. unfold lookupKind. klt. Qed.
Lemma kl_rulePred k p : kl (rulePred k p). Proof. unfold rulePred. klt. Qed.
Lemma kl_fullId e : kl (fullId e). Proof. unfold fullId. klt. Qed.
#[global] Hint Resolve kl_obtain kl_lookupKind kl_rulePred kl_fullId : lqs.
Lemma kl_bindTable k c l acc : kl (bindTable k c l acc). Proof. revert acc. induction l; intros; cbn [bindTable]; klt. Qed.
Lemma kl_roleAction k c p t g x : kl (roleAction k c p t g x). Proof. unfold roleAction. klt. Qed.
Lemma kl_moveAttr d a : kl (moveAttr d a). Proof. unfold moveAttr. klt. Qed.
#[global] Hint Resolve kl_bindTable kl_roleAction kl_moveAttr : lqs.
Lemma kl_media d : kl (solveMedia d). Proof. unfold solveMedia, pattr, cacheById. klt. Qed.
Lemma kl_switch k d : kl (solveSwitch k d). Proof. unfold solveSwitch, pattr, cacheById, udata. klt. Qed.
Lemma kl_link k d : kl (solveLink k d). Proof. unfold solveLink, pattr, cacheById, udata. klt. Qed.
#[global] Hint Resolve kl_media kl_switch kl_link : lqs.
(** Push and pop functions. *)
Definition lqPush (p : pushk) : bool := match p with PuConnector | PuSimple | PuAssess | PuLinkParam | PuBind | PuDescParam | PuImport => false | _ => true end.
Lemma kl_push E imp p e : lqPush p = true -> kl (push E imp p e).
Proof.
  intros H. destruct p; try discriminate H; cbn [push];
    unfold pushNcl, pushRegion, pushCompound, pushStatement, pushRule, pushContext, pushPort, pushSwitch, pushSwitchPort, pushMapping, pushBindRule, pushMedia, pushArea, pushProperty, pushLink, pushFont, pattr, udata, iadd; klt.
Qed.
Lemma kl_pop E k p n : p <> PoNcl -> p <> PoConnector -> kl (pop E k p n).
Proof. intros H1 H2. destruct p; try done; cbn [pop]; unfold popRegion, popStatement, popAssess, popContext, popSwitch, popMedia, pattr, udata, cacheById; klt. Qed.

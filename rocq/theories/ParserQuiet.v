(** ParserQuiet.v -- push and pop functions that do not touch the document, or only the
    element cache. *)
From Verif Require Export ParserFrame.
From Verif Require Import BuildOps BuildSpec Frame.
Open Scope string_scope.
Open Scope list_scope.

(** The element cache: same elements, with the same tags, and the same attributes if media. *)
Definition eltSame (e e' : elt) : Prop := el_tag e' = el_tag e /\ el_node e' = el_node e /\ (el_tag e = "media" -> el_attrs e' = el_attrs e).
Record cfr (s s' : pst) : Prop := mkCfr {
  cf_next : (p_next s <= p_next s')%positive;
  cf_order : p_order s' = p_order s;
  cf_cache : forall n, match p_cache s !! n, p_cache s' !! n with Some e, Some e' => eltSame e e' | None, None => True | _, _ => False end }.
Lemma eltSame_refl e : eltSame e e. Proof. done. Qed.
Lemma cfr_refl s : cfr s s.
Proof. split; [lia|done|]. intros n. by destruct (p_cache s !! n). Qed.
Lemma cfr_trans s1 s2 s3 : cfr s1 s2 -> cfr s2 s3 -> cfr s1 s3.
Proof.
  intros [A1 A2 A3] [B1 B2 B3]. split; [lia|congruence|]. intros n. specialize (A3 n). specialize (B3 n).
  destruct (p_cache s1 !! n), (p_cache s2 !! n), (p_cache s3 !! n); try done. destruct A3 as (a & b & c), B3 as (d & f & g). split; [congruence|]. split; [congruence|].
  intros H. rewrite g by congruence. auto.
Qed.
Lemma cfr_fwd s s' n e : cfr s s' -> p_cache s !! n = Some e -> exists e', p_cache s' !! n = Some e' /\ eltSame e e'.
Proof. intros [_ _ H] E. specialize (H n). rewrite E in H. destruct (p_cache s' !! n) as [e'|]; [|done]. by exists e'. Qed.
Lemma cfr_bwd s s' n e' : cfr s s' -> p_cache s' !! n = Some e' -> exists e, p_cache s !! n = Some e /\ eltSame e e'.
Proof. intros [_ _ H] E. specialize (H n). rewrite E in H. destruct (p_cache s !! n) as [e|]; [|done]. by exists e. Qed.
Lemma cfr_upd s n e f : p_cache s !! n = Some e -> eltSame e (f e) -> cfr s (p_set_cache (<[n := f e]> (p_cache s)) s).
Proof.
  intros E H. split; cbn; [lia|done|]. intros m. destruct (decide (m = n)) as [->|Hne].
  - by rewrite E, lookup_insert.
  - rewrite lookup_insert_ne by done. by destruct (p_cache s !! m).
Qed.

Definition quiet (s s' : pst) : Prop := cfr s s' /\ p_graph s' = p_graph s /\ p_refer s' = p_refer s.
Lemma quiet_refl s : quiet s s. Proof. split; [apply cfr_refl|done]. Qed.
Lemma quiet_trans s1 s2 s3 : quiet s1 s2 -> quiet s2 s3 -> quiet s1 s3.
Proof. intros (A & B & C) (D & F & G). split; [by eapply cfr_trans|]. split; congruence. Qed.

(** Two families of functions: [kc] keeps the cache, [kq] is quiet. *)
Definition rel := pst -> pst -> Prop.
Definition kr (R : rel) {A} (m : P A) : Prop := forall s, pw m (fun _ s' => R s s') s.
Class preorder (R : rel) : Prop := { pr_refl : forall s, R s s; pr_trans : forall a b c, R a b -> R b c -> R a c }.
#[global] Instance pre_c : preorder cfr. Proof. split; [apply cfr_refl|apply cfr_trans]. Qed.
#[global] Instance pre_q : preorder quiet. Proof. split; [apply quiet_refl|apply quiet_trans]. Qed.

Section K.
Context (R : rel) {PR : preorder R}.
Lemma kr_ret {A} (a : A) : kr R (pret a). Proof. intros s. exact (pr_refl (R:=R) s). Qed.
Lemma kr_bind {A B} (m : P A) (f : A -> P B) : kr R m -> (forall a, kr R (f a)) -> kr R (pbind m f).
Proof. intros Hm Hf s. apply pw_bind. eapply pw_mono; [apply Hm|]. intros a s' H. eapply pw_mono; [apply Hf|]. intros b s2 H2. exact (pr_trans _ _ _ H H2). Qed.
Lemma kr_gets {A} (f : pst -> A) : kr R (pgets f). Proof. intros s. exact (pr_refl (R:=R) s). Qed.
Lemma kr_fail {A} e : kr R (pfail e : P A). Proof. intros s. exact I. Qed.
Lemma kr_crash {A} e : kr R (pcrash e : P A). Proof. intros s. exact I. Qed.
Lemma kr_nofuel {A} : kr R ((fun _ => PNoFuel) : P A). Proof. intros s. exact I. Qed.
Lemma kr_mod f : (forall s, R s (f s)) -> kr R (pmod f). Proof. intros H s. apply H. Qed.
Lemma kr_assert b p : kr R (passert b p). Proof. destruct b; intros s; [exact (pr_refl (R:=R) s)|exact I]. Qed.
Lemma kr_check b p : kr R (pcheck b p). Proof. destruct b; intros s; [exact (pr_refl (R:=R) s)|exact I]. Qed.
Lemma kr_of {A} (o : option A) p : kr R (pof o p). Proof. destruct o; intros s; [exact (pr_refl (R:=R) s)|exact I]. Qed.
Lemma kr_ofe {A} (o : option A) p : kr R (pofe o p). Proof. destruct o; intros s; [exact (pr_refl (R:=R) s)|exact I]. Qed.
Lemma kr_when b m : kr R m -> kr R (pwhen b m). Proof. destruct b; intros H s; [apply H|exact (pr_refl (R:=R) s)]. Qed.
Lemma kr_cell p : kr R (cellOf p). Proof. intros s. apply pw_cell. intros. exact (pr_refl (R:=R) s). Qed.
Lemma kr_index n p : kr R (cacheIndex n p). Proof. intros s. apply pw_index. intros. exact (pr_refl (R:=R) s). Qed.
Lemma kr_parent n p : kr R (cacheParent n p). Proof. intros s. apply pw_parent. intros. exact (pr_refl (R:=R) s). Qed.
Lemma kr_each {A} (f : A -> P unit) l : (forall x, kr R (f x)) -> kr R (peach f l).
Proof. intros H. induction l; cbn [peach]; [apply kr_ret|]. by apply kr_bind. Qed.
Lemma kr_map {A B} (f : A -> P B) l : (forall x, kr R (f x)) -> kr R (pmap f l).
Proof. intros H. induction l; cbn [pmap]; [apply kr_ret|]. apply kr_bind; [done|]. intros. apply kr_bind; [done|]. intros. apply kr_ret. Qed.
End K.
Notation kc := (kr cfr).
Notation kq := (kr quiet).
Lemma kq_kc {A} (m : P A) : kq m -> kc m.
Proof. intros H s. eapply pw_mono; [apply H|]. by intros a s' (? & _). Qed.
Lemma quiet_mod s s' : p_next s' = p_next s -> p_order s' = p_order s -> p_cache s' = p_cache s -> p_graph s' = p_graph s -> p_refer s' = p_refer s -> quiet s s'.
Proof. intros E1 E2 E3 E4 E5. split; [|done]. split; [rewrite E1; lia|done|]. rewrite E3. intros n. by destruct (p_cache s !! n). Qed.
Lemma kq_alloc : kq palloc.
Proof. intros s. split; [|done]. split; [cbn; lia|done|]. cbn. intros n. by destruct (p_cache s !! n). Qed.
Lemma kq_eupd n f : (forall e, eltSame e (f e)) -> kq (eupd n f).
Proof. intros H s. apply pw_eupd. intros e He. split; [by apply cfr_upd|done]. Qed.
Lemma kc_mod f : (forall s, p_next (f s) = p_next s /\ p_order (f s) = p_order s /\ p_cache (f s) = p_cache s) -> kc (pmod f).
Proof. intros H s. destruct (H s) as (E1 & E2 & E3). split; [rewrite E1; lia|done|]. rewrite E3. intros n. by destruct (p_cache s !! n). Qed.
Lemma kc_lift {A} (m : MG A) : kc (lift m).
Proof. intros s. apply pw_lift_any. intros a g. split; [cbn; lia|done|]. cbn. intros n. by destruct (p_cache s !! n). Qed.
(** Reading the document. *)
Definition ro {A} (m : MG A) : Prop := forall g, match m g with Ok _ g' => g' = g | _ => True end.
Lemma kq_lift {A} (m : MG A) : ro m -> kq (lift m).
Proof. intros H s. unfold pw, lift. specialize (H (p_graph s)). destruct (m (p_graph s)); try done. subst. split; [|done]. destruct s. apply cfr_refl. Qed.
Lemma ro_gobj o : ro (gobj o). Proof. intros g. unfold gobj. by destruct (g_obj g !! o). Qed.
Lemma ro_gevt o : ro (gevt o). Proof. intros g. unfold gevt. by destruct (g_evt g !! o). Qed.
Lemma ro_getEvent o t i : ro (getEvent o t i).
Proof. intros g. pose proof (wp_getEvent g o t i) as H. unfold wp in H. destruct (getEvent o t i g); try done. by destruct H. Qed.
Lemma ro_lookupId i : ro (glookupId i). Proof. done. Qed.
Lemma ro_lookup i : ro (glookup i). Proof. done. Qed.
Lemma ro_child c i : ro (getChildByIdOrAlias c i).
Proof. intros g. unfold getChildByIdOrAlias, gobj. cbn. unfold bind. by destruct (g_obj g !! c). Qed.
Create HintDb quiets.
#[global] Hint Resolve kr_ret kr_bind kr_gets kr_fail kr_crash kr_nofuel kr_assert kr_check kr_of kr_ofe kr_when kr_cell kr_index kr_parent : krs.
#[global] Hint Resolve ro_gobj ro_gevt ro_getEvent ro_lookupId ro_lookup ro_child : quiets.
Ltac kqt := repeat first
  [ progress intros
  | progress cbv beta
  | solve [eauto with quiets nocore]
  | apply kq_alloc
  | (apply kq_eupd; intros; split; [done|split; [done|done]])
  | apply (kr_ret quiet) | apply (kr_bind quiet) | apply (kr_gets quiet) | apply (kr_fail quiet) | apply (kr_crash quiet) | apply (kr_nofuel quiet) | apply (kr_assert quiet) | apply (kr_check quiet)
  | apply (kr_of quiet) | apply (kr_ofe quiet) | apply (kr_when quiet) | apply (kr_cell quiet) | apply (kr_index quiet) | apply (kr_parent quiet) | apply (kr_each quiet) | apply (kr_map quiet)
  | (apply kq_lift; eauto with quiets nocore)
  | (apply (kr_mod quiet); intros; by apply quiet_mod)
  | match goal with |- kq (if ?b then _ else _) => destruct b | |- kq (match ?x with _ => _ end) => destruct x
      | |- kr quiet (if ?b then _ else _) => destruct b | |- kr quiet (match ?x with _ => _ end) => destruct x end ].
Lemma kq_peek ok p : kq (peek ok p). Proof. unfold peek. kqt. Qed.
Lemma kq_opush o : kq (opush o). Proof. unfold opush. kqt. Qed.
Lemma kq_opop : kq opop. Proof. unfold opop. kqt. Qed.
Lemma kq_newCell c : kq (newCell c). Proof. unfold newCell. kqt. Qed.
Lemma kq_cellAdd p c : kq (cellAdd p c). Proof. unfold cellAdd. kqt. Qed.
Lemma kq_full p : kq (full p). Proof. unfold full. kqt. Qed.
#[global] Hint Resolve kq_peek kq_opush kq_opop kq_newCell kq_cellAdd kq_full : quiets.
Lemma kq_cint z : kq (cint z). Proof. unfold cint. kqt. Qed.
#[global] Hint Resolve kq_cint : quiets.
Lemma kq_region o r a : kq (regionRect o r a). Proof. unfold regionRect, iadd, isub. kqt. Qed.
Lemma kq_time v d : kq (timeOf v d). Proof. unfold timeOf. kqt. Qed.
#[global] Hint Resolve kq_region kq_time : quiets.
(** Push functions that neither touch the document nor attributes. *)
Definition quietPush (p : pushk) : bool := match p with PuDescParam | PuNcl | PuContext | PuSwitch | PuMedia | PuArea | PuProperty | PuImport => false | _ => true end.
Lemma kq_push E imp p e : quietPush p = true -> kq (push E imp p e).
Proof.
  intros H. destruct p; try discriminate H; cbn [push];
    unfold pushRegion, pushConnector, pushCompound, pushSimple, pushStatement, pushAssess, pushRule,
      pushPort, pushSwitchPort, pushMapping, pushBindRule, pushLink, pushLinkParam, pushBind, pushFont, pattr, udata, iadd; kqt.
Qed.
Definition quietPop (p : popk) : bool := match p with PoNcl | PoContext | PoSwitch => false | _ => true end.
Lemma kq_pop E k p n : quietPop p = true -> kq (pop E k p n).
Proof. intros H. destruct p; try discriminate H; cbn [pop]; unfold popRegion, popConnector, popStatement, popAssess, popMedia, pattr, udata; kqt. Qed.

(** Push and pop functions that keep the cache. *)
Lemma kc_eupd n f : (forall e, eltSame e (f e)) -> kc (eupd n f).
Proof. intros H. by apply kq_kc, kq_eupd. Qed.
Lemma kc_alloc : kc palloc. Proof. apply kq_kc, kq_alloc. Qed.
Create HintDb kcs.
Ltac kct := repeat first
  [ progress intros
  | progress cbv beta
  | solve [eauto with kcs nocore]
  | solve [apply kq_kc; eauto with quiets nocore]
  | apply kc_alloc
  | (apply kc_eupd; intros; split; [done|split; [done|done]])
  | apply kc_lift
  | apply (kr_ret cfr) | apply (kr_bind cfr) | apply (kr_gets cfr) | apply (kr_fail cfr) | apply (kr_crash cfr) | apply (kr_nofuel cfr) | apply (kr_assert cfr) | apply (kr_check cfr)
  | apply (kr_of cfr) | apply (kr_ofe cfr) | apply (kr_when cfr) | apply (kr_cell cfr) | apply (kr_index cfr) | apply (kr_parent cfr) | apply (kr_each cfr) | apply (kr_map cfr)
  | (apply kc_mod; intros; done)
  | match goal with |- kr cfr (if ?b then _ else _) => destruct b | |- kr cfr (match ?x with _ => _ end) => destruct x end ].
Lemma kc_redirect l t m : kc (redirect l t m). Proof. induction l; cbn [redirect]; kct. Qed.
Lemma kc_referAdd i m : kc (referAdd i m). Proof. unfold referAdd. kct. Qed.
#[global] Hint Resolve kc_redirect kc_referAdd : kcs.
Lemma kq_component c e : kq (resolveComponent c e). Proof. unfold resolveComponent, pattr. kqt. Qed.
#[global] Hint Resolve kq_component : quiets.
Lemma kq_interface k c e : kq (resolveInterface k c e).
Proof. revert c e. induction k; intros; cbn [resolveInterface]; unfold pattr, cacheById; kqt. Qed.
#[global] Hint Resolve kq_interface : quiets.
Lemma kq_readPred k p : kq (readPred k p). Proof. revert p. induction k; intros; cbn [readPred]; kqt. Qed.
#[global] Hint Resolve kq_readPred : quiets.
Lemma kq_inherited k n acc : kq (inherited k n acc). Proof. revert n acc. induction k; intros; cbn [inherited]; kqt. Qed.
#[global] Hint Resolve kq_inherited : quiets.
Lemma kq_obtainOne k p : kq (obtainOne k p). Proof. unfold obtainOne, connKids. kqt. Qed.
#[global] Hint Resolve kq_obtainOne : quiets.
Lemma kq_obtain k p : kq (obtainPredicate k p). Proof. unfold obtainPredicate. kqt. Qed.
#[global] Hint Resolve kq_obtain : quiets.
Lemma kq_lookupKind a b c : kq (lookupKind a b c). Proof. unfold lookupKind. kqt. Qed.
Lemma kq_rulePred k p : kq (rulePred k p). Proof. unfold rulePred. kqt. Qed.
Lemma kq_fullId e : kq (fullId e). Proof. unfold fullId. kqt. Qed.
#[global] Hint Resolve kq_lookupKind kq_rulePred kq_fullId : quiets.
Lemma kq_bindTable k c l acc : kq (bindTable k c l acc). Proof. revert acc. induction l; intros; cbn [bindTable]; kqt. Qed.
#[global] Hint Resolve kq_bindTable : quiets.
Definition kcPush (p : pushk) : bool := match p with PuDescParam | PuImport => false | _ => true end.
Lemma kc_push E imp p e : kcPush p = true -> kc (push E imp p e).
Proof.
  intros H. destruct (quietPush p) eqn:Eq; [by apply kq_kc, kq_push|]. destruct p; try discriminate H; try discriminate Eq; cbn [push];
    unfold pushNcl, pushContext, pushSwitch, pushMedia, pushArea, pushProperty, pattr, udata; kct.
Qed.
Lemma kc_moveAttr d a : kc (moveAttr d a). Proof. unfold moveAttr. kct. Qed.
#[global] Hint Resolve kc_moveAttr : kcs.
Lemma kc_media d : kc (solveMedia d). Proof. unfold solveMedia, pattr, cacheById. kct. Qed.
Lemma kc_switch k d : kc (solveSwitch k d). Proof. unfold solveSwitch, pattr, cacheById, udata. kct. Qed.
Lemma kc_roleAction k c p t g x : kc (roleAction k c p t g x). Proof. unfold roleAction. kct. Qed.
#[global] Hint Resolve kc_media kc_switch kc_roleAction : kcs.
Lemma kc_link k d : kc (solveLink k d). Proof. unfold solveLink, pattr, cacheById, udata. kct. Qed.
#[global] Hint Resolve kc_link : kcs.
Lemma kc_pop E k p n : p <> PoNcl -> kc (pop E k p n).
Proof.
  intros H. destruct (quietPop p) eqn:Eq; [by apply kq_kc, kq_pop|]. destruct p; try discriminate Eq; try done; cbn [pop];
    unfold popContext, popSwitch, pattr, udata, cacheById; kct.
Qed.
(** Descriptors. *)
Definition notMedia (s : pst) (n : nid) : Prop := forall e, p_cache s !! n = Some e -> el_tag e <> "media".
Lemma notMedia_cfr s s' n : cfr s s' -> notMedia s n -> notMedia s' n.
Proof. intros F H e' He. destruct (cfr_bwd _ _ _ _ F He) as (e & He2 & Ht & _). rewrite Ht. by apply H. Qed.
Lemma quiet_setAttr n a v s : notMedia s n -> pw (setAttr n a v) (fun _ s' => quiet s s') s.
Proof.
  intros H. apply pw_eupd. intros e He. split; [|done]. apply (cfr_upd s n e (fun x => el_set_attrs (sset a v (el_attrs x)) x) He). split; [done|]. split; [done|]. intros Ht. by destruct (H e He).
Qed.
Lemma quiet_setAttr' n a v s0 s : notMedia s0 n -> quiet s0 s -> pw (setAttr n a v) (fun _ s' => quiet s0 s') s.
Proof.
  intros H Q. eapply pw_mono; [apply quiet_setAttr; eapply notMedia_cfr; [apply Q|done]|]. intros [] s' Q'. by eapply quiet_trans.
Qed.
Lemma kq_pattr e n : kq (pattr e n). Proof. unfold pattr. kqt. Qed.
Lemma quiet_transition E d a s : notMedia s d -> pw (solveTransition E d a) (fun _ s' => quiet s s') s.
Proof.
  intros H. unfold solveTransition. p1. p1. p1; [|p1; apply quiet_refl]. unfold cacheById. p1. p1. p1. p1. p1. p1. by apply quiet_setAttr.
Qed.
Lemma quiet_descriptor E d s : notMedia s d -> pw (solveDescriptor E d) (fun _ s' => quiet s s') s.
Proof.
  intros H. unfold solveDescriptor. p1. p1. p1. p1. p1. eapply (pw_mono _ (fun _ s' => quiet s s')).
  { p1; [|p1; apply quiet_refl]. unfold cacheById. p1. p1. p1. p1. apply pw_each_inv; [apply quiet_refl|]. intros x s' _ Q. p1; [|done]. by apply quiet_setAttr'. }
  intros [] s1 Q1. cbv beta. p1. eapply pw_mono; [apply quiet_transition; eapply notMedia_cfr; [apply Q1|done]|]. intros [] s2 Q2. cbv beta.
  assert (Q : quiet s s2) by (by eapply quiet_trans). eapply pw_mono; [apply quiet_transition; eapply notMedia_cfr; [apply Q|done]|]. intros [] s3 Q3. by eapply quiet_trans.
Qed.

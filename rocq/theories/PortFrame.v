(** PortFrame.v -- C49: which elements of the cache have their ports, rules and mappings
    changed by a step. *)
From Verif Require Import BuildOps ParserFrame.
From Verif Require Export CompileLinks.
Open Scope string_scope.
Open Scope list_scope.

Definition att (e : elt) := (el_ports e, el_swports e, el_maps e, el_rules e).
Record af (X : nid -> Prop) (s s' : pst) : Prop := mkAf {
  af_next : (p_next s <= p_next s')%positive;
  af_att : forall n, (n < p_next s)%positive -> ~ X n -> option_map att (p_cache s' !! n) = option_map att (p_cache s !! n) }.
Lemma af_refl X s : af X s s. Proof. split; [lia|done]. Qed.
Lemma af_trans X Y s s1 s2 : af X s s1 -> af Y s1 s2 -> (forall n, (n < p_next s)%positive -> Y n -> X n) -> af X s s2.
Proof. intros [A1 A2] [B1 B2] H. split; [lia|]. intros n Hn HX. rewrite B2; [by apply A2|lia|]. intros HY. apply HX. by apply H. Qed.
Lemma af_mono (X Y : nid -> Prop) s s' : (forall n, (n < p_next s)%positive -> X n -> Y n) -> af X s s' -> af Y s s'.
Proof. intros H L. split; [apply L|]. intros n Hn HY. apply (af_att _ _ _ L); [done|]. intros HX. apply HY. by apply H. Qed.
Lemma af_same X s s' : p_next s' = p_next s -> p_cache s' = p_cache s -> af X s s'.
Proof. intros E1 E2. split; [rewrite E1; lia|by rewrite E2]. Qed.
Lemma af_get X s s' n e : af X s s' -> p_cache s !! n = Some e -> (n < p_next s)%positive -> ~ X n -> exists e', p_cache s' !! n = Some e' /\ att e' = att e.
Proof. intros L H Hn HX. pose proof (af_att _ _ _ L n Hn HX) as E. rewrite H in E. destruct (p_cache s' !! n) as [e'|]; [|done]. injection E as E1 E2 E3 E4. exists e'. split; [done|]. unfold att. congruence. Qed.
Lemma af_upd (X : nid -> Prop) s n e e' : p_cache s !! n = Some e -> (X n \/ att e' = att e) -> af X s (p_set_cache (<[n := e']> (p_cache s)) s).
Proof.
  intros H D. split; cbn; [lia|]. intros m Hm HX. destruct (decide (n = m)) as [<-|Hne]; [|by rewrite lookup_insert_ne]. rewrite lookup_insert, H. destruct D as [D|D]; [done|]. cbn. by f_equal.
Qed.
Definition aq (s s' : pst) : Prop := af none s s'.
#[global] Instance pre_aq : ParserQuiet.preorder aq.
Proof. split; [intros s; apply af_refl|]. intros a b c A C. by eapply af_trans. Qed.
Notation ka := (kr aq).
Lemma ka_lift {A} (m : MG A) : ka (lift m). Proof. intros s. apply pw_lift_any. intros a g. by apply af_same. Qed.
Lemma ka_eupd n f : (forall e, att (f e) = att e) -> ka (eupd n f).
Proof. intros H s. apply pw_eupd. intros e He. eapply af_upd; [exact He|]. by right. Qed.
Lemma ka_alloc : ka palloc. Proof. intros s. apply pw_alloc. split; cbn; [lia|done]. Qed.
Lemma ka_mod f : (forall s, p_next (f s) = p_next s /\ p_cache (f s) = p_cache s) -> ka (pmod f).
Proof. intros H s. apply pw_mod. destruct (H s) as (A & B). by apply af_same. Qed.
Create HintDb aqs.
Ltac kat := repeat first
  [ progress intros
  | progress cbv beta
  | solve [eauto with aqs nocore]
  | apply ka_alloc | apply ka_lift
  | (apply ka_eupd; intros; reflexivity)
  | apply (kr_ret aq) | apply (kr_bind aq) | apply (kr_gets aq) | apply (kr_fail aq) | apply (kr_crash aq) | apply (kr_nofuel aq) | apply (kr_assert aq) | apply (kr_check aq)
  | apply (kr_of aq) | apply (kr_ofe aq) | apply (kr_when aq) | apply (kr_cell aq) | apply (kr_index aq) | apply (kr_parent aq) | apply (kr_each aq) | apply (kr_map aq)
  | (apply ka_mod; intros; done)
  | match goal with |- kr aq (if ?b then _ else _) => destruct b | |- kr aq (match ?x with _ => _ end) => destruct x end ].
Lemma ka_peek ok p : ka (peek ok p). Proof. unfold peek. kat. Qed.
Lemma ka_opush o : ka (opush o). Proof. unfold opush. kat. Qed.
Lemma ka_opop : ka opop. Proof. unfold opop. kat. Qed.
Lemma ka_newCell c : ka (newCell c). Proof. unfold newCell. kat. Qed.
Lemma ka_cellAdd p c : ka (cellAdd p c). Proof. unfold cellAdd. kat. Qed.
Lemma ka_full p : ka (full p). Proof. unfold full. kat. Qed.
Lemma ka_cint z : ka (cint z). Proof. unfold cint. kat. Qed.
Lemma ka_time v d : ka (timeOf v d). Proof. unfold timeOf. kat. Qed.
#[global] Hint Resolve ka_peek ka_opush ka_opop ka_newCell ka_cellAdd ka_full ka_cint ka_time : aqs.
Lemma ka_region o r a : ka (regionRect o r a). Proof. unfold regionRect, iadd, isub. kat. Qed.
Lemma ka_redirect l t m : ka (redirect l t m). Proof. induction l; cbn [redirect]; kat. Qed.
Lemma ka_referAdd i m : ka (referAdd i m). Proof. unfold referAdd. kat. Qed.
Lemma ka_setAttr n a v : ka (setAttr n a v). Proof. unfold setAttr. kat. Qed.
#[global] Hint Resolve ka_region ka_redirect ka_referAdd ka_setAttr : aqs.
Lemma ka_component c e : ka (resolveComponent c e). Proof. unfold resolveComponent, pattr. kat. Qed.
#[global] Hint Resolve ka_component : aqs.
Lemma ka_interface k c e : ka (resolveInterface k c e).
Proof. revert c e. induction k; intros; cbn [resolveInterface]; unfold pattr, cacheById; kat. Qed.
#[global] Hint Resolve ka_interface : aqs.
Lemma ka_readPred k p : ka (readPred k p). Proof. revert p. induction k; intros; cbn [readPred]; kat. Qed.
#[global] Hint Resolve ka_readPred : aqs.
Lemma ka_rulePred k p : ka (rulePred k p). Proof. unfold rulePred. kat. Qed.
Lemma ka_lookupKind a b c : ka (lookupKind a b c). Proof. unfold lookupKind. kat. Qed.
Lemma ka_transition E d n : ka (solveTransition E d n). Proof. unfold solveTransition, cacheById, pattr. kat. Qed.
#[global] Hint Resolve ka_rulePred ka_lookupKind ka_transition : aqs.
Lemma ka_descriptor E d : ka (solveDescriptor E d). Proof. unfold solveDescriptor, cacheById, pattr. kat. Qed.
Lemma ka_moveAttr d a : ka (moveAttr d a). Proof. unfold moveAttr. kat. Qed.
#[global] Hint Resolve ka_descriptor ka_moveAttr : aqs.
Lemma ka_media d : ka (solveMedia d). Proof. unfold solveMedia, pattr, cacheById. kat. Qed.
Lemma ka_switch k d : ka (solveSwitch k d). Proof. unfold solveSwitch, pattr, cacheById, udata. kat. Qed.
Lemma ka_lq {A} (m : P A) : (forall s, pw m (fun _ s' => aq s s') s) -> ka m. Proof. done. Qed.
Lemma ka_fullId e : ka (fullId e). Proof. unfold fullId. kat. Qed.
Lemma ka_inherited k n acc : ka (inherited k n acc). Proof. revert n acc. induction k; intros; cbn [inherited]; kat. Qed.
#[global] Hint Resolve ka_media ka_switch ka_fullId ka_inherited : aqs.
Lemma ka_obtainOne k p : ka (obtainOne k p). Proof. unfold obtainOne, connKids. kat. Qed.
#[global] Hint Resolve ka_obtainOne : aqs.
Lemma ka_obtain k p : ka (obtainPredicate k p). Proof. unfold obtainPredicate. kat. Qed.
#[global] Hint Resolve ka_obtain : aqs.
Lemma ka_bindTable k c l acc : ka (bindTable k c l acc). Proof. revert acc. induction l; intros; cbn [bindTable]; kat. Qed.
Lemma ka_roleAction k c p t g x : ka (roleAction k c p t g x). Proof. unfold roleAction. kat. Qed.
#[global] Hint Resolve ka_bindTable ka_roleAction : aqs.
Lemma ka_link k d : ka (solveLink k d). Proof. unfold solveLink, pattr, cacheById, udata. kat. Qed.
#[global] Hint Resolve ka_link : aqs.
Lemma ka_popNcl E k : ka (popNcl E k). Proof. unfold popNcl. cbv zeta. kat. Qed.
#[global] Hint Resolve ka_popNcl : aqs.

(** ** Push and pop functions. *)
#[local] Instance pushk_eq3 : EqDecision pushk. Proof. solve_decision. Defined.
#[local] Instance popk_eq3 : EqDecision popk. Proof. solve_decision. Defined.
Definition attPush (p : pushk) : bool := match p with PuPort | PuSwitchPort | PuMapping | PuBindRule => true | _ => false end.
Lemma ka_push E imp p e : attPush p = false -> p <> PuImport -> ka (push E imp p e).
Proof.
  intros H Hi. destruct p; try discriminate H; try done; cbn [push];
    unfold pushNcl, pushRegion, pushDescParam, pushConnector, pushCompound, pushSimple, pushStatement, pushAssess, pushRule, pushContext, pushSwitch, pushMedia, pushArea, pushProperty, pushLink, pushLinkParam, pushBind, pushFont, pattr, udata, iadd; kat.
Qed.
Lemma ka_pop E k p n : p <> PoSwitch -> ka (pop E k p n).
Proof. intros H. destruct p; try done; cbn [pop]; unfold popRegion, popConnector, popStatement, popAssess, popContext, popMedia, pattr, udata, cacheById; kat. Qed.
Lemma af_popSwitch E k n s : pw (pop E k PoSwitch n) (fun _ s' => af (eq n) s s') s.
Proof.
  cbn [pop]. unfold popSwitch. apply pw_bind. eapply pw_mono; [apply ka_peek|]. intros c s1 A1. apply pw_bind, pw_index. intros e He. apply pw_bind, pw_udata. intros rs Hrs.
  apply pw_bind. eapply pw_mono; [apply (kr_map aq); intros r; kat|]. intros rs' s2 A2. apply pw_bind, pw_eupd. intros e2 He2. match goal with |- pw ?m _ ?s3 => assert (K : ka m) by (unfold udata, cacheById; kat); assert (A3 : af (eq n) s2 s3) by (eapply af_upd; [exact He2|by left]); pose proof (K s3) as K3 end.
  eapply pw_mono; [exact K3|]. intros [] s4 A4.
  assert (W : forall a b, aq a b -> af (eq n) a b) by (intros a b; apply af_mono; intros ? _ []).
  eapply af_trans; [apply W, A1|eapply af_trans; [apply W, A2|eapply af_trans; [exact A3|apply W, A4|]|]|]; auto.
Qed.
Definition upAt (up : option (nid * string)) (n : nid) : Prop := option_map fst up = Some n.
Lemma import_af E go e s : cinv s -> (forall up y s', cinv s' -> Par s' up -> pw (go up y) (fun _ s2 => post s' s2 /\ af (upAt up) s' s2) s') -> pw (pushImport E go e) (fun _ s' => aq s s') s.
Proof.
  intros C Hgo. unfold pushImport. p1. p1. p1. p1. p1. p1. p1. p1. cbv zeta. p1. p1. p1. p1.
  match goal with |- pw _ _ ?x => set (s1 := x) end. assert (P1 : post s s1) by (apply quiet_post; [done|by apply quiet_simple|done|done]).
  p1. p1. p1. eapply pw_mono; [apply check_post, P1|]. intros r1 s2 [P2 K2]. p1. p1. p1. eapply pw_mono; [apply check_post, P2|]. intros r2 s3 [P3 K3].
  p1. p1. p1. p1. p1. match goal with |- pw _ _ ?x => set (s4 := x) end.
  assert (P4 : post s3 s4). { apply quiet_post; [apply P3| |done|done]. split; [|done]. split; cbn; [lia|done|]. intros nn. by destruct (p_cache s3 !! nn). }
  assert (Pr : Par s4 (Some (p_next s3, "head"))).
  { intros nn t [= <- <-]. split; [cbn; lia|]. intros e0 He0. cbn in He0. destruct (po_c _ _ P3 _ _ He0) as [Hlt _]. lia. }
  assert (L4 : aq s s4). { destruct (ck_state _ _ _ _ _ _ _ K2) as [g2 ->]. destruct (ck_state _ _ _ _ _ _ _ K3) as [g3 E3]. unfold s4. rewrite E3. split; cbn; [lia|done]. }
  assert (Hn : (p_next s <= p_next s3)%positive). { destruct (ck_state _ _ _ _ _ _ _ K2) as [g2 ->]. destruct (ck_state _ _ _ _ _ _ _ K3) as [g3 ->]. cbn. lia. }
  eapply (pw_mono _ (fun _ s' => (cinv s' /\ Par s' (Some (p_next s3, "head"))) /\ aq s s')).
  - apply pw_each_inv; [split; [split; [apply P4|exact Pr]|exact L4]|]. intros y s5 _ [[C5 Pr5] L5]. eapply pw_mono; [by apply Hgo|]. intros [] s6 [P6 L6]. split; [split; [apply P6|eapply Par_ext; [apply P6|done]]|].
    eapply af_trans; [exact L5|exact L6|]. intros m1 Hlt Hm1. unfold upAt in Hm1. cbn in Hm1. injection Hm1 as <-. lia.
  - intros [] s5 [_ L5]. p1. p1. p1. eapply af_trans; [exact L5|by apply (af_same none)|done].
Qed.
Lemma push_af E go p e s : cinv s -> (forall up y s', cinv s' -> Par s' up -> pw (go up y) (fun _ s2 => post s' s2 /\ af (upAt up) s' s2) s') ->
  pw (push E (pushImport E go) p e) (fun _ s' => af (fun n => el_up e = Some n /\ attPush p = true) s s') s.
Proof.
  intros C Hgo. assert (W : forall X s', aq s s' -> af X s s') by (intros X s'; apply af_mono; intros ? _ []).
  destruct (attPush p) eqn:Ep.
  2: { destruct (decide (p = PuImport)) as [->|Hi]; [eapply pw_mono; [by apply import_af|]|eapply pw_mono; [by apply ka_push|]]; intros; by apply W. }
  assert (U : forall n ue f, el_up e = Some n -> p_cache s !! n = Some ue -> pw (eupd (el_node ue) f) (fun _ s' => af (fun n => el_up e = Some n /\ true = true) s s') s).
  { intros n ue f Hn Hue. apply pw_eupd. intros e1 He1. destruct (C _ _ Hue) as (_ & En & _). eapply af_upd; [exact He1|]. left. by rewrite En. }
  destruct p; try discriminate Ep; cbn [push].
  - unfold pushPort. apply pw_bind, pw_attr. intros i _. apply pw_bind, pw_parent. intros n ue Hn Hue. apply pw_bind, pw_udata. intros l _. p1. eapply pw_mono; [by apply (U n ue)|]. intros [] s' H. by p1.
  - unfold pushSwitchPort. apply pw_bind, pw_attr. intros i _. apply pw_bind, pw_parent. intros n ue Hn Hue. apply pw_bind, pw_udata. intros l _. p1. eapply pw_mono; [by apply (U n ue)|]. intros [] s' H. by p1.
  - unfold pushMapping. apply pw_bind, pw_attr. intros i _. apply pw_bind, pw_parent. intros n ue Hn Hue. apply pw_bind, pw_udata. intros l _. p1. eapply pw_mono; [by apply (U n ue)|]. intros [] s' H. by p1.
  - unfold pushBindRule. p1. eapply (pw_mono _ (fun _ s' => s' = s)).
    { destruct (String.eqb _ _); [apply pw_bind, pw_attr; intros|]; by apply pw_attr. }
    intros _ s' ->. apply pw_bind, pw_parent. intros n ue Hn Hue. apply pw_bind, pw_udata. intros l _. p1. eapply pw_mono; [by apply (U n ue)|]. intros [] s' H. by p1.
Qed.
(** An element changes these parts of no element but its parent, and of that only if it is a
    port, a switchPort, a mapping or a rule of a switch. *)
Definition attTags : list string := ["port"; "switchPort"; "mapping"; "bindRule"; "defaultComponent"].
Lemma attTags_all : forallb (fun x : string * syn => Bool.eqb (attPush (sy_push (snd x))) (mem (fst x) attTags)) syntax = true. Proof. vm_compute. reflexivity. Qed.
Lemma att_tag t sy : synOf t = Some sy -> attPush (sy_push sy) = mem t attTags.
Proof. intros H. apply look_some in H. pose proof (forall_elem _ _ _ attTags_all H) as F. cbn [fst snd] in F. by apply eqb_prop in F. Qed.
Definition grew (up : option (nid * string)) (x : xml) (n : nid) : Prop := upAt up n /\ mem (x_tag x) attTags = true.
Lemma cache_af X e s s3 : af X s s3 -> (p_next s <= el_node e)%positive -> pw (cacheAdd e) (fun _ s' => af X s s') s3.
Proof. intros [A B] H1. unfold cacheAdd. p1. p1. p1. p1. p1. split; cbn; [lia|]. intros n Hn HX. rewrite lookup_insert_ne by lia. by apply B. Qed.
Lemma process_af E k : forall up x s, cinv s -> Par s up -> pw (processNode E k up x) (fun _ s' => af (grew up x) s s') s.
Proof.
  induction k as [|k IH]; intros up x s C Hp; [apply pw_nofuel|]. apply process_rule; [done|done|]. intros sy attrs s1 K1.
  assert (Q2 : post s (p_set_next (Pos.succ (p_next s1)) s1)).
  { destruct (ck_state _ _ _ _ _ _ _ K1) as [g ->]. apply quiet_post; [done| |cbn; set_solver|done]. split; [|done]. split; cbn; [lia|done|]. intros nn. by destruct (p_cache s !! nn). }
  assert (Hn : p_next s1 = p_next s) by (by destruct (ck_state _ _ _ _ _ _ _ K1) as [g ->]).
  assert (L2 : aq s (p_set_next (Pos.succ (p_next s1)) s1)). { destruct (ck_state _ _ _ _ _ _ _ K1) as [g ->]. split; cbn; [lia|done]. }
  eapply pw_mono; [apply pw_conj; [apply (push_shape E (pushImport E (processNode E k))); intros; apply import_shape|apply (push_af E (processNode E k) (sy_push sy))]|].
  { apply Q2. }
  { intros up' y s' C' Hp'. eapply pw_mono; [apply pw_conj; [by apply process_post|by apply IH]|]. intros [] s2 [[P _] L]. split; [done|]. eapply af_mono; [|exact L]. intros n _ [H _]. exact H. }
  set (s2 := p_set_next _ _) in *. intros e s3 [(T1 & T2 & _) L3]. cbn [el_node el_up newElt] in T2, L3. cbv beta.
  assert (L3' : af (grew up x) s s3). { eapply af_trans; [eapply af_mono; [|apply L2]; intros ? _ []|exact L3|]. intros m Hm [H H']. split; [exact H|]. by rewrite <- (att_tag _ _ (ck_syn _ _ _ _ _ _ _ K1)). }
  assert (N3 : (p_next s1 < p_next s3)%positive) by (pose proof (af_next _ _ _ L3) as Hx; cbn in Hx; lia).
  eapply (pw_mono _ (fun _ s4 => af (grew up x) s s4)).
  { destruct (sy_cache sy); cbn [pwhen]; [|by p1]. apply cache_af; [done|rewrite T2; lia]. }
  intros [] s4 L4 P4 Pr4. cbv beta in *.
  eapply pw_mono; [apply (kids_rule E k _ _ _ s4 (fun _ s' => cinv s' /\ af (grew up x) s s')); [apply P4|done| |]|].
  - split; [apply P4|done].
  - intros y l' s' _ C' Hp' (_ & L'). eapply pw_mono; [apply pw_conj; [by apply process_post|by apply IH]|]. intros [] s5 [[P5 _] L5]. split; [apply P5|].
    eapply af_trans; [exact L'|exact L5|]. intros m Hm [H _]. unfold upAt in H. cbn in H. injection H as <-. lia.
  - intros [] s5 (C5 & L5). cbv beta in *. destruct (decide (sy_pop sy = PoSwitch)) as [Eq|Hne].
    + rewrite Eq. eapply pw_mono; [apply af_popSwitch|]. intros [] s6 L6. eapply af_trans; [exact L5|exact L6|]. intros n Hlt <-. lia.
    + eapply pw_mono; [by apply ka_pop|]. intros [] s6 L6. eapply af_trans; [exact L5|exact L6|intros ? _ []].
Qed.

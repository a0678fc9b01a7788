(** PortObjs.v -- C49: which steps change the ports, switchPorts and rules of objects. *)
From Verif Require Import BuildInv BuildOps BuildSpec BuildFacts Frame ParserFrame ParserEnd.
From Verif Require Export PortFrame.
Open Scope string_scope.
Open Scope list_scope.

Definition hang (ob : obj) := (ob_ports ob, ob_swports ob, ob_rules ob).
(** Objects have the ports, switchPorts and rules they had; or, if they are new, none. *)
Definition nh (g g' : graph) : Prop := (g_next g <= g_next g')%positive /\ forall o ob', g_obj g' !! o = Some ob' -> exists ob, g_obj g !! o = Some ob /\ hang ob' = hang ob.
Definition h0 (g g' : graph) : Prop := (g_next g <= g_next g')%positive /\ forall o ob', g_obj g' !! o = Some ob' -> ((g_next g <= o)%positive /\ hang ob' = ([], [], [])) \/ exists ob, g_obj g !! o = Some ob /\ hang ob' = hang ob.
Lemma nh_refl g : nh g g. Proof. split; [lia|]. intros o ob H. eauto. Qed.
Lemma nh_trans a b c : nh a b -> nh b c -> nh a c.
Proof. intros [A0 A] [B0 B]. split; [lia|]. intros o ob H. destruct (B _ _ H) as (ob1 & H1 & E1). destruct (A _ _ H1) as (ob2 & H2 & E2). exists ob2. split; [done|congruence]. Qed.
Lemma h0_trans a b c : h0 a b -> h0 b c -> h0 a c.
Proof. intros [A0 A] [B0 B]. split; [lia|]. intros o ob H. destruct (B _ _ H) as [[H0 H1]|(ob1 & H1 & E1)]; [left; split; [lia|done]|]. destruct (A _ _ H1) as [[H2 H3]|(ob2 & H2 & E2)]; [left; split; [done|congruence]|right]. exists ob2. split; [done|congruence]. Qed.
Lemma nh_h0 g g' : nh g g' -> h0 g g'. Proof. intros [H0 H]. split; [done|]. intros o ob Ho. right. by apply H. Qed.
Definition sh (s s' : pst) : Prop := nh (p_graph s) (p_graph s').
Definition sh0 (s s' : pst) : Prop := h0 (p_graph s) (p_graph s').
#[global] Instance pre_sh : ParserQuiet.preorder sh. Proof. split; [intros s; apply nh_refl|intros a b c; apply nh_trans]. Qed.
#[global] Instance pre_sh0 : ParserQuiet.preorder sh0. Proof. split; [intros s; apply nh_h0, nh_refl|intros a b c; apply h0_trans]. Qed.
Lemma sh_quiet {A} (m : P A) : kq m -> kr sh m.
Proof. intros H s. eapply pw_mono; [apply H|]. intros a s' (_ & E & _). unfold sh. rewrite E. apply nh_refl. Qed.
Lemma sh0_sh {A} (m : P A) : kr sh m -> kr sh0 m.
Proof. intros H s. eapply pw_mono; [apply H|]. intros a s' N. by apply nh_h0. Qed.
Lemma sh_lift {A} (m : MG A) : (forall g, pwp m (fun _ g' => nh g g') g) -> kr sh (lift m).
Proof. intros H s. apply pw_lift. eapply wp_mono; [apply H|]. intros a g' G. exact G. Qed.
Lemma sh0_lift {A} (m : MG A) : (forall g, pwp m (fun _ g' => h0 g g') g) -> kr sh0 (lift m).
Proof. intros H s. apply pw_lift. eapply wp_mono; [apply H|]. intros a g' G. exact G. Qed.
(** ** Operations of the builder. *)
Lemma nh_oupd g o f : (forall ob, hang (f ob) = hang ob) -> pwp (oupd o f) (fun _ g' => nh g g') g.
Proof.
  intros Hf. apply wp_oupd. intros ob Ho. split; [cbn; lia|]. intros o' ob'. cbn. destruct (decide (o = o')) as [<-|Hn].
  - rewrite lookup_insert. intros [= <-]. exists ob. split; [done|]. apply Hf.
  - rewrite lookup_insert_ne by done. eauto.
Qed.
Lemma nh_addEvent g o t i b e l : pwp (addEvent o t i b e l) (fun _ g' => nh g g') g.
Proof.
  unfold addEvent. w1. eapply wp_mono; [apply wp_getEvent|]. intros r g1 [-> _]. cbv beta. destruct r; [w1; apply nh_refl|].
  w1. unfold galloc, wp at 1. w1. w1. w1. w1. eapply wp_mono; [apply nh_oupd; done|]. intros [] g' [N0 N]. split; [cbn in N0; lia|exact N].
Qed.
Lemma nh_setProperty g o n v : pwp (gsetProperty o n v) (fun _ g' => nh g g') g.
Proof. unfold gsetProperty. w1. apply wp_gobj. intros ob Ho. w1. w1; [w1; w1; exact (nh_refl g)|w1; exact (nh_refl g)]. Qed.
Lemma nh_setParameter g o n v : pwp (gsetParameter o n v) (fun _ g' => nh g g') g.
Proof. unfold gsetParameter. w1. apply wp_gevt. intros ob Ho. w1. exact (nh_refl g). Qed.
Lemma nh_addLink g c a b : pwp (addLink c a b) (fun _ g' => nh g g') g. Proof. unfold addLink. w1. w1. w1. w1. by apply nh_oupd. Qed.
Lemma nh_addAlias g c o p : pwp (addAlias c o p) (fun _ g' => nh g g') g. Proof. apply nh_oupd. intros ob. by destruct (bool_decide _). Qed.
Lemma nh_addObject g o : pwp (addObject o) (fun _ g' => nh g g') g.
Proof.
  unfold addObject, glookup. w1. apply wp_gobj. intros ob Ho. w1. w1. w1. w1. destruct (_ || _); [w1; apply nh_refl|]. w1. w1. w1. w1. w1. exact (nh_refl g).
Qed.
Lemma nh_addChild g c o : pwp (addChild c o) (fun _ g' => nh g g') g.
Proof.
  unfold addChild. w1. apply wp_gobj. intros cb Hc. w1. apply wp_gobj. intros ob Ho. destruct (bool_decide _); [w1; apply nh_refl|]. destruct (negb _); [w1|]. w1. w1. w1.
  eapply wp_mono; [by apply nh_oupd|]. intros [] g1 N1. cbv beta. w1. apply wp_gobj. intros ob1 Ho1. w1. w1. w1. eapply wp_mono; [by apply nh_oupd|]. intros [] g2 N2. cbv beta. destruct (negb _); [w1|]. w1.
  eapply wp_mono; [by apply nh_addObject|]. intros b g3 N3. w1. exact (nh_trans _ _ _ N1 (nh_trans _ _ _ N2 N3)).
Qed.
Lemma h0_newObject g k i : pwp (newObject k i) (fun _ g' => h0 g g') g.
Proof.
  unfold newObject. w1. unfold galloc at 1, wp at 1. w1. unfold galloc at 1, wp at 1. w1. w1. w1. w1. w1.
  match goal with |- wp _ _ _ _ ?g1 => assert (L' : h0 g g1) end.
  { split; [cbn; lia|]. intros o ob. cbn. destruct (decide (o = g_next g)) as [->|Hn]; [rewrite lookup_insert; intros [= <-]; left; split; [lia|done]|rewrite lookup_insert_ne by done; intros H; right; eauto]. }
  w1.
  - w1. w1. eapply wp_mono; [apply nh_addEvent|]. intros [] g' L2. w1. eapply h0_trans; [exact L'|]. apply nh_h0. exact L2.
  - by w1.
Qed.
Lemma sh_mod f : (forall s, nh (p_graph s) (p_graph (f s))) -> kr sh (pmod f). Proof. intros H s. apply pw_mod. apply H. Qed.
Lemma sh0_mod f : (forall s, h0 (p_graph s) (p_graph (f s))) -> kr sh0 (pmod f). Proof. intros H s. apply pw_mod. apply H. Qed.
Ltac sht := repeat first
  [ progress intros | progress cbv beta
  | (apply sh_lift; intros; first [apply nh_setProperty|apply nh_setParameter|apply nh_addAlias|apply nh_addEvent|apply nh_addLink|apply nh_addChild])
  | apply (kr_bind sh) | apply (kr_when sh) | apply (kr_each sh) | apply (kr_map sh)
  | (apply sh_mod; intros; apply nh_refl)
  | solve [apply sh_quiet; kqt]
  | match goal with |- kr sh (if ?b then _ else _) => destruct b | |- kr sh (match ?x with _ => _ end) => destruct x end ].
Ltac sh0t := repeat first
  [ progress intros | progress cbv beta
  | (apply sh0_lift; intros; apply h0_newObject)
  | apply (kr_bind sh0) | apply (kr_when sh0) | apply (kr_each sh0) | apply (kr_map sh0)
  | match goal with |- kr sh0 (if ?b then _ else _) => destruct b | |- kr sh0 (match ?x with _ => _ end) => destruct x end 
  | solve [apply sh0_sh; sht] ].
Lemma sh_redirect l o m : kr sh (redirect l o m). Proof. induction l; cbn [redirect]; sht.
assumption. Qed.

Lemma sh_moveAttr d a : kr sh (moveAttr d a). Proof. unfold moveAttr, addAttributionEvent. sht. Qed.
Lemma sh_media d : kr sh (solveMedia d). Proof. unfold solveMedia, pattr, cacheById. sht. apply sh_moveAttr. Qed.
Lemma sh_roleAction k c p t g x : kr sh (roleAction k c p t g x). Proof. unfold roleAction, addSelectionEvent, addLookAtEvent. sht. Qed.
Lemma sh_bindTable k c l acc : kr sh (bindTable k c l acc). Proof. revert acc. induction l; intros; cbn [bindTable]; sht. Qed.
Lemma sh_link k d : kr sh (solveLink k d). Proof. unfold solveLink, pattr, cacheById, udata. sht. all: first [apply sh_bindTable|apply sh_roleAction]. Qed.
Lemma sh_descriptor E d : kr sh (solveDescriptor E d). Proof. unfold solveDescriptor, solveTransition, setAttr, cacheById, pattr. sht. all: intros s; apply pw_eupd; intros e He; apply nh_refl. Qed.
Definition hangPop (p : popk) : bool := match p with PoContext | PoSwitch | PoNcl => true | _ => false end.
Lemma sh0_pop E k p n : hangPop p = false -> kr sh (pop E k p n).
Proof.
  intros H. destruct (quietPop p) eqn:Eq; [apply sh_quiet; by apply kq_pop|]. destruct p; try discriminate Eq; discriminate H.
Qed.
Lemma sh0_push E imp p e : p <> PuImport -> kr sh0 (push E imp p e).
Proof.
  intros Hg. destruct (quietPush p) eqn:Eq; [apply sh0_sh, sh_quiet; by apply kq_push|]. destruct p; try discriminate Eq; try done; cbn [push].
  all: unfold pushNcl, pushContext, pushSwitch, pushMedia, pushArea, pushProperty, pattr, udata, addPresentationLabel, addPresentationEvent, addAttributionEvent, referAdd; sh0t.
  - apply sh0_sh, sh_redirect.
  - apply sh0_mod. intros s. split; [cbn; lia|]. intros o' ob'. cbn. intros H. apply lookup_delete_Some in H as [_ H]. right. eauto.
Qed.

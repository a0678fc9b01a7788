(** CompileLinks.v -- C42: which steps add links to objects. *)
From Verif Require Import BuildInv BuildOps BuildSpec BuildFacts Frame ParserFrame ParserEnd.
From Verif Require Export CompileTree.
Open Scope string_scope.
Open Scope list_scope.

(** Objects have the links they had; or, if they are new, none. *)
Definition nl (g g' : graph) : Prop := forall o ob', g_obj g' !! o = Some ob' -> exists ob, g_obj g !! o = Some ob /\ ob_links ob' = ob_links ob.
Definition n0 (g g' : graph) : Prop := forall o ob', g_obj g' !! o = Some ob' -> ob_links ob' = [] \/ exists ob, g_obj g !! o = Some ob /\ ob_links ob' = ob_links ob.
Lemma nl_refl g : nl g g. Proof. intros o ob H. eauto. Qed.
Lemma nl_trans a b c : nl a b -> nl b c -> nl a c.
Proof. intros A B o ob H. destruct (B _ _ H) as (ob1 & H1 & E1). destruct (A _ _ H1) as (ob2 & H2 & E2). exists ob2. split; [done|congruence]. Qed.
Lemma n0_trans a b c : n0 a b -> n0 b c -> n0 a c.
Proof. intros A B o ob H. destruct (B _ _ H) as [H1|(ob1 & H1 & E1)]; [by left|]. destruct (A _ _ H1) as [H2|(ob2 & H2 & E2)]; [left; congruence|right]. exists ob2. split; [done|congruence]. Qed.
Lemma nl_n0 g g' : nl g g' -> n0 g g'. Proof. intros H o ob Ho. right. by apply H. Qed.
Definition sl (s s' : pst) : Prop := nl (p_graph s) (p_graph s').
Definition s0r (s s' : pst) : Prop := n0 (p_graph s) (p_graph s').
#[global] Instance pre_sl : ParserQuiet.preorder sl. Proof. split; [intros s; apply nl_refl|intros a b c; apply nl_trans]. Qed.
#[global] Instance pre_s0 : ParserQuiet.preorder s0r. Proof. split; [intros s; apply nl_n0, nl_refl|intros a b c; apply n0_trans]. Qed.
Lemma sl_quiet {A} (m : P A) : kq m -> kr sl m.
Proof. intros H s. eapply pw_mono; [apply H|]. intros a s' (_ & E & _). unfold sl. rewrite E. apply nl_refl. Qed.
Lemma s0_sl {A} (m : P A) : kr sl m -> kr s0r m.
Proof. intros H s. eapply pw_mono; [apply H|]. intros a s' N. by apply nl_n0. Qed.
Lemma sl_lift {A} (m : MG A) : (forall g, pwp m (fun _ g' => nl g g') g) -> kr sl (lift m).
Proof. intros H s. apply pw_lift. eapply wp_mono; [apply H|]. intros a g' G. exact G. Qed.
Lemma s0_lift {A} (m : MG A) : (forall g, pwp m (fun _ g' => n0 g g') g) -> kr s0r (lift m).
Proof. intros H s. apply pw_lift. eapply wp_mono; [apply H|]. intros a g' G. exact G. Qed.
(** ** Operations of the builder. *)
Lemma nl_oupd g o f : (forall ob, ob_links (f ob) = ob_links ob) -> pwp (oupd o f) (fun _ g' => nl g g') g.
Proof.
  intros Hf. apply wp_oupd. intros ob Ho o' ob'. cbn. destruct (decide (o = o')) as [<-|Hn].
  - rewrite lookup_insert. intros [= <-]. exists ob. split; [done|]. apply Hf.
  - rewrite lookup_insert_ne by done. eauto.
Qed.
Lemma nl_addEvent g o t i b e l : pwp (addEvent o t i b e l) (fun _ g' => nl g g') g.
Proof.
  unfold addEvent. w1. eapply wp_mono; [apply wp_getEvent|]. intros r g1 [-> _]. cbv beta. destruct r; [w1; apply nl_refl|].
  w1. unfold galloc, wp at 1. w1. w1. w1. w1. eapply wp_mono; [apply nl_oupd; done|]. intros [] g' N. exact N.
Qed.
Lemma nl_setProperty g o n v : pwp (gsetProperty o n v) (fun _ g' => nl g g') g.
Proof. unfold gsetProperty. w1. apply wp_gobj. intros ob Ho. w1. w1; [w1; w1; exact (nl_refl g)|w1; exact (nl_refl g)]. Qed.
Lemma nl_setParameter g o n v : pwp (gsetParameter o n v) (fun _ g' => nl g g') g.
Proof. unfold gsetParameter. w1. apply wp_gevt. intros ob Ho. w1. exact (nl_refl g). Qed.
Lemma nl_addPort g c e : pwp (addPort c e) (fun _ g' => nl g g') g.
Proof. apply nl_oupd. intros ob. by destruct (bool_decide _). Qed.
Lemma nl_addRule g c o p : pwp (addRule c o p) (fun _ g' => nl g g') g. Proof. by apply nl_oupd. Qed.
Lemma nl_addAlias g c o p : pwp (addAlias c o p) (fun _ g' => nl g g') g. Proof. apply nl_oupd. intros ob. by destruct (bool_decide _). Qed.
Lemma nl_addSwitchPort g c i l : pwp (addSwitchPort c i l) (fun _ g' => nl g g') g.
Proof.
  unfold addSwitchPort. w1. eapply wp_mono; [apply nl_addEvent|]. intros [] g1 N1. cbv beta. eapply wp_mono; [by apply nl_oupd|]. intros [] g2 N2. exact (nl_trans _ _ _ N1 N2).
Qed.
Lemma nl_addObject g o : pwp (addObject o) (fun _ g' => nl g g') g.
Proof.
  unfold addObject, glookup. w1. apply wp_gobj. intros ob Ho. w1. w1. w1. w1. destruct (_ || _); [w1; apply nl_refl|]. w1. w1. w1. w1. w1. exact (nl_refl g).
Qed.
Lemma nl_addChild g c o : pwp (addChild c o) (fun _ g' => nl g g') g.
Proof.
  unfold addChild. w1. apply wp_gobj. intros cb Hc. w1. apply wp_gobj. intros ob Ho. destruct (bool_decide _); [w1; apply nl_refl|]. destruct (negb _); [w1|]. w1. w1. w1.
  eapply wp_mono; [by apply nl_oupd|]. intros [] g1 N1. cbv beta. w1. apply wp_gobj. intros ob1 Ho1. w1. w1. w1. eapply wp_mono; [by apply nl_oupd|]. intros [] g2 N2. cbv beta. destruct (negb _); [w1|]. w1.
  eapply wp_mono; [by apply nl_addObject|]. intros b g3 N3. w1. exact (nl_trans _ _ _ N1 (nl_trans _ _ _ N2 N3)).
Qed.
Lemma n0_newObject g k i : pwp (newObject k i) (fun _ g' => n0 g g') g.
Proof.
  unfold newObject. w1. unfold galloc at 1, wp at 1. w1. unfold galloc at 1, wp at 1. w1. w1. w1. w1. w1.
  match goal with |- wp _ _ _ _ ?g1 => assert (L' : n0 g g1) end.
  { intros o ob. cbn. destruct (decide (o = g_next g)) as [->|Hn]; [rewrite lookup_insert; intros [= <-]; by left|rewrite lookup_insert_ne by done; intros H; right; eauto]. }
  w1.
  - w1. w1. eapply wp_mono; [apply nl_addEvent|]. intros [] g' L2. w1. eapply n0_trans; [exact L'|]. apply nl_n0. exact L2.
  - by w1.
Qed.
Lemma sl_mod f : (forall s, nl (p_graph s) (p_graph (f s))) -> kr sl (pmod f). Proof. intros H s. apply pw_mod. apply H. Qed.
Lemma s0_mod f : (forall s, n0 (p_graph s) (p_graph (f s))) -> kr s0r (pmod f). Proof. intros H s. apply pw_mod. apply H. Qed.
Ltac slt := repeat first
  [ progress intros | progress cbv beta
  | (apply sl_lift; intros; first [apply nl_setProperty|apply nl_setParameter|apply nl_addPort|apply nl_addRule|apply nl_addAlias|apply nl_addEvent|apply nl_addSwitchPort|apply nl_addChild])
  | apply (kr_bind sl) | apply (kr_when sl) | apply (kr_each sl) | apply (kr_map sl)
  | (apply sl_mod; intros; apply nl_refl)
  | solve [apply sl_quiet; kqt]
  | match goal with |- kr sl (if ?b then _ else _) => destruct b | |- kr sl (match ?x with _ => _ end) => destruct x end ].
Ltac s0t := repeat first
  [ progress intros | progress cbv beta
  | (apply s0_lift; intros; apply n0_newObject)
  | apply (kr_bind s0r) | apply (kr_when s0r) | apply (kr_each s0r) | apply (kr_map s0r)
  | match goal with |- kr s0r (if ?b then _ else _) => destruct b | |- kr s0r (match ?x with _ => _ end) => destruct x end 
  | solve [apply s0_sl; slt] ].
Lemma sl_redirect l o m : kr sl (redirect l o m). Proof. induction l; cbn [redirect]; slt.
assumption. Qed.
Lemma sl_moveAttr d a : kr sl (moveAttr d a). Proof. unfold moveAttr, addAttributionEvent. slt. Qed.
Lemma sl_media d : kr sl (solveMedia d). Proof. unfold solveMedia, pattr, cacheById. slt. apply sl_moveAttr. Qed.
Lemma sl_switch k d : kr sl (solveSwitch k d). Proof. unfold solveSwitch, pattr, cacheById, udata. slt. Qed.
Lemma sl_roleAction k c p t g x : kr sl (roleAction k c p t g x). Proof. unfold roleAction, addSelectionEvent, addLookAtEvent. slt. Qed.
Lemma sl_popContext k n : kr sl (popContext k n). Proof. unfold popContext, udata, cacheById. slt. Qed.
Lemma sl_popSwitch k n : kr sl (popSwitch k n). Proof. unfold popSwitch, udata, cacheById. slt. all: apply sl_quiet; kqt. Qed.
Lemma s0_pop E k p n : p <> PoNcl -> kr s0r (pop E k p n).
Proof.
  intros H. apply s0_sl. destruct (quietPop p) eqn:Eq; [apply sl_quiet; by apply kq_pop|]. destruct p; try discriminate Eq; try done; cbn [pop]; [apply sl_popContext|apply sl_popSwitch].
Qed.
Lemma s0_push E imp p e : p <> PuImport -> kr s0r (push E imp p e).
Proof.
  intros Hg. destruct (quietPush p) eqn:Eq; [apply s0_sl, sl_quiet; by apply kq_push|]. destruct p; try discriminate Eq; try done; cbn [push].
  all: unfold pushNcl, pushContext, pushSwitch, pushMedia, pushArea, pushProperty, pattr, udata, addPresentationLabel, addPresentationEvent, addAttributionEvent, referAdd; s0t.
  - apply s0_sl, sl_redirect.
  - apply s0_mod. intros s o' ob'. cbn. intros H. apply lookup_delete_Some in H as [_ H]. right. eauto.
Qed.
Lemma ncl_pop t sy : synOf t = Some sy -> sy_pop sy = PoNcl -> t = "ncl".
Proof.
  intros Es Hpu. apply look_some in Es. assert (F : forallb (fun p : string * syn => match sy_pop (snd p) with PoNcl => String.eqb (fst p) "ncl" | _ => true end) syntax = true) by (vm_compute; reflexivity).
  apply (forall_elem _ _ _ F) in Es. cbn [fst snd] in Es. rewrite Hpu in Es. by apply String.eqb_eq in Es.
Qed.
Lemma ncl_kid t : possibleChild t "ncl" = true -> False.
Proof. intros H. assert (Es : exists sy, synOf "ncl" = Some sy /\ sy_parents sy = []) by (vm_compute; eauto). destruct Es as (sy & Es & Ep). apply (possible_parent _ _ sy Es) in H. rewrite Ep in H. by apply elem_of_nil in H. Qed.
Lemma process_nolinks E k : forall up x s, cinv s -> Par s up -> x_tag x <> "ncl" -> pw (processNode E k up x) (fun _ s' => s0r s s') s.
Proof.
  induction k as [|k IH]; intros up x s C Hp Hx; [apply pw_nofuel|].
  destruct (mem (x_tag x) headTags) eqn:Eh; [eapply pw_mono; [by apply process_still|]; intros [] s' [Hg _]; unfold s0r; rewrite Hg; apply nl_n0, nl_refl|].
  apply process_rule; [done|done|]. intros sy attrs s1 K1.
  assert (Hni : sy_push sy <> PuImport). { intros Hi. rewrite (import_head _ _ (ck_syn _ _ _ _ _ _ _ K1) Hi) in Eh. done. }
  assert (Hnp : sy_pop sy <> PoNcl). { intros Hi. apply Hx. exact (ncl_pop _ _ (ck_syn _ _ _ _ _ _ _ K1) Hi). }
  assert (R1 : s0r s (p_set_next (Pos.succ (p_next s1)) s1)) by (destruct (ck_state _ _ _ _ _ _ _ K1) as [g ->]; apply nl_n0; exact (nl_refl (p_graph s))).
  eapply pw_mono; [by apply s0_push|]. intros e s3 R3. cbv beta in *. eapply pw_mono; [apply hd_cache|]. intros [] s4 [Hg4 _] P4 Pr4.
  assert (R4 : s0r s s4) by (unfold s0r; rewrite Hg4; exact (pr_trans _ _ _ R1 R3)).
  eapply pw_mono; [apply (kids_rule E k _ _ _ s4 (fun _ s' => s0r s s')); [apply P4|done|done|]|].
  - intros y l' s' [p0 Hp0] C' Hp' R'. eapply pw_mono; [apply IH; [done|done|]|].
    + intros Hy. pose proof (ck_kids _ _ _ _ _ _ _ K1 y) as Hk. rewrite Hp0, Hy in Hk. by apply (ncl_kid (x_tag x)), Hk, in_mid.
    + intros [] s'' R''. exact (pr_trans _ _ _ R' R'').
  - intros [] s5 R5. cbv beta in *. eapply pw_mono; [by apply s0_pop|]. intros [] s6 R6. exact (pr_trans _ _ _ R5 R6).
Qed.

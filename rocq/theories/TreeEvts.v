(** TreeEvts.v -- C45: anchors of media objects come from area elements only. *)
From Verif Require Import BuildInv BuildOps BuildSpec BuildFacts Frame ParserFrame.
From Verif Require Export TreeGraph.
Open Scope string_scope.
Open Scope list_scope.

Definition onComp (g : graph) (ev : evt) : Prop := exists ob, g_obj g !! ev_obj ev = Some ob /\ isComp (ob_kind ob) = true.
Record nk (g g' : graph) : Prop := mkNk {
  nk_kind : forall o ob, g_obj g !! o = Some ob -> exists ob', g_obj g' !! o = Some ob' /\ ob_kind ob' = ob_kind ob;
  nk_evt : forall e ev, g_evt g' !! e = Some ev -> ev_type ev = PRESENTATION -> g_evt g !! e = Some ev \/ ev_id ev = "@lambda" \/ onComp g' ev }.
Lemma nk_refl g : nk g g. Proof. split; [eauto|auto]. Qed.
Lemma onComp_kind g g' ev : (forall o ob, g_obj g !! o = Some ob -> exists ob', g_obj g' !! o = Some ob' /\ ob_kind ob' = ob_kind ob) -> onComp g ev -> onComp g' ev.
Proof. intros H (ob & A & B). destruct (H _ _ A) as (ob' & A' & B'). exists ob'. split; [done|]. by rewrite B'. Qed.
Lemma nk_trans a b c : nk a b -> nk b c -> nk a c.
Proof.
  intros [A1 A2] [B1 B2]. split.
  - intros o ob H. destruct (A1 _ _ H) as (ob1 & H1 & K1). destruct (B1 _ _ H1) as (ob2 & H2 & K2). exists ob2. split; [done|congruence].
  - intros e ev H Ht. destruct (B2 _ _ H Ht) as [H1|[H1|H1]]; auto. destruct (A2 _ _ H1 Ht) as [H2|[H2|H2]]; auto. right. right. by eapply onComp_kind.
Qed.
Definition ns (s s' : pst) : Prop := nk (p_graph s) (p_graph s').
#[global] Instance pre_ns : ParserQuiet.preorder ns. Proof. split; [intros s; apply nk_refl|intros a b c; apply nk_trans]. Qed.
Notation kn := (kr ns).
Lemma kn_quiet {A} (m : P A) : kq m -> kn m.
Proof. intros H s. eapply pw_mono; [apply H|]. intros a s' (_ & E & _). unfold ns. rewrite E. apply nk_refl. Qed.
Lemma kn_lift {A} (m : MG A) : (forall g, pwp m (fun _ g' => nk g g') g) -> kn (lift m).
Proof. intros H s. apply pw_lift. eapply wp_mono; [apply H|]. intros a g' G. exact G. Qed.
(** ** Operations of the builder. *)
Lemma nk_oupd g o f : (forall ob, ob_kind (f ob) = ob_kind ob) -> pwp (oupd o f) (fun _ g' => nk g g') g.
Proof.
  intros Hf. apply wp_oupd. intros ob Ho. split; cbn; [|auto]. intros o' ob' H'. destruct (decide (o = o')) as [<-|Hn].
  - rewrite lookup_insert. eexists. split; [done|]. rewrite Hf. by assert (ob' = ob) as -> by congruence.
  - rewrite lookup_insert_ne by done. eauto.
Qed.
Lemma nk_addEvent g o t i b e l : t <> PRESENTATION \/ (exists ob, g_obj g !! o = Some ob /\ isComp (ob_kind ob) = true) -> pwp (addEvent o t i b e l) (fun _ g' => nk g g') g.
Proof.
  intros Ht. unfold addEvent. w1. eapply wp_mono; [apply wp_getEvent|]. intros r g1 [-> _]. cbv beta. destruct r; [w1; apply nk_refl|].
  w1. unfold galloc, wp at 1. w1. w1. w1. w1. apply wp_oupd. intros ob Ho. cbn in Ho. split; cbn.
  - intros o' ob' H'. destruct (decide (o = o')) as [<-|Hn]; [rewrite lookup_insert; eexists; split; [done|]; cbn; congruence|rewrite lookup_insert_ne by done; eauto].
  - intros e' ev He Hp. destruct (decide (e' = g_next g)) as [->|Hn]; [|rewrite lookup_insert_ne in He by done; auto]. rewrite lookup_insert in He. injection He as <-. cbn in *. right. right.
    destruct Ht as [Ht|(ob0 & A & B)]; [done|]. eexists. cbn. rewrite lookup_insert. split; [done|]. cbn. by assert (ob0 = ob) as -> by congruence.
Qed.
Lemma nk_setProperty g o n v : pwp (gsetProperty o n v) (fun _ g' => nk g g') g.
Proof. unfold gsetProperty. w1. apply wp_gobj. intros ob Ho. w1. w1; [w1; w1; split; [eauto|auto]|w1; split; [eauto|auto]]. Qed.
Lemma nk_setParameter g o n v : pwp (gsetParameter o n v) (fun _ g' => nk g g') g.
Proof. unfold gsetParameter. w1. apply wp_gevt. intros ob Ho. w1. split; [eauto|auto]. Qed.
Lemma nk_addPort g c e : pwp (addPort c e) (fun _ g' => nk g g') g.
Proof. apply nk_oupd. intros ob. by destruct (bool_decide _). Qed.
Lemma nk_addLink g c a b : pwp (addLink c a b) (fun _ g' => nk g g') g.
Proof. unfold addLink. w1. w1. w1. w1. by apply nk_oupd. Qed.
Lemma nk_addRule g c o p : pwp (addRule c o p) (fun _ g' => nk g g') g. Proof. by apply nk_oupd. Qed.
Lemma nk_addAlias g c o p : pwp (addAlias c o p) (fun _ g' => nk g g') g. Proof. apply nk_oupd. intros ob. by destruct (bool_decide _). Qed.
Lemma nk_addSwitchPort g c i l : (exists ob, g_obj g !! c = Some ob /\ isComp (ob_kind ob) = true) -> pwp (addSwitchPort c i l) (fun _ g' => nk g g') g.
Proof.
  intros H. unfold addSwitchPort. w1. eapply wp_mono; [apply nk_addEvent; by right|]. intros [] g1 N1. cbv beta. eapply wp_mono; [by apply nk_oupd|]. intros [] g2 N2. exact (nk_trans _ _ _ N1 N2).
Qed.
Ltac knt := repeat first
  [ progress intros | progress cbv beta
  | solve [apply kn_quiet; kqt]
  | (apply kn_lift; intros; first [apply nk_setProperty|apply nk_setParameter|apply nk_addPort|apply nk_addLink|apply nk_addRule|apply nk_addAlias|(apply nk_addEvent; by left)])
  | apply (kr_bind ns) | apply (kr_when ns) | apply (kr_each ns) | apply (kr_map ns)
  | match goal with |- kr ns (if ?b then _ else _) => destruct b | |- kr ns (match ?x with _ => _ end) => destruct x end ].
Lemma kn_moveAttr d a : kn (moveAttr d a). Proof. unfold moveAttr, addAttributionEvent. knt. Qed.
Lemma kn_media d : kn (solveMedia d). Proof. unfold solveMedia, pattr, cacheById. knt. apply kn_moveAttr. Qed.
Lemma kn_switch k d : kn (solveSwitch k d). Proof. unfold solveSwitch, pattr, cacheById, udata. knt. Qed.
Lemma kn_roleAction k c p t g x : kn (roleAction k c p t g x). Proof. unfold roleAction, addSelectionEvent, addLookAtEvent. knt. Qed.
Lemma kn_link k d : kn (solveLink k d). Proof. unfold solveLink, pattr, cacheById, udata. cbv zeta. knt. apply kn_roleAction. Qed.
Lemma kn_property e : kn (pushProperty e). Proof. unfold pushProperty, pattr, addAttributionEvent. knt. Qed.
Lemma kn_popContext k n : kn (popContext k n). Proof. unfold popContext, udata, cacheById. knt. Qed.
Lemma kn_popSwitch k n : kn (popSwitch k n).
Proof.
  intros s. unfold popSwitch. p1. apply pw_peek. intros c cb Hc Hk. 
  assert (Hs : forall s', ns s s' -> exists ob, g_obj (p_graph s') !! c = Some ob /\ isComp (ob_kind ob) = true).
  { intros s' N. destruct (nk_kind _ _ N _ _ Hc) as (ob & A & B). exists ob. split; [done|]. rewrite B. unfold isSwitch in Hk. by apply bool_decide_eq_true in Hk as ->. }
  p1. p1. p1. p1.
  match goal with |- pw (pbind ?m _) _ _ => assert (K : kn m) by (knt; apply kn_quiet; kqt) end. p1. eapply pw_mono; [apply K|]. intros rules s1 N1. cbv beta. clear K.
  match goal with |- pw (pbind ?m _) _ _ => assert (K : kn m) by knt end. p1. eapply pw_mono; [apply K|]. intros [] s2 N2. cbv beta. clear K. p1. p1.
  assert (N : ns s s2) by exact (pr_trans _ _ _ N1 N2).
  p1. eapply (pw_mono _ (fun _ s' => ns s s')).
  - apply pw_each_inv; [done|]. intros i s3 _ N3.
    unfold cacheById. p1. p1. p1. p1. p1. p1.
    match goal with |- pw (pbind ?m _) _ _ => assert (K : kn m) by (knt; apply kn_quiet; kqt) end. p1. eapply pw_mono; [apply K|]. intros l s4 N4. cbv beta.
    assert (N5 : ns s s4) by exact (pr_trans _ _ _ N3 N4). apply pw_lift. eapply wp_mono; [apply nk_addSwitchPort, Hs, N5|]. intros [] g' N6. exact (nk_trans _ _ _ N5 N6).
  - intros [] s3 N3. cbv beta. eapply pw_mono; [apply (kn_quiet _ kq_opop)|]. intros [] s4 N4. exact (pr_trans _ _ _ N3 N4).
Qed.

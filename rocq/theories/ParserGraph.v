(** ParserGraph.v -- push and pop functions that only add events and references. *)
From Verif Require Export ParserInv.
From Verif Require Import BuildInv BuildOps BuildSpec BuildFacts Frame.
Open Scope string_scope.
Open Scope list_scope.

Definition gg (s s' : pst) : Prop := gsm [] (p_graph s) (p_graph s') /\ p_refer s' = p_refer s.
Definition kg {A} (m : P A) : Prop := forall s, GInv (p_graph s) -> pw m (fun _ s' => gg s s') s.
Lemma gg_refl s : GInv (p_graph s) -> gg s s. Proof. intros I. split; [by apply gsm_refl|done]. Qed.
Lemma gg_trans a b c : gg a b -> gg b c -> gg a c.
Proof. intros (A & B) (C & D). split; [by eapply gsm_trans|congruence]. Qed.
Lemma gg_inv s s' : gg s s' -> GInv (p_graph s').
Proof. intros (G & _). apply (gs_step _ _ _ G). Qed.
Lemma gg_quiet s s' : GInv (p_graph s) -> quiet s s' -> gg s s'.
Proof. intros I (_ & B & C). split; [rewrite B; by apply gsm_refl|done]. Qed.
Lemma gg_ev s s' x : gg s s' -> evOk s x -> evOk s' x.
Proof. intros (G & _) [ev H]. exists ev. by apply (gx_evt _ _ (st_ext _ _ (gs_step _ _ _ G))). Qed.
Lemma kq_kg {A} (m : P A) : kq m -> kg m.
Proof. intros H s I. eapply pw_mono; [apply H|]. intros a s' Q. by apply gg_quiet. Qed.
Lemma kg_bind {A B} (m : P A) (f : A -> P B) : kg m -> (forall a, kg (f a)) -> kg (pbind m f).
Proof. intros Hm Hf s I. apply pw_bind. eapply pw_mono; [by apply Hm|]. intros a s' G. eapply pw_mono; [exact (Hf a s' (gg_inv _ _ G))|]. intros b s2 G2. exact (gg_trans _ _ _ G G2). Qed.
Lemma kg_lift {A} (m : MG A) : (forall g, GInv g -> pwp m (fun _ g' => gsm [] g g') g) -> kg (lift m).
Proof. intros H s I. apply pw_lift. eapply wp_mono; [by apply H|]. intros a g' G. by split. Qed.
Lemma kg_when b m : kg m -> kg (pwhen b m). Proof. destruct b; intros H s I; [by apply H|by apply gg_refl]. Qed.
Lemma kg_each {A} (f : A -> P unit) l : (forall x, kg (f x)) -> kg (peach f l).
Proof. intros H. induction l; cbn [peach]; [apply kq_kg, kr_ret, pre_q|]. by apply kg_bind. Qed.
Lemma kg_map {A B} (f : A -> P B) l : (forall x, kg (f x)) -> kg (pmap f l).
Proof. intros H. induction l; cbn [pmap]; [apply kq_kg, kr_ret, pre_q|]. apply kg_bind; [done|]. intros. apply kg_bind; [done|]. intros. apply kq_kg, kr_ret, pre_q. Qed.
(** A step, then the rest, from [s0]. *)
Lemma gg_step {A B} (m : P A) (f : A -> P B) (Q : B -> pst -> Prop) s0 s : kg m -> gg s0 s -> (forall a s', gg s0 s' -> gg s s' -> pw (f a) Q s') -> pw (pbind m f) Q s.
Proof. intros Hm G Hf. apply pw_bind. eapply pw_mono; [exact (Hm s (gg_inv _ _ G))|]. intros a s' G'. apply Hf; [exact (gg_trans _ _ _ G G')|done]. Qed.

Ltac kgt := repeat first
  [ progress intros | progress cbv beta
  | (apply kg_lift; intros; first [by apply gsm_addEvent|by apply gsm_setProperty|by apply gsm_setParameter|by apply gsm_addRule])
  | solve [apply kq_kg; kqt]
  | apply kg_bind | apply kg_when | apply kg_each | apply kg_map
  | match goal with |- kg (if ?b then _ else _) => destruct b | |- kg (match ?x with _ => _ end) => destruct x end ].
Lemma kg_area e : kg (pushArea e). Proof. unfold pushArea, pattr, addPresentationLabel, addPresentationEvent. kgt. Qed.
Lemma kg_property e : kg (pushProperty e). Proof. unfold pushProperty, pattr, addAttributionEvent. kgt. Qed.
Lemma kg_moveAttr m a : kg (moveAttr m a). Proof. unfold moveAttr, addAttributionEvent. kgt. Qed.
Lemma kg_media d : kg (solveMedia d).
Proof. unfold solveMedia, pattr, cacheById. kgt. apply kg_moveAttr. Qed.
Lemma kg_switch k d : kg (solveSwitch k d).
Proof. unfold solveSwitch, pattr, udata, cacheById. kgt. Qed.
Lemma gg_lift {A} (m : MG A) s0 s : gg s0 s -> pwp m (fun _ g' => gsm [] (p_graph s) g') (p_graph s) -> pw (lift m) (fun _ s' => gg s0 s') s.
Proof. intros G H. apply pw_lift. eapply wp_mono; [exact H|]. intros a g' G'. apply (gg_trans _ s); [done|]. by split. Qed.
Lemma kg_popContext k n : kg (popContext k n).
Proof.
  intros s I. unfold popContext. eapply gg_step; [apply kq_kg, kq_peek|by apply gg_refl|]. intros c s1 G1 _. p1. p1. p1. p1. p1. eapply (pw_mono _ (fun _ s' => gg s s')).
  { apply pw_each_inv; [done|]. intros i s2 _ G2. unfold cacheById. p1. p1. p1. p1. p1. eapply pw_mono; [apply interface_evt; by eapply gg_inv|]. intros x s3 [-> Hx].
    apply gg_lift; [done|]. apply gsm_addPort; [by eapply gg_inv|done]. }
  intros [] s2 G2. cbv beta. eapply pw_mono; [apply (kq_kg _ kq_opop); by eapply gg_inv|]. intros [] s3 G3. exact (gg_trans _ _ _ G2 G3).
Qed.
Lemma kg_popSwitch k n : kg (popSwitch k n).
Proof.
  intros s I. unfold popSwitch. eapply gg_step; [apply kq_kg, kq_peek|by apply gg_refl|]. intros c s1 G1 _. p1. p1. p1. p1.
  eapply gg_step; [apply kq_kg; kqt|done|]. intros rules s2 G2 _. eapply gg_step; [apply kq_kg; kqt|done|]. intros [] s3 G3 _. p1. p1. p1. eapply (pw_mono _ (fun _ s' => gg s s')).
  { apply pw_each_inv; [done|]. intros i s4 _ G4. unfold cacheById. p1. p1. p1. p1. p1. p1. p1.
    eapply (pw_mono _ (fun l s' => s' = s4 /\ forall e, e ∈ l -> evOk s4 e)).
    { apply (pw_map _ _ (fun l s' => s' = s4 /\ forall e, e ∈ l -> evOk s4 e)); [split; [done|]; intros e He; by apply elem_of_nil in He|].
      intros m ys s' _ [-> Hys]. p1. p1. eapply pw_mono; [apply interface_evt; by eapply gg_inv|]. intros x s5 [-> Hx]. split; [done|]. intros e He. apply elem_of_app in He as [He|He]; [auto|]. by apply elem_of_list_singleton in He as ->. }
    intros l s5 [-> Hl]. cbv beta. apply gg_lift; [done|]. apply gsm_addSwitchPort; [by eapply gg_inv|done]. }
  intros [] s5 G5. cbv beta. eapply pw_mono; [apply (kq_kg _ kq_opop); by eapply gg_inv|]. intros [] s6 G6. exact (gg_trans _ _ _ G5 G6).
Qed.
(** Links. *)
Lemma roleAction_ok k c params tests ghosts x s : GInv (p_graph s) -> pw (roleAction k c params tests ghosts x) (fun a s' => gg s s' /\ evOk s' (ac_evt a)) s.
Proof.
  intros I. unfold roleAction. destruct x as [r b]. eapply gg_step; [apply kq_kg; kqt|by apply gg_refl|]. intros pred s1 G1 _.
  p1. eapply pw_mono; [apply interface_evt; by eapply gg_inv|]. intros e s1' [-> He]. cbv beta. p1. apply pw_lift, wp_gevt. intros ev Hev. replace (p_set_graph (p_graph s1) s1) with s1 by (by destruct s1).
  cbv zeta. p1. eapply (pw_mono _ (fun r s' => gg s s' /\ evOk s' (fst r))).
  { p1.
    - p1. p1. p1. done.
    - p1. p1. p1. done.
    - p1. p1. eapply gg_step; [apply kg_lift; intros; by apply gsm_addEvent|exact G1|]. intros [] s2 G2 _. p1. apply pw_getEvent. intros y ob Ho Hy. p1. p1. subst y. destruct Hy as (_ & ev' & Hev' & _).
      eapply gg_step; [apply kg_lift; intros; by apply gsm_setParameter|exact G2|]. intros [] s3 G3 G23. p1. split; [done|]. cbn. eapply gg_ev; [exact G23|]. by exists ev'.
    - eapply gg_step; [apply kg_lift; intros; by apply gsm_addEvent|exact G1|]. intros [] s2 G2 _. p1. apply pw_getEvent. intros y ob Ho Hy. p1. p1. subst y. destruct Hy as (_ & ev' & Hev' & _). p1. split; [done|]. by exists ev'. }
  intros ee s2 [G2 H2]. cbv beta. p1. cbn. done.
Qed.
Lemma kg_link k d : kg (solveLink k d).
Proof.
  intros s I. unfold solveLink. p1. p1. p1. p1. unfold cacheById. do 14 p1. cbv zeta. 
  eapply gg_step; [apply kq_kg; kqt|by apply gg_refl|]. intros bs s1 G1 _. cbv zeta. p1. p1. p1. p1.
  eapply gg_step; [apply kq_kg; kqt|done|]. intros tmap s2 G2 _. eapply gg_step; [apply kq_kg; kqt|done|]. intros gm s3 G3 _. cbv zeta. p1.
  eapply (pw_mono _ (fun l s' => gg s s' /\ forall b a, (b, a) ∈ l -> evOk s' (ac_evt a))).
  { apply (pw_map _ _ (fun l s' => gg s s' /\ forall b a, (b, a) ∈ l -> evOk s' (ac_evt a))); [split; [done|]; intros b e He; by apply elem_of_nil in He|].
    intros m ys s' _ [G4 Hys]. p1. eapply pw_mono; [apply roleAction_ok; by eapply gg_inv|]. intros ac s5 [G5 Hac]. cbv beta. p1. split; [exact (gg_trans _ _ _ G4 G5)|].
    intros b a' He. apply elem_of_app in He as [He|He]; [eapply gg_ev; [exact G5|]; eauto|]. apply elem_of_list_singleton in He. injection He as -> ->. done. }
  intros l s5 [G5 Hl]. cbv beta. apply gg_lift; [done|]. apply gsm_addLink; [by eapply gg_inv|].
  assert (HF : forall f a, a ∈ map snd (List.filter f l) -> evOk s5 (ac_evt a)).
  { intros f a' Ha. apply elem_of_list_fmap in Ha as ([b a''] & -> & Ha). apply elem_of_list_In, filter_In in Ha as [Ha _]. eapply Hl. by apply elem_of_list_In. }
  intros a' [Ha|Ha]; eapply HF; exact Ha.
Qed.

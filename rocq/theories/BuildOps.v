(** BuildOps.v -- every construction operation keeps the invariant. *)
From Verif Require Import Builder BuildSpec BuildInv Frame Wf.
Open Scope string_scope.
Open Scope list_scope.

Record step (g g' : graph) : Prop := mkStep { st_inv : GInv g'; st_ext : gext g g'; st_doc : GDoc g -> GDoc g' }.
Lemma step_refl g : GInv g -> step g g.
Proof. intros I. split; [done|apply gext_refl|done]. Qed.
Lemma step_trans g1 g2 g3 : step g1 g2 -> step g2 g3 -> step g1 g3.
Proof. intros [A1 A2 A3] [B1 B2 B3]. split; [done|by eapply gext_trans|auto]. Qed.
Lemma step_same g g' : GInv g -> same g g' -> step g g'.
Proof. intros I S. split; [by eapply same_inv|by apply same_ext|by apply same_doc]. Qed.

Lemma wp_gobj g o (Q : obj -> graph -> Prop) : (forall ob, g_obj g !! o = Some ob -> Q ob g) -> pwp (gobj o) Q g.
Proof. unfold gobj, wp. destruct (g_obj g !! o) as [ob|] eqn:E; cbn; auto. Qed.
Lemma wp_gevt g e (Q : evt -> graph -> Prop) : (forall ev, g_evt g !! e = Some ev -> Q ev g) -> pwp (gevt e) Q g.
Proof. unfold gevt, wp. destruct (g_evt g !! e) as [ob|] eqn:E; cbn; auto. Qed.
Lemma wp_oupd g o f (Q : unit -> graph -> Prop) : (forall ob, g_obj g !! o = Some ob -> Q tt (g_set_obj (<[o := f ob]> (g_obj g)) g)) -> pwp (oupd o f) Q g.
Proof. intros H. unfold oupd. w1. apply wp_gobj. intros ob Ho. w1. by apply H. Qed.

(** Updating fields the invariant does not mention. *)
Definition harmless (g : graph) (ob ob' : obj) : Prop := ob_kind ob' = ob_kind ob /\ ob_id ob' = ob_id ob /\ ob_lambda ob' = ob_lambda ob /\
  ob_events ob' = ob_events ob /\ ob_children ob' = ob_children ob /\ ob_parent ob' = ob_parent ob /\
  forall n l', (n, l') ∈ ob_swports ob' -> (exists l, (n, l) ∈ ob_swports ob) \/ exists e ev, e ∈ ob_events ob /\ g_evt g !! e = Some ev /\ ev_type ev = PRESENTATION /\ ev_id ev = n.
Lemma same_oupd g o ob f : GInv g -> g_obj g !! o = Some ob -> harmless g ob (f ob) -> same g (g_set_obj (<[o := f ob]> (g_obj g)) g).
Proof.
  intros I Ho H. assert (X : forall o' ob', g_obj g !! o' = Some ob' -> forall n l', (n, l') ∈ ob_swports ob' -> exists e ev, e ∈ ob_events ob' /\ g_evt g !! e = Some ev /\ ev_type ev = PRESENTATION /\ ev_id ev = n).
  { intros o' ob' Ho' n l Hl. by eapply oi_swports; [eapply gi_o|]. }
  split; try done. intros o'. cbn. destruct (decide (o = o')) as [<-|Hne].
  - rewrite lookup_insert, Ho. destruct H as (E1 & E2 & E3 & E4 & E5 & E6 & E7). repeat split; try done. intros n l' Hl.
    destruct (E7 n l' Hl) as [(l & Hl2)|?]; [|done]. by eapply X.
  - rewrite lookup_insert_ne by done. destruct (g_obj g !! o') as [ob'|] eqn:E; [|done]. repeat split; try done. intros n l' Hl. by eapply X.
Qed.
Lemma same_refl g : GInv g -> same g g.
Proof.
  intros I. split; try done. intros o. destruct (g_obj g !! o) as [ob|] eqn:E; [|done]. repeat split; try done. intros n l Hl. by eapply oi_swports; [eapply gi_o|].
Qed.
Lemma oupd_step g o f : GInv g -> (forall ob, g_obj g !! o = Some ob -> harmless g ob (f ob)) -> pwp (oupd o f) (fun _ g' => step g g') g.
Proof. intros I H. apply wp_oupd. intros ob Ho. apply step_same; [done|]. apply same_oupd; auto. Qed.

Lemma addAlias_step g o a p : GInv g -> pwp (addAlias o a p) (fun _ g' => step g g') g.
Proof. intros I. apply oupd_step; [done|]. intros ob _. destruct (bool_decide _); repeat split; try done; eauto. Qed.
Lemma addPort_step g o e : GInv g -> pwp (addPort o e) (fun _ g' => step g g') g.
Proof. intros I. apply oupd_step; [done|]. intros ob _. destruct (bool_decide _); repeat split; try done; eauto. Qed.
Lemma addLink_step g o c a : GInv g -> pwp (addLink o c a) (fun _ g' => step g g') g.
Proof. intros I. unfold addLink. w1. w1. w1. w1. apply oupd_step; [done|]. intros ob _. repeat split; try done; eauto. Qed.
Lemma addRule_step g c o p : GInv g -> pwp (addRule c o p) (fun _ g' => step g g') g.
Proof. intros I. apply oupd_step; [done|]. intros ob _. repeat split; try done; eauto. Qed.
Lemma gsetProperty_step g o n v : GInv g -> pwp (gsetProperty o n v) (fun _ g' => step g g') g.
Proof.
  intros I. unfold gsetProperty. w1. apply wp_gobj. intros ob _. w1. w1.
  - w1. w1. apply step_same; [done|]. destruct (same_refl g I). by split.
  - w1. apply step_same; [done|]. destruct (same_refl g I). by split.
Qed.
Lemma gsetParameter_step g e n v : GInv g -> pwp (gsetParameter e n v) (fun _ g' => step g g') g.
Proof.
  intros I. unfold gsetParameter. w1. apply wp_gevt. intros ev _. w1. apply step_same; [done|]. destruct (same_refl g I). by split.
Qed.

(** ** Events. *)
Lemma isEvt_spec g t i e : isEvt g t i e = true <-> exists ev, g_evt g !! e = Some ev /\ ev_type ev = t /\ ev_id ev = i.
Proof.
  unfold isEvt. destruct (g_evt g !! e) as [ev|]; [|split; [done|by intros (? & ? & _)]].
  rewrite andb_true_iff, bool_decide_eq_true, String.eqb_eq. split; [intros [? ?]; eauto|]. intros (ev' & [= <-] & ? & ?). done.
Qed.
(** What looking an event up tells. *)
Lemma wp_getEvent g o t i : pwp (getEvent o t i) (fun r g' => g' = g /\ exists ob, g_obj g !! o = Some ob /\
  match r with
  | Some e => e ∈ ob_events ob /\ exists ev, g_evt g !! e = Some ev /\ ev_type ev = t /\ ev_id ev = i
  | None => forall e ev, e ∈ ob_events ob -> g_evt g !! e = Some ev -> ev_type ev = t -> ev_id ev <> i
  end) g.
Proof.
  unfold getEvent. w1. apply wp_gobj. intros ob Ho. w1. split; [done|]. exists ob. split; [done|].
  destruct (List.find (isEvt g t i) (ob_events ob)) as [e|] eqn:E.
  - apply find_some in E as [E1 E2]. split; [by apply elem_of_list_In|]. by apply isEvt_spec.
  - intros e ev He Hev Ht Hi. pose proof (find_none _ _ E e (proj1 (elem_of_list_In _ _) He)) as X.
    assert (isEvt g t i e = true) by (apply isEvt_spec; eauto). congruence.
Qed.

(** The graph with a new event. *)
Definition plusEvent (g : graph) (o : oid) (ob : obj) (ev : evt) : graph :=
  g_set_obj (<[o := ob_set_events (sins (g_addr g) (g_next g) (ob_events ob)) ob]> (g_obj g))
    (g_set_evt (<[g_next g := ev]> (g_evt g)) (g_set_next (Pos.succ (g_next g)) g)).
Lemma plusEvent_step g o ob ev : GInv g -> g_obj g !! o = Some ob -> ev_obj ev = o ->
  (forall e ev', e ∈ ob_events ob -> g_evt g !! e = Some ev' -> ev_type ev' = ev_type ev -> ev_id ev' <> ev_id ev) ->
  step g (plusEvent g o ob ev).
Proof.
  intros I Ho Hev Hnew. pose (x := g_next g : eid).
  assert (Hx : g_evt g !! x = None).
  { destruct (g_evt g !! x) as [ev'|] eqn:E; [|done]. apply (gi_evt _ I) in E. unfold x in E. lia. }
  assert (Hold : forall e ev', g_evt g !! e = Some ev' -> <[x := ev]> (g_evt g) !! e = Some ev').
  { intros e ev' He. rewrite lookup_insert_ne; [done|]. intros Hq. rewrite <- Hq in He. congruence. }
  assert (Hxe : x ∉ ob_events ob).
  { intros H. destruct (oi_events _ _ _ (gi_o _ I _ _ Ho) _ H) as (? & ? & _). congruence. }
  set (ob1 := ob_set_events (sins (g_addr g) x (ob_events ob)) ob).
  assert (Hget : forall o' ob', g_obj (plusEvent g o ob ev) !! o' = Some ob' -> (o' = o /\ ob' = ob1) \/ (o' <> o /\ g_obj g !! o' = Some ob')).
  { intros o' ob'. cbn. destruct (decide (o = o')) as [<-|Hne]; [rewrite lookup_insert; intros [= <-]; by left|rewrite lookup_insert_ne by done; intros H; right; split; [congruence|exact H]]. }
  assert (Hfwd : forall o' ob', g_obj g !! o' = Some ob' -> exists ob2, g_obj (plusEvent g o ob ev) !! o' = Some ob2 /\
     ob_kind ob2 = ob_kind ob' /\ ob_id ob2 = ob_id ob' /\ ob_lambda ob2 = ob_lambda ob' /\ ob_events ob' ⊆ ob_events ob2 /\ ob_children ob2 = ob_children ob' /\ ob_parent ob2 = ob_parent ob').
  { intros o' ob' Ho'. cbn. destruct (decide (o = o')) as [<-|Hne].
    - rewrite lookup_insert. assert (ob' = ob) as -> by congruence. exists ob1. repeat split; try done. cbn. intros e He. apply sins_elem. by right.
    - rewrite lookup_insert_ne by done. exists ob'. done. }
  assert (Hext : gext g (plusEvent g o ob ev)).
  { split; try done.
    - intros o' ob' Ho'. destruct (Hfwd _ _ Ho') as (ob2 & F1 & F2 & F3 & F4 & F5 & F6 & F7). exists ob2. rewrite F6, F7. done.
    - intros o' ob' ob2 _ Ho' Ho2. destruct (Hfwd _ _ Ho') as (ob3 & F1 & F2 & F3 & F4 & F5 & F6 & F7). congruence. }
  split; [|done|].
  - split.
    + intros o' ob' H. destruct (Hget _ _ H) as [[-> ->]|[_ H']]; cbn; apply Pos.lt_lt_succ; by eapply gi_obj.
    + cbn. intros e ev' He. destruct (decide (e = x)) as [->|Hne]; [apply Pos.lt_succ_diag_r|]. rewrite lookup_insert_ne in He by done.
      eapply Pos.lt_trans; [by eapply gi_evt|apply Pos.lt_succ_diag_r].
    + intros o' ob' H. destruct (Hget _ _ H) as [[-> ->]|[Hne H']].
      * destruct (gi_o _ I _ _ Ho). split; cbn [ob1 ob_set_events ob_lambda ob_events ob_children ob_parent ob_swports]; try done.
        -- destruct oi_lambda as (ev' & L1 & L2 & L3). exists ev'. split; [by apply Hold|]. split; [done|]. apply sins_elem. by right.
        -- intros e He. apply sins_elem in He as [->|He]; [exists ev; split; [cbn; apply lookup_insert|done]|].
           destruct (oi_events e He) as (ev' & E1 & E2). exists ev'. split; [by apply Hold|done].
        -- intros e1 e2 ev1 ev2 H1 H2 G1 G2 Ht Hi. apply sins_elem in H1, H2. cbn in G1, G2.
           destruct H1 as [->|H1], H2 as [->|H2]; [done| | |].
           ++ rewrite lookup_insert in G1. injection G1 as <-. rewrite lookup_insert_ne in G2 by (intros Hq; rewrite <- Hq in *; done). by destruct (Hnew e2 ev2 H2 G2 (eq_sym Ht)).
           ++ rewrite lookup_insert in G2. injection G2 as <-. rewrite lookup_insert_ne in G1 by (intros Hq; rewrite <- Hq in *; done). by destruct (Hnew e1 ev1 H1 G1 Ht).
           ++ rewrite lookup_insert_ne in G1 by (intros Hq; rewrite <- Hq in *; done). rewrite lookup_insert_ne in G2 by (intros Hq; rewrite <- Hq in *; done). eauto.
        -- intros c Hc. destruct (oi_children c Hc) as (cb & C1 & C2). destruct (Hfwd _ _ C1) as (cb2 & F1 & _ & _ & _ & _ & _ & F7). exists cb2. split; [done|congruence].
        -- intros p Hp. destruct (oi_parent p Hp) as (A & B & pb & P1 & P2 & P3). split; [done|]. split; [done|].
           destruct (Hfwd _ _ P1) as (pb2 & F1 & F2 & _ & _ & _ & F6 & _). exists pb2. rewrite F2, F6. done.
        -- intros n l Hl. destruct (oi_swports n l Hl) as (e & ev' & E1 & E2 & E3 & E4). exists e, ev'. split; [apply sins_elem; by right|]. split; [by apply Hold|done].
      * destruct (gi_o _ I _ _ H'). split; try done.
        -- destruct oi_lambda as (ev' & L1 & L2 & L3). exists ev'. split; [by apply Hold|]. done.
        -- intros e He. destruct (oi_events e He) as (ev' & E1 & E2). exists ev'. split; [by apply Hold|done].
        -- intros e1 e2 ev1 ev2 H1 H2 G1 G2 Ht Hi. cbn in G1, G2.
           assert (e1 <> x) by (intros ->; destruct (oi_events x H1) as (? & ? & _); congruence).
           assert (e2 <> x) by (intros ->; destruct (oi_events x H2) as (? & ? & _); congruence).
           rewrite lookup_insert_ne in G1 by done. rewrite lookup_insert_ne in G2 by done. eauto.
        -- intros c Hc. destruct (oi_children c Hc) as (cb & C1 & C2). destruct (Hfwd _ _ C1) as (cb2 & F1 & _ & _ & _ & _ & _ & F7). exists cb2. split; [done|congruence].
        -- intros p Hp. destruct (oi_parent p Hp) as (A & B & pb & P1 & P2 & P3). split; [done|]. split; [done|].
           destruct (Hfwd _ _ P1) as (pb2 & F1 & F2 & _ & _ & _ & F6 & _). exists pb2. rewrite F2, F6. done.
        -- intros n l Hl. destruct (oi_swports n l Hl) as (e & ev' & E1 & E2 & E3 & E4). exists e, ev'. split; [done|]. split; [by apply Hold|done].
    + cbn. intros e ev' He. destruct (decide (e = x)) as [->|Hne].
      * rewrite lookup_insert in He. injection He as <-. exists ob1. rewrite Hev, lookup_insert. split; [done|]. apply sins_elem. by left.
      * rewrite lookup_insert_ne in He by done. destruct (gi_e _ I _ _ He) as (ob' & A & B). destruct (Hfwd _ _ A) as (ob2 & F1 & _ & _ & _ & F5 & _). exists ob2. split; [exact F1|by apply F5].
    + intros o' Hi. destruct (gi_objs _ I _ Hi) as (ob' & H'). destruct (Hfwd _ _ H') as (ob2 & F1 & _). by exists ob2.
    + apply (gi_objs_nodup _ I).
    + intros i o'. change (g_byid (plusEvent g o ob ev)) with (g_byid g). rewrite (gi_byid _ I). split; intros [A (ob' & H' & E)]; split; try done.
      * destruct (Hfwd _ _ H') as (ob2 & F1 & F2 & F3 & _). exists ob2. split; [done|congruence].
      * destruct (Hget _ _ H') as [[-> ->]|[_ H2]]; eauto.
    + intros o'. change (g_medias (plusEvent g o ob ev)) with (g_medias g). rewrite (gi_medias _ I). split; intros [A (ob' & H' & E)]; split; try done.
      * destruct (Hfwd _ _ H') as (ob2 & F1 & F2 & F3 & _). exists ob2. split; [done|congruence].
      * destruct (Hget _ _ H') as [[-> ->]|[_ H2]]; eauto.
    + apply (gi_medias_nodup _ I).
    + destruct (gi_time _ I) as (time & N & T1 & T2). exists time, N. split; [done|]. intros o' ob' p H' Hp. destruct (Hget _ _ H') as [[-> ->]|[_ H2]]; eauto.
  - intros [(r & rb & R1 & R2 & R3 & R4 & R5) (s & sb & S1 & S2 & S3 & S4 & S5) K]. split.
    + destruct (Hfwd _ _ R3) as (ob2 & F1 & F2 & _ & _ & _ & _ & F7). exists r, ob2. repeat split; try done; congruence.
    + destruct (Hfwd _ _ S3) as (ob2 & F1 & F2 & _ & _ & _ & _ & F7). exists s, ob2. repeat split; try done; try congruence. rewrite F7. done.
    + intros o' ob' Hi H' Hk. destruct (Hget _ _ H') as [[-> ->]|[_ H2]]; eauto.
Qed.
(** Adding an event: afterwards it is there; if it was there nothing changes. *)
Lemma wp_addEvent g o t i b e l : GInv g -> pwp (addEvent o t i b e l) (fun _ g' => step g g' /\
  (exists ob' x ev, g_obj g' !! o = Some ob' /\ x ∈ ob_events ob' /\ g_evt g' !! x = Some ev /\ ev_type ev = t /\ ev_id ev = i) /\
  g_objs g' = g_objs g /\ g_root g' = g_root g /\ g_settings g' = g_settings g /\ g_byid g' = g_byid g /\
  (forall o', o' <> o -> g_obj g' !! o' = g_obj g !! o') /\
  forall o' ob', g_obj g' !! o' = Some ob' -> exists ob, g_obj g !! o' = Some ob /\ ob_kind ob' = ob_kind ob /\ ob_id ob' = ob_id ob /\ ob_parent ob' = ob_parent ob /\
    ob_aliases ob' = ob_aliases ob /\ ob_children ob' = ob_children ob /\ ob_ports ob' = ob_ports ob /\ ob_links ob' = ob_links ob /\ ob_rules ob' = ob_rules ob /\ ob_swports ob' = ob_swports ob) g.
Proof.
  intros I. unfold addEvent. w1. eapply wp_mono; [apply wp_getEvent|]. intros old g1 [-> (ob & Ho & H)]. cbv beta.
  destruct old as [x|].
  - w1. destruct H as (H1 & ev & H2 & H3 & H4). split; [by apply step_refl|]. split; [by exists ob, x, ev|]. split; [done|]. split; [done|]. split; [done|]. split; [done|]. split; [done|]. intros o' ob' H'. exists ob'. done.
  - w1. unfold galloc. unfold wp at 1. cbv beta. w1. w1. w1. w1. apply wp_oupd. cbn [g_obj g_set_evt g_set_next]. intros ob0 Ho0. assert (ob0 = ob) as -> by congruence.
    pose proof (plusEvent_step g o ob (mkEvt t o i b e l) I Ho eq_refl H) as S.
    split; [exact S|]. split.
    { eexists _, (g_next g), _. cbn. rewrite lookup_insert. split; [done|]. split; [apply sins_elem; by left|]. rewrite lookup_insert. done. }
    split; [done|]. split; [done|]. split; [done|]. split; [done|].
    split; [intros o' Hne; cbn; by rewrite lookup_insert_ne by done|]. intros o' ob'. cbn.
    destruct (decide (o = o')) as [<-|Hne]; [rewrite lookup_insert; intros [= <-]; exists ob; done|rewrite lookup_insert_ne by done; intros H'; exists ob'; done].
Qed.

(** ** Objects. *)
(** The graph with a new object, in no document. *)
Definition plusObject (g : graph) (k : kind) (i : string) : graph :=
  let o := g_next g in let x := Pos.succ o in
  g_set_obj (<[o := mkObj k i None [] x [x] [] [] [] [] []]> (g_obj g))
    (g_set_evt (<[x := mkEvt PRESENTATION o "@lambda" 0 TIME_NONE ""]> (g_evt g)) (g_set_next (Pos.succ x) g)).
Lemma plusObject_step g k i : GInv g -> step g (plusObject g k i).
Proof.
  intros I. pose (o := g_next g : oid). pose (x := Pos.succ o : eid).
  assert (Hlt : forall y : positive, (y < o)%positive -> (y < Pos.succ x)%positive) by (intros; unfold x; lia).
  assert (Ho : g_obj g !! o = None).
  { destruct (g_obj g !! o) as [ob|] eqn:E; [|done]. apply (gi_obj _ I) in E. unfold o in E. lia. }
  assert (Hx : g_evt g !! x = None).
  { destruct (g_evt g !! x) as [ob|] eqn:E; [|done]. apply (gi_evt _ I) in E. unfold x, o in E. lia. }
  pose (ev0 := mkEvt PRESENTATION o "@lambda" 0 TIME_NONE "").
  pose (ob0 := mkObj k i None [] x [x] [] [] [] [] []).
  assert (Hold : forall e ev', g_evt g !! e = Some ev' -> <[x := ev0]> (g_evt g) !! e = Some ev').
  { intros e ev' He. rewrite lookup_insert_ne; [done|]. intros Hq. rewrite <- Hq in He. congruence. }
  assert (Hfwd : forall o' ob', g_obj g !! o' = Some ob' -> <[o := ob0]> (g_obj g) !! o' = Some ob').
  { intros e ev' He. rewrite lookup_insert_ne; [done|]. intros Hq. rewrite <- Hq in He. congruence. }
  assert (Hget : forall o' ob', g_obj (plusObject g k i) !! o' = Some ob' -> (o' = o /\ ob' = ob0) \/ g_obj g !! o' = Some ob').
  { intros o' ob'. cbn. destruct (decide (o = o')) as [<-|Hne]; [rewrite lookup_insert; intros [= <-]; by left|rewrite lookup_insert_ne by done; by right]. }
  assert (Hext : gext g (plusObject g k i)).
  { split; try done.
    - intros o' ob' Ho'. exists ob'. split; [by apply Hfwd|]. done.
    - intros o' ob' ob2 _ Ho' Ho2. destruct (Hget _ _ Ho2) as [[-> _]|H2]; congruence. }
  split; [|done|].
  - split.
    + intros o' ob' H. destruct (Hget _ _ H) as [[-> ->]|H']; cbn; [fold o; fold x; unfold x; lia|]. apply Hlt. by eapply gi_obj.
    + cbn. intros e ev' He. destruct (decide (e = x)) as [->|Hne]; [fold o; fold x; unfold x; lia|]. rewrite lookup_insert_ne in He by done. apply Hlt. by eapply gi_evt.
    + intros o' ob' H. destruct (Hget _ _ H) as [[-> ->]|H'].
      * split; cbn [ob0 ob_lambda ob_events ob_children ob_parent ob_swports]; try done.
        -- exists ev0. split; [cbn; apply lookup_insert|]. split; [done|]. left.
        -- intros e He. apply elem_of_list_singleton in He as ->. exists ev0. split; [cbn; apply lookup_insert|done].
        -- intros e1 e2 ev1 ev2 H1 H2. apply elem_of_list_singleton in H1 as ->. by apply elem_of_list_singleton in H2 as ->.
        -- apply NoDup_nil_2.
        -- intros c Hc. by apply elem_of_nil in Hc.
        -- intros n l Hl. by apply elem_of_nil in Hl.
      * destruct (gi_o _ I _ _ H'). split; try done.
        -- destruct oi_lambda as (ev' & L1 & L2 & L3). exists ev'. split; [by apply Hold|]. done.
        -- intros e He. destruct (oi_events e He) as (ev' & E1 & E2). exists ev'. split; [by apply Hold|done].
        -- intros e1 e2 ev1 ev2 H1 H2 G1 G2 Ht Hi. destruct (oi_events e1 H1) as (ev1' & E1 & _). destruct (oi_events e2 H2) as (ev2' & E2 & _).
           pose proof (Hold _ _ E1) as F1. pose proof (Hold _ _ E2) as F2. change (g_evt (plusObject g k i)) with (<[x := ev0]> (g_evt g)) in G1, G2.
           assert (ev1' = ev1) as -> by congruence. assert (ev2' = ev2) as -> by congruence. eauto.
        -- intros c Hc. destruct (oi_children c Hc) as (cb & C1 & C2). exists cb. split; [by apply Hfwd|done].
        -- intros p Hp. destruct (oi_parent p Hp) as (A & B & pb & P1 & P2 & P3). split; [done|]. split; [done|]. exists pb. split; [by apply Hfwd|done].
        -- intros n l Hl. destruct (oi_swports n l Hl) as (e & ev' & E1 & E2 & E3 & E4). exists e, ev'. split; [done|]. split; [by apply Hold|done].
    + cbn. intros e ev' He. destruct (decide (e = x)) as [->|Hne].
      * rewrite lookup_insert in He. injection He as <-. exists ob0. cbn. rewrite lookup_insert. split; [done|]. left.
      * rewrite lookup_insert_ne in He by done. destruct (gi_e _ I _ _ He) as (ob' & A & B). exists ob'. split; [by apply Hfwd|done].
    + intros o' Hi. destruct (gi_objs _ I _ Hi) as (ob' & H'). exists ob'. by apply Hfwd.
    + apply (gi_objs_nodup _ I).
    + intros j o'. change (g_byid (plusObject g k i)) with (g_byid g). rewrite (gi_byid _ I). split; intros [A (ob' & H' & E)]; split; try done.
      * exists ob'. split; [by apply Hfwd|done].
      * destruct (Hget _ _ H') as [[-> ->]|H2]; [|eauto]. destruct (gi_objs _ I _ A) as (? & ?). congruence.
    + intros o'. change (g_medias (plusObject g k i)) with (g_medias g). rewrite (gi_medias _ I). split; intros [A (ob' & H' & E)]; split; try done.
      * exists ob'. split; [by apply Hfwd|done].
      * destruct (Hget _ _ H') as [[-> ->]|H2]; [|eauto]. destruct (gi_objs _ I _ A) as (? & ?). congruence.
    + apply (gi_medias_nodup _ I).
    + destruct (gi_time _ I) as (time & N & T1 & T2). exists time, N. split; [done|]. intros o' ob' p H' Hp. destruct (Hget _ _ H') as [[-> ->]|H2]; [done|eauto].
  - intros [(r & rb & R1 & R2 & R3 & R4 & R5) (s & sb & S1 & S2 & S3 & S4 & S5) K]. split.
    + exists r, rb. repeat split; try done. by apply Hfwd.
    + exists s, sb. repeat split; try done. by apply Hfwd.
    + intros o' ob' Hi H' Hk. destruct (Hget _ _ H') as [[-> ->]|H2]; [|eauto]. destruct (gi_objs _ I _ Hi) as (? & ?). congruence.
Qed.
Lemma fresh_obj g : GInv g -> g_obj g !! g_next g = None.
Proof. intros I. destruct (g_obj g !! g_next g) as [ob|] eqn:E; [|done]. apply (gi_obj _ I) in E. lia. Qed.
(** A new object. *)
Lemma wp_newObject g k i : GInv g -> pwp (newObject k i) (fun o g' => step g g' /\ g_obj g !! o = None /\
  (exists ob, g_obj g' !! o = Some ob /\ ob_kind ob = k /\ ob_id ob = i /\ ob_parent ob = None /\ ob_children ob = [] /\
     ob_aliases ob = [] /\ ob_ports ob = [] /\ ob_links ob = [] /\ ob_rules ob = [] /\ ob_swports ob = []) /\
  g_objs g' = g_objs g /\ g_byid g' = g_byid g /\ g_root g' = g_root g /\ g_settings g' = g_settings g /\
  forall o' ob', o' <> o -> g_obj g' !! o' = Some ob' <-> g_obj g !! o' = Some ob') g.
Proof.
  intros I. unfold newObject. w1. unfold galloc at 1. unfold wp at 1. cbv beta. w1. unfold galloc at 1. unfold wp at 1. cbv beta. w1. w1. w1. w1. w1.
  cbn [g_next g_set_next]. pose proof (plusObject_step g k i I) as S. set (g1 := plusObject g k i) in S.
  match goal with |- wp _ _ _ _ ?x => change x with g1 end.
  assert (Hnew : g_obj g1 !! g_next g = Some (mkObj k i None [] (Pos.succ (g_next g)) [Pos.succ (g_next g)] [] [] [] [] [])) by (cbn; apply lookup_insert).
  assert (Hoth : forall o' ob', o' <> g_next g -> g_obj g1 !! o' = Some ob' <-> g_obj g !! o' = Some ob').
  { intros o' ob' Hne. cbn. by rewrite lookup_insert_ne by done. }
  w1.
  - w1. w1. set (g2 := g_set_props _ g1).
    assert (S2 : step g1 g2). { apply step_same; [apply S|]. destruct (same_refl g1 (st_inv _ _ S)). by split. }
    eapply wp_mono; [apply wp_addEvent; apply S2|]. intros [] g3 (S3 & _ & E1 & E2 & E3 & E4 & E5 & H3). cbv beta. w1.
    split; [eapply step_trans; [exact S|]; by eapply step_trans|]. split; [by apply fresh_obj|].
    split. { destruct (gx_obj _ _ (st_ext _ _ S3) _ _ Hnew) as (ob3 & Ho3 & _). destruct (H3 _ _ Ho3) as (ob & Hob & F). pose proof (eq_trans (eq_sym Hob) Hnew) as X. injection X as ->.
      exists ob3. split; [done|]. cbn in F. destruct F as (? & ? & ? & ? & ? & ? & ? & ? & ?). done. }
    split; [done|]. split; [done|]. split; [done|]. split; [done|]. intros o' ob' Hne. rewrite <- Hoth by done. by rewrite E5.
  - w1. split; [done|]. split; [by apply fresh_obj|]. split; [by eexists|]. done.
Qed.

(** ** Attaching an object to the document, below [pc] if any. *)
Definition hung (g : graph) (o : oid) (pc : option oid) (o' : oid) (ob' : obj) : obj :=
  if decide (o' = o) then ob_set_parent pc ob'
  else if decide (Some o' = pc) then ob_set_children (sins (g_addr g) o (ob_children ob')) ob' else ob'.
Record attached (g : graph) (o : oid) (pc : option oid) (ob : obj) (g' : graph) : Prop := mkAtt {
  at_obj : forall o', g_obj g' !! o' = hung g o pc o' <$> g_obj g !! o';
  at_next : g_next g' = g_next g; at_evt : g_evt g' = g_evt g;
  at_objs : g_objs g' = sins (g_addr g) o (g_objs g);
  at_byid : g_byid g' = <[ob_id ob := o]> (g_byid g);
  at_medias : g_medias g' = if is_media (ob_kind ob) then sins (g_addr g) o (g_medias g) else g_medias g;
  at_root : g_root g' = g_root g; at_settings : g_settings g' = g_settings g
}.
Lemma hung_same g o pc o' ob' : ob_kind (hung g o pc o' ob') = ob_kind ob' /\ ob_id (hung g o pc o' ob') = ob_id ob' /\ ob_lambda (hung g o pc o' ob') = ob_lambda ob' /\
  ob_events (hung g o pc o' ob') = ob_events ob' /\ ob_swports (hung g o pc o' ob') = ob_swports ob' /\ ob_children ob' ⊆ ob_children (hung g o pc o' ob').
Proof.
  unfold hung. destruct (decide (o' = o)); [done|]. destruct (decide (Some o' = pc)); [|done]. repeat split. cbn. intros x Hx. apply sins_elem. by right.
Qed.
Lemma attach_step g o pc ob g' : GInv g -> g_obj g !! o = Some ob -> o ∉ g_objs g -> g_byid g !! ob_id ob = None ->
  (forall c, pc = Some c -> c ∈ g_objs g /\ exists cb, g_obj g !! c = Some cb /\ isComp (ob_kind cb) = true) ->
  (g_settings g <> None -> ob_kind ob <> KSettings) -> attached g o pc ob g' -> step g g'.
Proof.
  intros I Ho Hno Hid Hpc Hset AT.
  assert (Hpar : ob_parent ob = None).
  { destruct (ob_parent ob) as [p|] eqn:E; [|done]. by destruct (oi_parent _ _ _ (gi_o _ I _ _ Ho) _ E) as [H _]. }
  assert (Hchild : forall o' ob', g_obj g !! o' = Some ob' -> o ∉ ob_children ob').
  { intros o' ob' H' Hc. destruct (oi_children _ _ _ (gi_o _ I _ _ H') _ Hc) as (cb & E1 & E2). congruence. }
  assert (Hnoc : forall o' ob', g_obj g !! o' = Some ob' -> ob_parent ob' <> Some o).
  { intros o' ob' H' Hp. by destruct (oi_parent _ _ _ (gi_o _ I _ _ H') _ Hp) as (_ & H & _). }
  assert (Hne : forall c, pc = Some c -> c <> o) by (intros c Hc ->; by destruct (Hpc _ Hc)).
  assert (Hfwd : forall o' ob', g_obj g !! o' = Some ob' -> g_obj g' !! o' = Some (hung g o pc o' ob')).
  { intros o' ob' H'. by rewrite (at_obj _ _ _ _ _ AT), H'. }
  assert (Hbwd : forall o' ob2, g_obj g' !! o' = Some ob2 -> exists ob', g_obj g !! o' = Some ob' /\ ob2 = hung g o pc o' ob').
  { intros o' ob2. rewrite (at_obj _ _ _ _ _ AT). destruct (g_obj g !! o') as [ob'|]; cbn; [|done]. intros [= <-]. eauto. }
  assert (Hparo : forall o' ob', o' <> o -> ob_parent (hung g o pc o' ob') = ob_parent ob').
  { intros o' ob' Hn. unfold hung. rewrite decide_False by done. by destruct (decide _). }
  assert (Hparn : forall ob', ob_parent (hung g o pc o ob') = pc) by (intros; unfold hung; by rewrite decide_True by done).
  assert (Hchio : forall ob', ob_children (hung g o pc o ob') = ob_children ob') by (intros; unfold hung; by rewrite decide_True by done).
  assert (Hincl : g_objs g ⊆ g_objs g') by (rewrite (at_objs _ _ _ _ _ AT); intros y Hy; apply sins_elem; by right).
  assert (Hin : forall y, y ∈ g_objs g' <-> y = o \/ y ∈ g_objs g) by (intros y; rewrite (at_objs _ _ _ _ _ AT); apply sins_elem).
  assert (Hext : gext g g').
  { split.
    - intros o' ob' H'. exists (hung g o pc o' ob'). destruct (hung_same g o pc o' ob') as (E1 & E2 & E3 & E4 & E5 & E6).
      split; [by apply Hfwd|]. rewrite E4. repeat split; try done. intros p Hp. rewrite Hparo; [done|]. intros ->. congruence.
    - by rewrite (at_evt _ _ _ _ _ AT).
    - done.
    - intros o' ob' ob2 Hi H' H2. rewrite (Hfwd _ _ H') in H2. injection H2 as <-. apply Hparo. by intros ->.
    - apply AT. }
  split; [|done|].
  - split.
    + intros o' ob2 H. destruct (Hbwd _ _ H) as (ob' & H' & _). rewrite (at_next _ _ _ _ _ AT). by eapply gi_obj.
    + rewrite (at_evt _ _ _ _ _ AT), (at_next _ _ _ _ _ AT). apply I.
    + intros o' ob2 H. destruct (Hbwd _ _ H) as (ob' & H' & ->). destruct (hung_same g o pc o' ob') as (E1 & E2 & E3 & E4 & E5 & E6).
      destruct (gi_o _ I _ _ H'). split; rewrite ?E3, ?E4, ?E5, ?(at_evt _ _ _ _ _ AT); try done.
      * unfold hung. destruct (decide (o' = o)); [done|]. destruct (decide _); [|done]. cbn. apply sins_nodup; [done|]. by eapply Hchild.
      * intros c Hc. assert (Hc' : c ∈ ob_children ob' \/ (c = o /\ pc = Some o')).
        { unfold hung in Hc. destruct (decide (o' = o)); [by left|]. destruct (decide _) as [Hq|]; [|by left]. cbn in Hc. apply sins_elem in Hc as [->|Hc]; [by right|by left]. }
        destruct Hc' as [Hc'|[-> Hq]].
        -- destruct (oi_children c Hc') as (cb & C1 & C2). exists (hung g o pc c cb). split; [by apply Hfwd|]. rewrite Hparo; [done|]. intros ->. exact (Hchild _ _ H' Hc').
        -- exists (hung g o pc o ob). split; [by apply Hfwd|]. by rewrite Hparn.
      * intros p Hp. destruct (decide (o' = o)) as [->|Hn].
        -- rewrite Hparn in Hp. destruct (Hpc _ Hp) as (A & cb & B & C). split; [apply Hin; by left|]. split; [by apply Hincl|].
           exists (hung g o pc p cb). split; [by apply Hfwd|]. destruct (hung_same g o pc p cb) as (F1 & _). rewrite F1. split; [|done].
           unfold hung. rewrite decide_False by (by apply Hne). rewrite decide_True by done. apply sins_elem. by left.
        -- rewrite Hparo in Hp by done. destruct (oi_parent p Hp) as (A & B & pb & P1 & P2 & P3). split; [by apply Hincl|]. split; [by apply Hincl|].
           exists (hung g o pc p pb). split; [by apply Hfwd|]. destruct (hung_same g o pc p pb) as (F1 & _ & _ & _ & _ & F6). rewrite F1. split; [by apply F6|done].
    + rewrite (at_evt _ _ _ _ _ AT). intros e ev He. destruct (gi_e _ I _ _ He) as (ob' & A & B). exists (hung g o pc (ev_obj ev) ob'). split; [by apply Hfwd|].
      destruct (hung_same g o pc (ev_obj ev) ob') as (_ & _ & _ & F4 & _). by rewrite F4.
    + intros o' Hi. apply Hin in Hi as [->|Hi]; [eexists; by apply Hfwd|]. destruct (gi_objs _ I _ Hi) as (ob' & H'). eexists. by apply Hfwd.
    + rewrite (at_objs _ _ _ _ _ AT). apply sins_nodup; [apply I|done].
    + intros i o'. rewrite (at_byid _ _ _ _ _ AT), Hin. destruct (decide (ob_id ob = i)) as [<-|Hni].
      * rewrite lookup_insert. split.
        -- intros [= <-]. split; [by left|]. eexists. split; [by apply Hfwd|]. apply hung_same.
        -- intros [[->|A] (ob2 & H & E)]; [done|]. destruct (Hbwd _ _ H) as (ob' & H' & ->). destruct (hung_same g o pc o' ob') as (_ & F2 & _). rewrite F2 in E.
           exfalso. assert (g_byid g !! ob_id ob = Some o') as X by (apply (gi_byid _ I); eauto). congruence.
      * rewrite lookup_insert_ne by done. rewrite (gi_byid _ I). split; intros [A (ob2 & H & E)].
        -- split; [by right|]. exists (hung g o pc o' ob2). split; [by apply Hfwd|]. destruct (hung_same g o pc o' ob2) as (_ & F2 & _). congruence.
        -- destruct (Hbwd _ _ H) as (ob' & H' & ->). destruct (hung_same g o pc o' ob') as (_ & F2 & _). destruct A as [->|A]; [congruence|]. split; [done|]. exists ob'. split; [done|congruence].
    + intros o'. rewrite Hin, (at_medias _ _ _ _ _ AT). assert (X : o' ∈ (if is_media (ob_kind ob) then sins (g_addr g) o (g_medias g) else g_medias g) <-> (o' = o /\ is_media (ob_kind ob) = true) \/ o' ∈ g_medias g).
      { destruct (is_media (ob_kind ob)); [rewrite sins_elem; tauto|]. split; [by right|]. by intros [[_ ?]|?]. }
      rewrite X, (gi_medias _ I). split.
      * intros [[-> Hm]|[A (ob' & H' & E)]].
        -- split; [by left|]. eexists. split; [by apply Hfwd|]. destruct (hung_same g o pc o ob) as (F1 & _). by rewrite F1.
        -- split; [by right|]. eexists. split; [by apply Hfwd|]. destruct (hung_same g o pc o' ob') as (F1 & _). by rewrite F1.
      * intros [A (ob2 & H & E)]. destruct (Hbwd _ _ H) as (ob' & H' & ->). destruct (hung_same g o pc o' ob') as (F1 & _). rewrite F1 in E.
        destruct A as [->|A]; [left; split; [done|congruence]|right; split; [done|eauto]].
    + rewrite (at_medias _ _ _ _ _ AT). destruct (is_media _); [|apply I]. apply sins_nodup; [apply I|]. intros H. by apply (gi_medias _ I) in H as [? _].
    + destruct (gi_time _ I) as (time & N & T1 & T2). exists (fun y => if decide (y = o) then N else time y), (S N). split.
      * intros y Hy. apply Hin in Hy as [->|Hy]; [rewrite decide_True by done; lia|]. destruct (decide _); [lia|]. pose proof (T1 _ Hy). lia.
      * intros o' ob2 p H Hp. destruct (Hbwd _ _ H) as (ob' & H' & ->). destruct (decide (o' = o)) as [->|Hn].
        -- rewrite Hparn in Hp. rewrite decide_False by (by apply Hne). apply T1. by destruct (Hpc _ Hp).
        -- rewrite Hparo in Hp by done. rewrite decide_False by (intros ->; exact (Hnoc _ _ H' Hp)). by eapply T2.
  - intros [(r & rb & R1 & R2 & R3 & R4 & R5) (s & sb & S1 & S2 & S3 & S4 & S5) K]. split.
    + exists r, (hung g o pc r rb). rewrite (at_root _ _ _ _ _ AT). destruct (hung_same g o pc r rb) as (F1 & _). repeat split; [done|by apply Hincl|by apply Hfwd|congruence|]. rewrite Hparo; [done|]. by intros ->.
    + exists s, (hung g o pc s sb). rewrite (at_root _ _ _ _ _ AT), (at_settings _ _ _ _ _ AT). destruct (hung_same g o pc s sb) as (F1 & _). repeat split; [done|by apply Hincl|by apply Hfwd|congruence|]. rewrite Hparo; [done|]. by intros ->.
    + intros o' ob2 Hi H Hk. rewrite (at_settings _ _ _ _ _ AT). destruct (Hbwd _ _ H) as (ob' & H' & ->). destruct (hung_same g o pc o' ob') as (F1 & _). rewrite F1 in Hk.
      apply Hin in Hi as [->|Hi]; [|eauto]. exfalso. apply Hset; congruence.
Qed.

(** ** Looking objects up. *)
Lemma aliasIn_spec g i o : aliasIn g i o = true <-> withAlias g o i.
Proof.
  unfold aliasIn, withAlias. destruct (g_obj g !! o) as [ob|]; [|split; [done|by intros (? & ? & ? & _)]].
  cbv beta iota. unfold ghasAlias. rewrite existsb_exists. split.
  - intros ([a p] & H & E). apply String.eqb_eq in E. cbn in E. subst a. exists ob, p. split; [done|by apply elem_of_list_In].
  - intros (ob' & p & [= <-] & H). exists (i, p). split; [by apply elem_of_list_In|]. cbn. by apply String.eqb_eq.
Qed.
Lemma idIs_spec g i o : idIs g i o = true <-> withId g o i.
Proof.
  unfold idIs, withId. destruct (g_obj g !! o) as [ob|]; [|split; [done|by intros (? & ? & _)]].
  rewrite String.eqb_eq. split; [eauto|]. by intros (ob' & [= <-] & ?).
Qed.
Lemma find_elem {A} (f : A -> bool) l : match List.find f l with Some x => x ∈ l /\ f x = true | None => forall x, x ∈ l -> f x = false end.
Proof.
  destruct (List.find f l) as [x|] eqn:E.
  - apply find_some in E as [? ?]. split; [by apply elem_of_list_In|done].
  - intros x Hx. eapply find_none; [exact E|by apply elem_of_list_In].
Qed.
Lemma lookup_spec g i : GInv g -> exists r, glookup i g = Ok r g /\
  match r with
  | Some o => o ∈ g_objs g /\ (withId g o i \/ (withAlias g o i /\ forall o', o' ∈ g_objs g -> ~ withId g o' i))
  | None => forall o, o ∈ g_objs g -> ~ withId g o i /\ ~ withAlias g o i
  end.
Proof.
  intros I. unfold glookup, gets. eexists. split; [done|].
  destruct (g_byid g !! i) as [o|] eqn:E.
  - apply (gi_byid _ I) in E as [A B]. split; [done|]. by left.
  - assert (Hno : forall o, o ∈ g_objs g -> ~ withId g o i).
    { intros o Ho Hi. assert (g_byid g !! i = Some o) by (by apply (gi_byid _ I)). congruence. }
    pose proof (find_elem (aliasIn g i) (g_objs g)) as X. destruct (List.find _ _) as [o|].
    + destruct X as [X1 X2]. apply aliasIn_spec in X2. split; [done|]. by right.
    + intros o Ho. split; [by apply Hno|]. rewrite <- aliasIn_spec. by rewrite X.
Qed.
Lemma wp_lookup g i : GInv g -> pwp (glookup i) (fun r g' => g' = g /\ match r with
  | Some o => o ∈ g_objs g /\ (withId g o i \/ withAlias g o i)
  | None => forall o, o ∈ g_objs g -> ~ withId g o i /\ ~ withAlias g o i end) g.
Proof.
  intros I. destruct (lookup_spec g i I) as (r & E & H). unfold wp. rewrite E. split; [done|]. destruct r; [|done]. destruct H as [A [B|[B _]]]; auto.
Qed.

(** Document::addObject. *)
Lemma wp_addObject g o : GInv g -> pwp (addObject o) (fun b g' => exists ob, g_obj g !! o = Some ob /\
  if b then step g g' /\ attached g o None ob g' /\ o ∉ g_objs g /\ (forall o', o' ∈ g_objs g -> ~ withId g o' (ob_id ob) /\ ~ withAlias g o' (ob_id ob)) /\ (g_settings g <> None -> ob_kind ob <> KSettings)
  else g' = g /\ (o ∈ g_objs g \/ exists o', o' ∈ g_objs g /\ (withId g o' (ob_id ob) \/ withAlias g o' (ob_id ob)))) g.
Proof.
  intros I. unfold addObject. w1. apply wp_gobj. intros ob Ho. w1. w1. w1. eapply wp_mono; [by apply wp_lookup|]. intros r g1 [-> Hr]. cbv beta.
  w1.
  - w1. exists ob. split; [done|]. split; [done|]. apply orb_true_iff in H as [H|H]; [left; by apply bool_decide_eq_true in H|].
    right. destruct r as [o'|]; [|done]. exists o'. done.
  - apply orb_false_iff in H as [H1 H2]. destruct r as [o'|]; [done|]. apply bool_decide_eq_false in H1. w1. w1. w1. w1. w1. exists ob. split; [done|].
    assert (Hset : g_settings g <> None -> ob_kind ob <> KSettings).
    { intros Hs Hk. rewrite Hk in H. destruct (g_settings g); [|done]. by rewrite bool_decide_true in H. }
    assert (Hp : ob_parent ob = None).
    { destruct (ob_parent ob) as [p|] eqn:E; [|done]. by destruct (oi_parent _ _ _ (gi_o _ I _ _ Ho) _ E) as [X _]. }
    set (g' := g_set_doc _ _ _ g). assert (AT : attached g o None ob g').
    { split; try done. intros o'. cbn. destruct (g_obj g !! o') as [ob'|] eqn:E; [|done]. cbn. f_equal. unfold hung. rewrite (decide_False (P := Some o' = None)) by done.
      destruct (decide (o' = o)) as [->|]; [|done]. assert (ob' = ob) as -> by congruence. unfold ob_set_parent. destruct ob; cbn in *. by subst. }
    split; [|done]. eapply (attach_step g o None ob); try done.
    destruct (g_byid g !! ob_id ob) as [o'|] eqn:E; [|done]. apply (gi_byid _ I) in E as [A B]. by destruct (Hr o' A).
Qed.
(** Adding an object whose id is taken fails and changes nothing. *)

(** Composition::addChild. *)
Lemma wp_addChild g c o : GInv g -> pwp (addChild c o) (fun _ g' => step g g' /\ (exists cb, g_obj g' !! c = Some cb /\ o ∈ ob_children cb) /\ c ∈ g_objs g /\ o ∈ g_objs g' /\
  (forall cb ob, g_obj g !! c = Some cb -> g_obj g !! o = Some ob -> o ∉ ob_children cb -> attached g o (Some c) ob g')) g.
Proof.
  intros I. unfold addChild. w1. apply wp_gobj. intros cb Hc. w1. apply wp_gobj. intros ob Ho. w1.
  - w1. apply bool_decide_eq_true in H. split; [by apply step_refl|]. split; [by exists cb|].
    destruct (oi_children _ _ _ (gi_o _ I _ _ Hc) _ H) as (ob' & E1 & E2). destruct (oi_parent _ _ _ (gi_o _ I _ _ E1) _ E2) as (A & B & _). split; [done|]. split; [done|].
    intros cb0 ob0 Hc0 Ho0 Hn. exfalso. assert (cb0 = cb) as -> by congruence. done.
  - apply bool_decide_eq_false in H. w1. apply negb_false_iff in H0. w1. w1. w1. apply wp_oupd. intros cb' Hc'. assert (cb' = cb) as -> by congruence.
    w1. apply wp_gobj. cbn [g_obj g_set_obj]. intros ob1 Ho1. w1. w1. w1. apply wp_oupd. cbn [g_obj g_set_obj]. intros ob2 Ho2. assert (ob2 = ob1) as -> by congruence.
    w1. apply negb_false_iff, bool_decide_eq_true in H2. w1.
    (* the state is not yet good: unfold addObject by hand *)
    unfold addObject. w1. apply wp_gobj. cbn [g_obj g_set_obj]. intros ob3 Ho3. rewrite lookup_insert in Ho3. injection Ho3 as <-. w1. w1. w1. unfold glookup. w1.
    cbn [g_byid g_set_obj g_objs ob_id ob_set_parent]. w1. w1. w1. w1. w1. w1. w1. clear H5.
    apply orb_false_iff in H3 as [H3 H5]. apply bool_decide_eq_false in H3.
    assert (Hne : c <> o) by (intros ->; done).
    rewrite lookup_insert_ne in Ho1 by done. assert (ob1 = ob) as -> by congruence.
    assert (Hset : g_settings g <> None -> ob_kind ob <> KSettings).
    { intros Hs Hk. cbn in H4. rewrite Hk in H4. destruct (g_settings g); [|done]. by rewrite bool_decide_true in H4. }
    set (g' := g_set_doc _ _ _ _). assert (AT : attached g o (Some c) ob g').
    { split; try done. intros o'. cbn. unfold hung. destruct (decide (o' = o)) as [->|Hn]; [rewrite lookup_insert, Ho; done|]. rewrite lookup_insert_ne by done.
      destruct (decide (o' = c)) as [->|Hn2]; [rewrite lookup_insert, Hc; cbn; by rewrite decide_True by done|]. rewrite lookup_insert_ne by done.
      destruct (g_obj g !! o'); cbn; [|done]. by rewrite decide_False by congruence. }
    split.
    { eapply attach_step; try done.
      - destruct (g_byid g !! ob_id ob); done.
      - intros c' [= <-]. split; [done|]. eauto. }
    split. { exists (hung g o (Some c) c cb). rewrite (at_obj _ _ _ _ _ AT), Hc. split; [done|]. unfold hung. rewrite decide_False, decide_True by done. apply sins_elem. by left. }
    split; [done|]. split; [rewrite (at_objs _ _ _ _ _ AT); apply sins_elem; by left|].
    intros cb0 ob0 Hc0 Ho0 _. assert (ob0 = ob) as -> by congruence. done.
Qed.
Lemma passign_elem {A} k (v : A) l n x : (n, x) ∈ passign k v l -> (n = k) \/ (n, x) ∈ l.
Proof.
  induction l as [|[k' v'] l IH]; cbn.
  - intros H. apply elem_of_list_singleton in H. injection H as -> ->. by left.
  - destruct (String.eqb k' k); intros H; apply elem_of_cons in H as [H|H].
    + injection H as -> ->. by left.
    + right. by right.
    + injection H as -> ->. right. left.
    + destruct (IH H) as [?|?]; [by left|]. right. by right.
Qed.
Lemma addSwitchPort_step g c i l : GInv g -> pwp (addSwitchPort c i l) (fun _ g' => step g g') g.
Proof.
  intros I. unfold addSwitchPort. w1. eapply wp_mono; [by apply wp_addEvent|]. intros [] g1 (S & (ob' & x & ev & E1 & E2 & E3 & E4 & E5) & _). cbv beta.
  eapply wp_mono; [apply oupd_step; [apply S|]|intros [] g2 S2; by eapply step_trans].
  intros ob Ho. assert (ob' = ob) as -> by congruence. repeat split; try done. cbn. intros n l' Hl. apply passign_elem in Hl as [->|Hl]; [right; eauto 10|left; eauto].
Qed.
Lemma inv_root g x : GInv g -> GInv (g_set_root x g).
Proof. intros []. split; try done. intros o ob Ho. destruct (gi_o _ _ Ho). by split. Qed.
Lemma inv_settings g x : GInv g -> GInv (g_set_settings x g).
Proof. intros []. split; try done. intros o ob Ho. destruct (gi_o _ _ Ho). by split. Qed.
Lemma newDocument_ok addr f : pwp newDocument (fun _ g => GInv g /\ GDoc g) (emptyGraph addr f).
Proof.
  unfold newDocument. w1. eapply wp_mono; [apply wp_newObject, ginv_empty|]. intros r g1 (S1 & N1 & (rb & R1 & R2 & R3 & R4 & R5 & R6) & E1 & E2 & E3 & E4 & E5). cbv beta.
  w1. w1. w1. set (g2 := g_set_root (Some r) g1). assert (I2 : GInv g2) by apply inv_root, S1.
  eapply wp_mono; [by apply wp_addObject|]. intros b g3 (ob & Ho & H). cbv beta. w1. w1. subst b. destruct H as (S3 & AT3 & Hno & _ & _).
  assert (ob = rb) as -> by (cbn in Ho; congruence).
  w1. eapply wp_mono; [apply wp_newObject; apply S3|]. intros s g4 (S4 & N4 & (sb & B1 & B2 & B3 & B4 & B5 & B6) & F1 & F2 & F3 & F4 & F5). cbv beta.
  w1. eapply wp_mono; [apply wp_addChild; apply S4|]. intros [] g5 (S5 & (cb & C1 & C2) & C3 & C4 & AT). cbv beta. w1.
  assert (Hrb : g_obj g3 !! r = Some (ob_set_parent None rb)).
  { rewrite (at_obj _ _ _ _ _ AT3). cbn. rewrite R1. cbn. unfold hung. by rewrite decide_True by done. }
  assert (Hrs : r <> s) by (intros ->; congruence).
  assert (Hr4 : g_obj g4 !! r = Some (ob_set_parent None rb)) by (apply F5; done).
  specialize (AT _ _ Hr4 B1). assert (Hn : s ∉ ob_children (ob_set_parent None rb)). { cbn. rewrite R5. by apply not_elem_of_nil. } specialize (AT Hn).
  split; [apply inv_settings, S5|].
  assert (Hobjs : forall o, o ∈ g_objs g5 -> o = s \/ o = r).
  { intros o. rewrite (at_objs _ _ _ _ _ AT), F1, (at_objs _ _ _ _ _ AT3). cbn. rewrite E1. rewrite sins_elem, sins_elem. cbn. intros [?|[?|Hc]]; [by left|by right|]. by apply elem_of_nil in Hc. }
  assert (Hr5 : g_obj g5 !! r = Some (hung g4 s (Some r) r (ob_set_parent None rb))) by (by rewrite (at_obj _ _ _ _ _ AT), Hr4).
  assert (Hs5 : g_obj g5 !! s = Some (hung g4 s (Some r) s sb)) by (by rewrite (at_obj _ _ _ _ _ AT), B1).
  assert (Hroot : g_root g5 = Some r) by (by rewrite (at_root _ _ _ _ _ AT), F3, (at_root _ _ _ _ _ AT3)).
  split; cbn [g_root g_settings g_set_settings g_objs g_obj].
  - exists r. eexists. split; [done|]. split; [by apply (gx_objs _ _ (st_ext _ _ S5))|]. split; [done|].
    destruct (hung_same g4 s (Some r) r (ob_set_parent None rb)) as (G1 & _). split; [by rewrite G1|]. unfold hung. rewrite decide_False, decide_True by done. done.
  - exists s. eexists. split; [done|]. split; [done|]. split; [done|]. destruct (hung_same g4 s (Some r) s sb) as (G1 & _). split; [by rewrite G1|].
    rewrite Hroot. unfold hung. by rewrite decide_True by done.
  - intros o ob Hi Hob Hk. destruct (Hobjs o Hi) as [ -> | -> ]; [done|]. exfalso. rewrite Hr5 in Hob. injection Hob as <-.
    destruct (hung_same g4 s (Some r) r (ob_set_parent None rb)) as (G1 & _). rewrite G1 in Hk. cbn in Hk. congruence.
Qed.

(** BuildInv.v -- the invariant of documents under construction. *)
From Verif Require Import Builder Frame Wf.
Open Scope string_scope.
Open Scope list_scope.

Lemma sins_elem a x l y : y ∈ sins a x l <-> y = x \/ y ∈ l.
Proof.
  induction l as [|z l IH]; cbn; [set_solver|]. destruct (a x <? a z)%positive; set_solver.
Qed.
Lemma sins_nodup a x l : NoDup l -> x ∉ l -> NoDup (sins a x l).
Proof.
  induction l as [|z l IH]; cbn; intros Hn Hx; [by apply NoDup_singleton|]. destruct (a x <? a z)%positive.
  - by apply stdpp.list.NoDup_cons.
  - apply stdpp.list.NoDup_cons in Hn as [H1 H2]. apply stdpp.list.NoDup_cons. split; [|apply IH; set_solver]. rewrite sins_elem. set_solver.
Qed.

Record oinv (g : graph) (o : oid) (ob : obj) : Prop := mkOI {
  oi_lambda : exists ev, g_evt g !! ob_lambda ob = Some ev /\ isLambda ev = true /\ ob_lambda ob ∈ ob_events ob;
  oi_events : forall e, e ∈ ob_events ob -> exists ev, g_evt g !! e = Some ev /\ ev_obj ev = o;
  oi_uniq : forall e1 e2 ev1 ev2, e1 ∈ ob_events ob -> e2 ∈ ob_events ob -> g_evt g !! e1 = Some ev1 -> g_evt g !! e2 = Some ev2 ->
    ev_type ev1 = ev_type ev2 -> ev_id ev1 = ev_id ev2 -> e1 = e2;
  oi_nodup : NoDup (ob_children ob);
  oi_children : forall c, c ∈ ob_children ob -> exists cb, g_obj g !! c = Some cb /\ ob_parent cb = Some o;
  oi_parent : forall p, ob_parent ob = Some p -> o ∈ g_objs g /\ p ∈ g_objs g /\ exists pb, g_obj g !! p = Some pb /\ o ∈ ob_children pb /\ isComp (ob_kind pb) = true;
  oi_swports : forall name l, (name, l) ∈ ob_swports ob -> exists e ev, e ∈ ob_events ob /\ g_evt g !! e = Some ev /\ ev_type ev = PRESENTATION /\ ev_id ev = name
}.
Record GInv (g : graph) : Prop := mkGI {
  gi_obj : forall o ob, g_obj g !! o = Some ob -> (o < g_next g)%positive;
  gi_evt : forall e ev, g_evt g !! e = Some ev -> (e < g_next g)%positive;
  gi_o : forall o ob, g_obj g !! o = Some ob -> oinv g o ob;
  gi_e : forall e ev, g_evt g !! e = Some ev -> exists ob, g_obj g !! ev_obj ev = Some ob /\ e ∈ ob_events ob;
  gi_objs : forall o, o ∈ g_objs g -> is_Some (g_obj g !! o);
  gi_objs_nodup : NoDup (g_objs g);
  gi_byid : forall i o, g_byid g !! i = Some o <-> o ∈ g_objs g /\ exists ob, g_obj g !! o = Some ob /\ ob_id ob = i;
  gi_medias : forall o, o ∈ g_medias g <-> o ∈ g_objs g /\ exists ob, g_obj g !! o = Some ob /\ is_media (ob_kind ob) = true;
  gi_medias_nodup : NoDup (g_medias g);
  gi_time : exists (time : oid -> nat) N, (forall o, o ∈ g_objs g -> time o < N) /\
    forall o ob p, g_obj g !! o = Some ob -> ob_parent ob = Some p -> time p < time o
}.
(** The document has its root and its settings. *)
Record GDoc (g : graph) : Prop := mkGD {
  gd_root : exists r rb, g_root g = Some r /\ r ∈ g_objs g /\ g_obj g !! r = Some rb /\ ob_kind rb = KContext /\ ob_parent rb = None;
  gd_settings : exists s sb, g_settings g = Some s /\ s ∈ g_objs g /\ g_obj g !! s = Some sb /\ ob_kind sb = KSettings /\ ob_parent sb = g_root g;
  gd_kset : forall o ob, o ∈ g_objs g -> g_obj g !! o = Some ob -> ob_kind ob = KSettings -> g_settings g = Some o
}.
(** What construction never undoes. *)
Record gext (g g' : graph) : Prop := mkGX {
  gx_obj : forall o ob, g_obj g !! o = Some ob -> exists ob', g_obj g' !! o = Some ob' /\ ob_kind ob' = ob_kind ob /\ ob_id ob' = ob_id ob /\
    ob_lambda ob' = ob_lambda ob /\ ob_events ob ⊆ ob_events ob' /\ ob_children ob ⊆ ob_children ob' /\
    (forall p, ob_parent ob = Some p -> ob_parent ob' = Some p);
  gx_evt : forall e ev, g_evt g !! e = Some ev -> g_evt g' !! e = Some ev;
  gx_objs : g_objs g ⊆ g_objs g';
  gx_in : forall o ob ob', o ∈ g_objs g -> g_obj g !! o = Some ob -> g_obj g' !! o = Some ob' -> ob_parent ob' = ob_parent ob;
  gx_root : g_root g' = g_root g
}.
Lemma gext_refl g : gext g g.
Proof. split; try done; [|intros; congruence]. intros o ob Ho. exists ob. repeat split; done. Qed.
Lemma gext_trans g1 g2 g3 : gext g1 g2 -> gext g2 g3 -> gext g1 g3.
Proof.
  intros H1 H2. split.
  - intros o ob Ho. destruct (gx_obj _ _ H1 _ _ Ho) as (ob2 & Ho2 & E1 & E2 & E3 & E4 & E5 & E6).
    destruct (gx_obj _ _ H2 _ _ Ho2) as (ob3 & Ho3 & F1 & F2 & F3 & F4 & F5 & F6).
    exists ob3. split; [done|]. split; [congruence|]. split; [congruence|]. split; [congruence|]. split; [set_solver|]. split; [set_solver|]. auto.
  - intros e ev He. apply (gx_evt _ _ H2), (gx_evt _ _ H1), He.
  - pose proof (gx_objs _ _ H1). pose proof (gx_objs _ _ H2). set_solver.
  - intros o ob ob' Hi Ho Ho'. destruct (gx_obj _ _ H1 _ _ Ho) as (ob2 & Ho2 & _).
    rewrite (gx_in _ _ H2 o ob2 ob'); [by apply (gx_in _ _ H1 o ob ob2)| |done|done]. by apply (gx_objs _ _ H1).
  - by rewrite (gx_root _ _ H2), (gx_root _ _ H1).
Qed.

Lemma ginv_empty addr f : GInv (emptyGraph addr f).
Proof.
  split; cbn; try done.
  - intros o H. by apply elem_of_nil in H.
  - apply NoDup_nil_2.
  - intros i o. split; [done|]. intros [H _]. by apply elem_of_nil in H.
  - intros o. split; [intros H; by apply elem_of_nil in H|]. by intros [H _].
  - apply NoDup_nil_2.
  - exists (fun _ => 0), 0. split; [intros o H; by apply elem_of_nil in H|]. done.
Qed.

(** ** Changes of fields the invariant does not mention. *)
Definition cosmetic (f : obj -> obj) : Prop := forall ob, ob_kind (f ob) = ob_kind ob /\ ob_id (f ob) = ob_id ob /\ ob_lambda (f ob) = ob_lambda ob /\
  ob_events (f ob) = ob_events ob /\ ob_children (f ob) = ob_children ob /\ ob_parent (f ob) = ob_parent ob /\ ob_swports (f ob) = ob_swports ob.

(** Same objects up to cosmetic changes. *)
Record same (g g' : graph) : Prop := mkSame {
  sm_next : g_next g' = g_next g;
  sm_obj : forall o, match g_obj g !! o, g_obj g' !! o with
    | Some ob, Some ob' => ob_kind ob' = ob_kind ob /\ ob_id ob' = ob_id ob /\ ob_lambda ob' = ob_lambda ob /\
        ob_events ob' = ob_events ob /\ ob_children ob' = ob_children ob /\ ob_parent ob' = ob_parent ob /\
        (forall n l', (n, l') ∈ ob_swports ob' -> exists e ev, e ∈ ob_events ob /\ g_evt g !! e = Some ev /\ ev_type ev = PRESENTATION /\ ev_id ev = n)
    | None, None => True | _, _ => False end;
  sm_evt : g_evt g' = g_evt g;
  sm_objs : g_objs g' = g_objs g; sm_byid : g_byid g' = g_byid g; sm_medias : g_medias g' = g_medias g;
  sm_root : g_root g' = g_root g; sm_settings : g_settings g' = g_settings g
}.
Lemma same_some g g' o ob' : same g g' -> g_obj g' !! o = Some ob' -> exists ob, g_obj g !! o = Some ob /\
  ob_kind ob' = ob_kind ob /\ ob_id ob' = ob_id ob /\ ob_lambda ob' = ob_lambda ob /\
        ob_events ob' = ob_events ob /\ ob_children ob' = ob_children ob /\ ob_parent ob' = ob_parent ob.
Proof. intros S H. pose proof (sm_obj _ _ S o) as X. rewrite H in X. destruct (g_obj g !! o) as [ob|]; [|done]. exists ob. destruct X as (?&?&?&?&?&?&?). done. Qed.
Lemma same_fwd g g' o ob : same g g' -> g_obj g !! o = Some ob -> exists ob', g_obj g' !! o = Some ob' /\
  ob_kind ob' = ob_kind ob /\ ob_id ob' = ob_id ob /\ ob_lambda ob' = ob_lambda ob /\
        ob_events ob' = ob_events ob /\ ob_children ob' = ob_children ob /\ ob_parent ob' = ob_parent ob.
Proof. intros S H. pose proof (sm_obj _ _ S o) as X. rewrite H in X. destruct (g_obj g' !! o) as [ob'|]; [|done]. exists ob'. destruct X as (?&?&?&?&?&?&?). done. Qed.
Lemma same_inv g g' : same g g' -> GInv g -> GInv g'.
Proof.
  intros S I. destruct (sm_evt _ _ S) as [].  split.
  - intros o ob' Ho. destruct (same_some _ _ _ _ S Ho) as (ob & H & _). rewrite (sm_next _ _ S). by eapply gi_obj.
  - intros e ev He. rewrite (sm_next _ _ S). rewrite (sm_evt _ _ S) in He. by eapply gi_evt.
  - intros o ob' Ho. destruct (same_some _ _ _ _ S Ho) as (ob & H & E1 & E2 & E3 & E4 & E5 & E6).
    destruct (gi_o _ I _ _ H). split; rewrite ?E3, ?E4, ?E5, ?E6, ?(sm_evt _ _ S), ?(sm_objs _ _ S); try done.
    + intros c Hc. destruct (oi_children0 c Hc) as (cb & Hcb & Hp). destruct (same_fwd _ _ _ _ S Hcb) as (cb' & Hcb' & _ & _ & _ & _ & _ & F). exists cb'. split; [done|congruence].
    + intros p Hp. destruct (oi_parent0 p Hp) as (A & B & pb & Hpb & Hc & Hk). split; [done|]. split; [done|].
      destruct (same_fwd _ _ _ _ S Hpb) as (pb' & Hpb' & F1 & _ & _ & _ & F5 & _). exists pb'. rewrite F5, F1. done.
    + intros n l Hl. pose proof (sm_obj _ _ S o) as X. rewrite Ho, H in X. destruct X as (_ & _ & _ & _ & _ & _ & X). by eapply X.
  - rewrite (sm_evt _ _ S). intros e ev He. destruct (gi_e _ I _ _ He) as (ob & H & Hi). destruct (same_fwd _ _ _ _ S H) as (ob' & H' & _ & _ & _ & F4 & _). exists ob'. by rewrite F4.
  - rewrite (sm_objs _ _ S). intros o Ho. destruct (gi_objs _ I _ Ho) as (ob & H). destruct (same_fwd _ _ _ _ S H) as (ob' & H' & _). by exists ob'.
  - rewrite (sm_objs _ _ S). apply I.
  - rewrite (sm_objs _ _ S), (sm_byid _ _ S). intros i o. rewrite (gi_byid _ I). split; intros [A (ob & H & F)]; split; try done.
    + destruct (same_fwd _ _ _ _ S H) as (ob' & H' & _ & F2 & _). exists ob'. split; [done|congruence].
    + destruct (same_some _ _ _ _ S H) as (ob' & H' & _ & F2 & _). exists ob'. split; [done|congruence].
  - rewrite (sm_objs _ _ S), (sm_medias _ _ S). intros o. rewrite (gi_medias _ I). split; intros [A (ob & H & F)]; split; try done.
    + destruct (same_fwd _ _ _ _ S H) as (ob' & H' & F2 & _). exists ob'. split; [done|congruence].
    + destruct (same_some _ _ _ _ S H) as (ob' & H' & F2 & _). exists ob'. split; [done|congruence].
  - rewrite (sm_medias _ _ S). apply I.
  - destruct (gi_time _ I) as (time & N & T1 & T2). exists time, N. rewrite (sm_objs _ _ S). split; [done|].
    intros o ob' p Ho Hp. destruct (same_some _ _ _ _ S Ho) as (ob & H & _ & _ & _ & _ & _ & F). eapply T2; [done|congruence].
Qed.
Lemma same_doc g g' : same g g' -> GDoc g -> GDoc g'.
Proof.
  intros S [(r & rb & R1 & R2 & R3 & R4 & R5) (s & sb & S1 & S2 & S3 & S4 & S5) K]. split.
  - destruct (same_fwd _ _ _ _ S R3) as (rb' & H & E1 & _ & _ & _ & _ & E6). exists r, rb'. rewrite (sm_root _ _ S), (sm_objs _ _ S). repeat split; congruence.
  - destruct (same_fwd _ _ _ _ S S3) as (sb' & H & E1 & _ & _ & _ & _ & E6). exists s, sb'. rewrite (sm_root _ _ S), (sm_settings _ _ S), (sm_objs _ _ S). repeat split; congruence.
  - rewrite (sm_settings _ _ S), (sm_objs _ _ S). intros o ob' Hi Ho Hk. destruct (same_some _ _ _ _ S Ho) as (ob & H & E1 & _). eapply K; [done|done|congruence].
Qed.
Lemma same_ext g g' : same g g' -> gext g g'.
Proof.
  intros S. split.
  - intros o ob Ho. destruct (same_fwd _ _ _ _ S Ho) as (ob' & H & E1 & E2 & E3 & E4 & E5 & E6). exists ob'. rewrite E4, E5, E6. repeat split; done.
  - by rewrite (sm_evt _ _ S).
  - by rewrite (sm_objs _ _ S).
  - intros o ob ob' _ Ho Ho'. destruct (same_fwd _ _ _ _ S Ho) as (ob2 & H & _ & _ & _ & _ & _ & E6). congruence.
  - apply S.
Qed.

(** TreeGraph.v -- C45: what the growth of the document keeps. *)
From Verif Require Import BuildInv BuildOps BuildSpec BuildFacts Frame ParserFrame.
From Verif Require Export TreeSpec ParserOdd.
Open Scope string_scope.
Open Scope list_scope.

(** ** Growth. *)
Definition al (g g' : graph) : Prop := forall o ob ob', g_obj g !! o = Some ob -> g_obj g' !! o = Some ob' -> ob_aliases ob ⊆ ob_aliases ob'.
Record tm (g g' : graph) : Prop := mkTm { tm_ext : gext g g'; tm_al : al g g' }.
Lemma tm_refl g : tm g g. Proof. split; [apply gext_refl|]. intros o ob ob' H H'. assert (ob' = ob) as -> by congruence. done. Qed.
Lemma tm_trans a b c : tm a b -> tm b c -> tm a c.
Proof.
  intros [A1 A2] [B1 B2]. split; [by eapply gext_trans|]. intros o ob ob' H H'. destruct (gx_obj _ _ A1 _ _ H) as (ob1 & H1 & _).
  pose proof (A2 _ _ _ H H1). pose proof (B2 _ _ _ H1 H'). set_solver.
Qed.
Lemma tm_obj g g' o ob : tm g g' -> g_obj g !! o = Some ob -> exists ob', g_obj g' !! o = Some ob' /\ ob_kind ob' = ob_kind ob /\ ob_id ob' = ob_id ob /\ ob_events ob ⊆ ob_events ob' /\ ob_children ob ⊆ ob_children ob' /\
  (forall p, ob_parent ob = Some p -> ob_parent ob' = Some p) /\ ob_aliases ob ⊆ ob_aliases ob'.
Proof. intros T H. destruct (gx_obj _ _ (tm_ext _ _ T) _ _ H) as (ob' & H' & E1 & E2 & E3 & E4 & E5 & E6). exists ob'. repeat split; try done. exact (tm_al _ _ T _ _ _ H H'). Qed.
Lemma gsm_tm D g g' : gsm D g g' -> tm g g'.
Proof. intros G. split; [apply (gs_step _ _ _ G)|]. intros o ob ob' H H'. destruct (gsm_fwd _ _ _ _ _ G H) as (ob2 & H2 & _ & _ & A). assert (ob2 = ob') as -> by congruence. by rewrite A. Qed.

Lemma objectOf_tm g g' x o : tm g g' -> objectOf g x o -> objectOf g' x o.
Proof.
  intros T H.
  assert (K : forall (P : obj -> Prop), (forall ob ob', ob_kind ob' = ob_kind ob -> ob_id ob' = ob_id ob -> ob_aliases ob ⊆ ob_aliases ob' -> P ob -> P ob') -> (exists ob, g_obj g !! o = Some ob /\ P ob) -> exists ob, g_obj g' !! o = Some ob /\ P ob).
  { intros P HP (ob & Ho & Hp). destruct (tm_obj _ _ _ _ T Ho) as (ob' & Ho' & E1 & E2 & _ & _ & _ & E6). exists ob'. split; [done|]. by eapply HP. }
  split.
  - intros Ht. rewrite (gx_root _ _ (tm_ext _ _ T)). by apply (of_root _ _ _ H).
  - intros Ht. apply K; [intros ob ob' E1 E2 _; rewrite ?E1, ?E2; done|]. exact (of_context _ _ _ H Ht).
  - intros Ht. apply K; [intros ob ob' E1 E2 _; rewrite ?E1, ?E2; done|]. exact (of_switch _ _ _ H Ht).
  - intros Ht Hr Hs. apply K; [intros ob ob' E1 E2 _; rewrite ?E1, ?E2; done|]. exact (of_media _ _ _ H Ht Hr Hs).
  - intros Hs. apply K; [intros ob ob' E1 E2 _; rewrite ?E1, ?E2; done|]. exact (of_settings _ _ _ H Hs).
  - intros r Hr. apply K; [|exact (of_refer _ _ _ H r Hr)]. intros ob ob' -> E A [B C]. split; [done|]. destruct C as [C|[p C]]; [left; congruence|right; exists p; by apply A].
Qed.
Lemma inPlace_tm g g' o y : tm g g' -> inPlace g o y -> inPlace g' o y.
Proof.
  intros T H. split.
  - intros Ht. eapply objectOf_tm; [done|]. by apply (pl_body _ _ _ H).
  - intros Ht. destruct (pl_component _ _ _ H Ht) as (c & cb & ob & A & B & C & D & E). destruct (tm_obj _ _ _ _ T B) as (cb' & B' & _ & _ & _ & _ & P & _). destruct (tm_obj _ _ _ _ T D) as (ob' & D' & _ & _ & _ & Q & _ & _).
    exists c, cb', ob'. split; [by eapply objectOf_tm|]. split; [done|]. split; [by apply P|]. split; [done|]. by apply Q.
  - intros Ht. destruct (pl_reference _ _ _ H Ht) as (c & cb & i & A & B & C & D). destruct (tm_obj _ _ _ _ T B) as (cb' & B' & _ & _ & _ & _ & _ & Q).
    exists c, cb', i. split; [by eapply objectOf_tm|]. split; [done|]. split; [done|]. by apply Q.
  - intros Ht. destruct (pl_area _ _ _ H Ht) as (e & ev & ob & i & A & B & C & D & E). destruct (tm_obj _ _ _ _ T B) as (ob' & B' & _ & _ & Q & _). exists e, ev, ob', i. split; [done|]. split; [done|]. split; [by apply Q|]. split; [by apply (gx_evt _ _ (tm_ext _ _ T))|done].
  - intros Ht. destruct (pl_property _ _ _ H Ht) as (e & ev & ob & i & A & B & C & D & E). destruct (tm_obj _ _ _ _ T B) as (ob' & B' & _ & _ & Q & _). exists e, ev, ob', i. split; [done|]. split; [done|]. split; [by apply Q|]. split; [by apply (gx_evt _ _ (tm_ext _ _ T))|done].
Qed.
Lemma mirrored_tm g g' x : tm g g' -> mirrored g x -> mirrored g' x.
Proof.
  intros T H x' Hx Hs. destruct (H x' Hx Hs) as (o & A & B). exists o. split; [by eapply objectOf_tm|]. intros y Hy. eapply inPlace_tm; [done|]. by apply B.
Qed.

(** ** Aliases: the operations of the builder. *)
Lemma al_refl g : al g g. Proof. apply tm_refl. Qed.
Lemma tm_addAlias g o a p : GInv g -> pwp (addAlias o a p) (fun _ g' => tm g g' /\ g_evt g' = g_evt g /\ exists ob ob', g_obj g !! o = Some ob /\ g_obj g' !! o = Some ob' /\ ob_kind ob' = ob_kind ob /\ ob_id ob' = ob_id ob /\ (a, p) ∈ ob_aliases ob') g.
Proof.
  intros I. eapply wp_mono; [apply wp_conj; [by apply addAlias_step|]|].
  - unfold addAlias. apply wp_oupd. intros ob Ho. instantiate (1 := fun _ g' => al g g' /\ g_evt g' = g_evt g /\ exists ob ob', g_obj g !! o = Some ob /\ g_obj g' !! o = Some ob' /\ ob_kind ob' = ob_kind ob /\ ob_id ob' = ob_id ob /\ (a, p) ∈ ob_aliases ob'). cbv beta.
    split; [|split; [done|]].
    + intros o' ob1 ob2 H1 H2. cbn in H2. destruct (decide (o = o')) as [<-|Hn].
      * rewrite lookup_insert in H2. injection H2 as <-. assert (ob1 = ob) as -> by congruence. destruct (bool_decide _); [done|]. cbn. set_solver.
      * rewrite lookup_insert_ne in H2 by done. assert (ob1 = ob2) as -> by congruence. done.
    + exists ob. eexists. split; [done|]. cbn. rewrite lookup_insert. split; [done|]. destruct (bool_decide _) eqn:E; [apply bool_decide_eq_true in E; done|]. cbn. split; [done|]. split; [done|]. apply elem_of_app. right. constructor.
  - intros [] g' [S (A & B)]. split; [|done]. split; [apply S|done].
Qed.
Lemma tm_newObject g k i : GInv g -> pwp (newObject k i) (fun o g' => step g g' /\ tm g g' /\ g_obj g !! o = None /\ g_objs g' = g_objs g /\ exists ob, g_obj g' !! o = Some ob /\ ob_kind ob = k /\ ob_id ob = i /\ ob_aliases ob = [] /\ ob_children ob = []) g.
Proof.
  intros I. eapply wp_mono; [by apply wp_newObject|]. intros o g' (S & N & (ob & H & E1 & E2 & _ & E4 & E5 & _) & G1 & G2 & _ & _ & Hoth). cbv beta in *. split; [done|]. split; [|split; [done|split; [done|by exists ob]]].
  split; [apply S|]. intros o' ob1 ob2 H1 H2. assert (Hn : o' <> o) by (intros ->; congruence). apply Hoth in H2; [|done]. assert (ob1 = ob2) as -> by congruence. done.
Qed.
Lemma tm_addChild g c o : GInv g -> pwp (addChild c o) (fun _ g' => step g g' /\ tm g g' /\ g_evt g' = g_evt g /\ exists cb ob, g_obj g' !! c = Some cb /\ g_obj g' !! o = Some ob /\ o ∈ ob_children cb /\ ob_parent ob = Some c) g.
Proof.
  intros I. unfold wp. pose proof (gsm_addChild g c o I) as G. pose proof (wp_addChild g c o I) as W. unfold wp in G, W. destruct (addChild c o g) as [[] g'| |] eqn:E; try done.
  destruct W as (S & (cb & Hc & Hi) & _ & _ & AT). split; [done|]. split; [by eapply gsm_tm|]. split.
  - destruct (g_obj g !! c) as [cb0|] eqn:Ec; [|unfold addChild, bind, gobj in E; by rewrite Ec in E]. destruct (g_obj g !! o) as [ob0|] eqn:Eo; [|unfold addChild, bind, gobj in E; rewrite Ec in E; cbn in E; by rewrite Eo in E].
    destruct (decide (o ∈ ob_children cb0)) as [Hi0|Hi0]; [|apply (at_evt _ _ _ _ _ (AT _ _ eq_refl eq_refl Hi0))].
    unfold addChild, bind, gobj in E. rewrite Ec in E. cbn in E. rewrite Eo in E. cbn in E. rewrite bool_decide_true in E by done. by injection E as <-.
  - destruct (oi_children _ _ _ (gi_o _ (st_inv _ _ S) _ _ Hc) _ Hi) as (ob & Ho & Hp). exists cb, ob. done.
Qed.

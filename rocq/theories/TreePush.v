(** TreePush.v -- C45: the push functions build the objects the elements stand for. *)
From Verif Require Import BuildInv BuildOps BuildSpec BuildFacts Frame ParserFrame.
From Verif Require Export TreeHead.
Open Scope string_scope.
Open Scope list_scope.

Record tinv (U : list string) (s : pst) : Prop := mkTi {
  ti_evt : forall e ev ob, g_evt (p_graph s) !! e = Some ev -> ev_type ev = PRESENTATION -> g_obj (p_graph s) !! ev_obj ev = Some ob -> is_media (ob_kind ob) = true -> ev_id ev = "@lambda" \/ ev_id ev ∈ U;
  ti_refer : forall k m, sget k (p_refer s) = Some m -> exists ob, g_obj (p_graph s) !! m = Some ob /\ aMedia (ob_kind ob) /\ goesBy ob k /\ (ob_kind ob = KMedia \/ k ∈ U) }.
Definition entry (U : list string) (g : graph) (k : string) (m : oid) : Prop := exists ob, g_obj g !! m = Some ob /\ aMedia (ob_kind ob) /\ goesBy ob k /\ (ob_kind ob = KMedia \/ k ∈ U).
Lemma entry_tm U U' g g' k m : tm g g' -> U ⊆ U' -> entry U g k m -> entry U' g' k m.
Proof.
  intros T HU (ob & H & A & B & C). destruct (tm_obj _ _ _ _ T H) as (ob' & H' & E1 & E2 & _ & _ & _ & E6). exists ob'. split; [done|]. rewrite E1. split; [done|].
  split; [|destruct C; auto]. destruct B as [B|[p B]]; [left; congruence|right; exists p; by apply E6].
Qed.
Lemma nk_tm g g' : tm g g' -> (forall e ev, g_evt g' !! e = Some ev -> ev_type ev = PRESENTATION -> g_evt g !! e = Some ev \/ ev_id ev = "@lambda" \/ onComp g' ev) -> nk g g'.
Proof. intros T H. split; [|done]. intros o ob Ho. destruct (tm_obj _ _ _ _ T Ho) as (ob' & H' & E & _). eauto. Qed.
Lemma ti_old U s g' : GInv (p_graph s) -> tinv U s -> tm (p_graph s) g' -> forall e ev ob, g_evt (p_graph s) !! e = Some ev -> ev_type ev = PRESENTATION -> g_obj g' !! ev_obj ev = Some ob -> is_media (ob_kind ob) = true -> ev_id ev = "@lambda" \/ ev_id ev ∈ U.
Proof.
  intros I T TM e ev ob He Ht Ho Hm. destruct (gi_e _ I _ _ He) as (ob0 & Ho0 & _). destruct (tm_obj _ _ _ _ TM Ho0) as (ob' & H' & E & _). assert (ob' = ob) as -> by congruence.
  eapply (ti_evt _ _ T); [done|done|done|congruence].
Qed.
Lemma tinv_tr U U' s s' : GInv (p_graph s) -> tinv U s -> U ⊆ U' -> tm (p_graph s) (p_graph s') -> ns s s' -> p_refer s' = p_refer s -> tinv U' s'.
Proof.
  intros I T HU TM N R. split.
  - intros e ev ob He Ht Ho Hm. destruct (nk_evt _ _ N _ _ He Ht) as [H|[H|(ob' & H1 & H2)]]; [|by left|].
    + destruct (ti_old _ _ _ I T TM _ _ _ H Ht Ho Hm); auto.
    + assert (ob' = ob) as -> by congruence. destruct (ob_kind ob); done.
  - intros k m Hk. rewrite R in Hk. by eapply entry_tm; [exact TM|exact HU|]; apply (ti_refer _ _ T).
Qed.
Lemma nk_newObject g k i : k <> KSettings -> GInv g -> pwp (newObject k i) (fun o g' => nk g g') g.
Proof.
  intros Hk I. eapply wp_mono; [apply wp_conj; [by apply tm_newObject|]|].
  - instantiate (1 := fun o g' => forall e ev, g_evt g' !! e = Some ev -> g_evt g !! e = Some ev \/ ev_id ev = "@lambda").
    unfold newObject. w1. unfold galloc at 1, wp at 1. w1. unfold galloc at 1, wp at 1. w1. w1. w1. w1. w1. rewrite bool_decide_false by done. w1; [done|]. w1. cbn. intros e ev.
    destruct (decide (e = Pos.succ (g_next g))) as [->|Hn]; [rewrite lookup_insert; intros [= <-]; by right|rewrite lookup_insert_ne by done; by left].
  - intros o g' [(_ & T & _) H]. apply nk_tm; [done|]. intros e ev He _. destruct (H _ _ He); auto.
Qed.
Lemma pw_peek_top ok pos (Q : oid -> pst -> Prop) s : (forall o rest ob, p_objs s = o :: rest -> g_obj (p_graph s) !! o = Some ob -> ok (ob_kind ob) = true -> Q o s) -> pw (peek ok pos) Q s.
Proof. intros H. unfold peek. p1. p1. destruct (p_objs s) as [|o rest] eqn:E; [p1|]. p1. apply pw_gobj. intros ob Ho. p1. p1. p1. eauto. Qed.

Definition inTop (s : pst) (g : graph) (x : xml) : Prop := forall o rest, p_objs s = o :: rest -> inPlace g o x.
Record pt (U : list string) (x : xml) (s s' : pst) : Prop := mkPt {
  pt_tm : tm (p_graph s) (p_graph s');
  pt_inv : tinv U s';
  pt_top : inTop s (p_graph s') x;
  pt_obj : standing x -> exists o, p_objs s' = o :: p_objs s /\ objectOf (p_graph s') x o;
  pt_objs : ~ standing x -> p_objs s' = p_objs s }.
(** Elements that have no place of their own. *)
Lemma inPlace_none g o x : x_tag x ∉ ["body"; "context"; "switch"; "media"; "area"; "property"] -> inPlace g o x.
Proof.
  intros H. assert (N : forall t, t ∈ ["body"; "context"; "switch"; "media"; "area"; "property"] -> x_tag x <> t) by (intros t Ht <-; done).
  split.
  - intros E. exfalso. by apply (N "body"); [set_solver|].
  - intros E. exfalso. destruct E as [E|[E|(E & _)]]; [apply (N "context")|apply (N "switch")|apply (N "media")]; (set_solver || done).
  - intros E. exfalso. apply (N "media"); [set_solver|]. destruct E as [E|[r E]]; apply E.
  - intros E. exfalso. by apply (N "area"); [set_solver|].
  - intros E. exfalso. by apply (N "property"); [set_solver|].
Qed.
Ltac nt N E := exfalso; match type of E with _ = ?t => apply (N t); first [exact E|discriminate] end.
(** The root. *)
Lemma objectOf_root g x o : x_tag x = "ncl" \/ x_tag x = "body" -> g_root g = Some o -> objectOf g x o.
Proof.
  intros Ht Hr. assert (N : forall t, t <> "ncl" -> t <> "body" -> x_tag x <> t) by (intros t A B; destruct Ht; congruence).
  split.
  - done.
  - intros E. nt N E.
  - intros E. nt N E.
  - intros E. nt N E.
  - intros (E & _). nt N E.
  - intros r (E & _). nt N E.
Qed.
Lemma objectOf_comp g x o ob k : (k = KContext /\ x_tag x = "context") \/ (k = KSwitch /\ x_tag x = "switch") -> g_obj g !! o = Some ob -> ob_kind ob = k -> aget "id" (x_attrs x) = Some (ob_id ob) -> objectOf g x o.
Proof.
  intros Ht Ho Hk Hi. assert (N : forall t, t <> "context" -> t <> "switch" -> x_tag x <> t) by (intros t A B; destruct Ht as [[_ Ht]|[_ Ht]]; congruence).
  split.
  - intros [E|E]; [nt N E|nt N E].
  - intros E. exists ob. split; [done|]. split; [|done]. destruct Ht as [[-> _]|[_ Ht]]; [done|congruence].
  - intros E. exists ob. split; [done|]. split; [|done]. destruct Ht as [[_ Ht]|[-> _]]; [congruence|done].
  - intros E. nt N E.
  - intros (E & _). nt N E.
  - intros r (E & _). nt N E.
Qed.
(** A component in its place. *)
Lemma inPlace_comp g c o cb ob x : x_tag x = "context" \/ x_tag x = "switch" \/ (x_tag x = "media" /\ aget "refer" (x_attrs x) = None /\ ~ settingsElement x) ->
  objectOf g x o -> g_obj g !! o = Some ob -> ob_parent ob = Some c -> g_obj g !! c = Some cb -> o ∈ ob_children cb -> inPlace g c x.
Proof.
  intros Ht Hx Ho Hp Hc Hi. assert (N : forall t, t <> "context" -> t <> "switch" -> t <> "media" -> x_tag x <> t) by (intros t A B C; destruct Ht as [Ht|[Ht|(Ht & _)]]; congruence).
  split.
  - intros E. nt N E.
  - intros _. exists o, ob, cb. done.
  - intros E. exfalso. destruct Ht as [Ht|[Ht|(Ht & Hr & Hs)]]; [destruct E as [(E & _)|[r (E & _)]]; congruence|destruct E as [(E & _)|[r (E & _)]]; congruence|].
    destruct E as [E|[r (_ & E)]]; [done|congruence].
  - intros E. nt N E.
  - intros E. nt N E.
Qed.
Definition agrees (x : xml) (e : elt) : Prop := el_tag e = x_tag x /\ forall n v, attr e n = Some v <-> aget n (x_attrs x) = Some v.
Lemma agrees_none x e n : agrees x e -> attr e n = None <-> aget n (x_attrs x) = None.
Proof.
  intros [_ H]. split; intros E.
  - destruct (aget n (x_attrs x)) as [v|] eqn:E2; [|done]. apply H in E2. congruence.
  - destruct (attr e n) as [v|] eqn:E2; [|done]. apply H in E2. congruence.
Qed.
(** Steps. *)
Record tr (s s' : pst) : Prop := mkTr { tr_inv : GInv (p_graph s'); tr_tm : tm (p_graph s) (p_graph s'); tr_ns : ns s s'; tr_refer : p_refer s' = p_refer s; tr_objs : p_objs s' = p_objs s }.
Lemma tr_refl s : GInv (p_graph s) -> tr s s. Proof. intros I. split; [done|apply tm_refl|apply nk_refl|done|done]. Qed.
Lemma tr_trans a b c : tr a b -> tr b c -> tr a c.
Proof. intros [] []. split; [done|by eapply tm_trans|by eapply nk_trans|congruence|congruence]. Qed.
Lemma tr_tinv U U' s s' : GInv (p_graph s) -> tinv U s -> U ⊆ U' -> tr s s' -> tinv U' s'.
Proof. intros I T HU [A B C D F]. by eapply (tinv_tr U U' s). Qed.
Lemma tr_alias m i p s : GInv (p_graph s) -> pw (lift (addAlias m i p)) (fun _ s' => tr s s' /\ exists ob ob', g_obj (p_graph s) !! m = Some ob /\ g_obj (p_graph s') !! m = Some ob' /\ ob_kind ob' = ob_kind ob /\ ob_id ob' = ob_id ob /\ (i, p) ∈ ob_aliases ob') s.
Proof.
  intros I. apply pw_lift. eapply wp_mono; [apply wp_conj; [by apply tm_addAlias|apply wp_conj; [by apply addAlias_step|apply nk_addAlias]]|]. intros [] g' [(T & _ & H) [S N]]. split; [|done]. split; [apply S|done|done|done|done].
Qed.
Lemma tr_new k i s : k <> KSettings -> GInv (p_graph s) -> pw (lift (newObject k i)) (fun o s' => tr s s' /\ exists ob, g_obj (p_graph s') !! o = Some ob /\ ob_kind ob = k /\ ob_id ob = i) s.
Proof.
  intros Hk I. apply pw_lift. eapply wp_mono; [apply wp_conj; [by apply tm_newObject|by apply nk_newObject]|]. intros o g' [(S & T & _ & _ & ob & A & B & C & _) N]. split; [|by exists ob]. split; [apply S|done|done|done|done].
Qed.
Lemma tr_child c o s : GInv (p_graph s) -> pw (lift (addChild c o)) (fun _ s' => tr s s' /\ exists cb ob, g_obj (p_graph s') !! c = Some cb /\ g_obj (p_graph s') !! o = Some ob /\ o ∈ ob_children cb /\ ob_parent ob = Some c) s.
Proof.
  intros I. apply pw_lift. eapply wp_mono; [by apply tm_addChild|]. intros [] g' (S & T & E & H). split; [|done]. split; [apply S|done| |done|done]. apply nk_tm; [done|]. intros e ev. cbn. rewrite E. auto.
Qed.
Lemma tr_prop m n v s : GInv (p_graph s) -> pw (lift (gsetProperty m n v)) (fun _ s' => tr s s') s.
Proof.
  intros I. apply pw_lift. eapply wp_mono; [apply wp_conj; [by apply gsm_setProperty|apply nk_setProperty]|]. intros [] g' [G N]. split; [apply (gs_step _ _ _ G)|by eapply gsm_tm|done|done|done].
Qed.
Lemma pt_tr U x s s' : tinv U s' -> tr s s' -> x_tag x ∉ ["ncl"; "body"; "context"; "switch"; "media"] -> inTop s (p_graph s') x -> pt U x s s'.
Proof.
  intros T R Hx Ht. assert (Hn : ~ standing x). { intros H. apply Hx. unfold standing in H. set_solver. } split; [apply R|done|done|by intros H|intros _; apply R].
Qed.
(** The object just found or made is pushed. *)
Lemma pt_push U x s s' o : tinv U s' -> tr s s' -> standing x -> objectOf (p_graph s') x o -> inTop s (p_graph s') x -> pt U x s (p_set_objs (o :: p_objs s') s').
Proof.
  intros T R Hs Hx Ht. split; cbn [p_graph p_set_objs p_objs].
  - apply R.
  - destruct T. by split.
  - done.
  - intros _. exists o. by rewrite (tr_objs _ _ R).
  - done.
Qed.
Lemma push_tree_ncl U U' e x s : GInv (p_graph s) -> tinv U s -> U ⊆ U' -> x_tag x = "ncl" -> pw (pushNcl e) (fun _ s' => pt U' x s s') s.
Proof.
  intros I T HU Ht. unfold pushNcl. p1. p1. p1. p1. rename a into r. p1.
  eapply (pw_mono _ (fun _ s' => tr s s')).
  { destruct (attr e "id"); [|p1; by apply tr_refl]. eapply pw_mono; [by apply tr_alias|]. intros [] s' [R _]. exact R. }
  intros [] s' R. unfold opush. p1. p1. p1. apply pt_push; [by eapply tr_tinv|done|by left| |].
  - apply objectOf_root; [by left|]. rewrite (gx_root _ _ (tm_ext _ _ (tr_tm _ _ R))). done.
  - intros o rest _. apply inPlace_none. rewrite Ht. set_solver.
Qed.
Lemma push_tree_body U U' e x s : GInv (p_graph s) -> tinv U s -> U ⊆ U' -> x_tag x = "body" -> agrees x e -> (forall o rest, p_objs s = o :: rest -> g_root (p_graph s) = Some o) -> pw (pushContext e) (fun _ s' => pt U' x s s') s.
Proof.
  intros I T HU Ht [Ha _] Hr. unfold pushContext. rewrite Ha, Ht. cbn [String.eqb]. p1. 
  eapply (pw_mono _ (fun c s' => tr s s' /\ exists rest, p_objs s = c :: rest)).
  { cbn. p1. apply pw_peek_top. intros o rest ob Ho Hob Hk. p1. eapply (pw_mono _ (fun _ s' => tr s s')).
    { destruct (attr e "id"); [|p1; by apply tr_refl]. eapply pw_mono; [by apply tr_alias|]. intros [] s' [R _]. exact R. }
    intros [] s' R. p1. split; [done|by exists rest]. }
  intros c s' [R [rest Ho]]. unfold opush. p1. p1. p1.
  assert (Hx : objectOf (p_graph s') x c) by (apply objectOf_root; [by right|]; rewrite (gx_root _ _ (tm_ext _ _ (tr_tm _ _ R))); by eapply Hr).
  apply pt_push; [by eapply tr_tinv|done|by right; left|done|].
  intros o rest' Ho'. assert (o = c) as -> by congruence. split; [done| | | |]; rewrite ?Ht.
  - intros [E|[E|(E & _)]]; discriminate.
  - intros [(E & _)|[r (E & _)]]; rewrite Ht in E; discriminate.
  - discriminate.
  - discriminate.
Qed.
Lemma push_tree_new U U' k e x s (f : elt -> elt) pos : GInv (p_graph s) -> tinv U s -> U ⊆ U' -> (k = KContext /\ x_tag x = "context") \/ (k = KSwitch /\ x_tag x = "switch") -> agrees x e ->
  pw (let* c := (let* up := peek isComp pos in let* i := pattr e "id" in let* c := lift (newObject k i) in lift (addChild up c) ;;; pret c) in opush c ;;; pret (f e)) (fun _ s' => pt U' x s s') s.
Proof.
  intros I T HU Ht [Ha Hat]. p1. p1. apply pw_peek_top. intros up rest ub Hu Hub Hk. p1. p1. rename a into i.
  p1. eapply pw_mono; [apply tr_new; [by destruct Ht as [[-> _]|[-> _]]|done]|]. intros c s1 [R1 (ob & C1 & C2 & C3)]. cbv beta. p1.
  eapply pw_mono; [apply tr_child, R1|]. intros [] s2 [R2 (cb & ob2 & D1 & D2 & D3 & D4)]. cbv beta. p1. unfold opush. p1. p1. p1.
  assert (R : tr s s2) by (by eapply tr_trans).
  destruct (tm_obj _ _ _ _ (tr_tm _ _ R2) C1) as (ob3 & E1 & E2 & E3 & _). assert (ob3 = ob2) as -> by congruence.
  assert (Hx : objectOf (p_graph s2) x c). { apply (objectOf_comp _ _ _ ob2 k); [done|done|congruence|]. rewrite E3, C3. by apply Hat. }
  apply pt_push; [by eapply tr_tinv|done|destruct Ht as [[_ Ht]|[_ Ht]]; unfold standing; auto|done|].
  intros o rest' Ho'. assert (o = up) as -> by congruence. apply (inPlace_comp _ _ c cb ob2); try done. destruct Ht as [[_ Ht]|[_ Ht]]; auto.
Qed.
Lemma pw_assoc {A B C} (m : P A) (f : A -> P B) (g : B -> P C) Q s : pw (pbind (pbind m f) g) Q s -> pw (pbind m (fun a => pbind (f a) g)) Q s.
Proof. unfold pw, pbind. by destruct (m s). Qed.
Lemma push_tree_context U U' e x s : GInv (p_graph s) -> tinv U s -> U ⊆ U' -> x_tag x = "context" -> agrees x e -> pw (pushContext e) (fun _ s' => pt U' x s s') s.
Proof.
  intros I T HU Ht Ha. unfold pushContext. rewrite (proj1 Ha), Ht. eapply (push_tree_new U U' KContext e x s (el_set_ports [])); auto.
Qed.
Lemma push_tree_switch U U' e x s : GInv (p_graph s) -> tinv U s -> U ⊆ U' -> x_tag x = "switch" -> agrees x e -> pw (pushSwitch e) (fun _ s' => pt U' x s s') s.
Proof.
  intros I T HU Ht Ha. unfold pushSwitch. pose proof (push_tree_new U U' KSwitch e x s (fun e => el_set_swports [] (el_set_rules [] e)) "Parser.cpp:3677" I T HU ltac:(auto) Ha) as H.
  unfold pw, pbind in *. destruct (peek _ _ s) as [up s1| | |]; try done. destruct (pattr e "id" s1) as [i s2| | |]; try done. destruct (lift (newObject KSwitch i) s2) as [c s3| | |]; try done. destruct (lift (addChild up c) s3); try done.
Qed.
(** Areas. *)
Lemma addEvent_new g o t i b e l : GInv g -> (forall ob x ev, g_obj g !! o = Some ob -> x ∈ ob_events ob -> g_evt g !! x = Some ev -> ev_type ev = t -> ev_id ev <> i) ->
  pwp (addEvent o t i b e l) (fun _ g' => exists x ob, g_obj g' !! o = Some ob /\ x ∈ ob_events ob /\ g_evt g' !! x = Some (mkEvt t o i b e l) /\ forall y, y <> x -> g_evt g' !! y = g_evt g !! y) g.
Proof.
  intros I H. unfold addEvent. w1. eapply wp_mono; [apply wp_getEvent|]. intros r g1 [-> (ob & Ho & Hr)]. cbv beta. destruct r as [x|].
  { exfalso. destruct Hr as (A & ev & B & C & D). by apply (H _ _ _ Ho A B C). }
  w1. unfold galloc, wp at 1. w1. w1. w1. w1. apply wp_oupd. intros ob' Ho'. cbn in Ho'. assert (ob' = ob) as -> by congruence. exists (g_next g). eexists. cbn. rewrite lookup_insert. split; [done|]. cbn.
  split; [apply sins_elem; by left|]. rewrite lookup_insert. split; [done|]. intros y Hy. by rewrite lookup_insert_ne.
Qed.
Lemma area_ok U U' m i b e l s : GInv (p_graph s) -> tinv U s -> U ⊆ U' -> i ∉ U -> i ∈ U' -> i <> "@lambda" -> (exists ob, g_obj (p_graph s) !! m = Some ob /\ is_media (ob_kind ob) = true) ->
  pw (lift (addEvent m PRESENTATION i b e l)) (fun _ s' => tm (p_graph s) (p_graph s') /\ tinv U' s' /\ p_objs s' = p_objs s /\
    exists x ob, g_obj (p_graph s') !! m = Some ob /\ x ∈ ob_events ob /\ g_evt (p_graph s') !! x = Some (mkEvt PRESENTATION m i b e l)) s.
Proof.
  intros I T HU H1 H2 H3 (mb & Hm & Hk). apply pw_lift. eapply wp_mono; [apply wp_conj; [by apply gsm_addEvent|apply addEvent_new; [done|]]|].
  - intros ob x ev Ho Hx He Ht Hi. assert (ob = mb) as -> by congruence. destruct (oi_events _ _ _ (gi_o _ I _ _ Hm) _ Hx) as (ev' & He' & Ev). assert (ev' = ev) as -> by congruence.
    destruct (ti_evt _ _ T x ev mb He Ht) as [A|A]; [by rewrite Ev|done|congruence|]. by rewrite Hi in A.
  - intros [] g' [G (x & ob & A & B & C & D)]. cbn [p_graph p_set_graph p_objs]. assert (TM : tm (p_graph s) g') by (by eapply gsm_tm). split; [done|]. split; [|split; [done|by exists x, ob]].
    split; cbn [p_graph p_set_graph p_refer].
    + intros y ev ob' He Ht Ho Hk'. destruct (decide (y = x)) as [->|Hn]; [assert (ev = mkEvt PRESENTATION m i b e l) as -> by congruence; by right|]. rewrite D in He by done.
      destruct (ti_old _ _ _ I T TM _ _ _ He Ht Ho Hk'); auto.
    + intros k m' Hk'. by eapply entry_tm; [exact TM|exact HU|]; apply (ti_refer _ _ T).
Qed.
Lemma pw_time v d (Q : N -> pst -> Prop) s : (forall t, timeIs v d t -> Q t s) -> pw (timeOf v d) Q s.
Proof.
  intros H. unfold timeOf. destruct v as [v|]; [|p1; by apply H]. destruct (try_parse_time v) eqn:E; try p1. apply H. cbn. done.
Qed.
Lemma push_tree_area U U' e x s : GInv (p_graph s) -> tinv U s -> U ⊆ U' -> x_tag x = "area" -> agrees x e -> (forall i, attr e "id" = Some i -> i ∉ U /\ i ∈ U' /\ i <> "@lambda") -> pw (pushArea e) (fun _ s' => pt U' x s s') s.
Proof.
  intros I T HU Ht Ha Hi. unfold pushArea. p1. apply pw_peek_top. intros m rest mb Ho Hm Hk. p1. p1. rename a into i, H into Hid. destruct (Hi _ Hid) as (I1 & I2 & I3).
  p1. eapply (pw_mono _ (fun _ s' => tm (p_graph s) (p_graph s') /\ tinv U' s' /\ p_objs s' = p_objs s /\
    exists z ob ev, g_obj (p_graph s') !! m = Some ob /\ z ∈ ob_events ob /\ g_evt (p_graph s') !! z = Some ev /\ ev_obj ev = m /\ ev_type ev = PRESENTATION /\ ev_id ev = i /\ anchorOf x ev)).
  { p1.
    - p1. p1. p1. p1. eapply pw_mono; [apply (area_ok U U'); eauto|]. intros [] s' (A & B & C & z & ob & D & F & G). split; [done|]. split; [done|]. split; [done|]. exists z, ob. eexists. split; [done|]. split; [done|]. split; [exact G|].
      cbn. do 3 (split; [done|]). unfold anchorOf. destruct (aget "label" (x_attrs x)) as [l|] eqn:El.
      + apply Ha in El. unfold attr0 in *. rewrite El in *. cbn in *. destruct l; [done|]. cbn. do 3 (split; [done|]). split; apply (agrees_none _ _ _ Ha); [clear H1; by destruct (attr e "begin")|clear H0; by destruct (attr e "end")].
      + apply (agrees_none _ _ _ Ha) in El. unfold attr0 in *. by rewrite El in *.
    - p1. apply pw_time. intros tb Hb. p1. apply pw_time. intros te He. eapply pw_mono; [apply (area_ok U U'); eauto|]. intros [] s' (A & B & C & z & ob & D & F & G). split; [done|]. split; [done|]. split; [done|]. exists z, ob. eexists. split; [done|]. split; [done|]. split; [exact G|].
      cbn. do 3 (split; [done|]).
      assert (TI : forall n d t, timeIs (attr e n) d t -> timeIs (aget n (x_attrs x)) d t).
      { intros n d t. destruct (attr e n) as [v|] eqn:Ev; [by apply Ha in Ev; rewrite Ev|]. apply (agrees_none _ _ _ Ha) in Ev. by rewrite Ev. }
      unfold anchorOf. destruct (aget "label" (x_attrs x)) as [l|] eqn:El; [|cbn; auto].
      apply Ha in El. unfold attr0 in *. rewrite El in *. cbn in *. destruct l; [|done]. cbn. auto. }
  intros [] s' (A & B & C & z & ob & ev & D & F & G & H1 & H2 & H3 & H4). p1. assert (Hn : ~ standing x) by (unfold standing; rewrite Ht; intros [?|[?|[?|[?|?]]]]; done).
  split; [done|done| |done|done]. intros o rest' Ho'. assert (o = m) as -> by congruence.
  split; rewrite ?Ht; try done.
  - intros [?|[?|(? & _)]]; done.
  - intros [(E & _)|[r (E & _)]]; rewrite Ht in E; done.
  - intros _. exists z, ev, ob, i. split; [by apply Ha|]. done.
Qed.
(** Properties. *)
Lemma tr_attr o n s : GInv (p_graph s) -> pw (lift (addAttributionEvent o n)) (fun _ s' => tr s s' /\ exists z ob ev, g_obj (p_graph s') !! o = Some ob /\ z ∈ ob_events ob /\ g_evt (p_graph s') !! z = Some ev /\ ev_obj ev = o /\ ev_type ev = ATTRIBUTION /\ ev_id ev = n) s.
Proof.
  intros I. apply pw_lift. unfold addAttributionEvent. eapply wp_mono; [apply wp_conj; [by apply gsm_addEvent|apply wp_conj; [by apply wp_addEvent|apply nk_addEvent; by left]]|].
  intros [] g' [G [(S & (ob & z & ev & A & B & C & D & E) & _) N]]. split; [split; [apply S|by eapply gsm_tm|done|done|done]|]. exists z, ob, ev. do 3 (split; [done|]). split; [|done].
  destruct (oi_events _ _ _ (gi_o _ (st_inv _ _ S) _ _ A) _ B) as (ev' & C' & Ev). cbn in *. congruence.
Qed.
Lemma push_tree_property U U' e x s : GInv (p_graph s) -> tinv U s -> U ⊆ U' -> x_tag x = "property" -> agrees x e -> pw (pushProperty e) (fun _ s' => pt U' x s s') s.
Proof.
  intros I T HU Ht Ha. unfold pushProperty. p1. apply pw_peek_top. intros m rest mb Ho Hm Hk. p1. p1. rename a into n, H into Hn. cbv zeta. p1.
  eapply pw_mono; [by apply tr_attr|]. intros [] s1 [R1 (z & ob & ev & A & B & C & D & E & F)]. cbv beta. p1.
  eapply (pw_mono _ (fun _ s2 => tr s1 s2)). { p1; [apply tr_prop, R1|apply tr_refl, R1]. }
  intros [] s2 R2. p1. assert (R : tr s s2) by (by eapply tr_trans). apply pt_tr; [by eapply tr_tinv|done|rewrite Ht; set_solver|].
  intros o rest' Ho'. assert (o = m) as -> by congruence. destruct (tm_obj _ _ _ _ (tr_tm _ _ R2) A) as (ob2 & A2 & _ & _ & B2 & _).
  split; rewrite ?Ht; try done.
  - intros [?|[?|(? & _)]]; done.
  - intros [(E' & _)|[r (E' & _)]]; rewrite Ht in E'; done.
  - intros _. exists z, ev, ob2, n. split; [by apply Ha|]. split; [done|]. split; [by apply B2|]. split; [by apply (gx_evt _ _ (tm_ext _ _ (tr_tm _ _ R2)))|]. done.
Qed.
(** Media. *)
Record tq (U : list string) (s s' : pst) : Prop := mkTq { tq_inv : GInv (p_graph s'); tq_tm : tm (p_graph s) (p_graph s'); tq_t : tinv U s'; tq_objs : p_objs s' = p_objs s }.
Lemma tq_tr U s a b : tq U s a -> tr a b -> tq U s b.
Proof. intros [A B C D] R. split; [apply R|eapply tm_trans; [done|apply R]|by eapply tr_tinv|by rewrite (tr_objs _ _ R)]. Qed.
Lemma tq_refer U s a k m : tq U s a -> entry U (p_graph a) k m -> tq U s (p_set_refer (sins0 k m (p_refer a)) a).
Proof.
  intros [A B C D] H. split; cbn [p_graph p_set_refer p_objs]; try done. split; [apply C|]. cbn [p_graph p_set_refer p_refer]. intros k' m'. rewrite sget_sins0. destruct (sget k' (p_refer a)) eqn:E.
  - intros [= <-]. by apply (ti_refer _ _ C).
  - destruct (String.eqb k k') eqn:E2; [|done]. apply String.eqb_eq in E2 as <-. intros [= <-]. done.
Qed.
Lemma tq_start U U' s : GInv (p_graph s) -> tinv U s -> U ⊆ U' -> tq U' s s.
Proof. intros I T HU. split; [done|apply tm_refl| |done]. eapply tr_tinv; [done|done|done|by apply tr_refl]. Qed.
Lemma tq_push U x s s' o : tq U s s' -> standing x -> objectOf (p_graph s') x o -> inTop s (p_graph s') x -> pt U x s (p_set_objs (o :: p_objs s') s').
Proof.
  intros [A B C D] Hs Hx Ht. split; cbn [p_graph p_set_objs p_objs]; try done.
  - destruct C. by split.
  - intros _. exists o. by rewrite D.
Qed.
Lemma settingsType_spec t : settingsType t = true <-> t = "application/x-ginga-settings" \/ t = "application/x-ncl-settings".
Proof. unfold settingsType. rewrite orb_true_iff, !String.eqb_eq. done. Qed.
Lemma settings_agrees x e : agrees x e -> x_tag x = "media" -> attr e "refer" = None -> settingsType (attr0 e "type") = true <-> settingsElement x.
Proof.
  intros Ha Ht Hr. rewrite settingsType_spec. unfold settingsElement. rewrite <- (agrees_none _ _ _ Ha), Hr, Ht, <- !(proj2 Ha). unfold attr0. destruct (attr e "type") as [t|]; cbn.
  - split; [intros [->| ->]; auto|intros (_ & _ & [H|H]); injection H; auto].
  - split; [intros [?|?]; done|intros (_ & _ & [H|H]); done].
Qed.
Lemma place_reference g m mb o x i : x_tag x = "media" -> settingsElement x \/ (exists r, refersTo x r) -> objectOf g x m -> g_obj g !! m = Some mb -> aget "id" (x_attrs x) = Some i -> (i, Some o) ∈ ob_aliases mb -> inPlace g o x.
Proof.
  intros Ht Hs Hx Hm Hi Ha. split; rewrite ?Ht; try done.
  - intros [?|[?|(_ & E1 & E2)]]; try done. exfalso. destruct Hs as [Hs|(r & _ & Hs)]; [done|congruence].
  - intros _. exists m, mb, i. done.
Qed.
Lemma objectOf_refer g x r m ob : refersTo x r -> g_obj g !! m = Some ob -> aMedia (ob_kind ob) -> goesBy ob r -> objectOf g x m.
Proof.
  intros [Ht Hr] Hm Hk Hg. split; rewrite ?Ht; try done.
  - intros [?|?]; done.
  - intros _ E. congruence.
  - intros (_ & E & _). congruence.
  - intros r' [_ E]. assert (r' = r) as -> by congruence. by exists ob.
Qed.
Lemma objectOf_settings g x m ob : settingsElement x -> g_obj g !! m = Some ob -> ob_kind ob = KSettings -> objectOf g x m.
Proof.
  intros Hs Hm Hk. pose proof Hs as (Ht & Hr & _). split; rewrite ?Ht; try done.
  - intros [?|?]; done.
  - intros _. by exists ob.
  - intros r [_ E]. congruence.
Qed.
Lemma objectOf_media g x m ob : x_tag x = "media" -> aget "refer" (x_attrs x) = None -> ~ settingsElement x -> g_obj g !! m = Some ob -> ob_kind ob = KMedia -> aget "id" (x_attrs x) = Some (ob_id ob) -> objectOf g x m.
Proof.
  intros Ht Hr Hs Hm Hk Hi. split; rewrite ?Ht; try done.
  - intros [?|?]; done.
  - intros _ _ _. by exists ob.
  - intros r [_ E]. congruence.
Qed.
Lemma push_tree_refer U' e x i r s : tq U' s s -> x_tag x = "media" -> agrees x e -> attr e "id" = Some i -> i ∈ U' -> attr e "refer" = Some r ->
  pw (let* x := lift (glookup r) in
      let* x := match x with
                | Some o => let* ob := lift (gobj o) in pret (if is_media (ob_kind ob) then Some o else None)
                | None => pret None end in
      let* m := match x with
                | Some o => pret o
                | None =>
                  let* rm := pgets p_refer in
                  let* m := match sget r rm with Some m => pret m | None => lift (newObject KMedia r) end in
                  referAdd r m ;;; pret m
                end in
      let* up := peek isComp "Parser.cpp:3913" in
      lift (addAlias m i (Some up)) ;;;
      referAdd i m ;;; pret m) (fun m s' => tq U' s s' /\ objectOf (p_graph s') x m /\ inTop s (p_graph s') x) s.
Proof.
  intros Q0 Ht Ha Hi HU Hr. pose proof (tq_inv _ _ _ Q0) as I.
  p1. apply pw_lift. eapply wp_mono; [by apply wp_lookup|]. intros y g [-> Hy]. cbv beta in *. rewrite p_graph_same.
  p1. eapply (pw_mono _ (fun y s' => s' = s /\ match y with Some o => exists ob, g_obj (p_graph s) !! o = Some ob /\ aMedia (ob_kind ob) /\ goesBy ob r | None => True end)).
  { destruct y as [o|]; [|by p1]. p1. apply pw_gobj. intros ob Ho. p1. split; [done|]. destruct (is_media (ob_kind ob)) eqn:Em; [|done]. exists ob. split; [done|]. split; [unfold aMedia; destruct (ob_kind ob); auto; done|].
    destruct Hy as [_ [(ob2 & A & B)|(ob2 & p & A & B)]]; assert (ob2 = ob) as -> by congruence; [by left|right; by exists p]. }
  intros y' s' [-> Hy']. clear Hy. p1.
  eapply (pw_mono _ (fun m s' => tq U' s s' /\ exists ob, g_obj (p_graph s') !! m = Some ob /\ aMedia (ob_kind ob) /\ goesBy ob r)).
  { destruct y' as [o|]; [by p1|]. p1. p1. p1. eapply (pw_mono _ (fun m s' => tq U' s s' /\ entry U' (p_graph s') r m)).
    - destruct (sget r (p_refer s)) as [m|] eqn:Em.
      + p1. split; [done|]. by apply (ti_refer _ _ (tq_t _ _ _ Q0)).
      + eapply pw_mono; [by apply tr_new|]. intros o s1 [R (ob & A & B & C)]. split; [by eapply tq_tr|]. exists ob. split; [done|]. split; [by left|]. split; [by left|by left].
    - intros m s1 [Q1 H1]. cbv beta. unfold referAdd. p1. p1. p1. split; [by apply tq_refer|]. cbn [p_graph p_set_refer]. destruct H1 as (ob & A & B & C & _). by exists ob. }
  intros m s1 [Q1 (ob & M1 & M2 & M3)]. cbv beta. p1. apply pw_peek_top. intros up rest ub Hu Hub Hk. p1. eapply pw_mono; [apply tr_alias, Q1|]. intros [] s2 [R2 (ob1 & ob2 & A1 & A2 & A3 & A4 & A5)]. cbv beta.
  assert (ob1 = ob) as -> by congruence. assert (Q2 : tq U' s s2) by (by eapply tq_tr).
  unfold referAdd. p1. p1. p1. split; [apply tq_refer; [done|]|].
  { exists ob2. split; [done|]. rewrite A3. split; [done|]. split; [right; by exists (Some up)|by right]. }
  cbn [p_graph p_set_refer]. destruct (tm_obj _ _ _ _ (tr_tm _ _ R2) M1) as (ob2' & A2' & _ & _ & _ & _ & _ & Hal). assert (ob2' = ob2) as -> by congruence.
  assert (Hre : refersTo x r) by (split; [done|by apply Ha]).
  assert (Hx : objectOf (p_graph s2) x m). { apply (objectOf_refer _ _ r m ob2); [done|done|by rewrite A3|]. destruct M3 as [M3|[p M3]]; [left; congruence|right; exists p; by apply Hal]. }
  split; [done|]. intros o rest' Ho'. rewrite (tq_objs _ _ _ Q1) in Hu. assert (o = up) as -> by congruence. apply (place_reference _ m ob2 _ _ i); [done|right; by exists r|done|done|by apply Ha|done].
Qed.
Lemma push_tree_media E U U' e x s : pinv U None [] s -> tinv U s -> U ⊆ U' -> x_tag x = "media" -> agrees x e -> (forall i, attr e "id" = Some i -> i ∉ U /\ i ∈ U') -> pw (pushMedia E e) (fun _ s' => p_odd s' = true \/ pt U' x s s') s.
Proof.
  intros I T HU Ht Ha Hi. pose proof (pi_g _ _ _ _ I) as GI. assert (Q0 : tq U' s s) by (by eapply tq_start).
  unfold pushMedia. p1. p1. rename a into i, H into Hid. destruct (Hi _ Hid) as [Hi1 Hi2]. cbv zeta. p1.
  eapply (pw_mono _ (fun m s' => p_odd s' = true \/ (tq U' s s' /\ objectOf (p_graph s') x m /\ inTop s (p_graph s') x))).
  2:{ intros m s' [H'|(H1 & H2 & H3)]; unfold opush; p1; p1; p1; [by left|right]. apply tq_push; [done|by do 4 right|done|done]. }
  destruct (attr e "refer") as [r|] eqn:Er.
  - p1. p1. p1. p1. eapply pw_mono; [eapply (push_tree_refer U' e x i r s); eauto|]. intros m s' H'. by right.
  - p1.
    + pose proof (proj1 (settings_agrees _ _ Ha Ht Er) H) as Hs.
      p1. p1. p1. p1. rename a into m. p1. p1. p1. destruct (String.eqb i "__root__") eqn:Eroot.
      * cbn [pwhen]. p1. eapply (pw_mono _ (fun _ s' => p_odd s' = true)); [|intros ? ? ?; by left]. apply odd_keep'; [|done]. kp.
      * cbn [pwhen]. p1. p1. destruct (sget i (p_refer s)) as [tmp|] eqn:Etmp.
        { eapply (pw_mono _ (fun _ s' => p_odd s' = true)); [p1; p1; apply odd_keep'; [kp|done]|intros ? s' Hz; eapply (pw_mono _ (fun _ s' => p_odd s' = true)); [apply odd_keep'; [kp|done]|intros ? ? ?; by left]]. }
        p1. p1. p1; [p1|]. p1. p1. apply pw_peek_top. intros up rest ub Hu Hub Hk. p1. eapply pw_mono; [by apply tr_alias|]. intros [] s2 [R2 (ob1 & ob2 & A1 & A2 & A3 & A4 & A5)]. cbv beta.
        destruct (gd_settings _ (pi_d _ _ _ _ I)) as (m0 & mb & S1 & S2 & S3 & S4 & _). assert (m0 = m) as -> by congruence. assert (ob1 = mb) as -> by congruence.
        assert (Q2 : tq U' s s2) by (by eapply tq_tr). assert (Hx : objectOf (p_graph s2) x m) by (apply (objectOf_settings _ _ _ ob2); [done|done|congruence]).
        unfold referAdd. p1. p1. p1. right. split; [apply tq_refer; [done|]; exists ob2; split; [done|]; split; [right; congruence|]; split; [right; by exists (Some up)|by right]|].
        cbn [p_graph p_set_refer]. split; [done|]. intros o rest' Ho'. assert (o = up) as -> by congruence. apply (place_reference _ m ob2 _ _ i); [done|by left|done|done|by apply Ha|done].
    + assert (Hs : ~ settingsElement x) by (intros Hs; apply (settings_agrees _ _ Ha Ht Er) in Hs; congruence).
      p1. eapply (pw_mono _ (fun _ s' => s' = s)). { p1; [by p1|]. p1; [by p1|p1]. }
      intros uri s' ->. p1. p1. p1.
      eapply (pw_mono _ (fun m s' => tr s s' /\ exists ob, g_obj (p_graph s') !! m = Some ob /\ ob_kind ob = KMedia /\ ob_id ob = i)).
      * destruct (sget i (p_refer s)) as [m|] eqn:Em.
        -- p1. split; [by apply tr_refl|]. destruct (pi_refer _ _ _ _ I _ _ Em) as (ob & A & B & [C|C]); [done|]. destruct (ti_refer _ _ T _ _ Em) as (ob' & A' & B' & C' & [D'|D']); [|done]. exists ob. assert (ob' = ob) as -> by congruence. done.
        -- by apply tr_new.
      * intros m s1 [R1 (ob & M1 & M2 & M3)]. cbv beta. p1. eapply pw_mono; [apply tr_prop, R1|]. intros [] s2 R2. p1. eapply pw_mono; [apply tr_prop, R2|]. intros [] s3 R3. p1.
        apply pw_peek_top. intros up rest ub Hu Hub Hk. p1. eapply pw_mono; [apply tr_child, R3|]. intros [] s4 [R4 (cb & ob2 & D1 & D2 & D3 & D4)]. p1. right.
        assert (R14 : tr s1 s4) by (eapply tr_trans; [done|]; by eapply tr_trans). assert (R : tr s s4) by (by eapply tr_trans).
        destruct (tm_obj _ _ _ _ (tr_tm _ _ R14) M1) as (ob3 & E1 & E2 & E3 & _). assert (ob3 = ob2) as -> by congruence.
        assert (Hx : objectOf (p_graph s4) x m) by (apply (objectOf_media _ _ _ ob2); [done|by apply (agrees_none _ _ _ Ha)|done|done|congruence|rewrite E3, M3; by apply Ha]).
        split; [by eapply tq_tr|]. split; [done|]. intros o rest' Ho'. rewrite (tr_objs _ _ R3), (tr_objs _ _ R2), (tr_objs _ _ R1) in Hu. assert (o = up) as -> by congruence.
        apply (inPlace_comp _ _ m cb ob2); try done. right. right. split; [done|]. split; [by apply (agrees_none _ _ _ Ha)|done].
Qed.

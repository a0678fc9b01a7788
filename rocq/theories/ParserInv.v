(** ParserInv.v -- the invariant of a document being parsed. *)
From Verif Require Export ParserQuiet ParserCheck.
From Verif Require Import BuildInv BuildOps BuildSpec BuildFacts Frame.
Open Scope string_scope.
Open Scope list_scope.

(** What an object refers to exists. *)
Record refs (g : graph) (ob : obj) : Prop := mkRefs {
  rf_ports : forall e, e ∈ ob_ports ob -> is_Some (g_evt g !! e);
  rf_links : forall cs acts a, (cs, acts) ∈ ob_links ob -> a ∈ cs \/ a ∈ acts -> is_Some (g_evt g !! ac_evt a);
  rf_swports : forall n l e, (n, l) ∈ ob_swports ob -> e ∈ l -> is_Some (g_evt g !! e);
  rf_aliases : forall i c, (i, Some c) ∈ ob_aliases ob -> is_Some (g_obj g !! c) }.
Lemma refs_ext g g' ob ob' : gext g g' -> ob_ports ob' = ob_ports ob -> ob_links ob' = ob_links ob -> ob_swports ob' = ob_swports ob -> ob_aliases ob' = ob_aliases ob ->
  refs g ob -> refs g' ob'.
Proof.
  intros X E1 E2 E3 E4 [A B C D]. assert (Hev : forall e, is_Some (g_evt g !! e) -> is_Some (g_evt g' !! e)) by (intros e [ev H]; exists ev; by apply (gx_evt _ _ X)).
  split; rewrite ?E1, ?E2, ?E3, ?E4; eauto. intros i c Hc. destruct (D _ _ Hc) as [cb Hcb]. destruct (gx_obj _ _ X _ _ Hcb) as (cb' & H & _). by exists cb'.
Qed.

(** The same objects, up to parents, children, events, rules and new references; the
    objects [D] are now in the document. *)
Record gsm (D : list oid) (g g' : graph) : Prop := mkGsm {
  gs_step : step g g';
  gs_objs : forall o, o ∈ g_objs g' <-> o ∈ g_objs g \/ o ∈ D;
  gs_obj : forall o, match g_obj g !! o, g_obj g' !! o with
    | Some ob, Some ob' => ob_kind ob' = ob_kind ob /\ ob_id ob' = ob_id ob /\ ob_aliases ob' = ob_aliases ob /\ (refs g ob -> refs g' ob')
    | None, None => True | _, _ => False end }.
Lemma gsm_refl g : GInv g -> gsm [] g g.
Proof. intros I. split; [by apply step_refl|set_solver|]. intros o. by destruct (g_obj g !! o). Qed.
Lemma gsm_trans g1 g2 g3 : gsm [] g1 g2 -> gsm [] g2 g3 -> gsm [] g1 g3.
Proof.
  intros [A1 A2 A3] [B1 B2 B3]. split; [by eapply step_trans|set_solver|]. intros o. specialize (A3 o). specialize (B3 o).
  destruct (g_obj g1 !! o), (g_obj g2 !! o), (g_obj g3 !! o); try done. destruct A3 as (a & b & c & d), B3 as (e & f & h & i). split; [congruence|]. split; [congruence|]. split; [congruence|]. auto.
Qed.
Lemma gsm_fwd D g g' o ob : gsm D g g' -> g_obj g !! o = Some ob -> exists ob', g_obj g' !! o = Some ob' /\ ob_kind ob' = ob_kind ob /\ ob_id ob' = ob_id ob /\ ob_aliases ob' = ob_aliases ob.
Proof. intros [_ _ H] E. specialize (H o). rewrite E in H. destruct (g_obj g' !! o) as [ob'|]; [|done]. exists ob'. destruct H as (? & ? & ? & _). done. Qed.
Lemma gsm_bwd D g g' o ob' : gsm D g g' -> g_obj g' !! o = Some ob' -> exists ob, g_obj g !! o = Some ob /\ ob_kind ob' = ob_kind ob /\ ob_id ob' = ob_id ob /\ ob_aliases ob' = ob_aliases ob /\ (refs g ob -> refs g' ob').
Proof. intros [_ _ H] E. specialize (H o). rewrite E in H. destruct (g_obj g !! o) as [ob|]; [|done]. exists ob. destruct H as (? & ? & ? & ?). done. Qed.

Definition named (ob : obj) (i : string) : Prop := ob_id ob = i \/ exists p, (i, p) ∈ ob_aliases ob.
Lemma named_eq ob ob' i : ob_id ob' = ob_id ob -> ob_aliases ob' = ob_aliases ob -> named ob' i <-> named ob i.
Proof. unfold named. by intros -> ->. Qed.
(** The media elements met so far: in the cache, or just pushed. *)
Definition knownM (s : pst) (pend : option smapT) (a : smapT) : Prop :=
  (exists n e, p_cache s !! n = Some e /\ el_tag e = "media" /\ el_attrs e = a) \/ pend = Some a.
Record pinv (U : list string) (pend : option smapT) (X : list oid) (s : pst) : Prop := mkPI {
  pi_g : GInv (p_graph s); pi_d : GDoc (p_graph s);
  pi_root : exists r rb, g_root (p_graph s) = Some r /\ r ∈ g_objs (p_graph s) /\ g_obj (p_graph s) !! r = Some rb /\ ob_id rb = "__root__" /\ ob_kind rb = KContext;
  pi_refs : forall o ob, g_obj (p_graph s) !! o = Some ob -> refs (p_graph s) ob;
  pi_orphan : forall o ob, g_obj (p_graph s) !! o = Some ob -> o ∈ g_objs (p_graph s) \/ o ∈ X \/
    (ob_kind ob = KMedia /\ sget (ob_id ob) (p_refer s) = Some o /\ exists a, knownM s pend a /\ sget "refer" a = Some (ob_id ob));
  pi_there : forall a r, knownM s pend a -> sget "id" a = Some r -> sget "refer" a = None -> exists o ob, o ∈ g_objs (p_graph s) /\ g_obj (p_graph s) !! o = Some ob /\ named ob r;
  pi_media : forall a r o ob, knownM s pend a -> sget "id" a = Some r -> sget "refer" a = None -> g_obj (p_graph s) !! o = Some ob -> named ob r -> is_media (ob_kind ob) = true;
  pi_settled : forall a r o ob, knownM s pend a -> sget "id" a = Some r -> sget "refer" a = None -> g_obj (p_graph s) !! o = Some ob -> ob_id ob = r -> o ∈ g_objs (p_graph s) \/ o ∈ X;
  pi_names : forall o ob, g_obj (p_graph s) !! o = Some ob -> is_media (ob_kind ob) = false -> (ob_id ob ∈ U \/ ob_id ob = "__root__") /\ forall i p, (i, p) ∈ ob_aliases ob -> i ∈ U /\ ob_kind ob = KContext;
  pi_refer : forall k m, sget k (p_refer s) = Some m -> exists ob, g_obj (p_graph s) !! m = Some ob /\ is_media (ob_kind ob) = true /\ (k ∈ U \/ ob_id ob = k);
  pi_ids : forall a r, knownM s pend a -> sget "id" a = Some r -> r ∈ U }.
Lemma pinv_mono U U' pend X s : U ⊆ U' -> pinv U pend X s -> pinv U' pend X s.
Proof.
  intros H []. split; try done.
  - intros o ob Ho Hm. destruct (pi_names0 _ _ Ho Hm) as [A B]. split; [destruct A; auto|]. intros i p Hi. destruct (B _ _ Hi). auto.
  - intros k m Hk. destruct (pi_refer0 _ _ Hk) as (ob & A & B & [C|C]); exists ob; eauto.
  - eauto.
Qed.
(** ** Changes that do not create or name objects. *)
Lemma known_cfr s s' pend a : cfr s s' -> knownM s' pend a <-> knownM s pend a.
Proof.
  intros F. unfold knownM. split; intros [(n & e & A & B & C)|H]; auto; left.
  - destruct (cfr_bwd _ _ _ _ F A) as (e0 & A0 & T & _ & M). exists n, e0. split; [done|]. split; [congruence|]. rewrite <- M by congruence. done.
  - destruct (cfr_fwd _ _ _ _ F A) as (e0 & A0 & T & _ & M). exists n, e0. split; [done|]. split; [congruence|]. rewrite M by congruence. done.
Qed.
Lemma pinv_move U pend X D s s' : pinv U pend X s -> cfr s s' -> gsm D (p_graph s) (p_graph s') -> p_refer s' = p_refer s -> pinv U pend (List.filter (fun o => negb (bool_decide (o ∈ D))) X) s'.
Proof.
  intros [] F G Er. assert (K : forall a, knownM s' pend a -> knownM s pend a) by (intros a; apply (proj1 (known_cfr s s' pend a F))).
  assert (HX : forall o, o ∈ X -> o ∈ g_objs (p_graph s') \/ o ∈ List.filter (fun o => negb (bool_decide (o ∈ D))) X).
  { intros o Ho. destruct (decide (o ∈ D)) as [Hd|Hd]; [left; apply (gs_objs _ _ _ G); by right|right]. apply elem_of_list_In, filter_In. split; [by apply elem_of_list_In|]. by rewrite bool_decide_false. }
  split.
  - apply (gs_step _ _ _ G).
  - by apply (gs_step _ _ _ G).
  - destruct pi_root0 as (r & rb & A1 & A2 & A3 & A4 & A5). destruct (gsm_fwd _ _ _ _ _ G A3) as (rb' & B1 & B2 & B3 & _). exists r, rb'.
    rewrite (gx_root _ _ (st_ext _ _ (gs_step _ _ _ G))). split; [done|]. split; [apply (gs_objs _ _ _ G); by left|]. split; [done|]. split; congruence.
  - intros o ob' Ho. destruct (gsm_bwd _ _ _ _ _ G Ho) as (ob & A & _ & _ & _ & R). eauto.
  - intros o ob' Ho. destruct (gsm_bwd _ _ _ _ _ G Ho) as (ob & A & B & C & _ & _). destruct (pi_orphan0 _ _ A) as [H|[H|(H1 & H2 & a & H3 & H4)]]; [left; apply (gs_objs _ _ _ G); by left| |].
    { destruct (HX _ H); auto. }
    right. right. rewrite B, C, Er. split; [done|]. split; [done|]. exists a. split; [by apply (known_cfr _ _ _ _ F)|done].
  - intros a r Ha Hi Hr. destruct (pi_there0 a r (K _ Ha) Hi Hr) as (o & ob & A & B & C). destruct (gsm_fwd _ _ _ _ _ G B) as (ob' & B1 & B2 & B3 & B4). exists o, ob'. split; [apply (gs_objs _ _ _ G); by left|]. split; [done|]. by apply (named_eq ob).
  - intros a r o ob' Ha Hi Hr Ho Hn. destruct (gsm_bwd _ _ _ _ _ G Ho) as (ob & A & B & C & D' & _). rewrite B. eapply pi_media0; [by apply K|done|done|done|]. by apply (named_eq ob ob').
  - intros a r o ob' Ha Hi Hr Ho Hn. destruct (gsm_bwd _ _ _ _ _ G Ho) as (ob & A & B & C & _). destruct (pi_settled0 a r o ob (K _ Ha) Hi Hr A ltac:(congruence)) as [H|H]; [left; apply (gs_objs _ _ _ G); by left|auto].
  - intros o ob' Ho Hm. destruct (gsm_bwd _ _ _ _ _ G Ho) as (ob & A & B & C & D' & _). rewrite B, C, D'. apply (pi_names0 o ob A). congruence.
  - rewrite Er. intros k m Hk. destruct (pi_refer0 _ _ Hk) as (ob & A & B & C). destruct (gsm_fwd _ _ _ _ _ G A) as (ob' & A1 & A2 & A3 & _). exists ob'. split; [done|]. rewrite A2, A3. done.
  - intros a r Ha. eapply pi_ids0. by apply K.
Qed.
Definition gq (s s' : pst) : Prop := cfr s s' /\ gsm [] (p_graph s) (p_graph s') /\ p_refer s' = p_refer s.
Lemma filter_all X : List.filter (fun o : oid => negb (bool_decide (o ∈ []))) X = X.
Proof. induction X as [|x X IH]; cbn; [done|]. rewrite IH, bool_decide_false by apply not_elem_of_nil. done. Qed.
Lemma pinv_gq U pend X s s' : pinv U pend X s -> gq s s' -> pinv U pend X s'.
Proof. intros I (F & G & R). pose proof (pinv_move _ _ _ _ _ _ I F G R) as H. by rewrite filter_all in H. Qed.
Lemma gq_trans a b c : gq a b -> gq b c -> gq a c.
Proof. intros (A & B & C) (D & E & F). split; [by eapply cfr_trans|]. split; [by eapply gsm_trans|congruence]. Qed.
Lemma gq_quiet s s' : GInv (p_graph s) -> quiet s s' -> gq s s'.
Proof. intros I (A & B & C). split; [done|]. split; [rewrite B; by apply gsm_refl|done]. Qed.
Lemma gq_refl s : GInv (p_graph s) -> gq s s.
Proof. intros I. apply gq_quiet; [done|apply quiet_refl]. Qed.
Lemma gq_inv s s' : gq s s' -> GInv (p_graph s').
Proof. by intros (_ & G & _); apply (gs_step _ _ _ G). Qed.

(** ** The document operations of the parser. *)
Lemma gsm_addEvent g o t i b e l : GInv g -> pwp (addEvent o t i b e l) (fun _ g' => gsm [] g g') g.
Proof.
  intros I. eapply wp_mono; [by apply wp_addEvent|]. intros [] g' (S & _ & E1 & E2 & E3 & E4 & _ & H). cbv beta in *.
  split; [done|rewrite E1; set_solver|]. intros o'. destruct (g_obj g !! o') as [ob|] eqn:Eo.
  - destruct (gx_obj _ _ (st_ext _ _ S) _ _ Eo) as (ob' & Ho' & _). rewrite Ho'. destruct (H _ _ Ho') as (ob0 & A & F1 & F2 & F3 & F4 & F5 & F6 & F7 & F8 & F9).
    assert (ob0 = ob) as -> by congruence. split; [done|]. split; [done|]. split; [done|]. by apply refs_ext; [apply S| | | |].
  - destruct (g_obj g' !! o') as [ob'|] eqn:Eo'; [|done]. destruct (H _ _ Eo') as (ob0 & A & _). congruence.
Qed.
(** Changing references of one object. *)
Lemma gsm_oupd g o f : GInv g -> (forall ob, g_obj g !! o = Some ob -> harmless g ob (f ob) /\ ob_aliases (f ob) = ob_aliases ob /\ (refs g ob -> refs g (f ob))) ->
  pwp (oupd o f) (fun _ g' => gsm [] g g') g.
Proof.
  intros I H. apply wp_oupd. intros ob Ho. destruct (H _ Ho) as (Hh & Ha & Hr). assert (S : same g (g_set_obj (<[o := f ob]> (g_obj g)) g)) by (by apply same_oupd).
  set (g' := g_set_obj (<[o := f ob]> (g_obj g)) g) in *. assert (ST : step g g') by (by apply step_same). split; [done|cbn; set_solver|]. intros o'.
  assert (RG : forall x, refs g x -> refs g' x) by (intros x; by apply refs_ext; [apply ST| | | |]).
  cbn. destruct (decide (o' = o)) as [->|Hne].
  - rewrite lookup_insert, Ho. destruct Hh as (h1 & h2 & h3 & h4 & h5 & h6 & h7). split; [done|]. split; [done|]. split; [done|]. auto.
  - rewrite lookup_insert_ne by done. destruct (g_obj g !! o'); [|done]. auto.
Qed.
Lemma gsm_addPort g o e : GInv g -> is_Some (g_evt g !! e) -> pwp (addPort o e) (fun _ g' => gsm [] g g') g.
Proof.
  intros I He. apply gsm_oupd; [done|]. intros ob Ho. destruct (bool_decide _).
  - split; [|done]. repeat split; try done; eauto.
  - split; [repeat split; try done; eauto|]. split; [done|]. intros []. split; try done. cbn. intros x Hx. apply elem_of_app in Hx as [Hx|Hx]; [auto|]. by apply elem_of_list_singleton in Hx as ->.
Qed.
Lemma gsm_addLink g o cs acts : GInv g -> (forall a, a ∈ cs \/ a ∈ acts -> is_Some (g_evt g !! ac_evt a)) -> pwp (addLink o cs acts) (fun _ g' => gsm [] g g') g.
Proof.
  intros I He. unfold addLink. w1. w1. w1. w1. apply gsm_oupd; [done|]. intros ob Ho. split; [repeat split; try done; eauto|]. split; [done|]. intros []. split; try done.
  cbn. intros cs' acts' a Hx Ha. apply elem_of_app in Hx as [Hx|Hx]; [eauto|]. apply elem_of_list_singleton in Hx. injection Hx as -> ->. auto.
Qed.
Lemma gsm_addRule g o c p : GInv g -> pwp (addRule o c p) (fun _ g' => gsm [] g g') g.
Proof.
  intros I. apply gsm_oupd; [done|]. intros ob Ho. split; [repeat split; try done; eauto|]. split; [done|]. intros []. by split.
Qed.
Lemma passign_in {A} k (v : A) l n x : (n, x) ∈ passign k v l -> x = v \/ (n, x) ∈ l.
Proof.
  induction l as [|[k' v'] l IH]; cbn.
  - intros H. apply elem_of_list_singleton in H. injection H as -> ->. by left.
  - destruct (String.eqb k' k); intros H; apply elem_of_cons in H as [H|H].
    + injection H as -> ->. by left.
    + right. by constructor.
    + injection H as -> ->. right. constructor.
    + destruct (IH H) as [->|H2]; [by left|right; by constructor].
Qed.
Lemma gsm_addSwitchPort g c i l : GInv g -> (forall e, e ∈ l -> is_Some (g_evt g !! e)) -> pwp (addSwitchPort c i l) (fun _ g' => gsm [] g g') g.
Proof.
  intros I He. unfold addSwitchPort. w1.
  eapply (wp_mono _ _ _ (fun _ g' => gsm [] g g' /\ exists ob' x ev, g_obj g' !! c = Some ob' /\ x ∈ ob_events ob' /\ g_evt g' !! x = Some ev /\ ev_type ev = PRESENTATION /\ ev_id ev = i)).
  { apply wp_conj; [by apply gsm_addEvent|]. eapply wp_mono; [by apply wp_addEvent|]. intros [] g' (_ & H & _). exact H. }
  intros [] g1 (G1 & ob' & x & ev & E1 & E2 & E3 & E4 & E5). cbv beta.
  eapply wp_mono; [apply gsm_oupd; [apply (gs_step _ _ _ G1)|]|intros [] g2 G2; by eapply gsm_trans].
  intros ob Ho. assert (ob' = ob) as -> by congruence. split; [|split; [done|]].
  - repeat split; try done. cbn. intros n l' Hl. apply passign_elem in Hl as [->|Hl]; [right; by exists x, ev|left; eauto].
  - intros []. split; try done. cbn. intros n l' e Hl Hle. apply passign_in in Hl as [->|Hl]; [|eauto]. destruct (He e Hle) as [ev0 H0]. exists ev0. by apply (gx_evt _ _ (st_ext _ _ (gs_step _ _ _ G1))).
Qed.
Lemma gsm_same g g' : GInv g -> g_next g' = g_next g -> g_obj g' = g_obj g -> g_evt g' = g_evt g -> g_objs g' = g_objs g -> g_byid g' = g_byid g -> g_medias g' = g_medias g ->
  g_root g' = g_root g -> g_settings g' = g_settings g -> gsm [] g g'.
Proof.
  intros I E0 E1 E2 E3 E4 E5 E6 E7. assert (S : step g g'). { apply step_same; [done|]. destruct (same_refl g I). split; rewrite ?E0, ?E1; done. }
  split; [done|rewrite E3; set_solver|]. intros o. rewrite E1. destruct (g_obj g !! o) as [ob|]; [|done]. split; [done|]. split; [done|]. split; [done|]. by apply refs_ext; [apply S| | | |].
Qed.
Lemma gsm_setProperty g o n v : GInv g -> pwp (gsetProperty o n v) (fun _ g' => gsm [] g g') g.
Proof.
  intros I. unfold gsetProperty. w1. apply wp_gobj. intros ob _. w1. w1.
  - w1. w1. by apply gsm_same.
  - w1. by apply gsm_same.
Qed.
Lemma gsm_setParameter g e n v : GInv g -> pwp (gsetParameter e n v) (fun _ g' => gsm [] g g') g.
Proof. intros I. unfold gsetParameter. w1. apply wp_gevt. intros ev _. w1. by apply gsm_same. Qed.
(** A child. *)
Lemma gsm_addChild g c o : GInv g -> pwp (addChild c o) (fun _ g' => gsm [o] g g') g.
Proof.
  intros I. pose proof (wp_addChild g c o I) as W. unfold wp in W |- *. destruct (addChild c o g) as [[] g'| |] eqn:E; try done. destruct W as (S & _ & Hc & Ho & AT).
  destruct (g_obj g !! c) as [cb|] eqn:Ec; [|unfold addChild, bind, gobj in E; by rewrite Ec in E]. destruct (g_obj g !! o) as [ob|] eqn:Eo; [|unfold addChild, bind, gobj in E; rewrite Ec in E; cbn in E; by rewrite Eo in E].
  destruct (decide (o ∈ ob_children cb)) as [Hi|Hi].
  - assert (g' = g) as ->. { unfold addChild, bind, gobj in E. rewrite Ec in E. cbn in E. rewrite Eo in E. cbn in E. rewrite bool_decide_true in E by done. by injection E as <-. }
    split; [done| |]. { intros o'. split; [auto|]. intros [H|H]; [done|]. by apply elem_of_list_singleton in H as ->. }
    intros o'. by destruct (g_obj g !! o').
  - specialize (AT _ _ eq_refl eq_refl Hi). split; [done| |].
    { intros o'. rewrite (at_objs _ _ _ _ _ AT), sins_elem. set_solver. }
    intros o'. rewrite (at_obj _ _ _ _ _ AT). destruct (g_obj g !! o') as [ob'|]; cbn; [|done].
    assert (H : ob_kind (hung g o (Some c) o' ob') = ob_kind ob' /\ ob_id (hung g o (Some c) o' ob') = ob_id ob' /\ ob_aliases (hung g o (Some c) o' ob') = ob_aliases ob' /\
      ob_ports (hung g o (Some c) o' ob') = ob_ports ob' /\ ob_links (hung g o (Some c) o' ob') = ob_links ob' /\ ob_swports (hung g o (Some c) o' ob') = ob_swports ob').
    { unfold hung. destruct (decide (o' = o)); [done|]. by destruct (decide (Some o' = Some c)). }
    destruct H as (h1 & h2 & h3 & h4 & h5 & h6). split; [done|]. split; [done|]. split; [done|]. by apply refs_ext; [apply S| | | |].
Qed.

(** ** References resolve to existing things. *)
Lemma pw_quiet {A} (m : P A) (R : A -> pst -> Prop) s : kq m -> pw m R s -> pw m (fun a s' => quiet s s' /\ R a s') s.
Proof. intros H1 H2. apply pw_conj; [apply H1|done]. Qed.
Lemma component_obj c e s : GInv (p_graph s) -> pw (resolveComponent c e) (fun o s' => s' = s) s.
Proof.
  intros I. unfold resolveComponent. p1. p1. p1. apply pw_lift, wp_gobj. intros sb Hs. replace (p_set_graph (p_graph s) s) with s by (by destruct s). p1; [by p1|].
  p1. apply pw_lift. unfold getChildByIdOrAlias. w1. apply wp_gobj. intros cb Hcb. w1. replace (p_set_graph (p_graph s) s) with s by (by destruct s). p1; [by p1|]. p1. p1. by p1.
Qed.
Definition evOk (s : pst) (x : eid) : Prop := is_Some (g_evt (p_graph s) !! x).
Lemma pw_gobj o (Q : obj -> pst -> Prop) s : (forall ob, g_obj (p_graph s) !! o = Some ob -> Q ob s) -> pw (lift (gobj o)) Q s.
Proof. intros H. apply pw_lift, wp_gobj. intros ob Ho. replace (p_set_graph (p_graph s) s) with s by (by destruct s). auto. Qed.
Lemma pw_getEvent o t i (Q : option eid -> pst -> Prop) s : (forall r ob, g_obj (p_graph s) !! o = Some ob -> match r with Some e => e ∈ ob_events ob /\ exists ev, g_evt (p_graph s) !! e = Some ev /\ ev_type ev = t /\ ev_id ev = i
  | None => forall e ev, e ∈ ob_events ob -> g_evt (p_graph s) !! e = Some ev -> ev_type ev = t -> ev_id ev <> i end -> Q r s) -> pw (lift (getEvent o t i)) Q s.
Proof.
  intros H. apply pw_lift. eapply wp_mono; [apply wp_getEvent|]. intros r g' [-> (ob & Ho & Hr)]. replace (p_set_graph (p_graph s) s) with s by (by destruct s). eauto.
Qed.
Lemma interface_evt k : forall c e s, GInv (p_graph s) -> pw (resolveInterface k c e) (fun x s' => s' = s /\ evOk s x) s.
Proof.
  induction k as [|k IH]; intros c e s I; cbn [resolveInterface]; [done|].
  assert (GE : forall o t i pos, pw (let* r := lift (getEvent o t i) in pofe r pos) (fun x s' => s' = s /\ evOk s x) s).
  { intros o t i pos. p1. apply pw_getEvent. intros r ob _ Hr. p1. subst r. destruct Hr as (_ & ev & Hev & _). split; [done|by exists ev]. }
  p1. eapply pw_mono; [by apply component_obj|]. intros o s' ->. cbv beta. p1. apply pw_gobj. intros ob Ho. p1.
  - p1.
    + p1; [apply GE|]. unfold cacheById. p1. p1. p1; [|apply GE]. p1. p1. p1. eapply (pw_mono _ (fun _ s' => s' = s)).
      { p1; [p1; p1; by p1|]. p1. p1. p1. apply pw_lift. unfold glookupId. w1. replace (p_set_graph (p_graph s) s) with s by (by destruct s). p1. p1. p1. apply pw_gobj. intros cb Hcb. p1. p1. by p1. }
      intros c' s' ->. cbv beta. p1. apply pw_gobj. intros cb Hcb. p1. p1. by apply IH.
    + apply GE.
    + p1. apply pw_getEvent. intros r ob1 Ho1 Hr. p1; [|apply GE]. p1. destruct Hr as (_ & ev & Hev & _). split; [done|by exists ev].
    + p1. apply pw_getEvent. intros r ob1 Ho1 Hr. p1; [|apply GE]. p1. destruct Hr as (_ & ev & Hev & _). split; [done|by exists ev].
  - p1. destruct (oi_lambda _ _ _ (gi_o _ I _ _ Ho)) as (ev & Hev & _). split; [done|by exists ev].
Qed.

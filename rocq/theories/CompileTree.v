(** CompileTree.v -- C42: the links of a document are added in document order, each with the
    object of the composition it is in; and where ports come from. *)
From Verif Require Import BuildInv BuildOps BuildSpec BuildFacts Frame ParserFrame ParserEnd.
From Verif Require Export CompileDoc.
Open Scope string_scope.
Open Scope list_scope.

Definition under (px x : xml) : list (xml * xml) := (if tagIs "link" x then [(px, x)] else []) ++ linksOf x.
Lemma links_eq x : linksOf x = flat_map (under x) (x_kids x).
Proof. destruct x as [t a l]. cbn [linksOf x_kids]. reflexivity. Qed.
Definition linkN (lo : nid) (s : pst) (p : xml * xml) (m : nid) : Prop := exists c, linkAt lo s (snd p) c m /\ objectOf (p_graph s) (fst p) c.
Lemma linkN_step X lo lo' s s' p m : cinv s -> lf X s s' -> (forall n, X n -> (n < lo)%positive) -> tm (p_graph s) (p_graph s') -> (lo' <= lo)%positive -> linkN lo s p m -> linkN lo' s' p m.
Proof. intros C L HX T Hl (c & Hc & Ho). exists c. split; [eapply linkAt_lo; [exact Hl|]; by eapply linkAt_lf|]. by eapply objectOf_tm. Qed.

Lemma push_up E imp p e s : (forall e0 s0, pw (imp e0) (fun e' _ => e' = e0) s0) -> pw (push E imp p e) (fun e' _ => el_up e' = el_up e) s.
Proof.
  intros Hi. assert (T : forall {A} (m : P A) (Q : A -> pst -> Prop) s0, (forall a s', Q a s') -> pw m Q s0) by (intros A m Q s0 H; unfold pw; destruct (m s0); auto).
  destruct p; cbn [push]; try (by p1).
  all: try (unfold pushNcl, pushRegion, pushDescParam, pushConnector, pushCompound, pushSimple, pushStatement, pushAssess, pushRule, pushContext, pushPort, pushSwitch, pushSwitchPort, pushMapping, pushBindRule, pushMedia, pushArea, pushProperty, pushLink, pushLinkParam, pushBind, pushFont;
    repeat first [by apply pw_ret | apply pw_fail | apply pw_crash | apply pw_bind; apply T; intros | match goal with |- pw (if ?b then _ else _) _ _ => destruct b | |- pw (match ?x with _ => _ end) _ _ => destruct x end | progress cbv zeta]; fail).
  eapply pw_mono; [apply Hi|]. intros e' s' ->. done.
Qed.

(** ** Ports. *)
Definition portAt (s : pst) (p x' : xml) (m : nid) : Prop := exists e u ue, p_cache s !! m = Some e /\ el_tag e = "port" /\ (forall k, attr e k = aget k (x_attrs p)) /\ el_up e = Some u /\
  p_cache s !! u = Some ue /\ el_tag ue = x_tag x' /\ (forall k, attr ue k = aget k (x_attrs x')) /\ (x_tag x' = "body" \/ x_tag x' = "context") /\ x_tag p = "port".
Lemma portAt_lf X s s' p x' m : cinv s -> lf X s s' -> portAt s p x' m -> portAt s' p x' m.
Proof.
  intros C L (e & u & ue & He & Ht & Ha & Hu & Hue & Hut & Hua & Hx & Hp). destruct (lf_ident _ _ _ _ _ L He) as (e' & He' & Hi); [apply (C _ _ He)|]. destruct (lf_ident _ _ _ _ _ L Hue) as (ue' & Hue' & Hi'); [apply (C _ _ Hue)|].
  exists e', u, ue'. split; [done|]. split; [by rewrite (ident_tag _ _ Hi)|]. split; [intros k; rewrite (ident_attr _ _ _ Hi); [done|by rewrite Ht]|]. split; [by rewrite (ident_up _ _ Hi)|]. split; [done|]. split; [by rewrite (ident_tag _ _ Hi')|].
  split; [|done]. intros k. rewrite (ident_attr _ _ _ Hi'); [done|]. rewrite Hut. intros Hd. destruct Hx; congruence.
Qed.
Definition portIn (px x : xml) (p x' : xml) : Prop := (p = x /\ x' = px) \/ (x' ∈ elementsOf x /\ p ∈ x_kids x').
Definition upAs (s : pst) (up : option (nid * string)) (px : xml) : Prop := forall u t, up = Some (u, t) -> t = x_tag px /\ (t = "body" \/ t = "context" -> exists ue, p_cache s !! u = Some ue /\ el_tag ue = t /\ forall k, attr ue k = aget k (x_attrs px)).
Lemma upAs_lf X s s' up px : cinv s -> lf X s s' -> upAs s up px -> upAs s' up px.
Proof.
  intros C L H u t E. destruct (H u t E) as [H1 H2]. split; [done|]. intros Ht. destruct (H2 Ht) as (ue & Hue & Hut & Hua). destruct (lf_ident _ _ _ _ _ L Hue) as (ue' & Hue' & Hi); [apply (C _ _ Hue)|]. exists ue'. split; [done|]. split; [by rewrite (ident_tag _ _ Hi)|].
  intros k. rewrite (ident_attr _ _ _ Hi); [done|]. rewrite Hut. intros Hd. destruct Ht; congruence.
Qed.
Lemma process_ports E k : forall up px x s, cinv s -> Par s up -> ordOk s -> p_alias s = [] -> upAs s up px ->
  pw (processNode E k up x) (fun _ s' => forall m, m ∈ nodesOf "port" s' -> m ∈ nodesOf "port" s \/ exists p x', portAt s' p x' m /\ portIn px x p x') s.
Proof.
  induction k as [|k IH]; intros up px x s C Hp O Ha Hu; [apply pw_nofuel|].
  destruct (mem (x_tag x) headTags) eqn:Eh.
  { eapply pw_mono; [apply pw_conj; [by apply process_lf|by apply process_headnodes]|]. intros [] s' [[L _] Hn] m Hm. left. rewrite (newIn_nodes isHead _ "port" s s' L O Hn) in Hm; done. }
  apply process_rule2; [done|done|]. intros sy attrs s1 K1 Hn.
  destruct (checked_fresh _ _ _ _ _ _ _ K1) as (_ & Hn2 & Hc & Ho2 & Hcn2 & _ & _ & Ha2). rewrite Hn in *.
  assert (G1 : grows s (p_set_next (Pos.succ (p_next s)) s1)) by (rewrite <- Hn at 1; exact (checked_grows _ _ _ _ _ _ _ K1)).
  assert (Hni : sy_push sy <> PuImport). { intros Hi. rewrite (import_head _ _ (ck_syn _ _ _ _ _ _ _ K1) Hi) in Eh. done. }
  set (s2 := p_set_next _ _) in *. set (e0 := newElt _ _ _ _) in *.
  eapply pw_mono; [apply pw_conj; [apply (grows_push E (processNode E k)); intros up' x' s'; eapply pw_mono; [apply process_ids|]; intros [] s'' (J1 & J2 & _); by split|apply (push_up E (pushImport E (processNode E k))); intros; apply import_shape]|].
  intros e s3 [G3 U3]. cbv beta. cbn [el_up newElt e0] in U3. eapply pw_mono; [apply keep_when, keep_cacheAdd|]. intros [] s4 F4 P4 Pr4 M4. cbv beta in *.
  assert (A4 : p_alias s4 = []) by (rewrite (fr_alias _ _ F4), (proj1 G3), (proj1 G1); done).
  assert (O4 : ordOk s4) by (eapply ordOk_lf; [apply M4|done]).
  assert (C4 : cinv s4) by apply P4.
  assert (E4 : sy_cache sy = true -> sy_push sy <> PuRegion -> p_cache s4 !! p_next s = Some e /\ el_tag e = x_tag x /\ (x_tag x <> "link" -> forall k0, attr e k0 = aget k0 (x_attrs x))).
  { intros Hca Hre. destruct (mi_elt _ _ _ _ _ _ _ M4 Hca) as (X1 & X2 & X3). split; [done|]. split; [done|]. intros Hl k0. apply (checked_same _ _ _ _ _ _ e K1 Ha); [by apply X3|by right]. }
  assert (N4 : forall m, m ∈ nodesOf "port" s4 -> m ∈ nodesOf "port" s \/ exists p x', portAt s4 p x' m /\ portIn px x p x').
  { intros m Hm. rewrite (nodes_new _ "port" s s4 _ (mi_lf _ _ _ _ _ _ _ M4) O (mi_order _ _ _ _ _ _ _ M4 Hni)) in Hm. apply elem_of_app in Hm as [Hm|Hm]; [by left|right].
    apply elem_of_list_In, filter_In in Hm as [Hm Hmt]. apply elem_of_list_In in Hm. destruct (sy_cache sy) eqn:Eca; [|by apply elem_of_nil in Hm]. apply elem_of_list_singleton in Hm as ->.
    destruct (mi_elt _ _ _ _ _ _ _ M4 Eca) as (X1 & X2 & _). unfold isTag in Hmt. rewrite X1, X2 in Hmt. apply String.eqb_eq in Hmt.
    pose proof (ck_syn _ _ _ _ _ _ _ K1) as Es. rewrite Hmt in Es. vm_compute in Es. injection Es as <-. destruct (E4 eq_refl) as (_ & _ & X3); [done|]. specialize (X3 ltac:(rewrite Hmt; done)).
    destruct (ck_up _ _ _ _ _ _ _ K1) as [Hz|(t & Ht & Hi)]; [done|]. destruct up as [[u t']|]; [|done]. cbn in Ht. injection Ht as ->. cbn in Hi.
    assert (Ht : t = "body" \/ t = "context") by set_solver. destruct (upAs_lf _ _ _ _ _ C (mi_lf _ _ _ _ _ _ _ M4) Hu u t eq_refl) as [H1 H2]. destruct (H2 Ht) as (ue & Hue & Hut & Hua).
    exists x, px. split; [|by left]. exists e, u, ue. split; [done|]. split; [congruence|]. split; [done|]. split; [exact U3|]. split; [done|]. split; [congruence|]. split; [done|]. split; [|done]. destruct Ht; [left|right]; congruence. }
  assert (U4 : upAs s4 (Some (p_next s, x_tag x)) x).
  { intros u t [= <- <-]. split; [done|]. intros Ht. exists e. pose proof (ck_syn _ _ _ _ _ _ _ K1) as Es. destruct Ht as [Ht|Ht]; rewrite Ht in Es; vm_compute in Es; injection Es as <-; (destruct (E4 eq_refl) as (X1 & X2 & X3); [done|]; split; [done|]; split; [congruence|]; apply X3; by rewrite Ht). }
  clearbody s2. eapply pw_mono; [apply (kids_rule E k _ _ _ s4 (fun l s' => cinv s' /\ ordOk s' /\ p_alias s' = [] /\ upAs s' (Some (p_next s, x_tag x)) x /\ forall m, m ∈ nodesOf "port" s' -> m ∈ nodesOf "port" s \/ exists p x', portAt s' p x' m /\ portIn px x p x')); [done|done| |]|].
  - done.
  - intros y l' s' [p0 Hp0] C' Hp' (_ & O' & A' & U' & H').
    assert (Hy : y ∈ x_kids x) by (rewrite Hp0; apply in_mid).
    eapply pw_mono; [apply pw_conj; [by apply process_post|apply pw_conj; [by apply process_lf|apply pw_conj; [apply process_ids|apply (IH _ x y s'); done]]]|]. intros [] s'' [[P'' _] [[L'' _] [(J1 & _) H'']]].
    split; [apply P''|]. split; [by eapply ordOk_lf|]. split; [congruence|]. split; [by eapply upAs_lf|]. intros m Hm. destruct (H'' m Hm) as [Hm'|(p & x' & Hpx & Hin)].
    + destruct (H' m Hm') as [Hq|(p & x' & Hpx & Hin)]; [by left|right]. exists p, x'. split; [|done]. by eapply portAt_lf.
    + right. exists p, x'. split; [done|]. right. rewrite elements_eq. destruct Hin as [[-> ->]|[H1 H2]]; [split; [left|done]|]. split; [|done]. right. apply elem_of_list_In, in_flat_map. exists y. split; by apply elem_of_list_In.
  - intros [] s5 (C5 & O5 & A5 & _ & H5). cbv beta in *. eapply pw_mono; [apply pw_conj; [by apply pop_lf|apply kw_pop]|]. intros [] s6 [[L6 _] O6] m Hm.
    rewrite (nodes_new _ "port" s5 s6 [] L6 O5) in Hm by (rewrite app_nil_r; exact O6). cbn in Hm. rewrite app_nil_r in Hm. destruct (H5 m Hm) as [Hq|(p & x' & Hpx & Hin)]; [by left|right]. exists p, x'. split; [|done]. by eapply portAt_lf.
Qed.

(** ** Links. *)
Definition inComp (s : pst) (up : option (nid * string)) (px : xml) : Prop := forall t, option_map snd up = Some t -> t = "body" \/ t = "context" -> exists o rest, p_objs s = o :: rest /\ objectOf (p_graph s) px o.
Definition LK (px x : xml) (s s' : pst) : Prop := exists l, nodesOf "link" s' = nodesOf "link" s ++ l /\ Forall2 (linkN (p_next s) s') (under px x) l.
Lemma xml_kids (Q : xml -> Prop) : (forall t a l, (forall y, y ∈ l -> Q y) -> Q (XElt t a l)) -> forall x, Q x.
Proof.
  intros H. assert (G : forall x, Q x). { fix IH 1. intros [t a l]. apply H. assert (F : List.Forall Q l) by (induction l; constructor; [apply IH|assumption]). intros y Hy. apply elem_of_list_In in Hy. revert y Hy. by apply List.Forall_forall. } exact G.
Qed.
Lemma in_links : forall x p, p ∈ linksOf x -> snd p ∈ elementsOf x /\ x_tag (snd p) = "link" /\ fst p ∈ elementsOf x /\ snd p ∈ x_kids (fst p).
Proof.
  intros x. induction x as [t a l IH] using xml_kids. intros p. rewrite links_eq, elements_eq. cbn [x_kids]. set (x := XElt t a l) at 1 2 3.
  intros Hp. apply elem_of_list_In, in_flat_map in Hp as (y & Hy & Hp). apply elem_of_list_In in Hy, Hp. unfold under in Hp.
  assert (J : forall z, z ∈ elementsOf y -> z ∈ x :: flat_map elementsOf l) by (intros z Hz; right; apply elem_of_list_In, in_flat_map; exists y; split; by apply elem_of_list_In).
  apply elem_of_app in Hp as [Hp|Hp].
  - unfold tagIs in Hp. destruct (String.eqb_spec (x_tag y) "link") as [Ht|_]; [|by apply elem_of_nil in Hp]. apply elem_of_list_singleton in Hp as ->. cbn [fst snd]. split; [apply J; rewrite elements_eq; left|]. split; [done|]. split; [left|done].
  - destruct (IH y Hy p Hp) as (H1 & H2 & H3 & H4). split; [by apply J|]. split; [done|]. split; [by apply J|done].
Qed.
Lemma head_links x px : (forall y, y ∈ elementsOf x -> mem (x_tag y) headTags = true) -> under px x = [].
Proof.
  intros H. unfold under. unfold tagIs. destruct (String.eqb_spec (x_tag x) "link") as [Ht|_]; [specialize (H x ltac:(rewrite elements_eq; left)); rewrite Ht in H; discriminate H|]. cbn [app].
  destruct (linksOf x) as [|p l] eqn:E; [done|]. destruct (in_links x p) as (H1 & H2 & _); [rewrite E; left|]. specialize (H _ H1). rewrite H2 in H. discriminate H.
Qed.
Lemma conn_tag t sy : synOf t = Some sy -> sy_push sy = PuConnector -> t = "causalConnector".
Proof.
  intros Es Hpu. apply look_some in Es. assert (F : forallb (fun p : string * syn => match sy_push (snd p) with PuConnector => String.eqb (fst p) "causalConnector" | _ => true end) syntax = true) by (vm_compute; reflexivity).
  apply (forall_elem _ _ _ F) in Es. cbn [fst snd] in Es. rewrite Hpu in Es. by apply String.eqb_eq in Es.
Qed.
Lemma process_links E k : forall up px x s, cinv s -> Par s up -> pinv (p_unique s) None [] s -> p_alias s = [] -> tinv (p_unique s) s -> ordOk s -> p_conn s = None ->
  (option_map snd up = Some "ncl" -> forall o rest, p_objs s = o :: rest -> g_root (p_graph s) = Some o) -> inComp s up px ->
  pw (processNode E k up x) (fun _ s' => p_odd s' = true \/ LK px x s s') s.
Proof.
  induction k as [|k IH]; intros up px x s C Hp I Ha T O Hcn Hb Hu; [apply pw_nofuel|].
  destruct (mem (x_tag x) headTags) eqn:Eh.
  { eapply pw_mono; [apply pw_conj; [by apply process_lf|apply pw_conj; [by apply process_headnodes|apply process_heads]]|]. intros [] s' [[L _] [Hn Hh]]. right. exists []. rewrite app_nil_r. split; [by apply (newIn_nodes isHead _ "link" s s' L O Hn)|]. rewrite (head_links _ _ (Hh Eh)). constructor. }
  assert (W : pw (processNode E (S k) up x) (fun _ s' => x_tag x = "link" -> forall c rest, p_objs s = c :: rest -> linkAt (p_next s) s' x c (p_next s)) s).
  { destruct (decide (x_tag x = "link")) as [Hx|Hx]; [|eapply pw_mono; [apply pw_top|]; done]. destruct (p_objs s) as [|c rest] eqn:Eo; [eapply pw_mono; [apply pw_top|]; done|]. eapply pw_mono; [by eapply link_ok|]. intros [] s' H _ c' rest' [= <- <-]. exact H. }
  eapply (pw_mono _ (fun _ s' => (x_tag x = "link" -> forall c rest, p_objs s = c :: rest -> linkAt (p_next s) s' x c (p_next s)) /\ (p_odd s' = true \/ ((x_tag x = "link" -> exists c rest, p_objs s = c :: rest /\ objectOf (p_graph s') px c) /\
     exists l, nodesOf "link" s' = nodesOf "link" s ++ (if tagIs "link" x then [p_next s] else []) ++ l /\ Forall2 (linkN (p_next s) s') (linksOf x) l)))).
  2: { intros [] s' [HW [Ho|[H1 (l & H2 & H3)]]]; [by left|right]. exists ((if tagIs "link" x then [p_next s] else []) ++ l). split; [done|]. unfold under. apply Forall2_app; [|done]. unfold tagIs. destruct (String.eqb_spec (x_tag x) "link") as [Hx|_]; [|constructor].
       constructor; [|constructor]. destruct (H1 Hx) as (c & rest & Hc & Hob). exists c. split; [by eapply HW|done]. }
  apply pw_conj; [exact W|]. clear W. apply process_rule2; [done|done|]. intros sy attrs s1 K1 Hn.
  destruct (checked_fresh _ _ _ _ _ _ _ K1) as (_ & Hn2 & Hc & Ho2 & Hcn2 & _ & _ & Ha2). rewrite Hn in *.
  assert (G1 : grows s (p_set_next (Pos.succ (p_next s)) s1)) by (rewrite <- Hn at 1; exact (checked_grows _ _ _ _ _ _ _ K1)).
  assert (Hni : sy_push sy <> PuImport). { intros Hi. rewrite (import_head _ _ (ck_syn _ _ _ _ _ _ _ K1) Hi) in Eh. done. }
  assert (Hnc : sy_push sy <> PuConnector). { intros Hi. pose proof (conn_tag _ _ (ck_syn _ _ _ _ _ _ _ K1) Hi) as Hz. by rewrite Hz in Eh. }
  pose proof (push_tree E (pushImport E (processNode E k)) _ x s sy attrs s1 I T Ha K1 Eh) as PT. rewrite Hn in PT.
  set (s2 := p_set_next _ _) in *. set (e0 := newElt _ _ _ _) in *.
  eapply pw_mono; [apply pw_conj; [apply PT|apply (grows_push E (processNode E k)); intros up' x' s'; eapply pw_mono; [apply process_ids|]; intros [] s'' (J1 & J2 & _); by split]|].
  { intros Hx o rest Ho. pose proof (ck_syn _ _ _ _ _ _ _ K1) as Es. rewrite Hx in Es. vm_compute in Es. injection Es as <-.
    destruct (ck_up _ _ _ _ _ _ _ K1) as [Hz|(u & Hz & Hi)]; [done|]. apply elem_of_list_singleton in Hi as ->. by apply (Hb Hz o rest). }
  clear PT. intros e s3 [H3 G3]. cbv beta in *. eapply pw_mono; [apply pw_conj; [apply hd_cache|apply pw_conj; [apply (kr_when os), ko_cacheAdd|apply keep_when, keep_cacheAdd]]|].
  intros [] s4 [D4 [[O4 R4] F4]] P4 Pr4 M4. cbv beta in *.
  assert (G4 : grows s s4) by (eapply grows_trans; [exact G1|]; eapply grows_trans; [exact G3|by apply grows_fr]).
  assert (H4 : p_odd s4 = true \/ (pinv (p_unique s4) None [] s4 /\ pt (p_unique s4) x s s4)).
  { destruct H3 as [H3|H3]; [left; congruence|]. destruct (po_g _ _ P4 (or_intror I)) as [G|G]; [by left|]. right. split; [done|].
    assert (GI : GInv (p_graph s3)) by (rewrite <- (proj1 D4); apply G).
    assert (HU : p_unique s1 ⊆ p_unique s4). { change (p_unique s1) with (p_unique s2). destruct G3 as [_ G3]. rewrite (fr_unique _ _ F4). done. }
    eapply (pt_hd _ _ _ s3); [done| |done|done]. destruct H3 as [A B D F G']. split; try done. by eapply tinv_mono; [|exact B|..]. }
  assert (Ow : x_tag x = "link" -> exists c rest, p_objs s = c :: rest /\ objectOf (p_graph s) px c).
  { intros Hx. pose proof (ck_syn _ _ _ _ _ _ _ K1) as Es. rewrite Hx in Es. vm_compute in Es. injection Es as <-. destruct (ck_up _ _ _ _ _ _ _ K1) as [Hz|(t & Ht & Hi)]; [done|]. cbn in Hi. apply (Hu t Ht). set_solver. }
  assert (N4 : nodesOf "link" s4 = nodesOf "link" s ++ (if tagIs "link" x then [p_next s] else [])).
  { rewrite (nodes_new _ "link" s s4 _ (mi_lf _ _ _ _ _ _ _ M4) O (mi_order _ _ _ _ _ _ _ M4 Hni)). f_equal. unfold tagIs. destruct (sy_cache sy) eqn:Eca.
    - destruct (mi_elt _ _ _ _ _ _ _ M4 Eca) as (X1 & X2 & _). cbn. unfold isTag. rewrite X1, X2. done.
    - cbn. destruct (String.eqb_spec (x_tag x) "link") as [Hx|_]; [|done]. pose proof (ck_syn _ _ _ _ _ _ _ K1) as Es. rewrite Hx in Es. vm_compute in Es. injection Es as <-. discriminate Eca. }
  assert (Od4 : ordOk s4) by (eapply ordOk_lf; [apply M4|done]).
  assert (Hlt : (p_next s < p_next s4)%positive) by (destruct (Pr4 _ _ eq_refl); done).
  assert (Cn4 : p_conn s4 = None) by (by apply (mi_conn _ _ _ _ _ _ _ M4)).
  eapply pw_mono; [apply (kids_rule E k _ _ _ s4 (fun l s' => cinv s' /\ p_alias s' = [] /\ ordOk s' /\ p_conn s' = None /\ (p_next s4 <= p_next s')%positive /\ (p_odd s' = true \/ (pinv (p_unique s') None [] s' /\ pt (p_unique s4) x s s4 /\ tm (p_graph s4) (p_graph s') /\
     p_objs s' = p_objs s4 /\ tinv (p_unique s') s' /\ exists p l0, x_kids x = p ++ l /\ nodesOf "link" s' = nodesOf "link" s4 ++ l0 /\ Forall2 (linkN (p_next s4) s') (flat_map (under x) p) l0)))); [apply P4|done| |]|].
  - split; [apply P4|]. split; [by rewrite (proj1 G4)|]. split; [done|]. split; [done|]. split; [lia|]. destruct H4 as [H4|[H4 H4']]; [by left|right]. split; [done|]. split; [done|]. split; [apply tm_refl|]. split; [done|]. split; [apply H4'|]. exists [], []. split; [done|]. split; [by rewrite app_nil_r|]. constructor.
  - intros y l' s' _ C' Hp' (_ & A' & O' & Cn' & Nx & H').
    destruct H' as [H'|(I' & P' & TM & Eo & T' & p & l0 & Ek & El & HF)].
    { eapply pw_mono; [apply pw_conj; [by apply process_post|apply pw_conj; [apply process_ids|by apply process_lf]]|]. intros [] s'' [[P'' _] [(J1 & _) [L'' Cc'']]]. split; [apply P''|]. split; [congruence|]. split; [by eapply ordOk_lf|]. split; [by eapply conn_none|]. split; [pose proof (lf_next _ _ _ L''); lia|]. left. by apply (ex_odd _ _ (po_x _ _ P'')). }
    assert (Hb' : option_map snd (Some (p_next s, x_tag x)) = Some "ncl" -> forall o rest, p_objs s' = o :: rest -> g_root (p_graph s') = Some o).
    { cbn [option_map snd]. intros [= Ht] o rest Ho. rewrite Eo in Ho. destruct (pt_obj _ _ _ _ P') as (o1 & Ho1 & Hx1); [by left|]. assert (o1 = o) as -> by congruence.
      rewrite (gx_root _ _ (tm_ext _ _ TM)). apply (of_root _ _ _ Hx1). by left. }
    eapply pw_mono; [apply pw_conj; [by apply process_post|apply pw_conj; [apply process_ids|apply pw_conj; [by apply process_lf|apply pw_conj; [by apply (tree E k _ y s')|apply (IH _ x y s'); try done]]]]|].
    { intros t [= <-] Ht. destruct (pt_obj _ _ _ _ P') as (o & Ho & Hx); [unfold standing; tauto|]. exists o, (p_objs s). split; [congruence|]. by eapply objectOf_tm. }
    intros [] s'' [[P'' _] [(J1 & _) [[L'' Cc''] [HT HL]]]]. split; [apply P''|]. split; [congruence|]. split; [by eapply ordOk_lf|]. split; [by eapply conn_none|]. split; [pose proof (lf_next _ _ _ L''); lia|].
    destruct HT as [HT|HT]; [by left|]. destruct HL as [HL|(l1 & El1 & HF1)]; [by left|]. destruct (po_g _ _ P'' (or_intror I')) as [G|G]; [by left|]. right. split; [done|]. split; [done|].
    split; [eapply tm_trans; [exact TM|apply HT]|]. split; [rewrite (tR_objs _ _ _ HT); done|]. split; [apply HT|].
    exists (p ++ [y]), (l0 ++ l1). split; [by rewrite <- app_assoc|]. split; [rewrite El1, El; by rewrite app_assoc|]. rewrite flat_map_app. cbn [flat_map]. rewrite app_nil_r. apply Forall2_app.
    + eapply Forall2_impl; [exact HF|]. intros q m Hq. eapply linkN_step; [exact C'|exact L''| |apply HT|reflexivity|exact Hq]. intros n [Hn'|Hn']; [cbn in Hn'; injection Hn' as <-; done|congruence].
    + eapply Forall2_impl; [exact HF1|]. intros q m (c & Hq & Hqo). exists c. split; [|done]. by eapply linkAt_lo.
  - intros [] s5 (C5 & A5 & O5 & Cn5 & Nx & H5). cbv beta in *.
    destruct H5 as [H5|(I5 & P5 & TM & Eo & T5 & p & l0 & Ek & El & HF)].
    { eapply pw_mono; [apply keep_pop|]. intros [] s6 F6. left. by apply (fr_odd _ _ F6). }
    rewrite app_nil_r in Ek. subst p.
    eapply pw_mono; [apply pw_conj; [apply (pop_gg E (S k) (sy_pop sy) (p_next s) s5 C5), I5|apply pw_conj; [by apply pop_lf|apply kw_pop]]|]. intros [] s6 [[[G6 R6] N6] [[L6 _] O6]]. right.
    apply gsm_tm in G6. split.
    + intros Hx. destruct (Ow Hx) as (c & rest & Hc1 & Hc2). exists c, rest. split; [done|]. eapply objectOf_tm; [exact G6|]. eapply objectOf_tm; [exact TM|]. eapply objectOf_tm; [apply P5|done].
    + exists l0. split; [|].
      * rewrite (nodes_new _ "link" s5 s6 [] L6 O5) by (rewrite app_nil_r; exact O6). cbn [List.filter]. rewrite app_nil_r, El, N4. by rewrite app_assoc.
      * rewrite links_eq. eapply Forall2_impl; [exact HF|]. intros q m Hq. eapply linkN_step; [exact C5|exact L6|intros ? []|done| |exact Hq]. lia.
Qed.

(** ParserEnd.v -- C41: the documents the parser accepts can be played. *)
From Verif Require Import BuildInv BuildOps BuildSpec BuildFacts Frame Reach Wf.
From Verif Require Export ParserWhole.
Open Scope string_scope.
Open Scope list_scope.

Definition bare (ob : obj) : Prop := ob_aliases ob = [] /\ ob_ports ob = [] /\ ob_links ob = [] /\ ob_swports ob = [].
Lemma hung_bare g o pc o' ob : bare ob -> bare (hung g o pc o' ob).
Proof. intros H. unfold hung. destruct (decide _); [done|]. by destruct (decide _). Qed.
Lemma newDocument_objs addr f : pwp newDocument (fun _ g => exists r s rb sb, g_root g = Some r /\ r ∈ g_objs g /\ s ∈ g_objs g /\ g_obj g !! r = Some rb /\ g_obj g !! s = Some sb /\
  ob_kind rb = KContext /\ ob_id rb = "__root__" /\ ob_kind sb = KSettings /\ bare rb /\ bare sb /\ forall o ob, g_obj g !! o = Some ob -> o = r \/ o = s) (emptyGraph addr f).
Proof.
  unfold newDocument. w1. eapply wp_mono; [apply wp_newObject, ginv_empty|]. intros r g1 (S1 & N1 & (rb & R1 & R2 & R3 & R4 & R5 & R6 & R7 & R8 & R9 & R10) & E1 & E2 & E3 & E4 & E5). cbv beta.
  w1. w1. w1. set (g2 := g_set_root (Some r) g1). assert (I2 : GInv g2) by apply inv_root, S1.
  eapply wp_mono; [by apply wp_addObject|]. intros b g3 (ob & Ho & H). cbv beta. w1. w1. subst b. destruct H as (S3 & AT3 & Hno & _ & _).
  assert (ob = rb) as -> by (cbn in Ho; congruence).
  w1. eapply wp_mono; [apply wp_newObject; apply S3|]. intros s g4 (S4 & N4 & (sb & B1 & B2 & B3 & B4 & B5 & B6 & B7 & B8 & B9 & B10) & F1 & F2 & F3 & F4 & F5). cbv beta.
  w1. eapply wp_mono; [apply wp_addChild; apply S4|]. intros [] g5 (S5 & (cb & C1 & C2) & C3 & C4 & AT). cbv beta. w1.
  assert (Hrb : g_obj g3 !! r = Some (ob_set_parent None rb)).
  { rewrite (at_obj _ _ _ _ _ AT3). cbn. rewrite R1. cbn. unfold hung. by rewrite decide_True by done. }
  assert (Hrs : r <> s) by (intros ->; congruence).
  assert (Hr4 : g_obj g4 !! r = Some (ob_set_parent None rb)) by (apply F5; done).
  specialize (AT _ _ Hr4 B1). assert (Hn : s ∉ ob_children (ob_set_parent None rb)). { cbn. rewrite R5. by apply not_elem_of_nil. } specialize (AT Hn).
  assert (Hr5 : g_obj g5 !! r = Some (hung g4 s (Some r) r (ob_set_parent None rb))) by (by rewrite (at_obj _ _ _ _ _ AT), Hr4).
  assert (Hs5 : g_obj g5 !! s = Some (hung g4 s (Some r) s sb)) by (by rewrite (at_obj _ _ _ _ _ AT), B1).
  assert (Hroot : g_root g5 = Some r) by (by rewrite (at_root _ _ _ _ _ AT), F3, (at_root _ _ _ _ _ AT3)).
  destruct (hung_same g4 s (Some r) r (ob_set_parent None rb)) as (G1 & G2 & _). destruct (hung_same g4 s (Some r) s sb) as (G3 & _ & _).
  exists r, s. eexists. eexists. cbn [g_root g_objs g_obj g_set_settings]. split; [done|]. split; [by apply (gx_objs _ _ (st_ext _ _ S5))|]. split; [done|]. split; [exact Hr5|]. split; [exact Hs5|].
  split; [by rewrite G1|]. split; [by rewrite G2|]. split; [by rewrite G3|]. split; [by apply hung_bare|]. split; [by apply hung_bare|].
  intros o ob Hob. destruct (decide (o = s)) as [->|Hs]; [by right|left]. destruct (decide (o = r)) as [->|Hr]; [done|exfalso].
  rewrite (at_obj _ _ _ _ _ AT) in Hob. destruct (g_obj g4 !! o) as [o4|] eqn:E4o; [|done]. apply F5 in E4o; [|done]. rewrite (at_obj _ _ _ _ _ AT3) in E4o. cbn in E4o.
  destruct (g_obj g1 !! o) as [o1|] eqn:E1o; [|done]. apply E5 in E1o; [|done]. cbn in E1o. by rewrite lookup_empty in E1o.
Qed.
Lemma bare_refs g ob : bare ob -> refs g ob.
Proof. intros (A & B & C & D). split; rewrite ?A, ?B, ?C, ?D; [intros e He|intros cs acts a He|intros n l e He|intros i c He]; by apply elem_of_nil in He. Qed.
Lemma pinv_start s0 r s rb sb : GInv (p_graph s0) -> GDoc (p_graph s0) -> p_cache s0 = ∅ -> p_refer s0 = [] ->
  g_root (p_graph s0) = Some r -> r ∈ g_objs (p_graph s0) -> s ∈ g_objs (p_graph s0) -> g_obj (p_graph s0) !! r = Some rb -> g_obj (p_graph s0) !! s = Some sb ->
  ob_kind rb = KContext -> ob_id rb = "__root__" -> ob_kind sb = KSettings -> bare rb -> bare sb -> (forall o ob, g_obj (p_graph s0) !! o = Some ob -> o = r \/ o = s) -> pinv [] None [] s0.
Proof.
  intros GI GD Ec Er A1 A2 A3 A4 A5 A6 A7 A8 A9 A10 A11.
  assert (NK : forall a, ~ knownM s0 None a). { intros a [(n & e & He & _)|H]; [rewrite Ec in He; by rewrite lookup_empty in He|done]. }
  assert (HO : forall o ob, g_obj (p_graph s0) !! o = Some ob -> (o = r /\ ob = rb) \/ (o = s /\ ob = sb)) by (intros o ob Ho; destruct (A11 _ _ Ho) as [ -> | -> ]; [left|right]; split; congruence).
  split.
  - exact GI.
  - exact GD.
  - exists r, rb. auto.
  - intros o ob Ho. destruct (HO _ _ Ho) as [[-> ->]|[-> ->]]; by apply bare_refs.
  - intros o ob Ho. destruct (HO _ _ Ho) as [[-> ->]|[-> ->]]; by left.
  - intros a x Ha. destruct (NK a Ha).
  - intros a x o ob Ha. destruct (NK a Ha).
  - intros a x o ob Ha. destruct (NK a Ha).
  - intros o ob Ho Hm. destruct (HO _ _ Ho) as [[-> ->]|[-> ->]]; [|by rewrite A8 in Hm]. split; [by right|]. destruct A9 as [-> _]. intros i p Hi. by apply elem_of_nil in Hi.
  - intros k m Hk. by rewrite Er in Hk.
  - intros a x Ha. destruct (NK a Ha).
Qed.
Lemma start_good addr focus z w h : pw (lift newDocument) (fun _ s => good s /\ cinv s /\ p_cache s = ∅ /\ p_refer s = [] /\ p_unique s = [] /\ p_odd s = false /\ p_alias s = []) (initial addr focus z w h).
Proof.
  apply pw_lift. assert (E0 : p_graph (initial addr focus z w h) = emptyGraph addr focus) by reflexivity. rewrite E0.
  eapply wp_mono; [apply wp_conj; [apply newDocument_ok|apply newDocument_objs]|]. intros [] g ((GI & GD) & r & s & rb & sb & A1 & A2 & A3 & A4 & A5 & A6 & A7 & A8 & A9 & A10 & A11). cbv beta in *.
  set (s0 := p_set_graph g (initial addr focus z w h)).
  assert (Ec : p_cache s0 = ∅) by reflexivity. assert (Er : p_refer s0 = []) by reflexivity. assert (Eu : p_unique s0 = []) by reflexivity. assert (Eo : p_odd s0 = false) by reflexivity. assert (Ea : p_alias s0 = []) by reflexivity. assert (Eg : p_graph s0 = g) by reflexivity.
  clearbody s0. subst g. split; [|split; [|auto]].
  - right. rewrite Eu. by apply (pinv_start s0 r s rb sb).
  - intros n e He. rewrite Ec in He. by rewrite lookup_empty in He.
Qed.
(** At the end every object is in the document. *)
Lemma all_placed U s : pinv U None [] s -> resolved s -> forall o ob, g_obj (p_graph s) !! o = Some ob -> inDocument (p_graph s) o.
Proof.
  intros I R o ob Ho. destruct (pi_orphan _ _ _ _ I _ _ Ho) as [H|[H|(_ & _ & a & Ka & Ra)]]; [done|by apply elem_of_nil in H|].
  destruct (R _ _ Ka Ra) as (a' & Ka' & Ia & Na). destruct (pi_settled _ _ _ _ I a' _ o ob Ka' Ia Na Ho eq_refl) as [H|H]; [done|by apply elem_of_nil in H].
Qed.
Lemma parsed_good E k addr focus z w h x s : parse E k addr focus z w h x = POk tt s -> p_odd s = false -> pinv (p_unique s) None [] s /\ resolved s.
Proof.
  intros H Ho. destruct (f_C43 _ _ _ _ _ _ _ _ _ H) as [Ht _]. apply parse_inv in H.
  assert (G : pw (lift newDocument ;;; processNode E k None x) (fun _ s => good s /\ resolved s) (initial addr focus z w h)).
  { p1. eapply pw_mono; [apply start_good|]. intros [] s0 (G0 & C0 & _). eapply pw_mono; [apply process_post; [done|intros n t Hx; done]|]. intros [] s1 [P R]. split; [by apply (po_g _ _ P)|auto]. }
  pose proof (pw_ok _ _ _ _ _ G H) as GG. clear G H. destruct GG as [[G1|G1] R]; [rewrite G1 in Ho; discriminate Ho|by split].
Qed.
Lemma parsed_closed E k addr focus z w h x s : parse E k addr focus z w h x = POk tt s -> p_odd s = false ->
  (forall o ob c p, inDocument (p_graph s) o -> g_obj (p_graph s) !! o = Some ob -> (c, p) ∈ ob_rules ob -> c ∈ ob_children ob) -> closedRefs (p_graph s).
Proof.
  intros H Ho Hrules. destruct (parsed_good _ _ _ _ _ _ _ _ _ H Ho) as [I R]. pose proof (all_placed _ _ I R) as AP.
  assert (EV : forall e, is_Some (g_evt (p_graph s) !! e) -> evtInDoc (p_graph s) e).
  { intros e [ev He]. exists ev. split; [done|]. destruct (gi_e _ (pi_g _ _ _ _ I) _ _ He) as (ob & Hob & _). eauto. }
  split.
  - intros o ob e _ Hob He. apply EV. by apply (rf_ports _ _ (pi_refs _ _ _ _ I _ _ Hob)).
  - intros o ob cs acts a _ Hob He Ha. apply EV. by eapply (rf_links _ _ (pi_refs _ _ _ _ I _ _ Hob)).
  - intros o ob n l e _ Hob He Hl. apply EV. by eapply (rf_swports _ _ (pi_refs _ _ _ _ I _ _ Hob)).
  - done.
  - intros o ob i c _ Hob Hi. destruct (rf_aliases _ _ (pi_refs _ _ _ _ I _ _ Hob) _ _ Hi) as [cb Hc]. eauto.
Qed.
Lemma f_C41 E k addr focus z w h x s X ww hh : parse E k addr focus z w h x = POk tt s -> p_odd s = false ->
  (forall o ob c p, inDocument (p_graph s) o -> g_obj (p_graph s) !! o = Some ob -> (c, p) ∈ ob_rules ob -> c ∈ ob_children ob) ->
  wf_doc (docOf (p_graph s) X) /\ init_ok (docOf (p_graph s) X) (stOf (p_graph s) ww hh).
Proof.
  intros H Ho Hr. pose proof (parsed_closed _ _ _ _ _ _ _ _ _ H Ho Hr) as Cl. destruct (parsed_good _ _ _ _ _ _ _ _ _ H Ho) as [I _].
  split; [apply inv_wf; [apply I|apply I|done]|apply stOf_init].
Qed.

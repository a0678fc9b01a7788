(** CompileConn.v -- C42: what connectors become. *)
From Verif Require Import BuildOps ParserFrame.
From Verif Require Export CompileElts.
Open Scope string_scope.
Open Scope list_scope.

(** ** Roles. *)
Definition roleIs (r : xml) (c : crole) : Prop :=
  rl_role c = attrOf "role" r /\ rl_cond c = isCondition r /\ meaning r (rl_type c) (rl_trans c) /\
  rl_dur c = (if isCondition r then "" else attrOf "duration" r) /\ rl_delay c = (if isCondition r then "" else attrOf "delay" r) /\
  (rl_type c = SELECTION -> rl_key c = attrOf "key" r) /\
  (rl_type c = ATTRIBUTION -> if isCondition r then rl_value c = "" else is_Some (aget "value" (x_attrs r)) /\ rl_value c = attrOf "value" r).
Definition isRole (r : xml) : bool := isCondition r || tagIs "simpleAction" r.
Lemma filter_flat {A B} (p : B -> bool) (f : A -> list B) l : List.filter p (flat_map f l) = flat_map (fun a => List.filter p (f a)) l.
Proof. induction l as [|a l IH]; cbn; [done|]. by rewrite List.filter_app, IH. Qed.
Lemma rolesOf_eq x : rolesOf x = (if isRole x then [x] else []) ++ flat_map rolesOf (x_kids x).
Proof. unfold rolesOf at 1. rewrite elements_eq. cbn [List.filter]. rewrite filter_flat. fold (isRole x). by destruct (isRole x). Qed.
Lemma testRoles_eq x : testRoles x = (if tagIs "attributeAssessment" x then [attrOf "role" x] else []) ++ flat_map testRoles (x_kids x).
Proof.
  unfold testRoles at 1. rewrite elements_eq. cbn [List.filter]. rewrite filter_flat.
  assert (M : forall l, map (attrOf "role") (flat_map (fun a => List.filter (tagIs "attributeAssessment") (elementsOf a)) l) = flat_map testRoles l) by (induction l as [|a l IH]; cbn; [done|]; by rewrite map_app, IH).
  destruct (tagIs _ x); cbn [map app]; by rewrite M.
Qed.
Lemma reserved_some r ty tr : look r reservedRoles = Some (ty, tr) -> (r, (xstrhasprefix r "on", ty, tr)) ∈ reserved.
Proof.
  intros H. apply look_some in H. assert (F : forallb (fun p : string * (etype * trans) => bool_decide ((fst p, (xstrhasprefix (fst p) "on", fst (snd p), snd (snd p))) ∈ reserved)) reservedRoles = true) by (vm_compute; reflexivity).
  pose proof (forall_elem _ _ _ F H) as F'. cbv beta in F'. by apply bool_decide_eq_true in F'.
Qed.
Lemma reserved_none r : look r reservedRoles = None -> r ∉ map fst reserved.
Proof.
  intros H Hi. rewrite look_none in H. assert (F : forallb (fun k => bool_decide (k ∈ map fst reservedRoles)) (map fst reserved) = true) by (vm_compute; reflexivity).
  pose proof (forall_elem _ _ _ F Hi) as F'. apply bool_decide_eq_true in F'. apply elem_of_list_In, in_map_iff in F' as ([k v] & <- & Hv). apply elem_of_list_In in Hv. exact (H _ Hv).
Qed.
Lemma type_some v ty : look v eventTypes = Some ty -> (v, ty) ∈ typeWords.
Proof. intros H. apply look_some in H. exact H. Qed.
Lemma trans_some v tr : look v transitions = Some tr -> (v, tr) ∈ transitionWords.
Proof. intros H. apply look_some in H. unfold transitions in H. unfold transitionWords. set_solver. Qed.

(** ** An open connector. *)
Definition cn (s : pst) (c : nid) (A : smapT) (rs : list crole) (ts : list string) : Prop :=
  p_conn s = Some c /\ (c < p_next s)%positive /\ exists ce, p_cache s !! c = Some ce /\ el_tag ce = "causalConnector" /\ el_attrs ce = A /\ el_roles ce = Some rs /\ el_tests ce = Some ts.
Lemma ident_attrs e e' : ident e' = ident e -> el_tag e <> "descriptor" -> el_attrs e' = el_attrs e.
Proof. intros H Ht. unfold ident in H. injection H as H1 _ _ H2. rewrite H1 in H2. destruct (String.eqb (el_tag e) "descriptor") eqn:E; [by apply String.eqb_eq in E|done]. Qed.
Lemma cn_lq s s' c A rs ts : lq s s' -> cn s c A rs ts -> cn s' c A rs ts.
Proof.
  intros [L Hc] (H1 & H2 & ce & H3 & H4 & H5 & H6 & H7). destruct (lf_get _ _ _ _ _ L H3 H2) as (ce' & He & Ho); [intros []|]. split; [congruence|]. split; [pose proof (lf_next _ _ _ L); lia|].
  exists ce'. split; [done|]. pose proof (core_ident _ _ Ho) as Hi. split; [by rewrite (ident_tag _ _ Hi)|]. split; [rewrite (ident_attrs _ _ Hi); [done|by rewrite H4]|]. unfold core in Ho. split; congruence.
Qed.
Definition innerTags : list string := ["connectorParam"; "compoundCondition"; "simpleCondition"; "compoundAction"; "simpleAction"; "compoundStatement"; "assessmentStatement"; "attributeAssessment"; "valueAssessment"].
Definition innerTable : list (string * (pushk * popk)) := [("connectorParam", (PuNone, PoNone)); ("compoundCondition", (PuCompound, PoNone)); ("simpleCondition", (PuSimple, PoNone)); ("compoundAction", (PuNone, PoNone)); ("simpleAction", (PuSimple, PoNone));
  ("compoundStatement", (PuStatement, PoStatement)); ("assessmentStatement", (PuNone, PoAssess)); ("attributeAssessment", (PuAssess, PoNone)); ("valueAssessment", (PuAssess, PoNone))].
Definition innerOk (x : string * syn) : bool :=
  (negb (existsb (fun t => mem t ("causalConnector" :: innerTags)) (sy_parents (snd x))) || mem (fst x) innerTags).
Lemma innerOk_all : forallb innerOk syntax = true. Proof. vm_compute. reflexivity. Qed.
Lemma inner_kid t c : mem t ("causalConnector" :: innerTags) = true -> possibleChild t c = true -> c ∈ innerTags.
Proof.
  intros Ht H. unfold possibleChild, synOf in H. destruct (look c syntax) as [sy|] eqn:Es; [|done]. apply look_some in Es. pose proof (forall_elem _ _ _ innerOk_all Es) as F. unfold innerOk in F. cbn [fst snd] in F.
  assert (existsb (fun t => mem t ("causalConnector" :: innerTags)) (sy_parents sy) = true) as Hx by (apply existsb_exists; exists t; split; [apply elem_of_list_In; by apply mem_spec|done]). rewrite Hx in F. by apply mem_spec.
Qed.
Lemma inner_syn t sy : synOf t = Some sy -> t ∈ innerTags -> (t, (sy_push sy, sy_pop sy)) ∈ innerTable.
Proof. intros E H. unfold innerTags in H. unfold innerTable. repeat (apply elem_of_cons in H as [->|H]; [vm_compute in E; injection E as <-; set_solver|]). by apply elem_of_nil in H. Qed.

Lemma tag_cond x : String.eqb (x_tag x) "simpleCondition" = isCondition x. Proof. done. Qed.
Lemma pushSimple_ok e x s c A rs ts : (x_tag x = "simpleCondition" \/ x_tag x = "simpleAction") -> el_tag e = x_tag x -> same_attrs x e -> cn s c A rs ts ->
  pw (pushSimple e) (fun _ s' => exists r, roleIs x r /\ rl_parent r = el_up e /\ cn s' c A (rs ++ [r]) ts) s.
Proof.
  intros Hx Ht Sa Hcn. assert (Hk : forall k, attr e k = aget k (x_attrs x)) by (intros k; apply Sa; right; destruct Hx as [-> | ->]; done).
  assert (Hk0 : forall k, attr0 e k = attrOf k x) by (intros k; unfold attr0, attrOf; by rewrite Hk).
  unfold pushSimple. apply pw_bind, pw_attr. intros role Hr. cbv zeta. rewrite Ht, tag_cond. assert (Er : role = attrOf "role" x) by (unfold attrOf; by rewrite <- Hk, Hr).
  p1. eapply (pw_mono _ (fun t s' => s' = s /\ meaning x (fst t) (snd t))).
  { destruct (look role reservedRoles) as [[ty tr]|] eqn:El.
    - repeat p1. split; [done|]. left. cbn [fst snd]. match goal with H : bool_decide (isCondition x = _) = true |- _ => apply bool_decide_eq_true in H; rewrite H end. rewrite <- Er. by apply reserved_some.
    - p1. p1. p1. p1. p1. p1. p1. p1. p1. split; [done|]. right. cbn [fst snd]. rewrite <- Er. split; [by apply reserved_none|]. unfold transitionAttr. do 2 eexists. rewrite <- !Hk. split; [eassumption|]. split; [by apply type_some|]. split; [eassumption|by apply trans_some]. }
  intros [ty tr] s' [-> Hm]. cbn [fst snd] in Hm. cbv beta. destruct Hcn as (C1 & C2 & ce & C3 & C4 & C5 & C6 & C7).
  repeat p1. rewrite C1 in *. repeat match goal with H : Some _ = Some _ |- _ => injection H as H; subst end. repeat match goal with H : p_cache s !! _ = Some _ |- _ => progress rewrite C3 in H end.
  repeat match goal with H : Some _ = Some _ |- _ => injection H as H; subst end. rewrite C6 in *. repeat match goal with H : Some _ = Some _ |- _ => injection H as H; subst end.
  eexists. split; [|split; [|split; [done|]; split; [done|]; eexists; cbn; rewrite lookup_insert; split; [reflexivity|]; done]]; [|reflexivity].
  unfold roleIs. cbn [rl_role rl_cond rl_type rl_trans rl_dur rl_delay rl_key rl_value]. split; [done|]. split; [done|]. split; [done|]. rewrite !Hk0. split; [done|]. split; [done|]. split.
  - intros ->. by rewrite bool_decide_true.
  - intros ->. match goal with H : _ || _ = true |- _ => rename H into Hv end. rewrite bool_decide_true in Hv |- * by done. rewrite Hk in Hv. destruct (isCondition x); [done|]. cbn in Hv |- *. split; [|done]. by destruct (aget "value" (x_attrs x)).
Qed.
Lemma pushAssess_ok e x s c A rs ts : cinv s -> (x_tag x = "attributeAssessment" \/ x_tag x = "valueAssessment") -> el_tag e = x_tag x -> same_attrs x e -> cn s c A rs ts ->
  pw (pushAssess e) (fun _ s' => exists ts', (forall r, r ∈ ts' <-> r ∈ ts \/ (tagIs "attributeAssessment" x = true /\ r = attrOf "role" x)) /\ cn s' c A rs ts') s.
Proof.
  intros C Hx Ht Sa Hcn. assert (Hk : forall k, attr e k = aget k (x_attrs x)) by (intros k; apply Sa; right; destruct Hx as [-> | ->]; done).
  unfold pushAssess. p1. eapply (pw_mono _ (fun _ s' => lf (fun n => n = c) s s' /\ exists ts', (forall r, r ∈ ts' <-> r ∈ ts \/ (tagIs "attributeAssessment" x = true /\ r = attrOf "role" x)) /\ cn s' c A rs ts')).
  { rewrite Ht. fold (tagIs "attributeAssessment" x). destruct (tagIs "attributeAssessment" x) eqn:Et.
    - apply pw_bind, pw_attr. intros role Hr. assert (Er : role = attrOf "role" x) by (unfold attrOf; by rewrite <- Hk, Hr). destruct Hcn as (C1 & C2 & ce & C3 & C4 & C5 & C6 & C7).
      p1. p1. p1. apply pw_udata. intros c' Hc'. rewrite C1 in Hc'. injection Hc' as <-. p1. apply pw_index. intros ce' Hce'. rewrite C3 in Hce'. injection Hce' as <-. p1. apply pw_udata. intros ts0 Hts. rewrite C7 in Hts. injection Hts as <-.
      p1. apply pw_eupd. intros ce' Hce'. rewrite C3 in Hce'. injection Hce' as <-. p1. split; [eapply lf_upd; [exact C3|done|by left]|]. eexists. split; [|split; [done|]; split; [done|]; eexists; cbn; rewrite lookup_insert; split; [reflexivity|]; done].
      intros r. destruct (mem role ts) eqn:Em.
      + apply mem_spec in Em. split; [by left|]. intros [H|[_ ->]]; [done|congruence].
      + rewrite elem_of_cons. split; [intros [-> |H]; auto|]. intros [H|[_ ->]]; auto.
    - apply pw_attr. intros v Hv. split; [apply lf_refl|]. exists ts. split; [|done]. intros r. split; [by left|]. intros [H|[H _]]; done. }
  intros str s1 (L1 & ts' & Hts & Hcn1). cbv beta. p1. apply pw_parent. intros n ue Hn Hue. p1. eapply (pw_mono _ (fun _ s' => lq s1 s')).
  - destruct (el_left ue), (el_right ue); [p1|..]; apply kl_eupd; done.
  - intros [] s2 Q2. p1. exists ts'. split; [done|]. by eapply cn_lq.
Qed.
Lemma same_kids x y k : x_tag x <> "link" -> same_attrs x y -> attr y k = aget k (x_attrs x). Proof. intros H S. apply S. by right. Qed.

(** ** Inside a connector. *)
Definition grown (s s' : pst) (c : nid) (A : smapT) (rs : list crole) (ts : list string) (R : list xml) (T : list string) : Prop :=
  exists new ts', cn s' c A (rs ++ new) ts' /\ Forall2 roleIs R new /\ forall r, r ∈ ts' <-> r ∈ ts \/ r ∈ T.
Lemma process_inner E k : forall up x s c A rs ts, cinv s -> Par s up -> p_alias s = [] -> x_tag x ∈ innerTags -> cn s c A rs ts ->
  pw (processNode E k up x) (fun _ s' => grown s s' c A rs ts (rolesOf x) (testRoles x)) s.
Proof.
  induction k as [|k IH]; intros up x s c A rs ts C Hp Ha Hx Hcn; [apply pw_nofuel|]. apply process_rule; [done|done|]. intros sy attrs s1 K1.
  pose proof (inner_syn _ _ (ck_syn _ _ _ _ _ _ _ K1) Hx) as Es. destruct (checked_fresh _ _ _ _ _ _ _ K1) as (Hn & Hn2 & Hc & Ho2 & Hcn2 & _ & _ & Ha2). set (s2 := p_set_next _ _) in *. set (e0 := newElt _ _ _ _).
  assert (Q2 : lq s s2). { split; [|done]. split; [lia|by rewrite Hc|by rewrite Hc|]. exists []. rewrite Ho2, app_nil_r. split; [done|]. intros nn Hnn. by apply elem_of_nil in Hnn. }
  assert (Cn2 : cn s2 c A rs ts) by (by eapply cn_lq). assert (Hcl : (c < p_next s)%positive) by apply Hcn.
  assert (C2 : cinv s2). { intros m em Hm. rewrite Hc in Hm. destruct (C _ _ Hm) as (X1 & X2 & X3). rewrite Ho2, Hn2. split; [lia|done]. }
  assert (Sa : same_attrs x e0) by (eapply checked_same; [exact K1|done|done]).
  assert (Push : pw (push E (pushImport E (processNode E k)) (sy_push sy) e0) (fun _ s3 => grown s2 s3 c A rs ts (if isRole x then [x] else []) (if tagIs "attributeAssessment" x then [attrOf "role" x] else [])) s2).
  { assert (Qu : lqPush (sy_push sy) = true -> isRole x = false -> tagIs "attributeAssessment" x = false -> pw (push E (pushImport E (processNode E k)) (sy_push sy) e0) (fun _ s3 => grown s2 s3 c A rs ts (if isRole x then [x] else []) (if tagIs "attributeAssessment" x then [attrOf "role" x] else [])) s2).
    { intros Hl -> ->. eapply pw_mono; [by apply kl_push|]. intros e s3 Q3. exists [], ts. rewrite app_nil_r. split; [exact (cn_lq _ _ _ _ _ _ Q3 Cn2)|]. split; [constructor|]. intros r. split; [by left|]. intros [H|H]; [done|]. by apply elem_of_nil in H. }
    unfold innerTable in Es. repeat (apply elem_of_cons in Es as [Es|Es]); [..|by apply elem_of_nil in Es]; injection Es as Et Ep Eq; rewrite Ep in *; unfold isRole, isCondition, tagIs in *; rewrite Et in *.
    1,2,4,6,7: apply Qu; done.
    - cbn [push]. eapply pw_mono; [apply (pushSimple_ok e0 x s2 c A rs ts); try done; [by left]|]. intros e s3 (r & Hr & _ & Hc3). exists [r], ts. split; [done|]. split; [by constructor|]. intros q. cbn. set_solver.
    - cbn [push]. eapply pw_mono; [apply (pushSimple_ok e0 x s2 c A rs ts); try done; [by right]|]. intros e s3 (r & Hr & _ & Hc3). exists [r], ts. split; [done|]. split; [by constructor|]. intros q. cbn. set_solver.
    - cbn [push]. eapply pw_mono; [apply (pushAssess_ok e0 x s2 c A rs ts); try done; [by left]|]. intros e s3 (ts' & Hr & Hc3). exists [], ts'. rewrite app_nil_r. split; [done|]. split; [constructor|]. intros q. rewrite Hr. unfold tagIs. rewrite Et. cbn. set_solver.
    - cbn [push]. eapply pw_mono; [apply (pushAssess_ok e0 x s2 c A rs ts); try done; [by right]|]. intros e s3 (ts' & Hr & Hc3). exists [], ts'. rewrite app_nil_r. split; [done|]. split; [constructor|]. intros q. rewrite Hr. unfold tagIs. rewrite Et. cbn. set_solver. }
  assert (Hdp : sy_push sy <> PuImport /\ sy_push sy <> PuConnector /\ sy_pop sy <> PoNcl /\ sy_pop sy <> PoConnector). { unfold innerTable in Es. repeat (apply elem_of_cons in Es as [Es|Es]); [..|by apply elem_of_nil in Es]; injection Es as Et -> ->; done. }
  destruct Hdp as (Hd1 & Hd2 & Hd3 & Hd4).
  eapply pw_mono; [apply pw_conj; [exact Push|apply pw_conj; [apply (push_shape E (pushImport E (processNode E k))); intros; apply import_shape|apply (grows_push E (processNode E k)); intros up' x' s'; eapply pw_mono; [apply process_ids|]; intros [] s'' (J1 & J2 & _); by split]]|].
  intros e s3 ((new & ts1 & Cn3 & F3 & T3) & (S1 & S2 & _) & G3). cbv beta in *. cbn [el_node newElt e0] in S2.
  eapply (pw_mono _ (fun _ s4 => cn s4 c A (rs ++ new) ts1 /\ p_alias s4 = p_alias s3)).
  { destruct (sy_cache sy); cbn [pwhen]; [|by p1]. unfold cacheAdd. repeat p1. split; [|done]. destruct Cn3 as (D1 & D2 & ce & D3 & D4). split; [done|]. split; [done|]. exists ce. cbn. rewrite lookup_insert_ne; [done|]. intros Hce. rewrite S2 in Hce. subst c. lia. }
  intros [] s4 [Cn4 A4] P4 Pr4. cbv beta in *.
  assert (A4' : p_alias s4 = []). { rewrite A4. destruct G3 as [-> _]. rewrite Ha2. done. }
  eapply pw_mono; [apply (kids_rule E k _ _ _ s4 (fun l s' => cinv s' /\ p_alias s' = [] /\ exists p, x_kids x = p ++ l /\ grown s4 s' c A (rs ++ new) ts1 (flat_map rolesOf p) (flat_map testRoles p))); [apply P4|done| |]|].
  - split; [apply P4|]. split; [done|]. exists []. split; [done|]. exists [], ts1. rewrite app_nil_r. split; [done|]. split; [constructor|]. intros r. split; [by left|]. intros [H|H]; [done|]. by apply elem_of_nil in H.
  - intros y l' s' [p0 Hp0] C' Hp' (_ & A' & (p & Hpl & new1 & ts2 & Cn' & F' & T')).
    assert (Hy : x_tag y ∈ innerTags). { eapply inner_kid; [|exact (ck_kids _ _ _ _ _ _ _ K1 y ltac:(rewrite Hp0; apply in_mid))]. apply mem_spec. right. done. }
    eapply pw_mono; [apply pw_conj; [by apply process_post|apply pw_conj; [apply process_ids|by apply (IH _ y s' c A ((rs ++ new) ++ new1) ts2)]]|].
    intros [] s'' [[P'' _] [(J1 & _) (new2 & ts3 & Cn'' & F'' & T'')]]. split; [apply P''|]. split; [congruence|]. exists (p ++ [y]). split; [by rewrite <- app_assoc|]. exists (new1 ++ new2), ts3. split; [by rewrite app_assoc|].
    rewrite !flat_map_app. cbn [flat_map]. rewrite !app_nil_r. split; [by apply Forall2_app|]. intros r. rewrite T'', T'. rewrite elem_of_app. tauto.
  - intros [] s5 (C5 & A5 & (p & Hpl & new1 & ts2 & Cn5 & F5 & T5)). cbv beta in *. rewrite app_nil_r in Hpl. subst p.
    eapply pw_mono; [by apply kl_pop|]. intros [] s6 Q6. exists (new ++ new1), ts2. split; [rewrite app_assoc; exact (cn_lq _ _ _ _ _ _ Q6 Cn5)|]. split; [rewrite rolesOf_eq; by apply Forall2_app|]. intros r. rewrite T5, T3, testRoles_eq, elem_of_app. tauto.
Qed.

(** ** A connector. *)
Definition connAt (s : pst) (cx : xml) (m : nid) : Prop := exists e rs ts, p_cache s !! m = Some e /\ el_tag e = "causalConnector" /\ attr e "id" = aget "id" (x_attrs cx) /\
  el_roles e = Some rs /\ Forall2 roleIs (rolesOf cx) rs /\ el_tests e = Some ts /\ forall r, r ∈ ts <-> r ∈ testRoles cx.
Lemma connAt_lf X s s' cx m : cinv s -> lf X s s' -> ~ X m -> connAt s cx m -> connAt s' cx m.
Proof.
  intros C L HX (e & rs & ts & He & Ht & Hk & Hr & Fr & Hts & Et). destruct (lf_get _ _ _ m _ L He) as (e' & He' & Hc); [apply (C _ _ He)|done|]. exists e', rs, ts. split; [done|].
  split; [rewrite (ident_tag _ _ (core_ident _ _ Hc)); done|]. split; [rewrite (ident_attr _ _ _ (core_ident _ _ Hc)); [done|by rewrite Ht]|]. unfold core in Hc. split; [congruence|]. split; [done|]. split; [congruence|done].
Qed.
Lemma conn_ok E k up x s : cinv s -> Par s up -> p_alias s = [] -> x_tag x = "causalConnector" -> pw (processNode E k up x) (fun _ s' => connAt s' x (p_next s)) s.
Proof.
  intros C Hp Ha Hx. destruct k as [|k]; [apply pw_nofuel|]. apply process_rule; [done|done|]. intros sy attrs s1 K1.
  assert (Es : sy_push sy = PuConnector /\ sy_pop sy = PoConnector /\ sy_cache sy = true). { pose proof (ck_syn _ _ _ _ _ _ _ K1) as Es. rewrite Hx in Es; vm_compute in Es; injection Es as <-; done. }
  destruct Es as (-> & -> & ->). destruct (checked_fresh _ _ _ _ _ _ _ K1) as (Hn & Hn2 & Hc & _ & Hcn & Ho & Hg & Ha2). set (s2 := p_set_next _ _) in *. set (e0 := newElt _ _ _ _).
  cbn [push]. unfold pushConnector. p1. p1. p1. cbn [pwhen]. unfold cacheAdd. repeat p1. set (s4 := p_set_order _ _). intros P4 Pr4.
  set (e4 := el_set_roles [] (el_set_tests [] e0)). assert (Hn4 : p_cache s4 !! p_next s = Some e4). { unfold s4. cbn. rewrite Hn. by rewrite lookup_insert. }
  assert (Cn4 : cn s4 (p_next s) attrs [] []). { split; [unfold s4; cbn; by rewrite Hn|]. split; [unfold s4; cbn; lia|]. exists e4. split; [done|]. done. }
  rewrite Hn in Pr4 |- *.
  eapply pw_mono; [apply (kids_rule E k _ _ _ s4 (fun l s' => cinv s' /\ p_alias s' = [] /\ exists p, x_kids x = p ++ l /\ grown s4 s' (p_next s) attrs [] [] (flat_map rolesOf p) (flat_map testRoles p))); [apply P4|done| |]|].
  - split; [apply P4|]. split; [change (p_alias s2 = []); congruence|]. exists []. split; [done|]. exists [], []. split; [done|]. split; [constructor|]. intros r. split; [by left|]. intros [H'|H']; [done|]. by apply elem_of_nil in H'.
  - intros y l' s' [p0 Hp0] C' Hp' (_ & A' & (p & Hpl & new1 & ts2 & Cn' & F' & T')).
    assert (Hy : x_tag y ∈ innerTags). { eapply inner_kid; [|exact (ck_kids _ _ _ _ _ _ _ K1 y ltac:(rewrite Hp0; apply in_mid))]. apply mem_spec. rewrite Hx. left. }
    eapply pw_mono; [apply pw_conj; [by apply process_post|apply pw_conj; [apply process_ids|by apply (process_inner E k _ y s' (p_next s) attrs new1 ts2)]]|].
    intros [] s'' [[P'' _] [(J1 & _) (new2 & ts3 & Cn'' & F'' & T'')]]. split; [apply P''|]. split; [congruence|]. exists (p ++ [y]). split; [by rewrite <- app_assoc|]. exists (new1 ++ new2), ts3. split; [done|].
    rewrite !flat_map_app. cbn [flat_map]. rewrite !app_nil_r. split; [by apply Forall2_app|]. intros r. rewrite T'', T'. rewrite elem_of_app. tauto.
  - intros [] s5 (C5 & A5 & (p & Hpl & new1 & ts2 & Cn5 & F5 & T5)). cbv beta in *. rewrite app_nil_r in Hpl. subst p.
    eapply pw_mono; [apply (pop_lf E (S k) PoConnector (p_next s)); done|]. intros [] s6 [L6 _]. destruct Cn5 as (D1 & D2 & ce & D3 & D4 & D5 & D6 & D7).
    apply (connAt_lf none s5); [done|done|intros []|]. exists ce, new1, ts2. split; [done|]. split; [done|]. split; [|split; [done|split; [|split; [done|]]]].
    + unfold attr. rewrite D5. apply (checked_same _ _ _ _ _ _ e0 K1); [done|done|]. right. by rewrite Hx.
    + rewrite rolesOf_eq. unfold isRole, isCondition, tagIs. rewrite Hx. exact F5.
    + intros r. rewrite T5, testRoles_eq. unfold tagIs. rewrite Hx. cbn. set_solver.
Qed.

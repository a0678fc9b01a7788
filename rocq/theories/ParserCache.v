(** ParserCache.v -- the element cache while a document is parsed. *)
From Verif Require Export ParserPush ParserGrammar ParserFrame.
Open Scope string_scope.
Open Scope list_scope.

(** ** What the table says about push functions. *)
Definition pushOk (x : string * syn) : bool :=
  let sy := snd x in
  match sy_push sy with
  | PuNcl | PuContext | PuSwitch => negb (sy_genid sy) && negb (String.eqb (fst x) "media")
  | PuMedia => negb (sy_genid sy) && sy_cache sy && String.eqb (fst x) "media"
  | PuDescParam => bool_decide (sy_parents sy = ["descriptor"]) && negb (String.eqb (fst x) "media")
  | _ => negb (String.eqb (fst x) "media")
  end &&
  forallb (fun a : string * aflags => negb (String.eqb (fst a) "id") || af_unique (snd a)) (sy_attrs sy) &&
  (if String.eqb (fst x) "ncl" then match sy_pop sy with PoNcl => true | _ => false end else match sy_pop sy with PoNcl => false | _ => true end).
Lemma pushOk_all : forallb pushOk syntax = true. Proof. vm_compute. reflexivity. Qed.
Lemma push_ok tag sy : synOf tag = Some sy -> pushOk (tag, sy) = true.
Proof. intros H. apply look_some in H. exact (forall_elem _ _ _ pushOk_all H). Qed.
Lemma syn_media tag sy : synOf tag = Some sy -> tag = "media" <-> sy_push sy = PuMedia.
Proof.
  intros H. pose proof (push_ok _ _ H) as T. unfold pushOk in T. cbn [fst snd] in T. apply andb_true_iff in T as [T _]. apply andb_true_iff in T as [T _].
  split.
  - intros ->. change (String.eqb "media" "media") with true in T. destruct (sy_push sy); cbn in T; rewrite ?andb_false_r in T; done.
  - intros E. rewrite E in T. apply andb_true_iff in T as [_ T]. by apply String.eqb_eq in T.
Qed.
Lemma syn_desc tag sy : synOf tag = Some sy -> sy_push sy = PuDescParam -> sy_parents sy = ["descriptor"].
Proof.
  intros H E. pose proof (push_ok _ _ H) as T. unfold pushOk in T. cbn [fst snd] in T. rewrite E in T. apply andb_true_iff in T as [T _]. apply andb_true_iff in T as [T _]. apply andb_true_iff in T as [T _]. by apply bool_decide_eq_true in T.
Qed.
Lemma syn_ncl tag sy : synOf tag = Some sy -> tag = "ncl" <-> sy_pop sy = PoNcl.
Proof.
  intros H. pose proof (push_ok _ _ H) as T. unfold pushOk in T. cbn [fst snd] in T. apply andb_true_iff in T as [_ T].
  destruct (String.eqb tag "ncl") eqn:E; [apply String.eqb_eq in E|apply String.eqb_neq in E]; destruct (sy_pop sy); done.
Qed.
Definition comp (p : pushk) : bool := match p with PuNcl | PuContext | PuSwitch | PuMedia => true | _ => false end.
Lemma syn_comp tag sy : synOf tag = Some sy -> comp (sy_push sy) = true -> sy_genid sy = false /\ (sy_push sy = PuMedia -> sy_cache sy = true).
Proof.
  intros H E. pose proof (push_ok _ _ H) as T. unfold pushOk in T. cbn [fst snd] in T. apply andb_true_iff in T as [T _]. apply andb_true_iff in T as [T _].
  destruct (sy_push sy); try discriminate E; apply andb_true_iff in T as [T T3]; try (apply andb_true_iff in T as [T T2]); apply negb_true_iff in T; done.
Qed.
Lemma syn_unique tag sy f : synOf tag = Some sy -> ("id", f) ∈ sy_attrs sy -> af_unique f = true.
Proof.
  intros H E. pose proof (push_ok _ _ H) as T. unfold pushOk in T. cbn [fst snd] in T. apply andb_true_iff in T as [T _]. apply andb_true_iff in T as [_ T].
  apply (forall_elem _ _ _ T) in E. cbn in E. done.
Qed.
(** The id of an element is new. *)
Lemma checked_id up x s sy attrs s' i : checked true up x s sy attrs s' -> sy_genid sy = false -> sget "id" attrs = Some i -> i ∉ p_unique s /\ i ∈ p_unique s'.
Proof.
  intros C Hg Hi. destruct (ck_get _ _ _ _ _ _ _ C _ _ Hi) as (f & Hf & Hv). destruct (aget "id" (x_attrs x)) as [w|] eqn:Ew; [|destruct Hv; congruence].
  assert (Hu : i ∈ omap (uval (p_alias s) (x_attrs x)) (sy_attrs sy)).
  { apply elem_of_list_omap. exists ("id", f). split; [done|]. unfold uval. cbn [fst snd]. rewrite (syn_unique _ _ _ (ck_syn _ _ _ _ _ _ _ C) Hf), Ew. cbn. by rewrite Hv. }
  split; [exact (ck_fresh _ _ _ _ _ _ _ C _ Hu)|]. destruct (ck_state _ _ _ _ _ _ _ C) as [n ->]. cbn. apply elem_of_app. left. apply elem_of_list_In, in_rev. rewrite rev_involutive. by apply elem_of_list_In.
Qed.

(** ** The shape of what is pushed. *)
Lemma push_shape E imp p e s : (forall e0 s0, pw (imp e0) (fun e' _ => e' = e0) s0) -> pw (push E imp p e) (fun e' _ => el_tag e' = el_tag e /\ el_node e' = el_node e /\ (p <> PuRegion -> el_attrs e' = el_attrs e)) s.
Proof.
  intros Hi. assert (T : forall {A} (m : P A) (Q : A -> pst -> Prop) s0, (forall a s', Q a s') -> pw m Q s0) by (intros A m Q s0 H; unfold pw; destruct (m s0); auto).
  destruct p; cbn [push]; try (by p1).
  all: try (unfold pushNcl, pushRegion, pushDescParam, pushConnector, pushCompound, pushSimple, pushStatement, pushAssess, pushRule, pushContext, pushPort, pushSwitch, pushSwitchPort, pushMapping, pushBindRule, pushMedia, pushArea, pushProperty, pushLink, pushLinkParam, pushBind, pushFont;
    repeat first [by apply pw_ret | apply pw_fail | apply pw_crash | apply pw_bind; apply T; intros | match goal with |- pw (if ?b then _ else _) _ _ => destruct b | |- pw (match ?x with _ => _ end) _ _ => destruct x end | progress cbv zeta]; fail).
  eapply pw_mono; [apply Hi|]. intros e' s' ->. done.
Qed.
Lemma import_shape E go e s : pw (pushImport E go e) (fun e' _ => e' = e) s.
Proof.
  assert (T : forall {A} (m : P A) (Q : A -> pst -> Prop) s0, (forall a s', Q a s') -> pw m Q s0) by (intros A m Q s0 H; unfold pw; destruct (m s0); auto).
  unfold pushImport. repeat first [by apply pw_ret | apply pw_bind; apply T; intros | progress cbv zeta].
Qed.

(** ** The cache. *)
Definition cinv (s : pst) : Prop := forall n e, p_cache s !! n = Some e -> (n < p_next s)%positive /\ el_node e = n /\ n ∈ p_order s.
Record ext (s s' : pst) : Prop := mkExt {
  ex_next : (p_next s <= p_next s')%positive;
  ex_tag : forall n e', (n < p_next s)%positive -> p_cache s' !! n = Some e' -> exists e, p_cache s !! n = Some e /\ el_tag e' = el_tag e;
  ex_odd : p_odd s = true -> p_odd s' = true }.
Lemma ext_refl s : ext s s. Proof. split; [lia|eauto|done]. Qed.
Lemma ext_trans a b c : ext a b -> ext b c -> ext a c.
Proof.
  intros [A1 A2 A3] [B1 B2 B3]. split; [lia| |auto]. intros n e' Hn He. destruct (B2 n e' ltac:(lia) He) as (e1 & H1 & T1). destruct (A2 n e1 Hn H1) as (e & H2 & T2). exists e. split; [done|congruence].
Qed.
Lemma cfr_cinv s s' : cfr s s' -> cinv s -> cinv s'.
Proof.
  intros F C n e' He. destruct (cfr_bwd _ _ _ _ F He) as (e & H & _ & N & _). destruct (C _ _ H) as (A & B & D). pose proof (cf_next _ _ F). rewrite (cf_order _ _ F). split; [lia|]. split; [congruence|done].
Qed.
Lemma cfr_ext s s' : cfr s s' -> fr s s' -> ext s s'.
Proof. intros F K. split; [apply F| |apply K]. intros n e' _ He. destruct (cfr_bwd _ _ _ _ F He) as (e & H & T & _). eauto. Qed.
Definition Par (s : pst) (up : option (nid * string)) : Prop := forall n t, up = Some (n, t) -> (n < p_next s)%positive /\ forall e, p_cache s !! n = Some e -> el_tag e = t.
Lemma Par_ext s s' up : ext s s' -> Par s up -> Par s' up.
Proof.
  intros X H n t E. destruct (H n t E) as [A B]. split; [pose proof (ex_next _ _ X); lia|]. intros e' He. destruct (ex_tag _ _ X n e' A He) as (e & H1 & T). rewrite T. eauto.
Qed.
(** Every medium that refers to another one refers to a medium that does not. *)
Definition resolved (s : pst) : Prop := forall a r, knownM s None a -> sget "refer" a = Some r -> exists a', knownM s None a' /\ sget "id" a' = Some r /\ sget "refer" a' = None.
Lemma resolved_cfr s s' : cfr s s' -> resolved s -> resolved s'.
Proof. intros F H a r Ha Hr. apply (known_cfr _ _ _ _ F) in Ha. destruct (H _ _ Ha Hr) as (a' & A & B). exists a'. split; [by apply (known_cfr _ _ _ _ F)|done]. Qed.
Definition same (s s' : pst) : Prop := cfr s s' /\ fr s s'.
Lemma same_trans a b c : same a b -> same b c -> same a c.
Proof. intros [A B] [C D]. split; [by eapply cfr_trans|by eapply fr_trans]. Qed.
Lemma pw_same {A} (m : P A) s : kc m -> keep m -> pw m (fun _ => same s) s.
Proof. intros H1 H2. apply pw_conj; [apply H1|apply H2]. Qed.
Lemma tagged_in s tag e : e ∈ tagged s tag <-> exists n, n ∈ p_order s /\ p_cache s !! n = Some e /\ el_tag e = tag.
Proof.
  unfold tagged. rewrite elem_of_list_In, filter_In, <- elem_of_list_In, elem_of_list_omap. split.
  - intros [(n & A & B) C]. apply String.eqb_eq in C. by exists n.
  - intros (n & A & B & C). split; [by exists n|by apply String.eqb_eq].
Qed.
Lemma tagged_node s tag n : cinv s -> n ∈ map el_node (tagged s tag) -> exists e, p_cache s !! n = Some e /\ el_tag e = tag.
Proof.
  intros C H. apply elem_of_list_fmap in H as (e & -> & H). apply tagged_in in H as (m & A & B & D). destruct (C _ _ B) as (_ & <- & _). by exists e.
Qed.
Lemma known_tagged s a : cinv s -> knownM s None a -> exists n e, n ∈ map el_node (tagged s "media") /\ p_cache s !! n = Some e /\ el_tag e = "media" /\ el_attrs e = a.
Proof.
  intros C [(n & e & A & B & D)|H]; [|done]. destruct (C _ _ A) as (_ & N & O). exists n, e. split; [|done]. apply elem_of_list_fmap. exists e. split; [done|]. apply tagged_in. by exists n.
Qed.
Lemma media_resolved d s : pw (solveMedia d) (fun _ _ => forall e r, p_cache s !! d = Some e -> el_tag e = "media" -> attr e "refer" = Some r -> exists a', knownM s None a' /\ sget "id" a' = Some r /\ sget "refer" a' = None) s.
Proof.
  unfold solveMedia. p1. p1. p1. eapply (pw_mono _ (fun _ s' => cfr s s')).
  - match goal with |- pw ?m _ _ => assert (K : kc m) by (unfold pattr, cacheById; kct); exact (K s) end.
  - intros [] s1 F. destruct (attr a "refer") as [r|] eqn:Er.
    + unfold cacheById. p1. p1. p1. p1. apply pw_check. intros Hchk e r0 He Ht Hr. assert (e = a) as -> by congruence. assert (r0 = r) as -> by congruence.
      match goal with H : find _ _ = Some _ |- _ => apply find_some in H as [Hin Hid] end. cbn in Hin. rewrite app_nil_r in Hin. apply elem_of_list_In, tagged_in in Hin as (n & A1 & A2 & A3).
      exists (el_attrs a0). split; [apply (known_cfr _ _ _ _ F); left; by exists n, a0|]. unfold hasId, attr in *. destruct (sget "id" (el_attrs a0)) eqn:Ei; [|done]. apply String.eqb_eq in Hid as ->. split; [done|]. by destruct (sget "refer" (el_attrs a0)).
    + p1. intros e r He Ht Hr. congruence.
Qed.
Lemma popNcl_cache E k s : cinv s -> pw (popNcl E k) (fun _ s' => same s s' /\ resolved s') s.
Proof.
  intros C. unfold popNcl. cbv zeta.
  p1. p1. p1. eapply (pw_mono _ (fun _ s' => same s s')).
  { apply pw_each_inv; [split; [apply cfr_refl|apply fr_refl]|]. intros d s1 Hd [F K]. destruct (tagged_node _ _ _ C Hd) as (e & He & Ht).
    eapply pw_mono; [apply pw_conj; [apply quiet_descriptor|apply keep_descriptor]|].
    - eapply notMedia_cfr; [exact F|]. intros e' He'. assert (e' = e) as -> by congruence. by rewrite Ht.
    - intros [] s2 [[F2 _] K2]. split; [by eapply cfr_trans|by eapply fr_trans]. }
  intros [] s1 [F1 K1]. pose proof (cfr_cinv _ _ F1 C) as C1.
  p1. p1. p1.
  eapply (pw_mono _ (fun _ s' => same s1 s' /\ resolved s')).
  { apply (pw_each _ _ (fun l s' => same s1 s' /\ forall d e r, d ∈ map el_node (tagged s1 "media") -> d ∉ l -> p_cache s1 !! d = Some e -> el_tag e = "media" -> attr e "refer" = Some r ->
      exists a', knownM s1 None a' /\ sget "id" a' = Some r /\ sget "refer" a' = None)).
    - split; [split; [apply cfr_refl|apply fr_refl]|]. intros d e r H1 H2. done.
    - intros d l s2 [p Hp] [[F K] H]. eapply pw_mono; [apply pw_conj; [apply media_resolved|apply pw_conj; [apply kc_media|apply keep_media]]|]. intros [] s3 (M & F3 & K3). cbv beta in *.
      split; [split; [by eapply cfr_trans|by eapply fr_trans]|]. intros d' e r H1 H2 He Ht Hr. destruct (decide (d' = d)) as [->|Hne]; [|eapply H; eauto; intros Hx; apply elem_of_cons in Hx as [Hx|Hx]; done].
      destruct (cfr_fwd _ _ _ _ F He) as (e2 & He2 & T2 & _ & A2). destruct (M e2 r He2 ltac:(congruence)) as (a' & Ka & Ra); [unfold attr in *; by rewrite A2|]. exists a'. split; [by apply (known_cfr _ _ _ _ F)|done].
    - intros s2 [[F K] H]. split; [done|]. eapply resolved_cfr; [exact F|]. intros a r Ha Hr. destruct (known_tagged _ _ C1 Ha) as (n & e & A1 & A2 & A3 & <-). eapply H; eauto. apply not_elem_of_nil. }
  intros [] s2 [[F2 K2] R2].
  eapply (pw_mono _ (fun _ s' => same s2 s')).
  - match goal with |- pw ?m _ _ => assert (K : kc m) by (kct); assert (K' : keep m) by (kp) end. by apply pw_same.
  - intros [] s3 [F3 K3]. split; [|by eapply resolved_cfr]. split; [eapply cfr_trans; [exact F1|]; by eapply cfr_trans|eapply fr_trans; [exact K1|]; by eapply fr_trans].
Qed.

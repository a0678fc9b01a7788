(** ParserObjs.v -- push functions that create or name objects. *)
From Verif Require Export ParserGraph.
From Verif Require Import BuildInv BuildOps BuildSpec BuildFacts Frame.
Open Scope string_scope.
Open Scope list_scope.

Lemma pinv_weaken U pend X X' s : X ⊆ X' -> pinv U pend X s -> pinv U pend X' s.
Proof.
  intros H []. split; try done.
  - intros o ob Ho. destruct (pi_orphan _ _ Ho) as [?|[?|?]]; auto.
  - intros a r o ob Ha Hi Hr Ho Hn. destruct (pi_settled a r o ob Ha Hi Hr Ho Hn); auto.
Qed.
Lemma known_none s pend a : knownM s None a -> knownM s pend a.
Proof. intros [H|H]; [by left|done]. Qed.
(** The element just pushed refers to another one. *)
Lemma pinv_pend_refer U a i r X s : pinv U None X s -> sget "id" a = Some i -> i ∈ U -> sget "refer" a = Some r -> pinv U (Some a) X s.
Proof.
  intros [] Hi HU Hr. assert (K : forall a', knownM s (Some a) a' -> sget "refer" a' = None -> knownM s None a').
  { intros a' [H|H]; [by left|]. injection H as ->. intros H2. congruence. }
  split; try done.
  - intros o ob Ho. destruct (pi_orphan _ _ Ho) as [H|[H|(H1 & H2 & a' & H3 & H4)]]; auto. right. right. split; [done|]. split; [done|]. exists a'. split; [by apply known_none|done].
  - intros a' r' Ha Hi' Hr'. eapply pi_there; eauto.
  - intros a' r' o ob Ha Hi' Hr'. eapply pi_media; eauto.
  - intros a' r' o ob Ha Hi' Hr'. eapply pi_settled; eauto.
  - intros a' r' [H|H] Hi'; [eapply pi_ids; [by left|done]|]. injection H as <-. congruence.
Qed.
(** It stands for an object of its own. *)
Lemma pinv_pend_plain U a i s : pinv U None [] s -> sget "id" a = Some i -> i ∈ U -> sget "refer" a = None ->
  (exists o ob, o ∈ g_objs (p_graph s) /\ g_obj (p_graph s) !! o = Some ob /\ named ob i) ->
  (forall o ob, g_obj (p_graph s) !! o = Some ob -> named ob i -> is_media (ob_kind ob) = true) ->
  (forall o ob, g_obj (p_graph s) !! o = Some ob -> ob_id ob = i -> o ∈ g_objs (p_graph s)) -> pinv U (Some a) [] s.
Proof.
  intros [] Hi HU Hr H1 H2 H3. assert (K : forall a' r, knownM s (Some a) a' -> sget "id" a' = Some r -> knownM s None a' \/ (a' = a /\ r = i)).
  { intros a' r [H|H] Hr'; [left; by left|]. injection H as <-. right. split; [done|congruence]. }
  split; try done.
  - intros o ob Ho. destruct (pi_orphan _ _ Ho) as [H|[H|(A1 & A2 & a' & A3 & A4)]]; auto. right. right. split; [done|]. split; [done|]. exists a'. split; [by apply known_none|done].
  - intros a' r Ha Hi' Hr'. destruct (K _ _ Ha Hi') as [H|[-> ->]]; [eapply pi_there; eauto|done].
  - intros a' r o ob Ha Hi' Hr' Ho Hn. destruct (K _ _ Ha Hi') as [H|[-> ->]]; [eapply pi_media; eauto|eauto].
  - intros a' r o ob Ha Hi' Hr' Ho Hn. destruct (K _ _ Ha Hi') as [H|[-> ->]]; [eapply pi_settled; eauto|left; eauto].
  - intros a' r Ha Hi'. destruct (K _ _ Ha Hi') as [H|[-> ->]]; [eapply pi_ids; eauto|done].
Qed.
(** The pushed element enters the cache. *)
Lemma pinv_cache U pend X s e s' : pinv U pend X s -> p_cache s !! el_node e = None -> (el_tag e = "media" -> pend = Some (el_attrs e)) -> (el_tag e <> "media" -> pend = None) ->
  p_cache s' = <[el_node e := e]> (p_cache s) -> p_graph s' = p_graph s -> p_refer s' = p_refer s -> pinv U None X s'.
Proof.
  intros I Hn Hm Hm' Ec Eg Er.
  assert (K : forall a, knownM s' None a <-> knownM s pend a).
  { intros a. split.
    - intros [(n & e' & A & B & C)|H]; [|done]. rewrite Ec in A. destruct (decide (n = el_node e)) as [->|Hne].
      + rewrite lookup_insert in A. injection A as ->. right. rewrite (Hm B). by rewrite C.
      + rewrite lookup_insert_ne in A by done. left. by exists n, e'.
    - intros [(n & e' & A & B & C)|H].
      + left. exists n, e'. split; [|done]. rewrite Ec, lookup_insert_ne; [done|]. intros <-. congruence.
      + destruct (decide (el_tag e = "media")) as [Ht|Ht]; [|rewrite (Hm' Ht) in H; done]. left. exists (el_node e), e. split; [rewrite Ec; apply lookup_insert|]. split; [done|]. rewrite (Hm Ht) in H. by injection H. }

  destruct I. split; rewrite ?Eg, ?Er; try done.
  - intros o ob Ho. destruct (pi_orphan _ _ Ho) as [H|[H|(A1 & A2 & a' & A3 & A4)]]; auto. right. right. split; [done|]. split; [done|]. exists a'. split; [by apply K|done].
  - intros a r Ha. apply pi_there. by apply K.
  - intros a r o ob Ha. apply pi_media. by apply K.
  - intros a r o ob Ha. apply pi_settled. by apply K.
  - intros a r Ha. apply pi_ids. by apply K.
Qed.
Lemma sget_sins0 {A} k k' (v : A) l : sget k (sins0 k' v l) = match sget k l with Some x => Some x | None => if String.eqb k' k then Some v else None end.
Proof.
  unfold sins0. destruct (sget k' l) eqn:E.
  - destruct (sget k l) eqn:E2; [done|]. destruct (String.eqb k' k) eqn:E3; [|done]. apply String.eqb_eq in E3. congruence.
  - rewrite sget_sset. destruct (String.eqb k' k) eqn:E3; [|by destruct (sget k l)]. apply String.eqb_eq in E3. subst. by rewrite E.
Qed.
Lemma pinv_referAdd U pend X s i m ob : pinv U pend X s -> g_obj (p_graph s) !! m = Some ob -> is_media (ob_kind ob) = true -> (i ∈ U \/ ob_id ob = i) ->
  pinv U pend X (p_set_refer (sins0 i m (p_refer s)) s).
Proof.
  intros [] Hm Hk Hi. split; try done; cbn [p_refer p_set_refer p_graph].
  - intros o ob' Ho. destruct (pi_orphan _ _ Ho) as [H|[H|(H1 & H2 & a & H3 & H4)]]; auto. right. right. split; [done|]. rewrite sget_sins0, H2. split; [done|]. by exists a.
  - intros k m' Hk'. rewrite sget_sins0 in Hk'. destruct (sget k (p_refer s)) eqn:E; [injection Hk' as <-; eauto|]. destruct (String.eqb i k) eqn:E2; [|done]. injection Hk' as <-. apply String.eqb_eq in E2 as <-. eauto.
Qed.
Lemma pinv_alias U U' pend X s o ob i p : pinv U pend X s -> g_obj (p_graph s) !! o = Some ob -> (is_media (ob_kind ob) = true \/ (ob_kind ob = KContext /\ i ∉ U)) -> U ⊆ U' -> i ∈ U' ->
  (forall c, p = Some c -> is_Some (g_obj (p_graph s) !! c)) ->
  pwp (addAlias o i p) (fun _ g' => pinv U' pend X (p_set_graph g' s) /\ g_objs g' = g_objs (p_graph s) /\
    exists ob', g_obj g' !! o = Some ob' /\ ob_kind ob' = ob_kind ob /\ ob_id ob' = ob_id ob /\ named ob' i /\ forall o', o' <> o -> g_obj g' !! o' = g_obj (p_graph s) !! o') (p_graph s).
Proof.
  intros I Ho Hi HU HiU Hp. pose proof (addAlias_step (p_graph s) o i p (pi_g _ _ _ _ I)) as ST. unfold addAlias in *. revert ST. unfold oupd, bind, gobj, modify, wp. rewrite Ho. cbn. intros ST.
  set (ob' := if bool_decide ((i, p) ∈ ob_aliases ob) then ob else ob_set_aliases (ob_aliases ob ++ [(i, p)]) ob) in *.
  set (g' := g_set_obj (<[o := ob']> (g_obj (p_graph s))) (p_graph s)) in *.
  assert (Hob : ob_kind ob' = ob_kind ob /\ ob_id ob' = ob_id ob /\ ob_ports ob' = ob_ports ob /\ ob_links ob' = ob_links ob /\ ob_swports ob' = ob_swports ob /\
    (forall x, x ∈ ob_aliases ob' <-> x ∈ ob_aliases ob \/ x = (i, p))).
  { unfold ob'. destruct (bool_decide _) eqn:Eb; (do 5 (split; [done|])); intros y; [|cbn; set_solver]. apply bool_decide_eq_true in Eb. split; [auto|]. intros [H|H]; [done|by subst]. }
  destruct Hob as (Hk & Hid & Hpo & Hli & Hsw & Hal).
  assert (Hget : forall o2 ob2, g_obj g' !! o2 = Some ob2 -> (o2 = o /\ ob2 = ob') \/ (o2 <> o /\ g_obj (p_graph s) !! o2 = Some ob2)).
  { intros o2 ob2. cbn. destruct (decide (o2 = o)) as [->|Hn]; [rewrite lookup_insert; intros [= <-]; by left|rewrite lookup_insert_ne by done; auto]. }
  assert (Hnew : g_obj g' !! o = Some ob') by apply lookup_insert.
  assert (Hoth : forall o2, o2 <> o -> g_obj g' !! o2 = g_obj (p_graph s) !! o2) by (intros o2 Hn; cbn; by rewrite lookup_insert_ne).
  assert (Hex : forall c, is_Some (g_obj (p_graph s) !! c) -> is_Some (g_obj g' !! c)).
  { intros c [cb Hc]. destruct (decide (c = o)) as [->|Hn]; [by exists ob'|rewrite Hoth by done; by exists cb]. }
  assert (Hnm : forall x, named ob' x <-> named ob x \/ x = i).
  { intros x. unfold named. rewrite Hid. setoid_rewrite Hal. split; [intros [H|[q [H|H]]]; [auto|eauto|injection H; auto]|intros [[H|[q H]]|H]; [auto|eauto|subst; eauto]]. }
  split; [|split; [done|exists ob'; split; [done|]; split; [done|]; split; [done|]; split; [apply Hnm; by right|done]]].
  destruct I. split; cbn [p_graph p_set_graph p_refer].
  - apply ST.
  - by apply ST.
  - destruct pi_root as (r & rb & A1 & A2 & A3 & A4 & A5). destruct (decide (r = o)) as [->|Hn].
    + exists o, ob'. assert (rb = ob) as -> by congruence. split; [done|]. split; [done|]. split; [done|]. split; congruence.
    + exists r, rb. by rewrite Hoth.
  - intros o2 ob2 H2. destruct (Hget _ _ H2) as [[-> ->]|[Hn H]].
    + destruct (pi_refs _ _ Ho) as [R1 R2 R3 R4]. split; rewrite ?Hpo, ?Hli, ?Hsw; try done. intros j c Hj. apply Hal in Hj as [Hj|Hj]; [apply Hex; eauto|]. injection Hj as -> <-. apply Hex. by apply Hp.
    + destruct (pi_refs _ _ H) as [R1 R2 R3 R4]. split; try done. intros j c Hj. apply Hex. eauto.
  - intros o2 ob2 H2. destruct (Hget _ _ H2) as [[-> ->]|[Hn H]]; [rewrite Hk, Hid; apply (pi_orphan _ _ Ho)|apply (pi_orphan _ _ H)].
  - intros a r Ha Hia Hr. destruct (pi_there a r Ha Hia Hr) as (o2 & ob2 & A & B & C). destruct (decide (o2 = o)) as [->|Hn].
    + exists o, ob'. split; [done|]. split; [done|]. apply Hnm. left. congruence.
    + exists o2, ob2. rewrite Hoth by done. done.
  - intros a r o2 ob2 Ha Hia Hr H2 Hn2. destruct (Hget _ _ H2) as [[-> ->]|[Hn H]]; [|eapply pi_media; eauto]. rewrite Hk. apply Hnm in Hn2 as [Hn2| ->]; [eapply pi_media; eauto|].
    destruct Hi as [Hi|[_ Hi]]; [done|]. exfalso. apply Hi. eapply pi_ids; eauto.
  - intros a r o2 ob2 Ha Hia Hr H2 Hn2. destruct (Hget _ _ H2) as [[-> ->]|[Hn H]]; [|eapply pi_settled; eauto]. eapply pi_settled; eauto. congruence.
  - intros o2 ob2 H2 Hm. destruct (Hget _ _ H2) as [[-> ->]|[Hn H]].
    + rewrite Hk in Hm. destruct (pi_names _ _ Ho Hm) as [A B]. rewrite Hid. split; [destruct A; auto|]. intros j q Hj. rewrite Hk. apply Hal in Hj as [Hj|Hj]; [destruct (B _ _ Hj); auto|]. injection Hj as -> ->. split; [done|]. destruct Hi as [Hi|[Hi _]]; [congruence|done].
    + destruct (pi_names _ _ H Hm) as [A B]. split; [destruct A; auto|]. intros j q Hj. destruct (B _ _ Hj); auto.
  - intros k m Hkm. destruct (pi_refer _ _ Hkm) as (ob2 & A & B & C). destruct (decide (m = o)) as [->|Hn].
    + exists ob'. assert (ob2 = ob) as -> by congruence. split; [done|]. split; [congruence|]. rewrite Hid. destruct C; auto.
    + exists ob2. rewrite Hoth by done. split; [done|]. split; [done|]. destruct C; auto.
  - intros a r Ha Hia. apply HU. eapply pi_ids; eauto.
Qed.
Lemma pinv_new U U' pend s k i : pinv U pend [] s -> (k = KMedia \/ (is_media k = false /\ i ∉ U /\ i ∈ U')) -> U ⊆ U' ->
  pwp (newObject k i) (fun o g' => pinv U' pend [o] (p_set_graph g' s) /\ g_obj (p_graph s) !! o = None /\ (exists ob, g_obj g' !! o = Some ob /\ ob_kind ob = k /\ ob_id ob = i /\ ob_aliases ob = []) /\
    (forall o' ob', o' <> o -> g_obj g' !! o' = Some ob' <-> g_obj (p_graph s) !! o' = Some ob') /\ g_objs g' = g_objs (p_graph s)) (p_graph s).
Proof.
  intros I Hk HU. eapply wp_mono; [apply wp_newObject; apply I|]. intros o g' (S & Hno & (ob & Hob & F1 & F2 & F3 & F4 & F5 & F6 & F7 & F8 & F9) & E1 & E2 & E3 & E4 & Hoth). cbv beta in *.
  split; [|split; [done|]; split; [by exists ob|]; split; done].
  assert (Hget : forall o2 ob2, g_obj g' !! o2 = Some ob2 -> (o2 = o /\ ob2 = ob) \/ (o2 <> o /\ g_obj (p_graph s) !! o2 = Some ob2)).
  { intros o2 ob2 H2. destruct (decide (o2 = o)) as [->|Hn]; [left; split; [done|congruence]|right]. split; [done|]. by apply Hoth. }
  assert (Hold : forall o2 ob2, g_obj (p_graph s) !! o2 = Some ob2 -> g_obj g' !! o2 = Some ob2).
  { intros o2 ob2 H2. apply Hoth; [|done]. intros ->. congruence. }
  assert (Hin : forall o2, o2 ∈ g_objs (p_graph s) -> o2 ∈ g_objs g') by (intros o2; by rewrite E1).
  destruct I. split; cbn [p_graph p_set_graph p_refer].
  - apply S.
  - by apply S.
  - destruct pi_root as (r & rb & A1 & A2 & A3 & A4 & A5). exists r, rb. rewrite E3. auto.
  - intros o2 ob2 H2. destruct (Hget _ _ H2) as [[-> ->]|[Hn H]].
    + split; rewrite ?F6, ?F7, ?F9, ?F5; [intros e He|intros cs acts a He|intros n l e He|intros j c He]; by apply elem_of_nil in He.
    + eapply refs_ext; [apply S| | | | |apply (pi_refs _ _ H)]; done.
  - intros o2 ob2 H2. destruct (Hget _ _ H2) as [[-> ->]|[Hn H]]; [right; left; constructor|]. destruct (pi_orphan _ _ H) as [A|[A|A]]; auto. by apply elem_of_nil in A.
  - intros a r Ha Hia Hr. destruct (pi_there a r Ha Hia Hr) as (o2 & ob2 & A & B & C). exists o2, ob2. auto.
  - intros a r o2 ob2 Ha Hia Hr H2 Hn2. destruct (Hget _ _ H2) as [[-> ->]|[Hn H]]; [|eapply pi_media; eauto]. rewrite F1. destruct Hk as [->|(Hk & Hi & _)]; [done|]. exfalso.
    destruct Hn2 as [Hn2|[q Hn2]]; [|rewrite F5 in Hn2; by apply elem_of_nil in Hn2]. apply Hi. rewrite <- F2, Hn2. eapply pi_ids; eauto.
  - intros a r o2 ob2 Ha Hia Hr H2 Hn2. destruct (Hget _ _ H2) as [[-> ->]|[Hn H]]; [right; constructor|]. destruct (pi_settled a r o2 ob2 Ha Hia Hr H Hn2) as [A|A]; auto. by apply elem_of_nil in A.
  - intros o2 ob2 H2 Hm. destruct (Hget _ _ H2) as [[-> ->]|[Hn H]].
    + rewrite F1 in Hm. destruct Hk as [->|(_ & _ & Hk)]; [done|]. rewrite F2. split; [by left|]. intros j q Hj. rewrite F5 in Hj. by apply elem_of_nil in Hj.
    + destruct (pi_names _ _ H Hm) as [A B]. split; [destruct A; auto|]. intros j q Hj. destruct (B _ _ Hj); auto.
  - intros k' m Hkm. destruct (pi_refer _ _ Hkm) as (ob2 & A & B & C). exists ob2. split; [auto|]. split; [done|]. destruct C; auto.
  - intros a r Ha Hia. apply HU. eapply pi_ids; eauto.
Qed.

(** FactsLtab.v -- C47 and C48. *)
From Verif Require Export LtabEnd.
From Verif Require Import StrFacts BuildInv BuildOps BuildSpec BuildFacts Frame Wf Reach FReach.
Open Scope string_scope.
Open Scope list_scope.

(** ** A new document. *)
Definition nd (addr : positive -> positive) (f : string) : graph := match newDocument (emptyGraph addr f) with Ok _ g => g | _ => emptyGraph addr f end.
Lemma nd_eq addr f : newDocument (emptyGraph addr f) = Ok tt (nd addr f).
Proof. unfold nd. destruct (newDocument (emptyGraph addr f)) as [[] g| |] eqn:E; [done| |]; exfalso; revert E; vm_compute; discriminate. Qed.
Lemma nd_built addr f : built (nd addr f). Proof. eapply b_new. apply nd_eq. Qed.
Lemma nd_root addr f : g_root (nd addr f) = Some 1%positive. Proof. by vm_compute. Qed.
Lemma nd_settings addr f : g_settings (nd addr f) = Some 3%positive. Proof. by vm_compute. Qed.
Lemma nd_r addr f : g_obj (nd addr f) !! 1%positive = Some (mkObj KContext "__root__" None [] 2 [2%positive] [3%positive] [] [] [] []). Proof. by vm_compute. Qed.
Lemma nd_s addr f : g_obj (nd addr f) !! 3%positive = Some (mkObj KSettings "__settings__" (Some 1%positive) [] 4 (sins addr 5%positive [4%positive]) [] [] [] [] []). Proof. by vm_compute. Qed.
Lemma nd_objs addr f : g_objs (nd addr f) ≡ₚ [1; 3]%positive.
Proof. assert (g_objs (nd addr f) = sins addr 3%positive [1%positive]) as -> by (by vm_compute). rewrite sins_perm. apply Permutation_swap. Qed.
Lemma nd_contents addr f : contents (nd addr f) 1%positive [] [].
Proof.
  split.
  - intros n v. assert (g_props (nd addr f) !!! (1%positive : oid) = ∅) as -> by (by vm_compute). rewrite lookup_empty. split; [done|]. intros (l1 & l2 & H & _). by destruct l1.
  - intros d. split.
    + intros (e & H1 & H2). destruct (built_inv _ (nd_built addr f)) as [I _]. destruct (gi_e _ I _ _ H1) as (ob & O & M). rewrite H2, nd_r in O. injection O as <-. cbn in M. apply elem_of_list_singleton in M as ->.
      assert (X : g_evt (nd addr f) !! 2%positive = Some (mkEvt PRESENTATION 1%positive "@lambda" 0 TIME_NONE "")) by (by vm_compute). assert (d = mkEvt PRESENTATION 1%positive "@lambda" 0 TIME_NONE "") as -> by (apply (inj Some); rewrite <- H1; exact X). constructor.
    + intros H. inversion H as [|n v Hn|j b e Hi (l1 & l2 & Hl & _)]; subst; [|by apply elem_of_nil in Hn|by destruct l1]. exists 2%positive. split; [by vm_compute|done].
Qed.
Lemma nd_fresh addr f : freshSettings (nd addr f) 3%positive 1%positive.
Proof.
  split; [eexists _, _; apply nd_s|]. split.
  - intros n v. assert (g_props (nd addr f) !!! (3%positive : oid) = {["type" := "application/x-ginga-settings"]}) as -> by (by vm_compute). rewrite lookup_singleton_Some. split; intros [? ?]; by subst.
  - assert (E4 : g_evt (nd addr f) !! 4%positive = Some (mkEvt PRESENTATION 3%positive "@lambda" 0 TIME_NONE "")) by (by vm_compute).
    assert (E5 : g_evt (nd addr f) !! 5%positive = Some (mkEvt ATTRIBUTION 3%positive "service.currentFocus" 0 TIME_NONE "")) by (by vm_compute).
    intros d. split.
    + intros (e & H1 & H2). destruct (built_inv _ (nd_built addr f)) as [I _]. destruct (gi_e _ I _ _ H1) as (ob & O & M). rewrite H2, nd_s in O. injection O as <-. cbn in M.
      assert (M' : e ∈ [5; 4]%positive) by (destruct (addr 5 <? addr 4)%positive in M; [done|]; rewrite !elem_of_cons in *; tauto). clear M. rename M' into M. apply elem_of_cons in M as [ -> |M]; [right; apply (inj Some); rewrite <- H1; exact E5|]. apply elem_of_list_singleton in M as ->. left. apply (inj Some); rewrite <- H1; exact E4.
    + intros [-> | ->]; [by exists 4%positive|by exists 5%positive].
Qed.

(** ** The whole document. *)
Lemma fresh_kept g g' s r : kept g g' s -> freshSettings g s r -> freshSettings g' s r.
Proof.
  intros [K1 [K2 K3]] [(lam & evs & O) [P Q]]. split; [exists lam, evs; by rewrite K1|]. split; [intros n v; rewrite K2; apply P|].
  intros d. rewrite <- Q. split; intros (e & H1 & H2); exists e; (split; [by apply K3|done]).
Qed.
Record newDoc (g : graph) (r s : oid) (lam : eid) (evs : list eid) : Prop := mkND {
  nd_b : built g; nd_rt : g_root g = Some r; nd_st : g_settings g = Some s; nd_ne : r <> s;
  nd_ro : g_obj g !! r = Some (mkObj KContext "__root__" None [] lam evs [s] [] [] [] []);
  nd_ob : g_objs g ≡ₚ [r; s]; nd_co : contents g r [] []; nd_fr : freshSettings g s r }.
Lemma newDocument_is addr f : pwp newDocument (fun _ g => exists r s lam evs, newDoc g r s lam evs) (emptyGraph addr f).
Proof.
  apply pwp_intro. intros [] g H. rewrite nd_eq in H. assert (g = nd addr f) as -> by (by injection H). clear H. exists 1%positive, 3%positive, 2%positive, [2%positive].
  split; [apply nd_built|apply nd_root|apply nd_settings|done|apply nd_r|apply nd_objs|apply nd_contents|apply nd_fresh].
Qed.
Lemma root_ok E k v g0 r s0 lam evs : newDoc g0 r s0 lam evs -> lwp (lroot (lparse E k) (Some v)) (fun _ g => depictsDoc E g v) g0.
Proof.
  intros [B R S Hne O Ob C F]. unfold lroot.
  l1. l1. injection H as ->. l1. l1. apply lwp_if; intros Ht; [l1|]. apply negb_false_iff, String.eqb_eq in Ht. subst s. l1. l1. l1. apply lwp_lift. unfold get, wp. cbv beta iota. rewrite R.
  l1. set (rb := mkObj KContext "__root__" None [(s, None)] lam evs [s0] [] [] [] []).
  eapply (lwp_mono _ (fun _ g' => built g' /\ g' = retouch g0 r rb)).
  { apply lwp_built; [|exact B|].
    - apply kb_lift. exact (kb_op (BAlias r s None)).
    - apply lwp_lift. unfold addAlias. apply wp_oupd. intros ob Ho. rewrite O in Ho. injection Ho as <-. done. }
  intros [] g1 [B1 Eg1]. cbv beta. assert (R1 : g_obj g1 !! r = Some rb) by (subst g1; cbn; apply lookup_insert).
  eapply lwp_mono; [eapply body_ok; [apply parse_ok|exact B1|exact R1|done|done]|].
  intros [] g4 (B4 & ts & os & all & ports & links & kids & g3 & Hts & G3 & Pk & Eg & D & X).
  assert (K0 : kept g0 g1 s0) by (subst g1; by apply retouch_kept).
  assert (K3 : kept g1 g3 s0). { eapply grown_kept; [exact G3| |done]. destruct F as [(lam' & evs' & Os) _]. rewrite (proj1 K0), Os. by eexists. }
  assert (K4 : kept g3 g4 s0) by (subst g4; by apply retouch_kept).
  exists r, s0, l, s, ts, os, all, kids, ports, links, lam, evs.
  split; [subst g4; cbn; rewrite (gr_root _ _ _ _ _ G3), Eg1; exact R|].
  split; [subst g4; cbn; rewrite (gr_set _ _ _ _ _ G3), Eg1; exact S|].
  split; [done|]. split; [by split|]. split; [subst g4; cbn; apply lookup_insert|]. split.
  { subst g4. eapply contents_kept; [apply retouch_kcont|]. eapply contents_kept; [apply (gr_cont _ _ _ _ _ G3); by eexists|]. subst g1. eapply contents_kept; [apply retouch_kcont|done]. }
  split. { eapply fresh_kept; [exact K4|]. eapply fresh_kept; [exact K3|]. by eapply fresh_kept. }
  split; [exact Hts|]. split; [exact D|]. split; [rewrite Pk; apply Permutation_app_comm|]. split; [exact X|].
  subst g4. change (g_objs (retouch ?g _ _)) with (g_objs g). rewrite (gr_objs _ _ _ _ _ G3), Eg1. change (g_objs (retouch ?g _ _)) with (g_objs g). rewrite Ob. apply Permutation_app_comm.
Qed.
Lemma f_C48 E addr focus v g : parseLtab E addr focus (Some v) = Ok (Some tt) g -> depictsDoc E g v.
Proof.
  intros H. cut (lwp (lprocess E (Some v)) (fun _ g => depictsDoc E g v) (emptyGraph addr focus)).
  { unfold lwp, wp, pwp. unfold parseLtab in H. rewrite H. done. }
  clear H g. unfold lprocess. l1. apply lwp_lift. eapply wp_mono; [apply newDocument_is|]. intros [] g (r & s & lam & evs & N). cbv beta. by eapply root_ok.
Qed.

(** ** References. *)
Record refsOf (g : graph) (ob : obj) : Prop := mkRO {
  ro_ports : forall e, e ∈ ob_ports ob -> evtInDoc g e;
  ro_links : forall cs acts a, (cs, acts) ∈ ob_links ob -> a ∈ cs \/ a ∈ acts -> ac_evt a = nullEvt \/ evtInDoc g (ac_evt a);
  ro_swports : ob_swports ob = [];
  ro_rules : forall c p, (c, p) ∈ ob_rules ob -> c ∈ ob_children ob;
  ro_aliases : forall i c, (i, c) ∈ ob_aliases ob -> c = None }.
Lemma named_indoc g c s e : built g -> eventNamed g c s (Some e) -> evtInDoc g e.
Proof.
  intros B (i & t & n & o & _ & (cb & C1 & C2 & _) & (ob & ev & H1 & H2 & H3 & _ & _ & H6)). destruct (built_inv _ B) as [I _]. exists ev. split; [done|]. unfold inDocument. rewrite H6.
  destruct (oi_children _ _ _ (gi_o _ I _ _ C1) _ C2) as (b & X1 & X2). by destruct (oi_parent _ _ _ (gi_o _ I _ _ X1) _ X2).
Qed.
Lemma eventAt_indoc g c l e : built g -> eventAt g c l e -> e = nullEvt \/ evtInDoc g e.
Proof. intros B (s & [r|] & _ & H & ->); [right; by eapply named_indoc|by left]. Qed.
Lemma Forall2_r {A B} (P : A -> B -> Prop) l k y : Forall2 P l k -> y ∈ k -> exists x, x ∈ l /\ P x y.
Proof. intros F (i & H)%elem_of_list_lookup. destruct (Forall2_lookup_r _ _ _ _ _ F H) as (x & X & Y). exists x. split; [by eapply elem_of_list_lookup_2|done]. Qed.
Lemma noRepeat_sub l e : e ∈ noRepeat [] l -> e ∈ l.
Proof. intros H. destruct (proj1 (noRepeat_in l [] e) (or_intror H)) as [X|X]; [by apply elem_of_nil in X|done]. Qed.
Lemma context_refs g c l ports links : built g -> contextAs g c l ports links ->
  (forall e, e ∈ ports -> evtInDoc g e) /\ forall cs acts a, (cs, acts) ∈ links -> a ∈ cs \/ a ∈ acts -> ac_evt a = nullEvt \/ evtInDoc g (ac_evt a).
Proof.
  intros B (pts & es & lts & _ & F1 & -> & _ & F2). split.
  - intros e He. destruct (Forall2_r _ _ _ _ F1 (noRepeat_sub _ _ He)) as (x & _ & s & _ & N). by eapply named_indoc.
  - intros cs acts a Hk Ha. destruct (Forall2_r _ _ _ _ F2 Hk) as (x & _ & l' & cs' & acts' & _ & _ & _ & G1 & G2). cbn in G1, G2. destruct Ha as [Ha|Ha].
    + destruct (Forall2_r _ _ _ _ G1 Ha) as (y & _ & l2 & w & t & e & p & _ & _ & _ & X & _ & ->). by eapply eventAt_indoc.
    + destruct (Forall2_r _ _ _ _ G2 Ha) as (y & _ & l2 & w & t & e & v & d & z & _ & _ & _ & X & _ & _ & ->). by eapply eventAt_indoc.
Qed.
Lemma nil_in {A P} (x : A) : x ∈ [] -> P. Proof. intros H. by apply elem_of_nil in H. Qed.
Ltac noin := intros; match goal with H : _ ∈ [] |- _ => by apply elem_of_nil in H end.
Lemma depicts_refs E g : built g -> (forall p o v all, depicts E g p o v all -> forall x ob, x ∈ all -> g_obj g !! x = Some ob -> refsOf g ob) /\
  (forall p os ts all, depictsAll E g p os ts all -> forall x ob, x ∈ all -> g_obj g !! x = Some ob -> refsOf g ob).
Proof.
  intros B. apply depicts_mutind.
  - intros p o l i pts ps ats areas lam evs T O P1 P2 A1 A2 C x ob Hx Ho. apply elem_of_list_singleton in Hx as ->. rewrite O in Ho. injection Ho as <-. split; cbn; try done; noin.
  - intros p o l i ts os all children ports links lam evs T O C Es D IH Pe X x ob Hx Ho. apply elem_of_cons in Hx as [ -> |Hx]; [|by eapply IH]. rewrite O in Ho. injection Ho as <-.
    destruct (context_refs _ _ _ _ _ B X) as [Y Z]. split; cbn; try done; noin.
  - intros p o l i ts os all children rts rules lam evs T O C Es D IH Pe Rt X x ob Hx Ho. apply elem_of_cons in Hx as [ -> |Hx]; [|by eapply IH]. rewrite O in Ho. injection Ho as <-.
    split; cbn; try done; [noin..| |noin]. intros c q Hr. destruct (Forall2_r _ _ _ _ X Hr) as (y & _ & l' & j & v & _ & _ & (cb & C1 & C2 & _) & _). cbn in C2.
    rewrite O in C1. by injection C1 as <-.
  - intros p x ob Hx. by eapply nil_in.
  - intros p o k v a os ts all D IH D' IH' x ob Hx Ho. apply elem_of_app in Hx as [Hx|Hx]; eauto.
Qed.
Lemma doc_refs E g v : built g -> depictsDoc E g v -> forall x ob, inDocument g x -> g_obj g !! x = Some ob -> refsOf g ob.
Proof.
  intros B (r & s & l & i & ts & os & all & children & ports & links & lam & evs & Hr & Hs & -> & _ & Or & _ & [(lam' & evs' & Os) _] & _ & D & _ & X & P) x ob Hx Ho.
  unfold inDocument in Hx. rewrite P in Hx. apply elem_of_cons in Hx as [ -> |Hx]; [|apply elem_of_cons in Hx as [ -> |Hx]].
  - rewrite Or in Ho. injection Ho as <-. destruct (context_refs _ _ _ _ _ B X) as [Y Z]. split; cbn; try done; [noin|]. intros j c Hj. apply elem_of_list_singleton in Hj. by injection Hj as _ ->.
  - rewrite Os in Ho. injection Ho as <-. split; cbn; try done; noin.
  - by eapply (proj2 (depicts_refs E g B)).
Qed.
Lemma f_C47 E addr focus v g : parseLtab E addr focus (Some v) = Ok (Some tt) g -> noNull g ->
  closedRefs g /\ forall X w h, wf_doc (docOf g X) /\ init_ok (docOf g X) (stOf g w h).
Proof.
  intros H N. pose proof (ltab_built _ _ _ _ _ _ H) as B. pose proof (f_C48 _ _ _ _ _ H) as D. clear H. pose proof (doc_refs _ _ _ B D) as R.
  assert (C : closedRefs g); [|split; [done|]; intros X w h; by apply f_C40_built].
  split.
  - intros o ob e H1 H2. by apply (R _ _ H1 H2).
  - intros o ob cs acts a H1 H2 H3 H4. destruct (ro_links _ _ (R _ _ H1 H2) _ _ _ H3 H4) as [X|X]; [by destruct (N _ _ _ _ _ H1 H2 H3 H4)|done].
  - intros o ob n l e H1 H2 H3. rewrite (ro_swports _ _ (R _ _ H1 H2)) in H3. by eapply nil_in.
  - intros o ob c p H1 H2. by apply (R _ _ H1 H2).
  - intros o ob i c H1 H2 H3. by apply (ro_aliases _ _ (R _ _ H1 H2)) in H3.
Qed.
(** A null event is not one of the events of the document: [noNull] excludes exactly the
    references that cannot be resolved. *)
Definition no1 (g : graph) : Prop := (1 < g_next g)%positive /\ g_evt g !! nullEvt = None.
Definition keeps1 {A} (m : MG A) : Prop := forall g a g', no1 g -> m g = Ok a g' -> no1 g'.
Lemma k1_bind {A B} (m : MG A) (f : A -> MG B) : keeps1 m -> (forall a, keeps1 (f a)) -> keeps1 (bind m f).
Proof. intros Hm Hf g b g' N. unfold bind. destruct (m g) as [a g1| |] eqn:E; try done. intros H. eapply Hf; [|exact H]. by eapply Hm. Qed.
Lemma k1_ret {A} (a : A) : keeps1 (ret a). Proof. intros g x g' N [= <- <-]. done. Qed.
Lemma k1_crash {A} c : keeps1 (crashm c : MG A). Proof. by intros g x g' N [=]. Qed.
Lemma k1_gets {A} (f : graph -> A) : keeps1 (gets f). Proof. intros g x g' N [= <- <-]. done. Qed.
Lemma k1_get : keeps1 get. Proof. intros g x g' N [= <- <-]. done. Qed.
Lemma k1_modify (f : graph -> graph) : (forall g, no1 g -> no1 (f g)) -> keeps1 (modify f). Proof. intros H g x g' N [= <- <-]. auto. Qed.
Lemma k1_gobj o : keeps1 (gobj o). Proof. intros g x g' N. unfold gobj, ofoption, ret, crashm. destruct (g_obj g !! o); [|done]. by intros [= <- <-]. Qed.
Lemma k1_gevt o : keeps1 (gevt o). Proof. intros g x g' N. unfold gevt, ofoption, ret, crashm. destruct (g_evt g !! o); [|done]. by intros [= <- <-]. Qed.
Lemma k1_assert b s : keeps1 (assertm b s : MG unit). Proof. unfold assertm. destruct b; [apply k1_ret|apply k1_crash]. Qed.
Lemma k1_oupd o f : keeps1 (oupd o f). Proof. apply k1_bind; [apply k1_gobj|]. intros. by apply k1_modify. Qed.
Lemma k1_event o t i b e l : keeps1 (addEvent o t i b e l).
Proof.
  apply k1_bind; [apply k1_bind; [apply k1_gobj|intros; apply k1_gets]|]. intros [x|]; [apply k1_ret|]. intros g u g' N. unfold bind, galloc. cbn.
  intros H. eapply (k1_oupd o); [|exact H]. destruct N as [N1 N2]. split; cbn; [lia|]. rewrite lookup_insert_ne; [done|]. unfold nullEvt. lia.
Qed.
Lemma k1_new k i : keeps1 (newObject k i).
Proof.
  intros g u g' N. unfold newObject. unfold bind at 1 2, galloc. cbn -[bind lookup insert]. intros H.
  eapply (k1_bind (modify _) _); [| |split; [|]|exact H]; cycle 2.
  - cbn. destruct N as [N1 N2]. lia.
  - cbn. apply N.
  - apply k1_modify. intros g1 [N1 N2]. split; [done|]. cbn. rewrite lookup_insert_ne; [done|]. unfold nullEvt. destruct N as [N0 _]. lia.
  - intros [] . apply k1_bind; [by apply k1_modify|]. intros _. apply k1_bind; [|intros; apply k1_ret]. unfold whenm. destruct (bool_decide _); [|apply k1_ret]. apply k1_bind; [by apply k1_modify|]. intros. apply k1_event.
Qed.
Lemma k1_add o : keeps1 (addObject o).
Proof.
  apply k1_bind; [apply k1_gobj|]. intros ob. apply k1_bind; [apply k1_get|]. intros g. apply k1_bind; [apply k1_gets|]. intros x. destruct (_ || _); [apply k1_ret|].
  apply k1_bind; [apply k1_assert|]. intros _. apply k1_bind; [by apply k1_modify|]. intros _. apply k1_ret.
Qed.
Lemma k1_child c o : keeps1 (addChild c o).
Proof.
  apply k1_bind; [apply k1_gobj|]. intros cb. apply k1_bind; [apply k1_gobj|]. intros ob. destruct (bool_decide _); [apply k1_ret|]. destruct (negb _); [apply k1_crash|].
  apply k1_bind; [apply k1_get|]. intros g. apply k1_bind; [apply k1_oupd|]. intros _. apply k1_bind; [apply k1_gobj|]. intros ob'. apply k1_bind; [apply k1_assert|]. intros _.
  apply k1_bind; [apply k1_oupd|]. intros _. destruct (negb _); [apply k1_crash|]. apply k1_bind; [apply k1_add|]. intros. apply k1_assert.
Qed.
Lemma built_no1 g : built g -> no1 g.
Proof.
  induction 1 as [addr f g H|g op g' B IH H].
  - assert (g = nd addr f) as -> by (rewrite nd_eq in H; congruence). by vm_compute.
  - revert H. generalize tt as u. intros u H. cut (keeps1 (bexec op)); [intros K; by eapply K|]. clear. destruct op; cbn [bexec].
    + apply k1_bind; [apply k1_new|]. intros. apply k1_ret.
    + apply k1_bind; [apply k1_add|]. intros. apply k1_ret.
    + apply k1_child.
    + apply k1_oupd.
    + apply k1_event.
    + apply k1_event.
    + apply k1_event.
    + apply k1_event.
    + apply k1_event.
    + apply k1_oupd.
    + apply k1_bind; [apply k1_assert|]. intros. apply k1_bind; [apply k1_assert|]. intros. apply k1_oupd.
    + apply k1_oupd.
    + apply k1_bind; [apply k1_event|]. intros. apply k1_oupd.
    + apply k1_bind; [apply k1_gobj|]. intros. apply k1_bind; [|intros; by apply k1_modify]. unfold whenm. destruct (_ && _); [by apply k1_modify|apply k1_ret].
    + apply k1_bind; [apply k1_gevt|]. intros. by apply k1_modify.
Qed.
Lemma closed_noNull g : built g -> closedRefs g -> noNull g.
Proof. intros B C o ob cs acts a H1 H2 H3 H4 Ha. destruct (cr_links _ C _ _ _ _ _ H1 H2 H3 H4) as (ev & E & _). rewrite Ha in E. destruct (built_no1 g B) as [_ N]. rewrite N in E. discriminate E. Qed.

(** ** The file as the formatter sees it. *)
Definition ltabFile (E : lenv) (addr : positive -> positive) (X : Player.ext) (v : lval) : file := fun w h fo =>
  match parseLtab E addr fo (Some v) with Ok (Some _) g => Some (docOf g X, stOf g w h) | _ => None end.
Lemma f_C47_file E addr X v : (forall fo g, parseLtab E addr fo (Some v) = Ok (Some tt) g -> noNull g) -> goodFile (ltabFile E addr X v).
Proof.
  intros N w h fo D s H. unfold ltabFile in H. destruct (parseLtab E addr fo (Some v)) as [[[]|] g| |] eqn:Ep; try discriminate H. injection H as <- <-.
  apply (f_C47 _ _ _ _ _ Ep (N _ _ Ep)).
Qed.
Lemma f_C47_exact E addr focus v g : parseLtab E addr focus (Some v) = Ok (Some tt) g -> built g /\ (closedRefs g <-> noNull g).
Proof.
  intros H. pose proof (ltab_built _ _ _ _ _ _ H) as B. split; [done|]. split; [by apply closed_noNull|]. intros N. by apply (f_C47 _ _ _ _ _ H N).
Qed.

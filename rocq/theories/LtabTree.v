(** LtabTree.v -- ParserLua: what each table becomes. *)
From Verif Require Export LtabFill.
From Verif Require Import StrFacts BuildInv BuildOps BuildSpec BuildFacts Frame.
Open Scope string_scope.
Open Scope list_scope.

(** ** Hanging an object that was in no document. *)
Lemma hang_ok k i ps areas g0 o g p : making k i ps areas g0 o g -> is_Some (g_obj g0 !! p) -> pwp (addChild p o) (fun _ g' => built g' /\ grown g0 g' p [o] [o] /\ contents g' o ps areas /\
  exists lam evs, g_obj g' !! o = Some (mkObj k i (Some p) [] lam evs [] [] [] [] [])) g.
Proof.
  intros M Hp. destruct (built_inv _ (mk_built _ _ _ _ _ _ _ M)) as [I _]. apply pwp_intro. intros [] g' H.
  assert (B' : built g') by (exact (b_op g (BChild p o) g' (mk_built _ _ _ _ _ _ _ M) H)). split; [done|].
  pose proof (wp_ok _ _ _ _ _ (addChild_props g p o) _ _ H) as P. cbv beta in P.
  destruct (wp_ok _ _ _ _ _ (wp_addChild g p o I) _ _ H) as (_ & _ & _ & _ & AT). destruct (mk_obj _ _ _ _ _ _ _ M) as (lam & evs & O).
  assert (Hne : p <> o) by (intros ->; rewrite (mk_new _ _ _ _ _ _ _ M) in Hp; by destruct Hp). destruct Hp as [pb0 Hp0]. destruct (mk_old _ _ _ _ _ _ _ M p) as [Kp _]; [by eexists|].
  assert (Hp : g_obj g !! p = Some pb0) by congruence.
  assert (Hno : o ∉ ob_children pb0).
  { intros X. destruct (oi_children _ _ _ (gi_o _ I _ _ Hp) _ X) as (cb & C1 & C2). rewrite O in C1. injection C1 as <-. done. }
  specialize (AT _ _ Hp O Hno). assert (Oo : forall x, x <> o -> x <> p -> g_obj g' !! x = g_obj g !! x).
  { intros x X1 X2. rewrite (at_obj _ _ _ _ _ AT). destruct (g_obj g !! x) as [xb|] eqn:E; [|done]. cbn. unfold hung. rewrite decide_False by done. rewrite decide_False by congruence. done. }
  assert (Kc : forall x, kcont g g' x). { intros x. split; [by rewrite P|]. intros e ev _. by rewrite (at_evt _ _ _ _ _ AT). }
  split; [|split].
  - split.
    + intros x Hx Hxp. rewrite Oo; [apply (mk_old _ _ _ _ _ _ _ M x Hx)| |done]. intros ->. rewrite (mk_new _ _ _ _ _ _ _ M) in Hx. by destruct Hx.
    + intros pb Hpb. assert (pb = pb0) as -> by congruence. exists (sins (g_addr g) o (ob_children pb0)). split; [|apply sins_perm]. rewrite (at_obj _ _ _ _ _ AT), Hp. cbn. unfold hung. rewrite decide_False by done. by rewrite decide_True by done.
    + intros x Hx. eapply kcont_trans; [apply (mk_old _ _ _ _ _ _ _ M x Hx)|]. apply Kc.
    + intros x Hx. apply elem_of_list_singleton in Hx as ->. apply (mk_new _ _ _ _ _ _ _ M).
    + rewrite (at_objs _ _ _ _ _ AT), (mk_objs _ _ _ _ _ _ _ M). apply sins_perm.
    + rewrite (at_root _ _ _ _ _ AT). apply M.
    + rewrite (at_settings _ _ _ _ _ AT). apply M.
  - eapply contents_kept; [apply Kc|]. apply M.
  - exists lam, evs. rewrite (at_obj _ _ _ _ _ AT), O. cbn. unfold hung. by rewrite decide_True by done.
Qed.

(** ** Media. *)
Definition parsed (E : lenv) (p : oid) (v : lval) (g g' : graph) : Prop := built g' /\ exists o all, grown g g' p [o] all /\ depicts E g' p o v all.
Lemma media_ok E p v g : built g -> is_Some (g_obj g !! p) -> lwp (lmedia E p v) (fun _ g' => parsed E p v g g') g.
Proof.
  intros B Hp. unfold lmedia. l1. l1. injection H as ->. l1. l1. apply lwp_if; intros Ht; [l1|]. apply negb_false_iff, String.eqb_eq in Ht. subst s. l1. l1.
  l1. apply lwp_lift. eapply wp_mono; [apply make_new; done|]. intros o g1 M1. cbv beta. l1. l1.
  l1. eapply lwp_mono; [apply (lwp_leach (lsetProperty E o) (fun ps g' => making KMedia s ps [] g o g') (propertyAs E)); [|exact M1]|].
  { intros x bs g2 _ M2. unfold lsetProperty. l1. eapply lwp_mono; [apply property_ok|]. intros pv g3 [-> Hpv]. cbv beta. apply lwp_lift. eapply wp_mono; [apply (setProp_ok KMedia s bs [] g o); done|].
    intros [] g4 M4. exists pv. split; [done|]. by destruct pv. }
  intros [] g2 (ps & F & M2). cbv beta. l1. l1.
  l1. eapply lwp_mono; [apply (lwp_leach (laddArea o) (fun areas g' => making KMedia s ([] ++ ps) areas g o g') areaAs); [|exact M2]|].
  { intros x bs g3 _ M3. unfold laddArea. l1. eapply lwp_mono; [apply area_ok|]. intros a g4 [-> Ha]. cbv beta. apply lwp_lift. eapply wp_mono; [eapply addArea_ok; exact M3|].
    intros [] g5 M5. exists a. split; [done|]. destruct a as [? [? ?]]. exact M5. }
  intros [] g3 (areas & F' & M3). cbv beta. apply lwp_lift. eapply wp_mono; [by eapply hang_ok|]. intros [] g4 (B4 & G & C & lam & evs & O). split; [done|]. exists o, [o]. split; [done|].
  eapply d_media; try eassumption. by split.
Qed.

(** ** Children. *)
Lemma children_ok E rec c v l n pos g : (forall what p x g, built g -> is_Some (g_obj g !! p) -> lwp (rec what p x) (fun _ g' => parsed E p x g g') g) ->
  v = item l n -> built g -> is_Some (g_obj g !! c) -> lwp (dl ts <- rawentries v pos; leach (lchild rec c) ts) (fun _ g' => built g' /\ exists ts os all, entriesAt l n ts /\ grown g g' c os all /\ depictsAll E g' c os ts all) g.
Proof.
  intros Hrec -> B Hc. l1. l1. rename H into He. revert g B Hc.
  assert (X : forall g, built g -> is_Some (g_obj g !! c) -> lwp (leach (lchild rec c) ts) (fun _ g' => built g' /\ exists os all, grown g g' c os all /\ depictsAll E g' c os ts all) g).
  { clear He. induction ts as [|[k x] ts IH]; intros g B Hc; cbn [leach].
    - l1. split; [done|]. exists [], []. split; [apply grown_refl|constructor].
    - l1. assert (Y : lwp (lchild rec c (k, x)) (fun _ g' => parsed E c x g g') g).
      { unfold lchild. cbn [snd]. l1. l1. l1. l1. repeat (apply lwp_if; intros ?); try by apply Hrec. l1. }
      eapply lwp_mono; [exact Y|]. intros [] g1 (B1 & o & a & G1 & D1). cbv beta. eapply lwp_mono; [apply IH; [done|by eapply grown_is]|].
      intros [] g2 (B2 & os & all & G2 & D2). split; [done|]. exists (o :: os), (a ++ all). split; [exact (grown_trans _ _ _ _ [o] _ _ _ G1 G2)|]. constructor; [|done].
      eapply depicts_kept; [exact D1|]. intros y Hy. destruct (decide (is_Some (g_obj g1 !! y))) as [S|S].
      + eapply grown_kept; [exact G2|done|]. intros ->. rewrite (gr_new _ _ _ _ _ G1 _ Hy) in Hc. by destruct Hc.
      + exfalso. apply S. by eapply (proj1 (depicts_known E g1)). }
  intros g B Hc. eapply lwp_mono; [by apply X|]. intros [] g' (B' & os & all & G & D). split; [done|]. by exists ts, os, all.
Qed.

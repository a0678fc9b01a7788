(** LtabEnd.v -- ParserLua: contexts, switches, the root. *)
From Verif Require Export LtabBody.
From Verif Require Import StrFacts BuildInv BuildOps BuildSpec BuildFacts Frame.
Open Scope string_scope.
Open Scope list_scope.

Definition recursing (E : lenv) (rec : kind -> oid -> lval -> LM unit) : Prop :=
  forall what p x g, built g -> is_Some (g_obj g !! p) -> lwp (rec what p x) (fun _ g' => parsed E p x g g') g.
Lemma body_ok E rec c cb l g : recursing E rec -> built g -> g_obj g !! c = Some cb -> ob_ports cb = [] -> ob_links cb = [] ->
  lwp (lbody rec c l) (fun _ g' => built g' /\ exists ts os all ports links children g2, entriesAt l 5 ts /\ grown g g2 c os all /\
    children ≡ₚ os ++ ob_children cb /\ g' = retouch g2 c (ob_set_linksl links (ob_set_ports ports (ob_set_children children cb))) /\
    depictsAll E g' c os ts all /\ contextAs g' c l ports links) g.
Proof.
  intros Hrec B Hc P0 L0. unfold lbody, lchildren. l1. eapply lwp_mono; [apply (children_ok E rec c (item l 5) l 5); [done|done|done|by eexists]|].
  intros [] g2 (B2 & ts & os & all & Hts & G & D). cbv beta. destruct (gr_p _ _ _ _ _ G _ Hc) as (kids & K & Pk).
  l1. l1. l1. eapply lwp_mono; [eapply ports_ok; [exact B2|exact K|done]|]. intros [] g3 (B3 & es & F1 & ->). cbv beta.
  set (cb1 := ob_set_ports (noRepeat [] es) (ob_set_children kids cb)) in *. assert (K3 : g_obj (retouch g2 c cb1) !! c = Some cb1) by (cbn; apply lookup_insert).
  l1. l1. eapply lwp_mono; [eapply links_ok; [exact B3|exact K3|done]|]. intros [] g4 (B4 & ks & F2 & ->). cbv beta. rewrite retouch_twice in *.
  split; [done|]. eexists ts, os, all, (noRepeat [] es), ks, kids, g2. split; [done|]. split; [done|]. split; [done|]. split; [done|].
  assert (Nc : forall x, x ∈ all -> x <> c) by (intros x Hx ->; by rewrite (gr_new _ _ _ _ _ G _ Hx) in Hc). split.
  - eapply (proj2 (depicts_kept E g2 _)); [exact D|]. intros x Hx. apply retouch_kept. auto.
  - destruct (forth g2 c (ob_set_children kids cb) B2 K (ob_set_linksl ks cb1) eq_refl eq_refl eq_refl) as [A1 A2].
    destruct (forth (retouch g2 c cb1) c cb1 B3 K3 (ob_set_linksl ks cb1) eq_refl eq_refl eq_refl) as [A3 A4]. rewrite retouch_twice in A3, A4.
    eexists _, es, _. split; [eassumption|]. split; [eapply Forall2_impl; [exact F1|]; intros; eapply port_alike; [exact A1|exact A2|done]|]. split; [done|]. split; [eassumption|].
    eapply Forall2_impl; [exact F2|]; intros; eapply link_alike; [exact A3|exact A4|done].
Qed.
Lemma retouch_grown g g2 p c cb0 cb1 os os' all x : grown g g2 p os all -> c ∈ all -> g_obj g2 !! c = Some cb0 -> x = cb1 -> os' = os -> grown g (retouch g2 c cb1) p os' all.
Proof.
  intros G Hc C0 -> ->. pose proof (gr_new _ _ _ _ _ G _ Hc) as N. split.
  - intros y Hy Hne. cbn. rewrite lookup_insert_ne; [by apply G|]. intros ->. rewrite N in Hy. by destruct Hy.
  - intros pb Hp. destruct (gr_p _ _ _ _ _ G _ Hp) as (k & K & P). exists k. split; [|done]. cbn. rewrite lookup_insert_ne; [done|]. intros ->. congruence.
  - intros y Hy. eapply kcont_trans; [by apply G|]. apply retouch_kcont.
  - apply G.
  - apply G.
  - apply G.
  - apply G.
Qed.
(** An object hung below [p], and then children hung below it. *)
Lemma grown_below g g1 g2 p c os all : grown g g1 p [c] [c] -> is_Some (g_obj g !! p) -> is_Some (g_obj g1 !! c) -> grown g1 g2 c os all -> grown g g2 p [c] (c :: all).
Proof.
  intros A Hp Hc B. pose proof (gr_new _ _ _ _ _ A c ltac:(by left)) as N. assert (Hne : p <> c) by (intros ->; rewrite N in Hp; by destruct Hp). split.
  - intros x Hx Hxp. rewrite (gr_obj _ _ _ _ _ B); [by apply A|by eapply grown_is|]. intros ->. rewrite N in Hx. by destruct Hx.
  - intros pb Hpb. destruct (gr_p _ _ _ _ _ A _ Hpb) as (k & K & P). exists k. split; [|done]. rewrite (gr_obj _ _ _ _ _ B); [done|by eexists|done].
  - intros x Hx. eapply kcont_trans; [by apply A|]. apply B. by eapply grown_is.
  - intros x [ -> |Hx]%elem_of_cons; [done|]. destruct (g_obj g !! x) eqn:E; [|done]. destruct (grown_is _ _ _ _ _ x A) as [b X]; [by eexists|]. rewrite (gr_new _ _ _ _ _ B _ Hx) in X. done.
  - rewrite (gr_objs _ _ _ _ _ B), (gr_objs _ _ _ _ _ A). rewrite (Permutation_app_comm all). cbn. f_equiv. apply Permutation_app_comm.
  - rewrite (gr_root _ _ _ _ _ B). apply A.
  - rewrite (gr_set _ _ _ _ _ B). apply A.
Qed.
Lemma context_ok E rec p v g : recursing E rec -> built g -> is_Some (g_obj g !! p) -> lwp (lcontext rec p v) (fun _ g' => parsed E p v g g') g.
Proof.
  intros Hrec B Hp. unfold lcontext. l1. l1. injection H as ->. l1. l1. apply lwp_if; intros Ht; [l1|]. apply negb_false_iff, String.eqb_eq in Ht. subst s. l1. l1.
  l1. apply lwp_lift. eapply wp_mono; [apply make_new; done|]. intros c g1 M1. cbv beta. l1. apply lwp_lift. eapply wp_mono; [by eapply hang_ok|].
  intros [] g2 (B2 & G2 & C2 & lam & evs & O2). cbv beta. eapply lwp_mono; [eapply body_ok; [exact Hrec|exact B2|exact O2|done|done]|].
  intros [] g4 (B4 & ts & os & all & ports & links & kids & g3 & Hts & G3 & Pk & Eg & D & X). split; [done|]. pose proof (grown_below _ _ _ _ _ _ _ G2 Hp ltac:(by eexists) G3) as G.
  destruct (gr_p _ _ _ _ _ G3 _ O2) as (k' & K' & _). exists c, (c :: all). split.
  - subst g4. eapply retouch_grown; [exact G|left|exact K'|done|done].
  - apply (d_context E g4 p c l s ts os all kids ports links lam evs); [split; eassumption| | |exact Hts|exact D| |exact X].
    + subst g4. cbn. apply lookup_insert.
    + subst g4. eapply contents_kept; [apply retouch_kcont|]. eapply contents_kept; [apply (gr_cont _ _ _ _ _ G3); by eexists|done].
    + rewrite Pk. cbn. by rewrite app_nil_r.
Qed.
Lemma switch_ok E rec p v g : recursing E rec -> built g -> is_Some (g_obj g !! p) -> lwp (lswitch rec p v) (fun _ g' => parsed E p v g g') g.
Proof.
  intros Hrec B Hp. unfold lswitch, lchildren. l1. l1. injection H as ->. l1. l1. apply lwp_if; intros Ht; [l1|]. apply negb_false_iff, String.eqb_eq in Ht. subst s. l1. l1.
  l1. apply lwp_lift. eapply wp_mono; [apply make_new; done|]. intros c g1 M1. cbv beta. l1. apply lwp_lift. eapply wp_mono; [by eapply hang_ok|].
  intros [] g2 (B2 & G2 & C2 & lam & evs & O2). cbv beta. l1. eapply lwp_mono; [apply (children_ok E rec c (item l 3) l 3); [done|done|done|by eexists]|].
  intros [] g3 (B3 & cts & os & all & Hts & G3 & D). cbv beta. destruct (gr_p _ _ _ _ _ G3 _ O2) as (kids & K & Pk).
  l1. l1. eapply lwp_mono; [eapply rules_ok; [exact B3|exact K|done]|]. intros [] g4 (B4 & rs & F & Eg). split; [done|]. pose proof (grown_below _ _ _ _ _ _ _ G2 Hp ltac:(by eexists) G3) as G.
  assert (Nc : forall x, x ∈ all -> x <> c) by (intros x Hx ->; by rewrite (gr_new _ _ _ _ _ G3 _ Hx) in O2).
  destruct (forth g3 c _ B3 K (ob_set_rules rs (ob_set_children kids (mkObj KSwitch s (Some p) [] lam evs [] [] [] [] []))) eq_refl eq_refl eq_refl) as [A1 A2]. rewrite <- Eg in A1, A2.
  exists c, (c :: all). split.
  - subst g4. eapply retouch_grown; [exact G|left|exact K|done|done].
  - eapply (d_switch E g4 p c l s cts os all kids _ rs lam evs); [split; eassumption| | |exact Hts| | |eassumption|].
    + subst g4. cbn. apply lookup_insert.
    + subst g4. eapply contents_kept; [apply retouch_kcont|]. eapply contents_kept; [apply (gr_cont _ _ _ _ _ G3); by eexists|done].
    + eapply (proj2 (depicts_kept E g3 _)); [exact D|]. intros x Hx. subst g4. apply retouch_kept. auto.
    + rewrite Pk. cbn. by rewrite app_nil_r.
    + eapply Forall2_impl; [exact F|]; intros. eapply rule_alike; [exact A1|exact A2|done].
Qed.
Lemma parse_ok E k : recursing E (lparse E k).
Proof.
  induction k as [|k IH]; intros what p v g B Hp; cbn [lparse]; [done|].
  destruct what; try by apply media_ok. all: [> by apply context_ok | by apply switch_ok].
Qed.

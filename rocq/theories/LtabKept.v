(** LtabKept.v -- what later construction steps leave alone. *)
From Verif Require Export LtabPure.
From Verif Require Import StrFacts BuildInv BuildOps BuildSpec BuildFacts Frame.
Open Scope string_scope.
Open Scope list_scope.

(** The properties and the events of [x] are the same. *)
Definition kcont (g g' : graph) (x : oid) : Prop :=
  g_props g' !!! x = g_props g !!! x /\ forall e ev, ev_obj ev = x -> g_evt g' !! e = Some ev <-> g_evt g !! e = Some ev.
Definition kept (g g' : graph) (x : oid) : Prop := g_obj g' !! x = g_obj g !! x /\ kcont g g' x.
Lemma kcont_refl g x : kcont g g x. Proof. by split. Qed.
Lemma kcont_trans g1 g2 g3 x : kcont g1 g2 x -> kcont g2 g3 x -> kcont g1 g3 x.
Proof. intros [A B] [C D]. split; [congruence|]. intros e ev H. rewrite D by done. auto. Qed.
Lemma kept_refl g x : kept g g x. Proof. by repeat split. Qed.
Lemma kept_trans g1 g2 g3 x : kept g1 g2 x -> kept g2 g3 x -> kept g1 g3 x.
Proof. intros [A B] [C D]. split; [congruence|]. by eapply kcont_trans. Qed.
(** As far as naming events goes, [x] is the same. *)
Definition alike (g g' : graph) (x : oid) : Prop :=
  kcont g g' x /\ exists ob ob', g_obj g !! x = Some ob /\ g_obj g' !! x = Some ob' /\ ob_id ob' = ob_id ob /\ ob_children ob' = ob_children ob /\ ob_events ob' = ob_events ob.
Lemma kept_alike g g' x : is_Some (g_obj g !! x) -> kept g g' x -> alike g g' x.
Proof. intros [ob H] [A B]. split; [done|]. exists ob, ob. repeat split; congruence. Qed.
Lemma holds_alike g g' o e t n : alike g g' o -> holds g' o e t n <-> holds g o e t n.
Proof.
  intros [[_ K] (ob & ob' & H1 & H2 & _ & _ & H5)]. unfold holds. split; intros (b & ev & A & B & C & D & F & G).
  - exists ob, ev. assert (b = ob') as -> by congruence. rewrite H5 in B. apply K in C; [|done]. done.
  - exists ob', ev. assert (b = ob) as -> by congruence. rewrite H5. split; [done|]. split; [done|]. split; [by apply K|done].
Qed.
Lemma child_alike g g' c i o : alike g g' c -> (forall cb x, g_obj g !! c = Some cb -> x ∈ ob_children cb -> alike g g' x) -> child g c i o -> child g' c i o /\ alike g g' o.
Proof.
  intros Hc Hk (cb & H1 & H2 & ob & H3 & H4). specialize (Hk _ _ H1 H2). split; [|done].
  destruct Hc as [_ (cb0 & cb' & C1 & C2 & C3 & C4 & _)]. assert (cb0 = cb) as -> by congruence. exists cb'. split; [done|]. rewrite C4. split; [done|].
  destruct Hk as [_ (ob0 & ob' & O1 & O2 & O3 & _)]. assert (ob0 = ob) as -> by congruence. exists ob'. split; [done|]. congruence.
Qed.
Section alikes.
Variables (g g' : graph) (c : oid).
Hypothesis Hc : alike g g' c.
Hypothesis Hk : forall cb x, g_obj g !! c = Some cb -> x ∈ ob_children cb -> alike g g' x.
Lemma named_alike s e : eventNamed g c s e -> eventNamed g' c s e.
Proof.
  intros (i & t & n & o & N & C & H). destruct (child_alike g g' c i o Hc Hk C) as [C' A]. exists i, t, n, o. split; [done|]. split; [done|].
  destruct e as [e|]; [by apply (holds_alike g g' o e t n A)|]. intros e He. apply (holds_alike g g' o e t n A) in He. by destruct (H e).
Qed.
Lemma condition_alike x a : conditionAs g c x a -> conditionAs g' c x a.
Proof.
  intros (l & w & t & e & p & H1 & H2 & H3 & (s & r & S1 & S2 & S3) & H5 & H6). exists l, w, t, e, p. split; [done|]. split; [done|]. split; [done|]. split; [|done].
  exists s, r. split; [done|]. split; [by apply named_alike|done].
Qed.
Lemma action_alike x a : actionAs g c x a -> actionAs g' c x a.
Proof.
  intros (l & w & t & e & v & d & y & H1 & H2 & H3 & (s & r & S1 & S2 & S3) & H5 & H6). exists l, w, t, e, v, d, y. split; [done|]. split; [done|]. split; [done|]. split; [|done].
  exists s, r. split; [done|]. split; [by apply named_alike|done].
Qed.
Lemma link_alike x k : linkAs g c x k -> linkAs g' c x k.
Proof.
  intros (l & cs & acts & H1 & H2 & H3 & F1 & F2). exists l, cs, acts. split; [done|]. split; [done|]. split; [done|]. split.
  - eapply Forall2_impl; [exact F1|]. intros. by apply condition_alike.
  - eapply Forall2_impl; [exact F2|]. intros. by apply action_alike.
Qed.
Lemma port_alike x e : portAs g c x e -> portAs g' c x e.
Proof. intros (s & H1 & H2). exists s. split; [done|]. by apply named_alike. Qed.
Lemma rule_alike x r : ruleAs g c x r -> ruleAs g' c x r.
Proof.
  intros (l & i & v & H1 & H2 & H3 & H4). exists l, i, v. split; [done|]. split; [done|]. split; [|done]. by apply (child_alike g g' c i (fst r) Hc Hk).
Qed.
Lemma context_alike l ports links : contextAs g c l ports links -> contextAs g' c l ports links.
Proof.
  intros (pts & es & lts & H1 & H2 & H3 & H4 & H5). exists pts, es, lts. split; [done|]. split; [eapply Forall2_impl; [exact H2|]; intros; by apply port_alike|].
  split; [done|]. split; [done|]. eapply Forall2_impl; [exact H5|]. intros. by apply link_alike.
Qed.
End alikes.
Lemma contents_kept g g' o ps areas : kcont g g' o -> contents g o ps areas -> contents g' o ps areas.
Proof.
  intros [K1 K2] [A B]. split; [intros n v; rewrite K1; apply A|]. intros d. rewrite <- B. split; intros (e & H1 & H2); exists e; (split; [by apply K2|done]).
Qed.
Scheme depicts_mind := Minimality for depicts Sort Prop with depictsAll_mind := Minimality for depictsAll Sort Prop.
Combined Scheme depicts_mutind from depicts_mind, depictsAll_mind.
Lemma depicts_in E g : (forall p o v all, depicts E g p o v all -> o ∈ all /\ is_Some (g_obj g !! o)) /\ (forall p os ts all, depictsAll E g p os ts all -> forall o, o ∈ os -> o ∈ all /\ is_Some (g_obj g !! o)).
Proof.
  apply depicts_mutind; intros.
  - split; [left|by eexists].
  - split; [left|by eexists].
  - split; [left|by eexists].
  - match goal with H : _ ∈ [] |- _ => by apply elem_of_nil in H end.
  - match goal with H : _ ∈ _ :: _ |- _ => apply elem_of_cons in H as [ -> |H] end; [split; [apply elem_of_app; left; tauto|tauto]|].
    match goal with H : forall o, o ∈ os -> _ |- _ => destruct (H _ ltac:(eassumption)) as [X Y] end. split; [apply elem_of_app; by right|done].
Qed.
Lemma depicts_known E g : (forall p o v all, depicts E g p o v all -> forall x, x ∈ all -> is_Some (g_obj g !! x)) /\ (forall p os ts all, depictsAll E g p os ts all -> forall x, x ∈ all -> is_Some (g_obj g !! x)).
Proof.
  apply depicts_mutind.
  - intros p o l i pts ps ats areas lam evs T O P1 P2 A1 A2 C x Hx. apply elem_of_list_singleton in Hx as ->. by eexists.
  - intros p o l i ts os all children ports links lam evs T O C Es D IH Pe X x Hx. apply elem_of_cons in Hx as [ -> |Hx]; [by eexists|by apply IH].
  - intros p o l i ts os all children rts rules lam evs T O C Es D IH Pe Rt X x Hx. apply elem_of_cons in Hx as [ -> |Hx]; [by eexists|by apply IH].
  - intros p x Hx. by apply elem_of_nil in Hx.
  - intros p o k v a os ts all D IH D' IH' x Hx. apply elem_of_app in Hx as [Hx|Hx]; auto.
Qed.
Lemma depicts_kept E g g' : (forall p o v all, depicts E g p o v all -> (forall x, x ∈ all -> kept g g' x) -> depicts E g' p o v all) /\
  (forall p os ts all, depictsAll E g p os ts all -> (forall x, x ∈ all -> kept g g' x) -> depictsAll E g' p os ts all).
Proof.
  apply depicts_mutind.
  - intros p o l i pts ps ats areas lam evs T O P1 P2 A1 A2 C K. assert (Ko : kept g g' o) by (apply K; left). destruct Ko as [K1 K2].
    eapply d_media; eauto; [by rewrite K1|by eapply contents_kept].
  - intros p o l i ts os all children ports links lam evs T O C Es D IH Pe X K. assert (Ko : kept g g' o) by (apply K; left).
    eapply d_context; eauto; [rewrite (proj1 Ko); exact O|eapply contents_kept; [apply Ko|done]|apply IH; intros; apply K; by right|].
    eapply context_alike; [..|exact X]; [apply kept_alike; [by eexists|done]|]. intros cb x Hcb Hx. rewrite O in Hcb. injection Hcb as <-. cbn in Hx. rewrite Pe in Hx.
    destruct (proj2 (depicts_in E g) _ _ _ _ D _ Hx) as [Y Z]. apply kept_alike; [done|]. apply K. by right.
  - intros p o l i ts os all children rts rules lam evs T O C Es D IH Pe Rt X K. assert (Ko : kept g g' o) by (apply K; left).
    eapply d_switch; eauto; [rewrite (proj1 Ko); exact O|eapply contents_kept; [apply Ko|done]|apply IH; intros; apply K; by right|].
    eapply Forall2_impl; [exact X|]. intros y r Hr.
    eapply rule_alike; [..|exact Hr]; [apply kept_alike; [by eexists|done]|]. intros cb x Hcb Hx. rewrite O in Hcb. injection Hcb as <-. cbn in Hx. rewrite Pe in Hx.
    destruct (proj2 (depicts_in E g) _ _ _ _ D _ Hx) as [Y Z]. apply kept_alike; [done|]. apply K. by right.
  - intros p K. constructor.
  - intros p o k v a os ts all D IH D' IH' K. constructor; [apply IH; intros; apply K, elem_of_app; by left|apply IH'; intros; apply K, elem_of_app; by right].
Qed.

(** [grown g g' p os all]: [os] were added to the children of [p], with what is below them
    [all]; nothing else changed. *)
Record grown (g g' : graph) (p : oid) (os all : list oid) : Prop := mkGr {
  gr_obj : forall x, is_Some (g_obj g !! x) -> x <> p -> g_obj g' !! x = g_obj g !! x;
  gr_p : forall pb, g_obj g !! p = Some pb -> exists kids, g_obj g' !! p = Some (ob_set_children kids pb) /\ kids ≡ₚ os ++ ob_children pb;
  gr_cont : forall x, is_Some (g_obj g !! x) -> kcont g g' x;
  gr_new : forall x, x ∈ all -> g_obj g !! x = None;
  gr_objs : g_objs g' ≡ₚ all ++ g_objs g;
  gr_root : g_root g' = g_root g;
  gr_set : g_settings g' = g_settings g }.
Lemma ob_set_same ob : ob_set_children (ob_children ob) ob = ob. Proof. by destruct ob. Qed.
Lemma ob_set_twice x y ob : ob_set_children x (ob_set_children y ob) = ob_set_children x ob. Proof. done. Qed.
Lemma grown_refl g p : grown g g p [] [].
Proof.
  split; try done.
  - intros pb H. exists (ob_children pb). by rewrite ob_set_same.
  - intros x H. by apply elem_of_nil in H.
Qed.
Lemma grown_is g g' p os all x : grown g g' p os all -> is_Some (g_obj g !! x) -> is_Some (g_obj g' !! x).
Proof.
  intros G [ob H]. destruct (decide (x = p)) as [->|Hne]; [destruct (gr_p _ _ _ _ _ G _ H) as (k & K & _); by eexists|].
  rewrite (gr_obj _ _ _ _ _ G) by (try done; by eexists). by eexists.
Qed.
Lemma grown_trans g1 g2 g3 p os1 all1 os2 all2 : grown g1 g2 p os1 all1 -> grown g2 g3 p os2 all2 -> grown g1 g3 p (os1 ++ os2) (all1 ++ all2).
Proof.
  intros A B. split.
  - intros x Hx Hne. rewrite (gr_obj _ _ _ _ _ B), (gr_obj _ _ _ _ _ A); try done. by eapply grown_is.
  - intros pb H. destruct (gr_p _ _ _ _ _ A _ H) as (k1 & K1 & P1). destruct (gr_p _ _ _ _ _ B _ K1) as (k2 & K2 & P2). exists k2. rewrite ob_set_twice in K2. split; [done|].
    rewrite P2. cbn. rewrite P1. rewrite app_assoc. f_equiv. apply Permutation_app_comm.
  - intros x Hx. eapply kcont_trans; [by eapply gr_cont|]. eapply gr_cont; [done|]. by eapply grown_is.
  - intros x [Hx|Hx]%elem_of_app; [by eapply gr_new|]. destruct (g_obj g1 !! x) eqn:E; [|done]. destruct (grown_is _ _ _ _ _ x A) as [ob O]; [by eexists|]. rewrite (gr_new _ _ _ _ _ B _ Hx) in O. done.
  - rewrite (gr_objs _ _ _ _ _ B), (gr_objs _ _ _ _ _ A). rewrite app_assoc. f_equiv. apply Permutation_app_comm.
  - rewrite (gr_root _ _ _ _ _ B). apply A.
  - rewrite (gr_set _ _ _ _ _ B). apply A.
Qed.
Lemma grown_kept g g' p os all x : grown g g' p os all -> is_Some (g_obj g !! x) -> x <> p -> kept g g' x.
Proof. intros G H Hne. split; [by eapply gr_obj|by eapply gr_cont]. Qed.

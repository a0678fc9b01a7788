(** LtabBody.v -- ParserLua: ports, links and rules; contexts, switches and the root. *)
From Verif Require Export LtabTree.
From Verif Require Import StrFacts BuildInv BuildOps BuildSpec BuildFacts Frame.
Open Scope string_scope.
Open Scope list_scope.

(** ** Changing the ports, the links or the rules of one composition. *)
Definition retouch (g : graph) (c : oid) (cb : obj) : graph := g_set_obj (<[c := cb]> (g_obj g)) g.
Lemma retouch_id g c cb : g_obj g !! c = Some cb -> retouch g c cb = g.
Proof. intros H. unfold retouch, g_set_obj. rewrite insert_id by done. by destruct g. Qed.
Lemma retouch_twice g c a b : retouch (retouch g c a) c b = retouch g c b.
Proof. unfold retouch, g_set_obj. cbn. by rewrite insert_insert. Qed.
Lemma retouch_kcont g c cb x : kcont g (retouch g c cb) x. Proof. by split. Qed.
Lemma retouch_kept g c cb x : x <> c -> kept g (retouch g c cb) x.
Proof. intros H. split; [cbn; by rewrite lookup_insert_ne by done|apply retouch_kcont]. Qed.
Lemma retouch_alike g c cb cb' x : g_obj g !! c = Some cb -> ob_id cb' = ob_id cb -> ob_children cb' = ob_children cb -> ob_events cb' = ob_events cb ->
  is_Some (g_obj g !! x) -> alike g (retouch g c cb') x.
Proof.
  intros H A B C [xb X]. split; [apply retouch_kcont|]. destruct (decide (x = c)) as [->|Hne].
  - exists cb, cb'. split; [done|]. split; [cbn; apply lookup_insert|done].
  - exists xb, xb. split; [done|]. split; [cbn; by rewrite lookup_insert_ne by done|done].
Qed.
Lemma alike_sym g g' x : alike g g' x -> alike g' g x.
Proof.
  intros [[K1 K2] (ob & ob' & A & B & C & D & F)]. split; [split; [done|]; intros e ev H; by rewrite K2|]. by exists ob', ob.
Qed.
Lemma children_known g c cb x : built g -> g_obj g !! c = Some cb -> x ∈ ob_children cb -> is_Some (g_obj g !! x).
Proof. intros B H X. destruct (built_inv _ B) as [I _]. destruct (oi_children _ _ _ (gi_o _ I _ _ H) _ X) as (b & ? & _). by eexists. Qed.

Lemma noRepeat_in l : forall seen e, e ∈ seen \/ e ∈ noRepeat seen l <-> e ∈ seen \/ e ∈ l.
Proof.
  induction l as [|x l IH]; intros seen e; cbn [noRepeat]; [done|]. rewrite elem_of_cons. destruct (decide (x ∈ seen)) as [H|H].
  - rewrite IH. split; [tauto|]. intros [?|[->|?]]; auto.
  - rewrite elem_of_cons. specialize (IH (x :: seen) e). rewrite elem_of_cons in IH. tauto.
Qed.
Lemma noRepeat_snoc l : forall seen e, noRepeat seen (l ++ [e]) = if decide (e ∈ seen \/ e ∈ l) then noRepeat seen l else noRepeat seen l ++ [e].
Proof.
  induction l as [|x l IH]; intros seen e; cbn [app noRepeat].
  - destruct (decide (e ∈ seen)) as [H|H]; [by rewrite decide_True by (by left)|]. rewrite decide_False; [done|]. intros [?|?%elem_of_nil]; done.
  - destruct (decide (x ∈ seen)) as [H|H]; rewrite IH.
    + destruct (decide (e ∈ seen \/ e ∈ l)) as [D|D]; [rewrite decide_True by (rewrite elem_of_cons; tauto); done|]. rewrite decide_False; [done|]. rewrite elem_of_cons. intros [?|[->|?]]; tauto.
    + destruct (decide (e ∈ x :: seen \/ e ∈ l)) as [D|D]; rewrite elem_of_cons in D; [rewrite decide_True by (rewrite elem_of_cons; tauto); done|]. rewrite decide_False by (rewrite elem_of_cons; tauto). done.
Qed.

Section phases.
Variables (g1 : graph) (c : oid) (cb : obj).
Hypothesis B1 : built g1.
Hypothesis Hc : g_obj g1 !! c = Some cb.
(** What is named after the changes is what was named before. *)
Lemma back cb' : ob_id cb' = ob_id cb -> ob_children cb' = ob_children cb -> ob_events cb' = ob_events cb ->
  alike (retouch g1 c cb') g1 c /\ forall b x, g_obj (retouch g1 c cb') !! c = Some b -> x ∈ ob_children b -> alike (retouch g1 c cb') g1 x.
Proof.
  intros X Y Z. split; [apply alike_sym; eapply retouch_alike; eauto|]. intros b x. cbn. rewrite lookup_insert. intros [= <-] H. rewrite Y in H. apply alike_sym. eapply retouch_alike; eauto. by eapply children_known.
Qed.
Lemma forth cb' : ob_id cb' = ob_id cb -> ob_children cb' = ob_children cb -> ob_events cb' = ob_events cb ->
  alike g1 (retouch g1 c cb') c /\ forall b x, g_obj g1 !! c = Some b -> x ∈ ob_children b -> alike g1 (retouch g1 c cb') x.
Proof.
  intros X Y Z. split; [eapply retouch_alike; eauto|]. intros b x H Hx. assert (b = cb) as -> by congruence. apply (retouch_alike g1 c cb cb' x Hc); try done. by eapply children_known.
Qed.
Lemma ports_ok pts : ob_ports cb = [] -> lwp (leach (fun x => lport c (snd x)) pts) (fun _ g' => built g' /\ exists es, Forall2 (portAs g1 c) pts es /\ g' = retouch g1 c (ob_set_ports (noRepeat [] es) cb)) g1.
Proof.
  intros P. eapply lwp_mono; [apply (lwp_leach (fun x => lport c (snd x)) (fun es g' => built g' /\ g' = retouch g1 c (ob_set_ports (noRepeat [] es) cb)) (portAs g1 c) pts) with (bs := [])|].
  - intros x es g _ [B ->]. destruct (back (ob_set_ports (noRepeat [] es) cb) eq_refl eq_refl eq_refl) as [A1 A2]. apply (lwp_mono _ (fun _ g' => built g' /\ exists e, portAs g1 c x e /\ g' = retouch g1 c (ob_set_ports (noRepeat [] (es ++ [e])) cb))).
    2:{ intros [] g' (B' & e & H1 & H2). exists e. done. }
    apply lwp_built; [apply kb_port|done|]. unfold lport. l1. l1. cbn in H. l1. apply lwp_lift. eapply wp_mono; [apply named_ok; [done|by eapply text_free]|]. intros [e|] g2 [-> Hn]; cbv beta; [|l1].
    apply lwp_lift. unfold addPort. apply wp_oupd. intros ob Ho. cbn in Ho. rewrite lookup_insert in Ho. injection Ho as <-. exists e. split.
    { exists s. split; [done|]. eapply named_alike; [exact A1|exact A2|done]. }
    match goal with |- g_set_obj (<[c := ?z]> _) ?w = _ => change (retouch (retouch g1 c (ob_set_ports (noRepeat [] es) cb)) c z = retouch g1 c (ob_set_ports (noRepeat [] (es ++ [e])) cb)) end.
    rewrite retouch_twice. f_equal. cbn [ob_ports ob_set_ports]. rewrite noRepeat_snoc. pose proof (noRepeat_in es [] e) as N.
    destruct (decide (e ∈ [] \/ e ∈ es)) as [D|D].
    + rewrite bool_decide_true; [done|]. apply N in D as [D|D]; [by apply elem_of_nil in D|done].
    + rewrite bool_decide_false; [done|]. intros X. apply D, N. by right.
  - cbn [noRepeat]. split; [done|]. rewrite retouch_id; [done|]. rewrite Hc. f_equal. destruct cb; cbn in *. by subst.
  - intros [] g' (es & F & B & ->). split; [done|]. by exists es.
Qed.
Lemma links_ok lts : ob_links cb = [] -> lwp (leach (fun x => llink c (snd x)) lts) (fun _ g' => built g' /\ exists ks, Forall2 (linkAs g1 c) lts ks /\ g' = retouch g1 c (ob_set_linksl ks cb)) g1.
Proof.
  intros P. eapply lwp_mono; [apply (lwp_leach (fun x => llink c (snd x)) (fun ks g' => built g' /\ g' = retouch g1 c (ob_set_linksl ks cb)) (linkAs g1 c) lts) with (bs := [])|].
  - intros x ks g _ [B ->]. destruct (back (ob_set_linksl ks cb) eq_refl eq_refl eq_refl) as [A1 A2]. apply (lwp_mono _ (fun _ g' => built g' /\ exists k, linkAs g1 c x k /\ g' = retouch g1 c (ob_set_linksl (ks ++ [k]) cb))).
    2:{ intros [] g' (B' & e & H1 & H2). exists e. done. }
    apply lwp_built; [apply kb_link|done|]. unfold llink. l1. l1. injection H as H. l1. l1. l1. eapply lwp_mono; [apply lwp_lmap; intros y; by apply condition_ok|]. intros conds g2 [-> F1]. cbv beta.
    l1. l1. l1. eapply lwp_mono; [apply lwp_lmap; intros y; by apply action_ok|]. intros acts g2 [-> F2]. cbv beta. apply lwp_lift. unfold addLink. w1. w1. w1. w1. apply wp_oupd. intros ob Ho. cbn in Ho. rewrite lookup_insert in Ho. injection Ho as <-.
    exists (conds, acts). split.
    { eexists _, _, _. split; [eassumption|]. split; [eassumption|]. split; [eassumption|]. split.
      - eapply Forall2_impl; [exact F1|]. intros. by eapply condition_alike.
      - eapply Forall2_impl; [exact F2|]. intros. by eapply action_alike. }
    match goal with |- g_set_obj (<[c := ?z]> _) ?w = _ => change (retouch (retouch g1 c (ob_set_linksl ks cb)) c z = retouch g1 c (ob_set_linksl (ks ++ [(conds, acts)]) cb)) end. by rewrite retouch_twice.
  - split; [done|]. rewrite retouch_id; [done|]. rewrite Hc. f_equal. destruct cb; cbn in *. by subst.
  - intros [] g' (es & F & B & ->). split; [done|]. by exists es.
Qed.
Lemma rules_ok rts : ob_rules cb = [] -> lwp (leach (lrule c) rts) (fun _ g' => built g' /\ exists rs, Forall2 (ruleAs g1 c) rts rs /\ g' = retouch g1 c (ob_set_rules rs cb)) g1.
Proof.
  intros P. eapply lwp_mono; [apply (lwp_leach (lrule c) (fun ks g' => built g' /\ g' = retouch g1 c (ob_set_rules ks cb)) (ruleAs g1 c) rts) with (bs := [])|].
  - intros x ks g _ [B ->]. destruct (back (ob_set_rules ks cb) eq_refl eq_refl eq_refl) as [A1 A2]. apply (lwp_mono _ (fun _ g' => built g' /\ exists k, ruleAs g1 c x k /\ g' = retouch g1 c (ob_set_rules (ks ++ [k]) cb))).
    2:{ intros [] g' (B' & e & H1 & H2). exists e. done. }
    apply lwp_built; [apply kb_rule|done|]. unfold lrule. l1. l1. l1. l1. l1. apply lwp_lift. eapply wp_mono; [apply childById|]. intros r g2 [-> Hr]. cbv beta. l1. eapply lwp_mono; [apply pred_ok|].
    intros q g2 (-> & v & Hv & Hq). cbv beta. destruct r as [o|]; [|l1]. apply lwp_lift. unfold addRule. apply wp_oupd. intros ob Ho. cbn in Ho. rewrite lookup_insert in Ho. injection Ho as <-.
    exists (o, q). split.
    { eexists _, _, _. split; [eassumption|]. split; [eassumption|]. split; [by apply (child_alike _ _ _ _ _ A1 A2)|]. done. }
    match goal with |- g_set_obj (<[c := ?z]> _) ?w = _ => change (retouch (retouch g1 c (ob_set_rules ks cb)) c z = retouch g1 c (ob_set_rules (ks ++ [(o, q)]) cb)) end. by rewrite retouch_twice.
  - split; [done|]. rewrite retouch_id; [done|]. rewrite Hc. f_equal. destruct cb; cbn in *. by subst.
  - intros [] g' (es & F & B & ->). split; [done|]. by exists es.
Qed.
End phases.

(** PortTree.v -- C49, C50: the ports, switchPorts and rules of every element of a document. *)
From Verif Require Import BuildInv BuildOps BuildSpec BuildFacts Frame ParserFrame ParserEnd LtabBody.
From Verif Require Export PortPop.
Open Scope string_scope.
Open Scope list_scope.

(** ** Objects have the ports [L] and the switchPorts [L2]. *)
Definition mine {A} (o : oid) (L : list (oid * A)) : list A := map snd (List.filter (fun q => bool_decide (fst q = o)) L).
Lemma mine_app {A} o (L L' : list (oid * A)) : mine o (L ++ L') = mine o L ++ mine o L'.
Proof. unfold mine. by rewrite List.filter_app, map_app. Qed.
Lemma mine_pair {A} o c (l : list A) : mine o (map (pair c) l) = onC o c l.
Proof.
  unfold mine, onC. induction l as [|a l IH]; cbn [map List.filter]; [by destruct (decide _)|]. cbn [fst]. destruct (decide (o = c)) as [->|H]; [rewrite bool_decide_true by done; cbn [map]; by rewrite IH|rewrite bool_decide_false by congruence; exact IH].
Qed.
Lemma mine_none {A} o (L : list (oid * A)) : (forall q, q ∈ L -> fst q <> o) -> mine o L = [].
Proof.
  unfold mine. induction L as [|q L IH]; intros H; [done|]. cbn [List.filter]. rewrite bool_decide_false by (apply H; left). apply IH. intros q' Hq. apply H. by right.
Qed.
Record HG (L : list (oid * eid)) (L2 : list (oid * (string * list eid))) (g : graph) : Prop := mkHG {
  hg_low : forall q, q ∈ L -> (fst q < g_next g)%positive;
  hg_low2 : forall q, q ∈ L2 -> (fst q < g_next g)%positive;
  hg_obj : forall o ob, g_obj g !! o = Some ob -> ob_ports ob = noRepeat [] (mine o L) /\ ob_swports ob = assigns (mine o L2) /\ ob_rules ob = [] }.
Lemma HG_h0 L L2 g g' : HG L L2 g -> h0 g g' -> HG L L2 g'.
Proof.
  intros [A1 A2 A3] [H0 H]. split; [intros q Hq; eapply Pos.lt_le_trans; [by apply A1|done]|intros q Hq; eapply Pos.lt_le_trans; [by apply A2|done]|]. intros o ob' Ho. destruct (H _ _ Ho) as [[Hn E]|(ob & H1 & E)]; unfold hang in E; injection E as E1 E2 E3; rewrite E1, E2, E3.
  - assert (N1 : mine o L = []) by (apply mine_none; intros q Hq Hz; apply (Pos.lt_irrefl o); eapply Pos.lt_le_trans; [|exact Hn]; rewrite <- Hz; exact (A1 q Hq)). assert (N2 : mine o L2 = []) by (apply mine_none; intros q Hq Hz; apply (Pos.lt_irrefl o); eapply Pos.lt_le_trans; [|exact Hn]; rewrite <- Hz; exact (A2 q Hq)).
    by rewrite N1, N2.
  - by apply A3.
Qed.
Lemma HG_gh L L2 c es sw g g' : HG L L2 g -> (c < g_next g)%positive -> gh c es sw g g' -> HG (L ++ map (pair c) es) (L2 ++ map (pair c) sw) g'.
Proof.
  intros [A1 A2 A3] Hc [H0 H]. split.
  - intros q Hq. apply elem_of_app in Hq as [Hq|Hq]; [eapply Pos.lt_le_trans; [by apply A1|done]|]. apply elem_of_list_In, in_map_iff in Hq as (e & <- & _). cbn. lia.
  - intros q Hq. apply elem_of_app in Hq as [Hq|Hq]; [eapply Pos.lt_le_trans; [by apply A2|done]|]. apply elem_of_list_In, in_map_iff in Hq as (e & <- & _). cbn. lia.
  - intros o ob' Ho. destruct (H _ _ Ho) as (ob & H1 & R & P & S). destruct (A3 _ _ H1) as (B1 & B2 & B3). rewrite !mine_app, !mine_pair. split; [by apply P|]. split; [by apply S|]. congruence.
Qed.

(** ** Equations and grammar. *)
Definition switchesOf (x : xml) : list xml := List.filter (tagIs "switch") (elementsOf x).
Lemma portsOf_eq x : portsOf x = flat_map portsOf (x_kids x) ++ map (pair x) (List.filter (tagIs "port") (x_kids x)). Proof. by destruct x. Qed.
Lemma switchPortsOf_eq x : switchPortsOf x = flat_map switchPortsOf (x_kids x) ++ map (pair x) (List.filter (tagIs "switchPort") (x_kids x)). Proof. by destruct x. Qed.
Lemma switchesOf_eq x : switchesOf x = (if tagIs "switch" x then [x] else []) ++ flat_map switchesOf (x_kids x).
Proof. unfold switchesOf at 1. rewrite elements_eq. cbn [List.filter]. rewrite filter_flat. by destruct (tagIs "switch" x). Qed.
Lemma filter_none {A} (f : A -> bool) l : (forall x, x ∈ l -> f x = false) -> List.filter f l = [].
Proof. induction l as [|x l IH]; intros H; [done|]. cbn [List.filter]. rewrite H by left. apply IH. intros y Hy. apply H. by right. Qed.
Lemma flat_none {A B} (f : A -> list B) l : (forall x, x ∈ l -> f x = []) -> flat_map f l = [].
Proof. induction l as [|x l IH]; intros H; [done|]. cbn [flat_map]. rewrite H by left. apply IH. intros y Hy. apply H. by right. Qed.
Lemma head_none x : (forall y, y ∈ elementsOf x -> mem (x_tag y) headTags = true) -> portsOf x = [] /\ switchPortsOf x = [] /\ switchesOf x = [].
Proof.
  induction x as [t a l IH] using xml_kids. intros H. set (x := XElt t a l) in *. assert (HK : forall y, y ∈ x_kids x -> forall z, z ∈ elementsOf y -> mem (x_tag z) headTags = true).
  { intros y Hy z Hz. apply H. rewrite elements_eq. right. apply elem_of_list_In, in_flat_map. exists y. split; by apply elem_of_list_In. }
  assert (HT : forall y t', y ∈ x_kids x -> mem t' headTags = false -> tagIs t' y = false).
  { intros y t' Hy Ht. unfold tagIs. destruct (String.eqb_spec (x_tag y) t') as [E|_]; [|done]. specialize (HK y Hy y ltac:(rewrite elements_eq; left)). congruence. }
  rewrite portsOf_eq, switchPortsOf_eq, switchesOf_eq, !flat_none; [|intros y Hy; apply (IH y Hy); by apply HK..]. rewrite !filter_none; [|intros y Hy; by apply HT..]. split; [done|]. split; [done|].
  unfold tagIs. destruct (String.eqb_spec (x_tag x) "switch") as [E|_]; [|done]. specialize (H x ltac:(rewrite elements_eq; left)). rewrite E in H. discriminate H.
Qed.
Definition homeOk (x : string * syn) : bool := (negb (String.eqb (fst x) "port") || forallb (fun t => String.eqb t "body" || String.eqb t "context") (sy_parents (snd x))) && (negb (String.eqb (fst x) "switchPort") || forallb (fun t => String.eqb t "switch") (sy_parents (snd x))).
Lemma homeOk_all : forallb homeOk syntax = true. Proof. vm_compute. reflexivity. Qed.
Lemma port_home t : possibleChild t "port" = true -> t = "body" \/ t = "context".
Proof.
  intros H. unfold possibleChild, synOf in H. destruct (look "port" syntax) as [sy|] eqn:Es; [|done]. apply look_some in Es. pose proof (forall_elem _ _ _ homeOk_all Es) as F. unfold homeOk in F. cbn [fst snd] in F. apply andb_true_iff in F as [F _]. cbn [String.eqb Ascii.eqb Bool.eqb andb negb orb] in F. apply mem_spec in H. pose proof (forall_elem _ _ _ F H) as F'. cbv beta in F'.
  apply orb_true_iff in F' as [F'|F']; apply String.eqb_eq in F'; auto.
Qed.
Lemma swport_home t : possibleChild t "switchPort" = true -> t = "switch".
Proof.
  intros H. unfold possibleChild, synOf in H. destruct (look "switchPort" syntax) as [sy|] eqn:Es; [|done]. apply look_some in Es. pose proof (forall_elem _ _ _ homeOk_all Es) as F. unfold homeOk in F. cbn [fst snd] in F. apply andb_true_iff in F as [_ F]. cbn [String.eqb Ascii.eqb Bool.eqb andb negb orb] in F. apply mem_spec in H. pose proof (forall_elem _ _ _ F H) as F'. cbv beta in F'.
  by apply String.eqb_eq in F'.
Qed.
Lemma elements_in doc x y : x ∈ elementsOf doc -> y ∈ elementsOf x -> y ∈ elementsOf doc.
Proof.
  revert x y. induction doc as [t a l IH] using xml_kids. intros x y Hx Hy. rewrite elements_eq in Hx. apply elem_of_cons in Hx as [->|Hx]; [done|]. apply elem_of_list_In, in_flat_map in Hx as (z & Hz & Hx). apply elem_of_list_In in Hz, Hx. rewrite elements_eq. right. apply elem_of_list_In, in_flat_map. exists z. split; [by apply elem_of_list_In|]. apply elem_of_list_In. by eapply IH.
Qed.
Lemma kid_in doc x y : x ∈ elementsOf doc -> y ∈ x_kids x -> y ∈ elementsOf doc.
Proof. intros Hx Hy. eapply elements_in; [exact Hx|]. rewrite elements_eq. right. apply elem_of_list_In, in_flat_map. exists y. split; [by apply elem_of_list_In|]. apply elem_of_list_In. rewrite elements_eq. left. Qed.
(** ** Switches. *)
Definition switchN (lo : nid) (s : pst) (y : xml) (n : nid) : Prop := nodeAs s y n /\ (lo <= n)%positive /\ exists e l c, p_cache s !! n = Some e /\ el_rules e = Some l /\ Forall2 (ruleTo (p_graph s) s c y) (List.filter isRuleTag (x_kids y)) l /\ objectOf (p_graph s) y c.
Lemma ruleTo_step X s s' c sw y r : cinv s -> lf X s s' -> tm (p_graph s) (p_graph s') -> ruleTo (p_graph s) s c sw y r -> ruleTo (p_graph s') s' c sw y r.
Proof. intros C L T [H (o & i & H1 & H2 & H3 & H4)]. split; [by eapply nodeAs_lf|]. exists o, i. split; [done|]. split; [done|]. split; [by eapply componentOf_tm|by eapply ownTarget_tm]. Qed.
Lemma switchN_step X Y lo lo' s s' y n : cinv s -> lf X s s' -> af Y s s' -> (forall m, Y m -> (m < lo)%positive) -> tm (p_graph s) (p_graph s') -> (lo' <= lo)%positive -> switchN lo s y n -> switchN lo' s' y n.
Proof.
  intros C L A HY T Hl (HN & Hlo & e & l & c & He & Hr & HF & Ho). split; [by eapply nodeAs_lf|]. split; [lia|]. destruct (af_get _ _ _ _ _ A He) as (e' & He' & Ea); [apply (C _ _ He)|intros H; specialize (HY _ H); lia|]. unfold att in Ea. injection Ea as E1 E2 E3 E4.
  exists e', l, c. split; [done|]. split; [congruence|]. split; [|by eapply objectOf_tm]. eapply Forall2_impl; [exact HF|]. intros. by eapply ruleTo_step.
Qed.
Lemma switchN_lo lo lo' s y n : (lo' <= lo)%positive -> switchN lo s y n -> switchN lo' s y n.
Proof. intros H (A & B & D). split; [done|]. split; [lia|done]. Qed.
Lemma compiledPort_tm g g' doc p q : tm g g' -> compiledPort g doc p q -> compiledPort g' doc p q.
Proof. intros T [A B]. split; [by eapply objectOf_tm|by eapply leadsTo_tm]. Qed.
Lemma compiledSwitchPort_tm g g' doc p q : tm g g' -> compiledSwitchPort g doc p q -> compiledSwitchPort g' doc p q.
Proof. intros T (A & B & D). split; [by eapply objectOf_tm|]. split; [done|]. eapply Forall2_impl; [exact D|]. intros. by eapply leadsTo_tm. Qed.
(** What an element begins with. *)
Lemma push_empty E imp p e s : pw (push E imp p e) (fun e' _ => (p = PuContext -> el_ports e' = Some []) /\ (p = PuSwitch -> el_swports e' = Some [] /\ el_rules e' = Some [])) s.
Proof.
  assert (T : forall {A} (m : P A) (Q : A -> pst -> Prop) s0, (forall a s', Q a s') -> pw m Q s0) by (intros A m Q s0 H; unfold pw; destruct (m s0); auto).
  destruct p; try (apply T; intros; split; intros; discriminate).
  - cbn [push]. unfold pushContext. apply pw_bind, T. intros. apply pw_bind, T. intros. p1. done.
  - cbn [push]. unfold pushSwitch. apply pw_bind, T. intros. apply pw_bind, T. intros. apply pw_bind, T. intros. apply pw_bind, T. intros. apply pw_bind, T. intros. p1. done.
Qed.

Definition portsIn (doc : xml) (s : pst) : Prop := forall m, m ∈ nodesOf "port" s -> exists p x', portAt s p x' m /\ x' ∈ elementsOf doc /\ p ∈ x_kids x'.
Lemma portsIn_step X doc s s' : cinv s -> lf X s s' -> ordOk s -> p_order s' = p_order s -> portsIn doc s -> portsIn doc s'.
Proof.
  intros C L O Eo H m Hm. rewrite (nodes_new _ "port" s s' [] L O) in Hm by (rewrite app_nil_r; exact Eo). cbn in Hm. rewrite app_nil_r in Hm. destruct (H m Hm) as (p & x' & H1 & H2). exists p, x'. split; [by eapply portAt_lf|done].
Qed.
Definition PK (doc x : xml) (s s' : pst) : Prop := forall L0 L20, HG L0 L20 (p_graph s) -> exists L L2 l, HG (L0 ++ L) (L20 ++ L2) (p_graph s') /\
  Forall2 (compiledPort (p_graph s') doc) (portsOf x) L /\ Forall2 (compiledSwitchPort (p_graph s') doc) (switchPortsOf x) L2 /\
  nodesOf "switch" s' = nodesOf "switch" s ++ l /\ Forall2 (switchN (p_next s) s') (switchesOf x) l.
Definition compTag (x : xml) : bool := tagIs "body" x || tagIs "context" x || tagIs "switch" x.
Lemma compTag_cases x : compTag x = true -> (x_tag x = "body" \/ x_tag x = "context") \/ x_tag x = "switch".
Proof. unfold compTag, tagIs. intros H. apply orb_true_iff in H as [H|H]; [apply orb_true_iff in H as [H|H]|]; apply String.eqb_eq in H; auto. Qed.
Definition hangOk (x : string * syn) : bool := Bool.eqb (hangPop (sy_pop (snd x))) (mem (fst x) ["ncl"; "body"; "context"; "switch"]).
Lemma hangOk_all : forallb hangOk syntax = true. Proof. vm_compute. reflexivity. Qed.
Lemma hang_tag x sy : synOf (x_tag x) = Some sy -> x_tag x <> "ncl" -> hangPop (sy_pop sy) = compTag x.
Proof.
  intros Es Hx. apply look_some in Es. pose proof (forall_elem _ _ _ hangOk_all Es) as F. unfold hangOk in F. cbn [fst snd] in F. apply eqb_prop in F. rewrite F. unfold compTag, tagIs, mem. cbn [existsb].
  destruct (String.eqb_spec (x_tag x) "ncl") as [Hz|_]; [done|]. cbn [orb]. by rewrite orb_false_r, orb_assoc.
Qed.
(** ** What closing an element adds. *)
Lemma pop_hang E k doc x sy n s : synOf (x_tag x) = Some sy -> x_tag x <> "ncl" -> (forall y, y ∈ x_kids x -> possibleChild (x_tag x) (x_tag y) = true) -> lively doc s ->
  (compTag x = true -> compAt s x (x_kids x) n /\ exists c rest, p_objs s = c :: rest /\ objectOf (p_graph s) x c /\ forall z, z ∈ x_kids x -> inPlace (p_graph s) c z) ->
  pw (pop E (S k) (sy_pop sy) n) (fun _ s' => af (eq n) s s' /\ forall L L2, HG L L2 (p_graph s) -> exists l l2, HG (L ++ l) (L2 ++ l2) (p_graph s') /\
     Forall2 (compiledPort (p_graph s') doc) (map (pair x) (List.filter (tagIs "port") (x_kids x))) l /\ Forall2 (compiledSwitchPort (p_graph s') doc) (map (pair x) (List.filter (tagIs "switchPort") (x_kids x))) l2 /\
     (x_tag x = "switch" -> switchN n s' x n)) s.
Proof.
  intros Es Hx Hk Ly HC. pose proof (lz_c _ _ (ly_z _ _ Ly)) as C. pose proof (pi_g _ _ _ _ (lz_i _ _ (ly_z _ _ Ly))) as GI. pose proof (hang_tag _ _ Es Hx) as Eh.
  assert (NP : x_tag x <> "body" -> x_tag x <> "context" -> List.filter (tagIs "port") (x_kids x) = []).
  { intros H1 H2. apply filter_none. intros y Hy. unfold tagIs. destruct (String.eqb_spec (x_tag y) "port") as [Ey|_]; [|done]. specialize (Hk y Hy). rewrite Ey in Hk. apply port_home in Hk as []; done. }
  assert (NS : x_tag x <> "switch" -> List.filter (tagIs "switchPort") (x_kids x) = []).
  { intros H1. apply filter_none. intros y Hy. unfold tagIs. destruct (String.eqb_spec (x_tag y) "switchPort") as [Ey|_]; [|done]. specialize (Hk y Hy). rewrite Ey in Hk. apply swport_home in Hk; done. }
  destruct (compTag x) eqn:Ec.
  - destruct (HC eq_refl) as [CA (c & rest & Hob & Ho & HPl)]. destruct (compTag_cases _ Ec) as [Ht|Ht].
    + assert (Ep : sy_pop sy = PoContext) by (destruct Ht as [Ht|Ht]; rewrite Ht in Es; vm_compute in Es; by injection Es as <-). rewrite Ep.
      eapply pw_mono; [apply pw_conj; [apply (pop_gg E (S k) PoContext n s C GI)|apply pw_conj; [apply (ka_pop E (S k) PoContext n ltac:(done))|apply (pop_context doc x (S k) n c rest s Ly CA Ht Hob)]]|].
      intros [] s' [[[G _] _] [A [Hc (es & F & H)]]]. apply gsm_tm in G. split; [eapply af_mono; [|exact A]; intros ? ? []|]. intros L L2 HL. exists (map (pair c) es), []. pose proof (HG_gh _ _ _ _ _ _ _ HL Hc H) as HG'. split; [exact HG'|].
      split; [|split; [|intros Hz; destruct Ht; congruence]].
      * clear -F Ho G. induction F as [|p e Y es H F IH]; constructor; [|done]. split; [by eapply objectOf_tm|done].
      * rewrite NS; [constructor|]. destruct Ht as [Ht|Ht]; rewrite Ht; done.
    + assert (Ep : sy_pop sy = PoSwitch) by (rewrite Ht in Es; vm_compute in Es; by injection Es as <-). rewrite Ep.
      eapply pw_mono; [apply pw_conj; [apply (pop_gg E (S k) PoSwitch n s C GI)|apply pw_conj; [apply af_popSwitch|apply pw_conj; [apply (pop_lf E (S k) PoSwitch n s); done|apply (pop_switch doc x (S k) n c rest s Ly CA Ht Hob HPl)]]]|].
      intros [] s' [[[G _] _] [A [[L' _] [Hc (sw & F & H & e & l & He & Hl & HR)]]]]. apply gsm_tm in G. split; [done|]. intros L L2 HL. exists [], (map (pair c) sw). pose proof (HG_gh _ _ _ _ _ _ _ HL Hc H) as HG'. split; [exact HG'|].
      split; [rewrite NP; [constructor|rewrite Ht; done..]|]. split.
      * clear -F Ho G. induction F as [|p q Y sw [H H'] F IH]; constructor; [|done]. split; [by eapply objectOf_tm|]. split; done.
      * intros _. split; [eapply nodeAs_lf; [exact C|exact L'|apply CA]|]. split; [lia|]. exists e, l, c. split; [done|]. split; [done|]. split; [done|]. by eapply objectOf_tm.
  - assert (N : sy_pop sy <> PoSwitch) by (intros Hz; rewrite Hz in Eh; discriminate Eh). unfold compTag, tagIs in Ec. apply orb_false_iff in Ec as [Ec E3]. apply orb_false_iff in Ec as [E1 E2]. apply String.eqb_neq in E1, E2, E3.
    eapply pw_mono; [apply pw_conj; [apply (ka_pop E (S k) (sy_pop sy) n N)|apply (sh0_pop E (S k) (sy_pop sy) n Eh)]|]. intros [] s' [A H]. split; [eapply af_mono; [|exact A]; intros ? ? []|].
    intros L L2 HL. exists [], []. rewrite !app_nil_r. split; [eapply HG_h0; [exact HL|by apply nh_h0]|]. rewrite NP, NS by done. split; [constructor|]. split; [constructor|]. done.
Qed.

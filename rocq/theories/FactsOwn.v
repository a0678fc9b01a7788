(** FactsOwn.v -- C41 from conditions on the document alone: the rules of its switches choose
    among their own components. *)
From Verif Require Import BuildFacts BuildSpec Wf Reach Formatter FReach Parser ParserSpec ParseDoc Examples FactsParsed.
From Verif Require Export FactsRule.
Open Scope string_scope.
Open Scope list_scope.

Lemma compiled_own g doc L : rulesWritten doc -> forall Y, (forall y, y ∈ Y -> y ∈ elementsOf doc /\ x_tag y = "switch") -> Forall2 (compiledRules g doc) Y L ->
  forall q r, q ∈ L -> r ∈ snd q -> exists cb, g_obj g !! fst q = Some cb /\ fst r ∈ ob_children cb.
Proof.
  intros W Y HY F q r Hq Hr. apply elem_of_list_lookup in Hq as [n Hn]. destruct (Forall2_lookup_r _ _ _ _ _ F Hn) as (y & Hy & Ho & lb & ld & E & FB & FD).
  destruct (HY y) as [Hyd Hyt]; [by eapply elem_of_list_lookup_2|]. rewrite E in Hr. apply elem_of_app in Hr as [Hr|Hr]; apply elem_of_list_lookup in Hr as [m Hm].
  - destruct (Forall2_lookup_r _ _ _ _ _ FB Hm) as (b & Hb & i & j & Hc & _ & Own & _). apply Own. apply elem_of_list_lookup_2, elem_of_list_In, filter_In in Hb as [Hb Ht].
    apply (W y b i); try done; [by apply elem_of_list_In|]. left. split; [by apply String.eqb_eq|done].
  - destruct (Forall2_lookup_r _ _ _ _ _ FD Hm) as (b & Hb & i & Hc & _ & Own & _). apply Own. apply elem_of_list_lookup_2, elem_of_list_In, filter_In in Hb as [Hb Ht].
    apply (W y b i); try done; [by apply elem_of_list_In|]. right. split; [by apply String.eqb_eq|done].
Qed.
Lemma rulesCompiled_own g doc : rulesWritten doc -> rulesCompiled g doc -> rulesOwn g.
Proof.
  intros W (L & F & H) o ob c p _ Ho Hc. rewrite (H _ _ Ho) in Hc. apply elem_of_list_In, in_concat in Hc as (l & Hl & Hc). apply in_map_iff in Hl as (q & <- & Hq). apply filter_In in Hq as [Hq Eq]. apply bool_decide_eq_true in Eq.
  destruct (compiled_own g doc L W _ (fun y Hy => proj1 (conj (conj (proj2 (elem_of_list_In _ _) (proj1 (proj1 (filter_In _ _ _) (proj1 (elem_of_list_In _ _) Hy)))) (proj1 (String.eqb_eq _ _) (proj2 (proj1 (filter_In _ _ _) (proj1 (elem_of_list_In _ _) Hy))))) I)) F q (c, p)) as (cb & Hcb & Hin); [by apply elem_of_list_In|by apply elem_of_list_In|].
  subst o. assert (cb = ob) as -> by congruence. exact Hin.
Qed.
Lemma f_own E k addr focus z w h x s : parse E k addr focus z w h x = POk tt s -> settingsPlain x -> rulesWritten x -> rulesOwn (p_graph s).
Proof. intros H Hx W. apply (rulesCompiled_own _ x W). exact (f_C50 _ _ _ _ _ _ _ _ _ H Hx). Qed.
Lemma f_doc_closed E k addr focus z w h x s : parse E k addr focus z w h x = POk tt s -> settingsPlain x -> rulesWritten x ->
  closedRefs (p_graph s) /\ forall o ob, g_obj (p_graph s) !! o = Some ob -> inDocument (p_graph s) o.
Proof. intros H Hx W. exact (f_C41_closed _ _ _ _ _ _ _ _ _ H Hx (f_own _ _ _ _ _ _ _ _ _ H Hx W)). Qed.
Lemma f_doc_playable E k addr focus z w h x s X ww hh : parse E k addr focus z w h x = POk tt s -> settingsPlain x -> rulesWritten x ->
  wf_doc (docOf (p_graph s) X) /\ init_ok (docOf (p_graph s) X) (stOf (p_graph s) ww hh).
Proof. intros H Hx W. exact (f_C41_plain _ _ _ _ _ _ _ _ _ X ww hh H Hx (f_own _ _ _ _ _ _ _ _ _ H Hx W)). Qed.
Lemma f_doc_file E k addr X x : settingsPlain x -> rulesWritten x -> goodFile (fileOf E k addr X x).
Proof. intros Hx W. apply f_C41_file; [done|]. intros fo w h s H. exact (f_own _ _ _ _ _ _ _ _ _ H Hx W). Qed.

(** ** The condition, checked. *)
Definition plainComponentb (z : xml) : bool := tagIs "context" z || tagIs "switch" z || (tagIs "media" z && match aget "refer" (x_attrs z) with None => true | Some _ => false end && negb (settingsElementb z)).
Lemma settingsElementb_complete z : settingsElement z -> settingsElementb z = true.
Proof. intros (A & B & [D|D]); unfold settingsElementb; by rewrite A, B, D. Qed.
Lemma plainComponentb_ok z : plainComponentb z = true -> plainComponent z.
Proof.
  unfold plainComponentb, plainComponent, tagIs. rewrite !orb_true_iff, !andb_true_iff, !String.eqb_eq. intros [[H|H]|[[H1 H2] H3]]; [by left|by right; left|]. right. right. split; [done|]. split; [by destruct (aget "refer" (x_attrs z))|].
  intros Hs. rewrite (settingsElementb_complete z Hs) in H3. discriminate H3.
Qed.
Definition namedBy (b : xml) : option string := if tagIs "bindRule" b then aget "constituent" (x_attrs b) else if tagIs "defaultComponent" b then aget "component" (x_attrs b) else None.
Lemma namedBy_ok b i : namesComponent b i -> namedBy b = Some i.
Proof. intros [[A B]|[A B]]; unfold namedBy, tagIs; by rewrite A, B. Qed.
Definition rulesWrittenb (doc : xml) : bool := forallb (fun y => negb (tagIs "switch" y) || forallb (fun b => match namedBy b with None => true | Some i => existsb (fun z => plainComponentb z && match aget "id" (x_attrs z) with Some j => String.eqb j i | None => false end) (x_kids y) end) (x_kids y)) (elementsOf doc).
Lemma rulesWrittenb_ok doc : rulesWrittenb doc = true -> rulesWritten doc.
Proof.
  intros H y b i Hy Ht Hb Hn. apply (forall_elem _ _ _ H) in Hy. cbv beta in Hy. unfold tagIs in Hy. rewrite Ht in Hy. cbn [String.eqb Ascii.eqb Bool.eqb negb orb] in Hy.
  apply (forall_elem _ _ _ Hy) in Hb. cbv beta in Hb. rewrite (namedBy_ok _ _ Hn) in Hb. apply List.existsb_exists in Hb as (z & Hz & Hb). apply andb_true_iff in Hb as [H1 H2].
  exists z. split; [by apply elem_of_list_In|]. split; [by apply plainComponentb_ok|]. destruct (aget "id" (x_attrs z)) as [j|]; [|discriminate H2]. apply String.eqb_eq in H2. by subst j.
Qed.
Lemma w_own : exists s, run doc1 = POk tt s /\ settingsPlain doc1 /\ rulesWritten doc1 /\ (length (g_objs (p_graph s)) = 8)%nat /\ (exists y b, y ∈ elementsOf doc1 /\ x_tag y = "switch" /\ b ∈ x_kids y /\ x_tag b = "bindRule").
Proof.
  destruct w_doc1 as (s & R & P & _ & N). exists s. split; [exact R|]. split; [exact P|]. split; [apply rulesWrittenb_ok; vm_compute; reflexivity|]. split; [exact N|].
  assert (X : existsb (fun y => tagIs "switch" y && existsb (tagIs "bindRule") (x_kids y)) (elementsOf doc1) = true) by (vm_compute; reflexivity).
  apply List.existsb_exists in X as (y & Hy & X). apply andb_true_iff in X as [X1 X2]. apply List.existsb_exists in X2 as (b & Hb & X2). exists y, b. split; [by apply elem_of_list_In|]. split; [by apply String.eqb_eq|]. split; [by apply elem_of_list_In|by apply String.eqb_eq].
Qed.

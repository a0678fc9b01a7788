(** Props_Own.v -- C41 with conditions on the document alone.  Vocabulary: ParserSpec.v
    (settingsPlain), RuleSpec.v (rulesWritten), BuildSpec.v (closedRefs, inDocument), Wf.v
    (wf_doc), FReach.v (goodFile). *)
From Verif Require Import BuildFacts BuildSpec Wf Reach Formatter FReach Examples Parser ParserSpec ParseDoc FactsParsed RuleSpec FactsOwn.
Open Scope string_scope.
Open Scope list_scope.

(** C41.  A document in which no settings element is named like the root or referred to by an
    earlier element, and in which each switch names in its bindRules and defaultComponents
    only components written in it, becomes, if the parser accepts it, a graph of objects in
    which everything is in the document and every reference stays in it; *)
Theorem C41_documents_closed E k addr focus z w h x s : parse E k addr focus z w h x = POk tt s -> settingsPlain x -> rulesWritten x ->
  closedRefs (p_graph s) /\ forall o ob, g_obj (p_graph s) !! o = Some ob -> inDocument (p_graph s) o.
Proof. exact (f_doc_closed E k addr focus z w h x s). Qed.
Print Assumptions C41_documents_closed.
(** it meets the hypotheses of the theorems about playing documents; *)
Theorem C41_documents_playable E k addr focus z w h x s X ww hh : parse E k addr focus z w h x = POk tt s -> settingsPlain x -> rulesWritten x ->
  wf_doc (docOf (p_graph s) X) /\ init_ok (docOf (p_graph s) X) (stOf (p_graph s) ww hh).
Proof. exact (f_doc_playable E k addr focus z w h x s X ww hh). Qed.
Print Assumptions C41_documents_playable.
(** and the parser, as the formatter calls it on such a document, meets the hypothesis of the
    theorems about the formatter. *)
Theorem C41_documents_formatter E k addr X x : settingsPlain x -> rulesWritten x -> goodFile (fileOf E k addr X x).
Proof. exact (f_doc_file E k addr X x). Qed.
Print Assumptions C41_documents_formatter.

(** The document of the other examples, whose switch has a bindRule, meets the conditions. *)
Example C41_documents_nonvacuous : exists s, run doc1 = POk tt s /\ settingsPlain doc1 /\ rulesWritten doc1 /\ (length (g_objs (p_graph s)) = 8)%nat /\ (exists y b, y ∈ elementsOf doc1 /\ x_tag y = "switch" /\ b ∈ x_kids y /\ x_tag b = "bindRule").
Proof. exact w_own. Qed.

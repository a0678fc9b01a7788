(** Props_Parsed.v -- C41: the documents the parser accepts can be played.
    Vocabulary: ParserSpec.v (settingsPlain), BuildSpec.v (inDocument, closedRefs, rulesOwn). *)
From Verif Require Import BuildFacts BuildSpec Wf Reach Formatter FReach Examples Parser ParserSpec ParserOdd ParseDoc FactsParsed.
Open Scope string_scope.
Open Scope list_scope.

(** C41.  From a document in which no settings element is named like the root or referred to
    by an earlier element, the parser, if it accepts it, makes a graph of objects in which
    every object made is in the document and every port, link, switch port and alias refers
    to objects and events of the document. *)
Theorem C41_parsed_documents_closed E k addr focus z w h x s : parse E k addr focus z w h x = POk tt s -> settingsPlain x -> rulesOwn (p_graph s) ->
  closedRefs (p_graph s) /\ forall o ob, g_obj (p_graph s) !! o = Some ob -> inDocument (p_graph s) o.
Proof. exact (f_C41_closed E k addr focus z w h x s). Qed.
Print Assumptions C41_parsed_documents_closed.
(** It then meets the hypotheses of all the theorems about playing documents. *)
Theorem C41_parsed_documents_playable E k addr focus z w h x s X ww hh : parse E k addr focus z w h x = POk tt s -> settingsPlain x -> rulesOwn (p_graph s) ->
  wf_doc (docOf (p_graph s) X) /\ init_ok (docOf (p_graph s) X) (stOf (p_graph s) ww hh).
Proof. exact (f_C41_plain E k addr focus z w h x s X ww hh). Qed.
Print Assumptions C41_parsed_documents_playable.

(** So the parser, as the formatter calls it, meets the hypothesis of the theorems about the
    formatter. *)
Theorem C41_formatter E k addr X x : settingsPlain x -> (forall focus w h s, parse E k addr focus 0 w h x = POk tt s -> rulesOwn (p_graph s)) ->
  goodFile (fileOf E k addr X x).
Proof. exact (f_C41_file E k addr X x). Qed.
Print Assumptions C41_formatter.

(** A document with a settings element, a medium referring to a later one, a switch with
    rules, ports, nested contexts, imported connectors and links meets the hypotheses. *)
Example C41_nonvacuous : exists s, run doc1 = POk tt s /\ settingsPlain doc1 /\ rulesOwn (p_graph s) /\ (length (g_objs (p_graph s)) = 8)%nat.
Proof. exact w_doc1. Qed.

(** Both conditions are needed.  A settings element that an earlier element refers to leaves a
    medium that is in no composition, and the reference leads to it; *)
Theorem C41_orphan_refuted : exists s o ob, run docOrphan = POk tt s /\ rulesOwn (p_graph s) /\ g_obj (p_graph s) !! o = Some ob /\ ghasAlias ob "r" = true /\ ~ inDocument (p_graph s) o.
Proof. exact w_orphan. Qed.
Print Assumptions C41_orphan_refuted.
(** and the rule of a switch may choose a component of another composition. *)
Theorem C41_foreign_rule_refuted : exists s, run docForeign = POk tt s /\ settingsPlain docForeign /\ ~ rulesOwn (p_graph s).
Proof. exact w_foreign. Qed.
Print Assumptions C41_foreign_rule_refuted.

(** C34.  Refuted: the parser aborts on a document one of whose elements is named like an
    object the library makes, and an accepted document with a negated statement aborts the
    player when the link is evaluated. *)
Theorem C34_parser_refuted : exists pos, run docName = PCrash (CAssert pos).
Proof. exact w_name. Qed.
Print Assumptions C34_parser_refuted.
Theorem C34_player_refuted : exists f pos, fstart 40 (fileOf env0 30 id noext docNeg) (mkF false None false "" 800 600) = Ok true f /\ ftick 40 1000 f = Crash (CAssert pos).
Proof. exact w_neg. Qed.
Print Assumptions C34_player_refuted.

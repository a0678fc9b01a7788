(** Props_Rule.v -- C50: the rules of the switches of a parsed document are those written in
    it.  Vocabulary: RuleSpec.v (ruleMeans, ruleHolds, rulesCompiled), TreeSpec.v (objectOf),
    CompileSpec.v (componentOf, comparatorWords, connectiveWords). *)
From Verif Require Import Parser ParserSpec ParseDoc TreeSpec CompileSpec PortSpec RuleSpec RuleEnd FactsRule.
Open Scope string_scope.
Open Scope list_scope.

(** C50.  When the parser accepts a document, each switch has one rule for each bindRule
    written in it, in the order written, for the component that the bindRule names and with
    the predicate that the rule it names means, and after those one rule for each
    defaultComponent, which always holds; and no other object has rules. *)
Theorem C50_rules_compiled E k addr focus z w h x s : parse E k addr focus z w h x = POk tt s -> settingsPlain x -> rulesCompiled (p_graph s) x.
Proof. exact (f_C50 E k addr focus z w h x s). Qed.
Print Assumptions C50_rules_compiled.

(** A document with nested rules, an empty one, a default component written first and a
    bindRule written last meets the hypotheses: its switch has the four expected rules. *)
Example C50_nonvacuous : exists s, run docRules = POk tt s /\ settingsPlain docRules /\
  exists o ob, g_obj (p_graph s) !! o = Some ob /\ ob_id ob = "sw" /\ Forall2 (fun q r => (exists c, g_obj (p_graph s) !! fst q = Some c /\ ob_id c = fst r) /\ snd q = snd r) (ob_rules ob) expectedRules.
Proof. exact w_docRules. Qed.

(** Props_Compile.v -- C42: the links of a parsed document are those written in it.
    Vocabulary: CompileSpec.v (linksCompiled), TreeSpec.v (objectOf), ValuesSpec.v (denotes),
    ParserSpec.v (elementsOf, settingsPlain). *)
From Verif Require Import Parser ParserSpec ParseDoc TreeSpec CompileSpec CompileEnd FactsCompile.
Open Scope string_scope.
Open Scope list_scope.

(** C42.  When the parser accepts a document, each link of the document, in document order,
    becomes one link of the context it is written in, and the objects have no other links.
    If the link names a connector of the document then it has one condition for each bind to
    a condition role and one action for each bind to an action role, in the order of the
    binds, and every role is bound, also those of tests.  A condition has the conjunction of
    the statements of the compound conditions around it for its predicate; in a test, a
    reference to a role denotes the interface bound to it, and any other reference the
    parameter of that name of the first bind to a test that has it.  Actions have no
    predicate.  Each is on the event that the bind designates (the
    component, its interface, or the interface that a port leads to), of the type and with
    the transition the role stands for; the key, the value, the duration and the delay are
    those of the role, where a reference denotes the parameter of the bind or else of the
    link, and a reference to a role the connector does not have denotes the interface bound
    to it. *)
Theorem C42_links_compiled E k addr focus z w h x s : parse E k addr focus z w h x = POk tt s -> settingsPlain x -> linksCompiled (p_graph s) x.
Proof. exact (f_C42 E k addr focus z w h x s). Qed.
Print Assumptions C42_links_compiled.

(** A document with two links meets the hypotheses; one has five binds to a connector of
    three roles, and becomes a link with the key and the value given by its parameters and with the statement of
    the connector about the property bound to it. *)
Example C42_nonvacuous : exists s, run doc1 = POk tt s /\ settingsPlain doc1 /\ (length (linksOf doc1) = 2)%nat /\
  (exists p y cx, (p, y) ∈ linksOf doc1 /\ cx ∈ elementsOf doc1 /\ x_tag cx = "causalConnector" /\ aget "id" (x_attrs cx) = aget "xconnector" (x_attrs y) /\ (length (rolesOf cx) = 3)%nat /\ (length (bindsOf y) = 5)%nat) /\
  exists o ob c a b, g_obj (p_graph s) !! o = Some ob /\ ([c], [a; b]) ∈ ob_links ob /\ ac_tr c = START /\ ac_value c = "RED" /\ ac_tr a = STOP /\ ac_value a = "" /\ ac_tr b = START /\ ac_value b = "$m1.top" /\ ac_pred c = Some (PAtom "$__settings__.lang" TEQ "en").
Proof. exact w_doc1_links. Qed.

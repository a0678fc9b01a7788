(** Props_Port.v -- C49: the ports and switchPorts of a parsed document are those written in
    it.  Vocabulary: PortSpec.v (portsCompiled, switchPortsCompiled, leadsTo), TreeSpec.v
    (objectOf), CompileSpec.v (componentOf), LtabSpec.v (noRepeat). *)
From Verif Require Import Parser ParserSpec ParseDoc TreeSpec CompileSpec PortSpec PortEnd FactsPort.
Open Scope string_scope.
Open Scope list_scope.

(** C49.  When the parser accepts a document, the ports of each context are the events that
    the ports written in it lead to, in the order written, an event not being listed twice;
    and no other object has ports.  The event is of the component the port names, or of one of
    its interfaces, or is what a port of that component leads to.  Each switchPort of a switch
    is listed once under its id (the code keeps them in a map: the order of the entries in
    the model is that of the document), with the events its mappings lead to,
    in their order; and no other object has switchPorts. *)
Theorem C49_ports_compiled E k addr focus z w h x s : parse E k addr focus z w h x = POk tt s -> settingsPlain x -> portsCompiled (p_graph s) x /\ switchPortsCompiled (p_graph s) x.
Proof. exact (f_C49 E k addr focus z w h x s). Qed.
Print Assumptions C49_ports_compiled.

(** A document with three ports and a switchPort of two mappings meets the hypotheses: of the
    two ports of the body one leads to a media, the other through a port of a context to an
    anchor. *)
Example C49_nonvacuous : exists s, run doc1 = POk tt s /\ settingsPlain doc1 /\ (length (portsOf doc1) = 3)%nat /\ (length (switchPortsOf doc1) = 1)%nat /\
  (exists o ob a b ea eb, g_root (p_graph s) = Some o /\ g_obj (p_graph s) !! o = Some ob /\ ob_ports ob = [a; b] /\ g_evt (p_graph s) !! a = Some ea /\ ev_id ea = "@lambda" /\ g_evt (p_graph s) !! b = Some eb /\ ev_id eb = "a2") /\
  exists o ob a b, g_obj (p_graph s) !! o = Some ob /\ ob_swports ob = [("sp", [a; b])].
Proof. exact w_doc1_ports. Qed.

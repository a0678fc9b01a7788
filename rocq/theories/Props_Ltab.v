(** Props_Ltab.v -- C47 and C48: documents made from Lua tables (NCL-ltab).
    Vocabulary: LtabSpec.v (depictsDoc, noNull), BuildSpec.v (built, closedRefs). *)
From Verif Require Import BuildSpec Wf Reach FReach Formatter Examples ParserLua LtabSpec FactsLtab LtabExamples.
Open Scope string_scope.
Open Scope list_scope.

(** C48.  When the table returned by a script is accepted, the document is what the table
    describes, and nothing else: every component table is the object in its place in the
    tree, with its id, properties, areas; every port and link of a context and every rule of
    a switch is as written, in the order written. *)
Theorem C48_document_depicts_table E addr focus v g : parseLtab E addr focus (Some v) = Ok (Some tt) g -> depictsDoc E g v.
Proof. exact (f_C48 E addr focus v g). Qed.
Print Assumptions C48_document_depicts_table.
Example C48_nonvacuous : exists g, ltabRun table1 = Ok (Some tt) g /\ noNull g /\ map ob_id (objs g) = ["__root__"; "__settings__"; "m"; "c"; "n"; "s"; "x"; "y"] /\
  map (fun ob => length (ob_links ob)) (objs g) = [1; 0; 0; 0; 0; 0; 0; 0] /\ map (fun ob => length (ob_ports ob)) (objs g) = [2; 0; 0; 1; 0; 0; 0; 0] /\
  map (fun ob => length (ob_rules ob)) (objs g) = [0; 0; 0; 0; 0; 2; 0; 0] /\
  map (fun e => (ev_id <$> g_evt g !! e)) (default [] (ob_events <$> objs g !! 2)) = [Some "@lambda"; Some "uri"; Some "left"; Some "transIn"; Some "intro"; Some "rest"].
Proof. exact w_table1. Qed.

(** C47.  Accepted tables give documents built through the API, whose references are all
    resolved exactly if no link names an event that does not exist; *)
Theorem C47_references E addr focus v g : parseLtab E addr focus (Some v) = Ok (Some tt) g -> built g /\ (closedRefs g <-> noNull g).
Proof. exact (f_C47_exact E addr focus v g). Qed.
Print Assumptions C47_references.
(** such documents are well formed, *)
Theorem C47_wellformed_partial E addr focus v g : parseLtab E addr focus (Some v) = Ok (Some tt) g -> noNull g ->
  closedRefs g /\ forall X w h, wf_doc (docOf g X) /\ init_ok (docOf g X) (stOf g w h).
Proof. exact (f_C47 E addr focus v g). Qed.
Print Assumptions C47_wellformed_partial.
(** so that what is proved of formatters that play good files holds when they play them. *)
Theorem C47_playable_partial E addr X v : (forall fo g, parseLtab E addr fo (Some v) = Ok (Some tt) g -> noNull g) -> goodFile (ltabFile E addr X v).
Proof. exact (f_C47_file E addr X v). Qed.
Print Assumptions C47_playable_partial.
(** Without that condition it is not so: a link to a key is accepted, although no component
    ever has such an event, and the player crashes when the link is triggered. *)
Theorem C47_wellformed_refuted : exists g, ltabRun table2 = Ok (Some tt) g /\ ~ noNull g.
Proof. exact w_table2. Qed.
Print Assumptions C47_wellformed_refuted.
Theorem C47_playable_refuted : exists f, fstart 40 (ltabFile E0 id noext table2) f0 = Ok true f /\ ftick 40 1000 f = Crash (CUB "dangling event").
Proof. exact w_table2_run. Qed.
Print Assumptions C47_playable_refuted.

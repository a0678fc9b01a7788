(** Props_Tree.v -- C45: the objects of a parsed document mirror its elements.
    Vocabulary: TreeSpec.v (mirrored: objectOf, inPlace), ParserSpec.v (elementsOf, settingsPlain). *)
From Verif Require Import BuildSpec Parser ParserSpec ParseDoc TreeSpec TreeFacts FactsParsed.
Open Scope string_scope.
Open Scope list_scope.

(** C45.  When the parser accepts a document, each element that stands for an object (ncl,
    body, context, switch, media) has its object, of the right kind and with the element's
    id, and each child of the element is in its place in that object: components are children
    of the composition, references and settings elements have their name there, areas are
    anchors of the media with the times written in the document, properties are attribution
    events. *)
Theorem C45_objects_mirror_elements E k addr focus z w h x s : parse E k addr focus z w h x = POk tt s -> settingsPlain x -> mirrored (p_graph s) x.
Proof. exact (f_C45 E k addr focus z w h x s). Qed.
Print Assumptions C45_objects_mirror_elements.

(** A document with nested components, a reference, the settings and anchors meets the
    hypotheses, and ten of its elements have to be mirrored. *)
Example C45_nonvacuous : exists s, run doc1 = POk tt s /\ settingsPlain doc1 /\
  (length (List.filter (fun y => mem (x_tag y) ["ncl"; "body"; "context"; "switch"; "media"]) (elementsOf doc1)) = 10)%nat /\
  exists e ev, g_evt (p_graph s) !! e = Some ev /\ ev_id ev = "ar" /\ ev_begin ev = 2000000000%N /\ ev_end ev = 5000000000%N.
Proof. exact w_doc1_tree. Qed.

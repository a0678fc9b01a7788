(** Props_Parser.v -- C43, C44: the documents the parser accepts. *)
From Verif Require Import Parser ParserSpec ParserGrammar ParseDoc.
Open Scope string_scope.
Open Scope list_scope.

(** C43. A document that is accepted is a grammatical NCL document: the root is ncl, every
    element is known and sits where the language allows it, has its mandatory attributes and
    no unknown ones, and identifiers and references are names. *)
Theorem C43_only_grammatical_documents_accepted E k addr focus z w h x s :
  parse E k addr focus z w h x = POk tt s -> x_tag x = "ncl" /\ Valid x.
Proof. exact (f_C43 E k addr focus z w h x s). Qed.
Print Assumptions C43_only_grammatical_documents_accepted.

(** C44. In a document that is accepted no two elements have the same id. *)
Theorem C44_ids_unique E k addr focus z w h x s :
  parse E k addr focus z w h x = POk tt s -> NoDup (idsOf x).
Proof. exact (f_C44 E k addr focus z w h x s). Qed.
Print Assumptions C44_ids_unique.

(** A document with regions, rules, an import, a switch and links is accepted ... *)
Definition accepted (x : xml) : bool := match run x with POk _ _ => true | _ => false end.
Example C43_accepts : accepted doc1 = true.
Proof. vm_compute. reflexivity. Qed.
Example C44_many_ids : length (idsOf doc1) = 23%nat.
Proof. vm_compute. reflexivity. Qed.
(** ... and these are not: a medium with a port, one without id, two with the same id. *)
Definition bodyOf (l : list xml) : xml := el "ncl" [] [el "body" [("id", "b")] l].
Definition rejected (x : xml) : option perr := match run x with PErr e => Some e | _ => None end.
Example C43_rejects : rejected (bodyOf [el "media" [("id", "m")] [el "port" [("id", "p"); ("component", "m")] []]]) = Some EUnknownChild /\
  rejected (bodyOf [el "media" [] []]) = Some EMissingAttribute /\ rejected (bodyOf [el "media" [("id", "m!")] []]) = Some EBadAttribute /\
  rejected (bodyOf [el "media" [("id", "m"); ("colour", "red")] []]) = Some EUnknownAttribute /\
  rejected (bodyOf [el "media" [("id", "m")] []; el "media" [("id", "m")] []]) = Some EBadAttribute.
Proof. vm_compute. repeat split; reflexivity. Qed.

(** Props_Build.v -- properties C21, C22 (identity of objects and events) and C40
    (documents built through the API are well formed).  Vocabulary: BuildSpec.v. *)
From Verif Require Import BuildFacts BuildSpec Wf Reach.
Open Scope string_scope.
Open Scope list_scope.

(** C21.  Two objects of a document never share an id. *)
Theorem C21_unique : forall g, built g -> forall o1 o2 i,
  inDocument g o1 -> inDocument g o2 -> withId g o1 i -> withId g o2 i -> o1 = o2.
Proof. exact f_C21_unique. Qed.
Print Assumptions C21_unique.
(** Looking up returns an object of the document having that id, or, if no object has it,
    one having that alias; it fails only if there is none; it changes nothing. *)
Theorem C21_lookup : forall g, built g -> forall i, exists r, glookup i g = Ok r g /\
  match r with
  | Some o => inDocument g o /\ (withId g o i \/ (withAlias g o i /\ forall o', inDocument g o' -> ~ withId g o' i))
  | None => forall o, inDocument g o -> ~ withId g o i /\ ~ withAlias g o i
  end.
Proof. exact f_C21_lookup. Qed.
Print Assumptions C21_lookup.
(** Adding an object is refused exactly when the object is already in the document or its
    id is in use (as an id or as an alias); being refused changes nothing; otherwise the
    document has that one object more, which its id now finds. *)
Theorem C21_add : forall g, built g -> forall o b g' i, withId g o i -> addObject o g = Ok b g' ->
  (b = false <-> inDocument g o \/ exists o', inDocument g o' /\ (withId g o' i \/ withAlias g o' i)) /\
  (b = false -> g' = g) /\
  (b = true -> inDocument g' o /\ glookup i g' = Ok (Some o) g' /\ forall o', inDocument g' o' <-> o' = o \/ inDocument g o').
Proof. exact f_C21_add. Qed.
Print Assumptions C21_add.
(** Adding a child whose id is in use aborts, unless it already is a child: it never
    yields a document with two such objects. *)
Theorem C21_child : forall g, built g -> forall c o i g', withId g o i ->
  (exists o', inDocument g o' /\ (withId g o' i \/ withAlias g o' i)) ->
  addChild c o g = Ok tt g' -> g' = g /\ inDocument g o.
Proof. exact f_C21_child. Qed.
Print Assumptions C21_child.
Example C21_nonvacuous : exists g, built g /\ inDocument g 10 /\ withId g 10 "b" /\ withAlias g 10 "z" /\
  glookup "z" g = Ok (Some 10%positive) g /\ withId g 13 "a" /\ withId g 6 "a" /\ inDocument g 6 /\ ~ inDocument g 13 /\
  addObject 13 g = Ok false g /\ addChild 8 13 g = Crash (CAssert "Composition.cpp:66").
Proof.
  destruct (construct opsB) as [g|] eqn:E; [|vm_compute in E; discriminate E]. exists g. split; [exact (construct_built _ _ E)|].
  vm_compute in E. injection E as <-. unfold inDocument, withId, withAlias. cbn [g_objs g_obj].
  split; [set_solver|]. split; [eexists; split; vm_compute; reflexivity|]. split; [eexists _, _; split; [vm_compute; reflexivity|left]|].
  split; [vm_compute; reflexivity|]. split; [eexists; split; vm_compute; reflexivity|]. split; [eexists; split; vm_compute; reflexivity|].
  split; [set_solver|]. split; [set_solver|]. split; vm_compute; reflexivity.
Qed.

(** C22.  An object never holds two events with the same type and id. *)
Theorem C22_unique : forall g, built g -> forall o e1 e2 t i, holds g o e1 t i -> holds g o e2 t i -> e1 = e2.
Proof. exact f_C22_unique. Qed.
Print Assumptions C22_unique.
(** It always holds its whole-content event. *)
Theorem C22_whole_content : forall g, built g -> forall o ob, g_obj g !! o = Some ob -> holds g o (ob_lambda ob) PRESENTATION "@lambda".
Proof. exact f_C22_whole. Qed.
Print Assumptions C22_whole_content.
(** Looking an event up finds it exactly if the object holds it. *)
Theorem C22_get : forall g, built g -> forall o ob t i, g_obj g !! o = Some ob -> exists r, getEvent o t i g = Ok r g /\
  match r with Some e => holds g o e t i | None => forall e, ~ holds g o e t i end.
Proof. exact f_C22_get. Qed.
Print Assumptions C22_get.
(** Adding an event always succeeds; if the object holds one of that type and id nothing
    changes, otherwise the object holds exactly one event more, as requested. *)
Theorem C22_add : forall g, built g -> forall o ob t i b e l, g_obj g !! o = Some ob -> exists g', addEvent o t i b e l g = Ok tt g' /\
  (forall x, holds g o x t i -> g' = g) /\
  ((forall x, ~ holds g o x t i) -> exists x, holds g' o x t i /\ g_evt g !! x = None /\ g_evt g' = <[x := mkEvt t o i b e l]> (g_evt g) /\
     forall o' x' t' i', holds g' o' x' t' i' <-> holds g o' x' t' i' \/ (o' = o /\ x' = x /\ t' = t /\ i' = i)).
Proof. exact f_C22_add. Qed.
Print Assumptions C22_add.
Example C22_nonvacuous : exists g, built g /\ holds g 6 12 PRESENTATION "x" /\ holds g 6 7 PRESENTATION "@lambda" /\
  addPresentationEvent 6 "x" 1 2 g = Ok tt g /\ getEvent 6 SELECTION "x" g = Ok None g.
Proof.
  destruct (construct opsB) as [g|] eqn:E; [|vm_compute in E; discriminate E]. exists g. split; [exact (construct_built _ _ E)|].
  vm_compute in E. injection E as <-. unfold holds.
  split; [eexists _, _; split; [vm_compute; reflexivity|]; split; [right; left|]; split; [vm_compute; reflexivity|]; repeat split|].
  split; [eexists _, _; split; [vm_compute; reflexivity|]; split; [left|]; split; [vm_compute; reflexivity|]; repeat split|].
  split; vm_compute; reflexivity.
Qed.

(** C40.  A document built by any sequence of construction operations, and whose objects
    only refer to its own objects and events, is well formed: it meets the hypothesis of
    all the theorems about playing documents, and its initial state is one they start
    from. *)
Theorem C40_built_documents : forall g X w h, built g -> closedRefs g -> wf_doc (docOf g X) /\ init_ok (docOf g X) (stOf g w h).
Proof. exact f_C40_built. Qed.
Print Assumptions C40_built_documents.
Example C40_nonvacuous : exists g, built g /\ closedRefs g /\ g_objs g = [1; 3; 6; 8; 10]%positive /\ ob_links <$> (g_obj g !! 1%positive) = Some [([mkAct 7 STOP None "" "" ""], [mkAct 11 START None "" "" ""])]%positive.
Proof.
  destruct (construct opsB) as [g|] eqn:E; [|vm_compute in E; discriminate E]. exists g. split; [exact (construct_built _ _ E)|].
  split; [apply closedb_ok|]; vm_compute in E; injection E as <-; [vm_compute; reflexivity|]. split; vm_compute; reflexivity.
Qed.

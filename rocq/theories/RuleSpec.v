(** RuleSpec.v -- vocabulary of C50: what the rules of a document mean, and the rules of its
    switches. *)
From Verif Require Export PortSpec.
Open Scope string_scope.
Open Scope list_scope.

Definition isRule (x : xml) : bool := tagIs "rule" x || tagIs "compositeRule" x.
(** A rule tests a property of the settings; a composite rule combines the rules in it, a
    negation at most one. *)
Inductive ruleMeans : xml -> npred -> Prop :=
| Rm_rule y t : x_tag y = "rule" -> (attrOf "comparator" y, t) ∈ comparatorWords -> ruleMeans y (PAtom ("$__settings__." ++ attrOf "var" y)%string t (attrOf "value" y))
| Rm_composite y c l : x_tag y = "compositeRule" -> (attrOf "operator" y, c) ∈ connectiveWords -> (c = CNeg -> (length l <= 1)%nat) -> Forall2 ruleMeans (List.filter isRule (x_kids y)) l -> ruleMeans y (combined c l).
(** The predicate of a bindRule to rule [y]: an empty composite rule never holds. *)
Definition ruleHolds (y : xml) (p : npred) : Prop := (x_tag y = "compositeRule" /\ List.filter isRule (x_kids y) = [] /\ p = PFalsum) \/ (~ (x_tag y = "compositeRule" /\ List.filter isRule (x_kids y) = []) /\ ruleMeans y p).

(** The rules of the switch written as [y], whose object is [c]: one for each bindRule, for its
    constituent and with the predicate of its rule; then one for each defaultComponent, which
    always holds.  (Only the predicates of rules of the document itself are described, not
    those of imported rules.) *)
Definition boundRule (g : graph) (doc y : xml) (c : oid) (b : xml) (q : oid * npred) : Prop :=
  exists i r, aget "constituent" (x_attrs b) = Some i /\ componentOf g c i (fst q) /\ ownTarget g y c i (fst q) /\ aget "rule" (x_attrs b) = Some r /\
    forall z, z ∈ elementsOf doc -> isRule z = true -> aget "id" (x_attrs z) = Some r -> ruleHolds z (snd q).
Definition defaultRule (g : graph) (y : xml) (c : oid) (d : xml) (q : oid * npred) : Prop := exists i, aget "component" (x_attrs d) = Some i /\ componentOf g c i (fst q) /\ ownTarget g y c i (fst q) /\ snd q = PVerum.
Definition compiledRules (g : graph) (doc y : xml) (q : oid * list (oid * npred)) : Prop :=
  objectOf g y (fst q) /\ exists lb ld, snd q = lb ++ ld /\ Forall2 (boundRule g doc y (fst q)) (List.filter (tagIs "bindRule") (x_kids y)) lb /\ Forall2 (defaultRule g y (fst q)) (List.filter (tagIs "defaultComponent") (x_kids y)) ld.
(** The rules of the objects are those of the switches of the document, and no others. *)
Definition rulesCompiled (g : graph) (doc : xml) : Prop := exists L, Forall2 (compiledRules g doc) (List.filter (tagIs "switch") (elementsOf doc)) L /\
  forall o ob, g_obj g !! o = Some ob -> ob_rules ob = List.concat (map snd (List.filter (fun q => bool_decide (fst q = o)) L)).

(** A condition on the document alone: what a bindRule or defaultComponent of a switch names is
    the id of a context, a switch, or a media standing for itself that is written in it. *)
Definition namesComponent (b : xml) (i : string) : Prop :=
  (x_tag b = "bindRule" /\ aget "constituent" (x_attrs b) = Some i) \/ (x_tag b = "defaultComponent" /\ aget "component" (x_attrs b) = Some i).
Definition rulesWritten (doc : xml) : Prop := forall y b i, y ∈ elementsOf doc -> x_tag y = "switch" -> b ∈ x_kids y -> namesComponent b i ->
  exists z, z ∈ x_kids y /\ plainComponent z /\ aget "id" (x_attrs z) = Some i.

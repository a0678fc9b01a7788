(** FactsRule.v -- C50: the example. *)
From Verif Require Import Parser ParserSpec ParseDoc FactsParsed LtabSpec.
From Verif Require Export RuleEnd.
Open Scope string_scope.
Open Scope list_scope.

Definition ruleElt (i v c x : string) : xml := el "rule" [("id", i); ("var", v); ("comparator", c); ("value", x)] [].
Definition bindTo (c r : string) : xml := el "bindRule" [("constituent", c); ("rule", r)] [].
Definition docRules : xml := el "ncl" [("id", "doc")] [
  el "head" [] [el "ruleBase" [] [ruleElt "r1" "lang" "eq" "pt";
    el "compositeRule" [("id", "r2"); ("operator", "and")] [ruleElt "r3" "lang" "ne" "fr"; el "compositeRule" [("id", "r4"); ("operator", "not")] [ruleElt "r5" "age" "lt" "18"]];
    el "compositeRule" [("id", "r6"); ("operator", "or")] []]];
  el "body" [("id", "bd")] [
    el "switch" [("id", "sw")] [el "defaultComponent" [("component", "m4")] [];
      bindTo "m3" "r2"; bindTo "m4" "r6"; el "media" [("id", "m3")] []; el "media" [("id", "m4")] []; bindTo "m3" "r1"]]].
Definition lang (t : ptest) (v : string) : npred := PAtom "$__settings__.lang" t v.
Definition expectedRules : list (string * npred) := [("m3", PAnd [lang TNE "fr"; PNeg [PAtom "$__settings__.age" TLT "18"]]); ("m4", PFalsum); ("m3", lang TEQ "pt"); ("m4", PVerum)].

Definition ptest_eqb (a b : ptest) : bool := match a, b with TEQ, TEQ | TNE, TNE | TLT, TLT | TLE, TLE | TGT, TGT | TGE, TGE => true | _, _ => false end.
Fixpoint npred_eqb (p q : npred) : bool :=
  let all := fix all l m := match l, m with [], [] => true | x :: l, y :: m => npred_eqb x y && all l m | _, _ => false end in
  match p, q with
  | PFalsum, PFalsum | PVerum, PVerum => true
  | PAtom l t r, PAtom l' t' r' => String.eqb l l' && ptest_eqb t t' && String.eqb r r'
  | PNeg l, PNeg m | PAnd l, PAnd m | POr l, POr m => all l m
  | _, _ => false end.
Lemma npred_eqb_eq : forall p q, npred_eqb p q = true -> p = q.
Proof.
  refine (npred_deep _ _ _ _ _).
  - by intros [].
  - by intros [].
  - intros l t r []; try discriminate. cbn. rewrite !andb_true_iff. intros [[H1 H2] H3]. apply String.eqb_eq in H1, H3. subst. match goal with H : ptest_eqb ?a ?b = true |- _ => destruct a, b; done end.
  - intros c l HF. assert (A : forall m, (fix all l m := match l, m with [], [] => true | x :: l, y :: m => npred_eqb x y && all l m | _, _ => false end) l m = true -> l = m).
    { induction HF as [|x l Hx _ IH]; intros [|y m]; try discriminate; [done|]. rewrite andb_true_iff. intros [H1 H2]. f_equal; [by apply Hx|by apply IH]. }
    intros []; destruct c; cbn; try discriminate; intros H; f_equal; by apply A.
Qed.
Definition ruleOf (g : graph) (q : oid * npred) (r : string * npred) : bool := match g_obj g !! fst q with Some c => String.eqb (ob_id c) (fst r) && npred_eqb (snd q) (snd r) | None => false end.
Fixpoint rulesAre (g : graph) (l : list (oid * npred)) (m : list (string * npred)) : bool := match l, m with [], [] => true | q :: l, r :: m => ruleOf g q r && rulesAre g l m | _, _ => false end.
Lemma rulesAre_ok g : forall l m, rulesAre g l m = true -> Forall2 (fun q r => (exists c, g_obj g !! fst q = Some c /\ ob_id c = fst r) /\ snd q = snd r) l m.
Proof.
  induction l as [|q l IH]; intros [|r m]; try discriminate; [constructor|]. cbn. rewrite andb_true_iff. intros [H H']. constructor; [|by apply IH].
  unfold ruleOf in H. destruct (g_obj g !! fst q) as [c|] eqn:E; [|discriminate H]. apply andb_true_iff in H as [H1 H2]. apply String.eqb_eq in H1. apply npred_eqb_eq in H2. split; [by exists c|done].
Qed.
Lemma w_docRules : exists s, run docRules = POk tt s /\ settingsPlain docRules /\
  exists o ob, g_obj (p_graph s) !! o = Some ob /\ ob_id ob = "sw" /\ Forall2 (fun q r => (exists c, g_obj (p_graph s) !! fst q = Some c /\ ob_id c = fst r) /\ snd q = snd r) (ob_rules ob) expectedRules.
Proof.
  assert (R : match run docRules with POk _ s => existsb (fun x : oid * obj => String.eqb (ob_id (snd x)) "sw" && rulesAre (p_graph s) (ob_rules (snd x)) expectedRules) (map_to_list (g_obj (p_graph s))) | _ => false end = true) by (vm_compute; reflexivity).
  destruct (run docRules) as [[] s| | |] eqn:E; try discriminate R. clear E. exists s. split; [reflexivity|]. split; [apply plainb_ok; vm_compute; reflexivity|].
  apply List.existsb_exists in R as ([o ob] & Hin & R). cbn [snd] in R. apply andb_true_iff in R as [R1 R2]. apply String.eqb_eq in R1. exists o, ob. split; [apply elem_of_map_to_list; by apply elem_of_list_In|]. split; [exact R1|]. by apply rulesAre_ok.
Qed.

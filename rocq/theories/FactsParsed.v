(** FactsParsed.v -- C41 assembled, and its witnesses. *)
From Verif Require Import BuildFacts BuildSpec Wf Reach Formatter FReach Parser ParserSpec ParseDoc Examples.
From Verif Require Export ParserOdd.
Open Scope string_scope.
Open Scope list_scope.

(** The rules of a switch choose among its own components. *)
Definition rulesOwn (g : graph) : Prop := forall o ob c p, inDocument g o -> g_obj g !! o = Some ob -> (c, p) ∈ ob_rules ob -> c ∈ ob_children ob.

Lemma f_C41_closed E k addr focus z w h x s : parse E k addr focus z w h x = POk tt s -> settingsPlain x -> rulesOwn (p_graph s) ->
  closedRefs (p_graph s) /\ forall o ob, g_obj (p_graph s) !! o = Some ob -> inDocument (p_graph s) o.
Proof.
  intros H Hx Hr. pose proof (plain_odd _ _ _ _ _ _ _ _ _ H Hx) as Ho. split; [exact (parsed_closed _ _ _ _ _ _ _ _ _ H Ho Hr)|]. destruct (parsed_good _ _ _ _ _ _ _ _ _ H Ho) as [I R]. exact (all_placed _ _ I R).
Qed.
Lemma f_C41_plain E k addr focus z w h x s X ww hh : parse E k addr focus z w h x = POk tt s -> settingsPlain x -> rulesOwn (p_graph s) ->
  wf_doc (docOf (p_graph s) X) /\ init_ok (docOf (p_graph s) X) (stOf (p_graph s) ww hh).
Proof. intros H Hx Hr. exact (f_C41 _ _ _ _ _ _ _ _ _ X ww hh H (plain_odd _ _ _ _ _ _ _ _ _ H Hx) Hr). Qed.

(** Checkers used in the examples. *)
Definition settingsElementb (y : xml) : bool := String.eqb (x_tag y) "media" && match aget "refer" (x_attrs y) with None => true | _ => false end &&
  match aget "type" (x_attrs y) with Some t => String.eqb t "application/x-ginga-settings" || String.eqb t "application/x-ncl-settings" | None => false end.
Fixpoint plainFrom (before l : list xml) : bool :=
  match l with
  | [] => true
  | y :: r => (negb (settingsElementb y) || match aget "id" (x_attrs y) with
      | Some i => negb (String.eqb i "__root__") && forallb (fun z => negb (String.eqb (x_tag z) "media" && match aget "refer" (x_attrs z) with Some j => String.eqb j i | None => false end)) before
      | None => true end) && plainFrom (before ++ [y]) r
  end.
Lemma plainFrom_ok l : forall before0, plainFrom before0 l = true -> forall before y after i, l = before ++ y :: after -> settingsElement y -> aget "id" (x_attrs y) = Some i ->
  i <> "__root__" /\ forall z, z ∈ before0 ++ before -> ~ refersTo z i.
Proof.
  induction l as [|y0 l IH]; intros b0 H before y after i E Hs Hi; [by destruct before|]. cbn [plainFrom] in H. apply andb_true_iff in H as [H1 H2].
  destruct before as [|z0 before]; injection E as -> ->.
  - assert (Es : settingsElementb y = true). { unfold settingsElementb. destruct Hs as (A & B & [D|D]); by rewrite A, B, D. }
    rewrite Es, Hi in H1. cbn in H1. apply andb_true_iff in H1 as [A B]. split; [by apply String.eqb_neq, negb_true_iff|]. intros z Hz [R1 R2]. rewrite app_nil_r in Hz.
    apply (forall_elem _ _ _ B) in Hz. cbv beta in Hz. rewrite R1, R2, !String.eqb_refl in Hz. discriminate Hz.
  - destruct (IH _ H2 before y after i eq_refl Hs Hi) as [A B]. split; [done|]. intros z Hz. apply B. rewrite <- app_assoc. exact Hz.
Qed.
Lemma plainb_ok x : plainFrom [] (elementsOf x) = true -> settingsPlain x.
Proof. intros H. exact (plainFrom_ok _ [] H). Qed.
Definition rulesOwnb (g : graph) : bool := forallb (fun x => forallb (fun r => bool_decide (fst r ∈ ob_children (snd x))) (ob_rules (snd x))) (map_to_list (g_obj g)).
Lemma rulesOwnb_ok g : rulesOwnb g = true -> rulesOwn g.
Proof.
  intros H o ob c p _ Ho Hc. apply elem_of_map_to_list in Ho. apply (forall_elem _ _ _ H) in Ho.
  cbn [snd] in Ho. apply (forall_elem _ _ _ Ho) in Hc. by apply bool_decide_eq_true in Hc.
Qed.

Definition docOrphan : xml := el "ncl" [] [el "body" [("id", "b")] [
  el "media" [("id", "m")] []; el "media" [("id", "a"); ("refer", "m")] [];
  el "media" [("id", "r"); ("refer", "st")] []; el "media" [("id", "st"); ("type", "application/x-ginga-settings")] []]].
Definition docForeign : xml := el "ncl" [] [el "head" [] [el "ruleBase" [] [el "rule" [("id", "r1"); ("var", "lang"); ("comparator", "eq"); ("value", "pt")] []]];
  el "body" [("id", "b")] [el "media" [("id", "m")] []; el "switch" [("id", "s")] [el "bindRule" [("constituent", "m2"); ("rule", "r1")] []; el "media" [("id", "m2"); ("refer", "m")] []]]].
Definition orphanAt (g : graph) (o : oid) (i : string) : bool := rulesOwnb g && negb (bool_decide (o ∈ g_objs g)) && match g_obj g !! o with Some ob => ghasAlias ob i | None => false end.
Lemma w_orphan : exists s o ob, run docOrphan = POk tt s /\ rulesOwn (p_graph s) /\ g_obj (p_graph s) !! o = Some ob /\ ghasAlias ob "r" = true /\ ~ inDocument (p_graph s) o.
Proof.
  assert (R : match run docOrphan with POk _ s => existsb (fun x => orphanAt (p_graph s) (fst x) "r") (map_to_list (g_obj (p_graph s))) | _ => false end = true) by (vm_compute; reflexivity).
  destruct (run docOrphan) as [[] s| | |] eqn:E; try discriminate R. clear E. apply List.existsb_exists in R as ([o ob] & Hin & R). cbn [fst] in R. unfold orphanAt in R.
  apply andb_true_iff in R as [R R3]. apply andb_true_iff in R as [R1 R2]. apply negb_true_iff, bool_decide_eq_false in R2.
  destruct (g_obj (p_graph s) !! o) as [ob'|] eqn:Eo; [|done]. exists s, o, ob'. split; [done|]. split; [exact (rulesOwnb_ok _ R1)|]. split; [done|]. split; [done|exact R2].
Qed.
Definition foreignAt (g : graph) (x : oid * obj) : bool := bool_decide (fst x ∈ g_objs g) && negb (forallb (fun r => bool_decide (fst r ∈ ob_children (snd x))) (ob_rules (snd x))).
Lemma w_foreign : exists s, run docForeign = POk tt s /\ settingsPlain docForeign /\ ~ rulesOwn (p_graph s).
Proof.
  assert (R : match run docForeign with POk _ s => existsb (foreignAt (p_graph s)) (map_to_list (g_obj (p_graph s))) | _ => false end = true) by (vm_compute; reflexivity).
  destruct (run docForeign) as [[] s| | |] eqn:E; try discriminate R. clear E. exists s. split; [done|]. split; [apply plainb_ok; vm_compute; reflexivity|].
  apply List.existsb_exists in R as ([o ob] & Hin & R). unfold foreignAt in R. cbn [fst snd] in R. apply andb_true_iff in R as [R1 R2]. apply bool_decide_eq_true in R1.
  intros Hr. apply negb_true_iff in R2. assert (forallb (fun r => bool_decide (fst r ∈ ob_children ob)) (ob_rules ob) = true); [|congruence].
  apply List.forallb_forall. intros [c p] Hc. apply bool_decide_eq_true. cbn [fst]. eapply Hr; [exact R1| |by apply elem_of_list_In]. by apply elem_of_map_to_list, elem_of_list_In.
Qed.
Lemma w_doc1 : exists s, run doc1 = POk tt s /\ settingsPlain doc1 /\ rulesOwn (p_graph s) /\ (length (g_objs (p_graph s)) = 8)%nat.
Proof.
  assert (R : match run doc1 with POk _ s => rulesOwnb (p_graph s) && (length (g_objs (p_graph s)) =? 8)%nat | _ => false end = true) by (vm_compute; reflexivity).
  destruct (run doc1) as [[] s| | |] eqn:E; try discriminate R. clear E. exists s. split; [reflexivity|]. split; [apply plainb_ok; vm_compute; reflexivity|].
  apply andb_true_iff in R as [R1 R2]. split; [exact (rulesOwnb_ok _ R1)|by apply Nat.eqb_eq].
Qed.

(** The parser as the formatter uses it (Formatter.cpp:126-140). *)
Definition fileOf (E : penv) (k : nat) (addr : positive -> positive) (X : Player.ext) (x : xml) : file :=
  fun w h fo => match parse E k addr fo 0 w h x with POk _ s => Some (docOf (p_graph s) X, stOf (p_graph s) w h) | _ => None end.
Lemma f_C41_file E k addr X x : settingsPlain x -> (forall fo w h s, parse E k addr fo 0 w h x = POk tt s -> rulesOwn (p_graph s)) -> goodFile (fileOf E k addr X x).
Proof.
  intros Hx Hr w h fo D s H. unfold fileOf in H. destruct (parse E k addr fo 0 w h x) as [[] s1| | |] eqn:Ep; try discriminate H. injection H as <- <-.
  apply (f_C41_plain _ _ _ _ _ _ _ _ _ X w h Ep Hx). exact (Hr _ _ _ _ Ep).
Qed.

(** C34: a document the parser aborts on, and one that aborts the player. *)
Definition docName : xml := el "ncl" [] [el "body" [("id", "b")] [el "media" [("id", "__settings__")] []]].
Definition docNeg : xml := el "ncl" [] [
  el "head" [] [el "connectorBase" [] [el "causalConnector" [("id", "k")] [
     el "compoundCondition" [("operator", "and")] [el "simpleCondition" [("role", "onBegin")] [];
        el "compoundStatement" [("operator", "and"); ("isNegated", "true")] [
          el "assessmentStatement" [("comparator", "eq")] [el "attributeAssessment" [("role", "var")] []; el "valueAssessment" [("value", "1")] []];
          el "assessmentStatement" [("comparator", "eq")] [el "attributeAssessment" [("role", "var")] []; el "valueAssessment" [("value", "2")] []]]];
     el "simpleAction" [("role", "stop")] []]]];
  el "body" [("id", "b")] [el "port" [("id", "p"); ("component", "m")] [];
   el "media" [("id", "m")] [el "property" [("name", "top")] []];
   el "link" [("xconnector", "k")] [el "bind" [("role", "onBegin"); ("component", "m")] []; el "bind" [("role", "stop"); ("component", "m")] [];
     el "bind" [("role", "var"); ("component", "m"); ("interface", "top")] []]]].
Definition isAssert {A} (r : outcome fmt A) : bool := match r with Crash (CAssert _) => true | _ => false end.
Lemma w_name : exists pos, run docName = PCrash (CAssert pos).
Proof. eexists. vm_compute. reflexivity. Qed.
Lemma w_neg : exists f pos, fstart 40 (fileOf env0 30 id noext docNeg) (mkF false None false "" 800 600) = Ok true f /\ ftick 40 1000 f = Crash (CAssert pos).
Proof.
  assert (R : match fstart 40 (fileOf env0 30 id noext docNeg) (mkF false None false "" 800 600) with Ok true f => isAssert (ftick 40 1000 f) | _ => false end = true) by (vm_compute; reflexivity).
  destruct (fstart 40 (fileOf env0 30 id noext docNeg) (mkF false None false "" 800 600)) as [[] f| |]; try discriminate R. unfold isAssert in R.
  destruct (ftick 40 1000 f) as [| [pos| |] |] eqn:Et; try discriminate R. exists f, pos. by split.
Qed.

(** C45: what becomes of the first anchor of the example. *)
Lemma w_doc1_tree : exists s, run doc1 = POk tt s /\ settingsPlain doc1 /\
  (length (List.filter (fun y => mem (x_tag y) ["ncl"; "body"; "context"; "switch"; "media"]) (elementsOf doc1)) = 10)%nat /\
  exists e ev, g_evt (p_graph s) !! e = Some ev /\ ev_id ev = "ar" /\ ev_begin ev = 2000000000%N /\ ev_end ev = 5000000000%N.
Proof.
  assert (R : match run doc1 with POk _ s => existsb (fun x => String.eqb (ev_id (snd x)) "ar" && N.eqb (ev_begin (snd x)) 2000000000 && N.eqb (ev_end (snd x)) 5000000000) (map_to_list (g_evt (p_graph s))) | _ => false end = true) by (vm_compute; reflexivity).
  destruct (run doc1) as [[] s| | |] eqn:E; try discriminate R. clear E. exists s. split; [reflexivity|]. split; [apply plainb_ok; vm_compute; reflexivity|]. split; [vm_compute; reflexivity|].
  apply List.existsb_exists in R as ([e ev] & Hin & R). cbn [snd] in R. apply andb_true_iff in R as [R R3]. apply andb_true_iff in R as [R1 R2]. exists e, ev.
  split; [apply elem_of_map_to_list; by apply elem_of_list_In|]. by rewrite <- String.eqb_eq, <- N.eqb_eq, <- N.eqb_eq.
Qed.

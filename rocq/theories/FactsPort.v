(** FactsPort.v -- C49: the example. *)
From Verif Require Import Parser ParserSpec ParseDoc FactsParsed LtabSpec.
From Verif Require Export PortEnd.
Open Scope string_scope.
Open Scope list_scope.

Definition rootTwo (g : graph) : bool := existsb (fun x : oid * obj => bool_decide (g_root g = Some (fst x)) && match ob_ports (snd x) with [a; b] => match g_evt g !! a, g_evt g !! b with Some ea, Some eb => String.eqb (ev_id ea) "@lambda" && String.eqb (ev_id eb) "a2" | _, _ => false end | _ => false end) (map_to_list (g_obj g)).
Definition twoMaps (g : graph) : bool := existsb (fun x : oid * obj => match ob_swports (snd x) with [(i, [a; b])] => String.eqb i "sp" | _ => false end) (map_to_list (g_obj g)).
Lemma w_doc1_ports : exists s, run doc1 = POk tt s /\ settingsPlain doc1 /\ (length (portsOf doc1) = 3)%nat /\ (length (switchPortsOf doc1) = 1)%nat /\
  (exists o ob a b ea eb, g_root (p_graph s) = Some o /\ g_obj (p_graph s) !! o = Some ob /\ ob_ports ob = [a; b] /\ g_evt (p_graph s) !! a = Some ea /\ ev_id ea = "@lambda" /\ g_evt (p_graph s) !! b = Some eb /\ ev_id eb = "a2") /\
  exists o ob a b, g_obj (p_graph s) !! o = Some ob /\ ob_swports ob = [("sp", [a; b])].
Proof.
  assert (R : match run doc1 with POk _ s => rootTwo (p_graph s) && twoMaps (p_graph s) | _ => false end = true) by (vm_compute; reflexivity).
  destruct (run doc1) as [[] s| | |] eqn:E; try discriminate R. clear E. exists s. split; [reflexivity|]. split; [apply plainb_ok; vm_compute; reflexivity|]. split; [vm_compute; reflexivity|]. split; [vm_compute; reflexivity|].
  apply andb_true_iff in R as [R1 R2]. split.
  - apply List.existsb_exists in R1 as ([o ob] & Hin & R). cbn [fst snd] in R. apply andb_true_iff in R as [R R']. apply bool_decide_eq_true in R. destruct (ob_ports ob) as [|a [|b [|c l]]] eqn:Ep; try discriminate R'. destruct (g_evt (p_graph s) !! a) as [ea|] eqn:Ea; [|discriminate R']. destruct (g_evt (p_graph s) !! b) as [eb|] eqn:Eb; [|discriminate R'].
    apply andb_true_iff in R' as [H1 H2]. apply String.eqb_eq in H1, H2. exists o, ob, a, b, ea, eb. split; [exact R|]. split; [apply elem_of_map_to_list; by apply elem_of_list_In|]. done.
  - apply List.existsb_exists in R2 as ([o ob] & Hin & R). cbn [snd] in R. destruct (ob_swports ob) as [|[i [|a [|b [|c l]]]] [|q r]] eqn:Ep; try discriminate R. apply String.eqb_eq in R as ->. exists o, ob, a, b. split; [apply elem_of_map_to_list; by apply elem_of_list_In|done].
Qed.

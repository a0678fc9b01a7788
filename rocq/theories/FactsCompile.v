(** FactsCompile.v -- C42: the example. *)
From Verif Require Import Parser ParserSpec ParseDoc FactsParsed.
From Verif Require Export CompileEnd.
Open Scope string_scope.
Open Scope list_scope.

Definition keyLink (lk : list action * list action) : bool :=
  match lk with
  | ([c], [a; b]) => bool_decide (ac_tr c = START) && String.eqb (ac_value c) "RED" && bool_decide (ac_tr a = STOP) && String.eqb (ac_value a) "" && bool_decide (ac_tr b = START) && String.eqb (ac_value b) "$m1.top" && match ac_pred c with Some (PAtom l TEQ r) => String.eqb l "$__settings__.lang" && String.eqb r "en" | _ => false end
  | _ => false
  end.
Lemma w_doc1_links : exists s, run doc1 = POk tt s /\ settingsPlain doc1 /\ (length (linksOf doc1) = 2)%nat /\
  (exists p y cx, (p, y) ∈ linksOf doc1 /\ cx ∈ elementsOf doc1 /\ x_tag cx = "causalConnector" /\ aget "id" (x_attrs cx) = aget "xconnector" (x_attrs y) /\ (length (rolesOf cx) = 3)%nat /\ (length (bindsOf y) = 5)%nat) /\
  exists o ob c a b, g_obj (p_graph s) !! o = Some ob /\ ([c], [a; b]) ∈ ob_links ob /\ ac_tr c = START /\ ac_value c = "RED" /\ ac_tr a = STOP /\ ac_value a = "" /\ ac_tr b = START /\ ac_value b = "$m1.top" /\ ac_pred c = Some (PAtom "$__settings__.lang" TEQ "en").
Proof.
  assert (R : match run doc1 with POk _ s => existsb (fun x => existsb keyLink (ob_links (snd x))) (map_to_list (g_obj (p_graph s))) | _ => false end = true) by (vm_compute; reflexivity).
  destruct (run doc1) as [[] s| | |] eqn:E; try discriminate R. clear E. exists s. split; [reflexivity|]. split; [apply plainb_ok; vm_compute; reflexivity|]. split; [vm_compute; reflexivity|]. split.
  - assert (Hl : existsb (fun q => String.eqb (attrOf "xconnector" (snd q)) "onKey" && Nat.eqb (length (bindsOf (snd q))) 5 && match aget "xconnector" (x_attrs (snd q)) with Some _ => true | None => false end) (linksOf doc1) = true) by (vm_compute; reflexivity).
    apply List.existsb_exists in Hl as ([p y] & K1 & K2). cbn [snd] in K2. apply andb_true_iff in K2 as [K2 K4]. apply andb_true_iff in K2 as [K2 K3]. apply String.eqb_eq in K2. apply Nat.eqb_eq in K3.
    assert (Hc : existsb (fun cx => String.eqb (x_tag cx) "causalConnector" && String.eqb (attrOf "id" cx) "onKey" && Nat.eqb (length (rolesOf cx)) 3 && match aget "id" (x_attrs cx) with Some _ => true | None => false end) (elementsOf doc1) = true) by (vm_compute; reflexivity).
    apply List.existsb_exists in Hc as (cx & H1 & H2). apply andb_true_iff in H2 as [H2 H5]. apply andb_true_iff in H2 as [H2 H4]. apply andb_true_iff in H2 as [H2 H3]. apply String.eqb_eq in H2, H3. apply Nat.eqb_eq in H4. exists p, y, cx.
    split; [by apply elem_of_list_In|]. split; [by apply elem_of_list_In|]. split; [done|]. split; [|done]. unfold attrOf in H3, K2. destruct (aget "xconnector" (x_attrs y)) as [j|]; [|done]. cbn in K2. rewrite K2. destruct (aget "id" (x_attrs cx)) as [i|]; [|done]. cbn in H3. rewrite H3. reflexivity.
  - apply List.existsb_exists in R as ([o ob] & Hin & R). cbn [snd] in R. apply List.existsb_exists in R as ([lc la] & Hl & R). destruct lc as [|c [|c1 lc]]; try discriminate R. destruct la as [|a [|b [|b1 la]]]; try discriminate R. exists o, ob, c, a, b.
    split; [apply elem_of_map_to_list; by apply elem_of_list_In|]. split; [by apply elem_of_list_In|]. unfold keyLink in R. apply andb_true_iff in R as [R Rp].
    assert (Ep : ac_pred c = Some (PAtom "$__settings__.lang" TEQ "en")). { destruct (ac_pred c) as [[| |l [] r| | |]|]; try discriminate Rp. apply andb_true_iff in Rp as [R1 R2]. apply String.eqb_eq in R1, R2. congruence. }
    clear Rp. repeat (apply andb_true_iff in R as [R ?]). repeat match goal with Hz : bool_decide _ = true |- _ => apply bool_decide_eq_true in Hz | Hz : String.eqb _ _ = true |- _ => apply String.eqb_eq in Hz end. done.
Qed.

(** Props_Destroy.v -- C51: destroying a document, as Formatter::stop does, is memory safe.
    Vocabulary: Destroy.v (heap, deleteObject, caredBy). *)
From Verif Require Import FactsDestroy.
Open Scope string_scope.
Open Scope list_scope.

(** C51.  From every reachable state, destroying the document returns: it uses nothing it has
    deleted, it deletes every object in the root's care, and its events, exactly once, and
    nothing else, and no media object is deleted with a player.  The state it leaves is that of
    [destroy], the step of Formatter::stop in C11 and others. *)
Theorem C51_destroy_safe : forall D, wf_doc D -> exists N, forall s n, reach D s -> N <= n ->
  exists h, deleteObject D n n (d_root D) (heapOf D s) = Ok tt h /\ destroy D n n (d_root D) s = Ok tt (h_st h) /\
    NoDup (h_gone h) /\ (forall x, x ∈ h_gone h <-> caredBy D (d_root D) x) /\
    (forall x, h_obj h !! x = if bool_decide (x ∈ h_gone h) then None else d_obj D !! x) /\
    (forall e, h_evt h !! e = if existsb (fun x => match d_obj D !! x with Some xb => bool_decide (e ∈ ob_events xb) | None => false end) (h_gone h) then None else d_evt D !! e) /\
    (forall x xb, x ∈ h_gone h -> d_obj D !! x = Some xb -> is_media (ob_kind xb) = true -> o_player (ostOf (h_st h) x) = None).
Proof. exact f_C51. Qed.
Print Assumptions C51_destroy_safe.
(** In a document without switches, what is in the root's care is everything in the root. *)
Theorem C51_destroy_all_noSwitch : forall D, wf_doc D -> noSwitch D -> forall x, caredBy D (d_root D) x <-> inside D (d_root D) x.
Proof. exact f_C51_all. Qed.
Print Assumptions C51_destroy_all_noSwitch.
(** Formatter::stop always returns, and leaves no document. *)
Theorem C51_stop_returns : forall f, freach f -> exists N, forall n, N <= n ->
  exists b f', fstop n f = Ok b f' /\ b = f_playing f /\ f_playing f' = false /\ f_doc f' = None.
Proof. exact f_C51_stop. Qed.
Print Assumptions C51_stop_returns.
(** With switches, memory leaks: what is in a switch is never deleted, and may go on playing. *)
Theorem C51_switch_leaks_refuted : exists D s h x xb, wf_doc D /\ reach D s /\ deleteObject D 64 64 (d_root D) (heapOf D s) = Ok tt h /\
  inside D (d_root D) x /\ d_obj D !! x = Some xb /\ is_Some (h_obj h !! x) /\ is_media (ob_kind xb) = true /\
  evState (h_st h) (ob_lambda xb) = OCCURRING /\ o_player (ostOf (h_st h) x) <> None.
Proof. exact f_C51_leak. Qed.
Print Assumptions C51_switch_leaks_refuted.

Example C51_nonvacuous : exists s, wf_doc demo /\ reach demo s /\ evState s 101 = OCCURRING /\ evState s 103 = OCCURRING /\ o_player (ostOf s 3) <> None /\
  exists h, deleteObject demo 64 64 (d_root demo) (heapOf demo s) = Ok tt h /\ h_gone h = [1;7;5;6;4;3;2]%positive.
Proof. exact w_C51. Qed.

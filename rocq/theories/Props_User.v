(** Props_User.v -- property C23: user data.  Vocabulary: UserSpec.v. *)
From Verif Require Import UserFacts UserSpec.
Open Scope string_scope.
Open Scope list_scope.

(** C23, one call.  After any history of calls, setData cleans exactly what the last call
    for the same key attached (if it had a clean-up function), reports whether the key is
    new, and from then on getData returns the value just set for that key and what it
    returned before for any other; the call is undefined only when it removes a key that
    has no value. *)
Theorem C23_set_get : forall h u k v f, history h u ->
  match usetData k v f u with
  | Ok b u' => u_cleaned u' = u_cleaned u ++ cleanupFor (lastFor h k) /\ (b = true <-> v <> None /\ lastFor h k = None) /\
      (forall key, ugetData key u' = Ok (if String.eqb k key then v else fst <$> lastFor h key) u')
  | Crash _ => v = None /\ lastFor h k = None
  | NoFuel => False
  end.
Proof. exact f_C23_set. Qed.
Print Assumptions C23_set_get.

(** C23, whole histories.  When the container is destroyed, the calls of clean-up
    functions made since it was created are exactly -- each as many times -- the values
    attached with a clean-up function.  (Histories in which a key without value is
    removed are undefined, [C23_refuted], and not covered: hence the suffix.) *)
Theorem C23_cleaned_once_partial : forall h u, history h u -> udestroy u ≡ₚ owed h.
Proof. exact f_C23_total. Qed.
Print Assumptions C23_cleaned_once_partial.

(** C23 refuted for all histories: removing a key that has no value is undefined. *)
Theorem C23_refuted : exists h u k, history h u /\ usetData k None None u = Crash (CUB "aux-ginga.cpp:793").
Proof. exists [], unew, "x". split; [constructor|reflexivity]. Qed.
Print Assumptions C23_refuted.

(** Runs a history; only used by the example. *)
Definition urun (l : list call) : option udata :=
  foldl (fun u c => match u, c with
    | Some u, (k, v, f) => match usetData k v f u with Ok _ u' => Some u' | _ => None end
    | None, _ => None end) (Some unew) l.
Lemma urun_history l : forall u, urun l = Some u -> history l u.
Proof.
  induction l as [|[[k v] f] l IH] using rev_ind; intros u E; [injection E as <-; constructor|].
  unfold urun in E. rewrite foldl_app in E. cbn [foldl] in E. fold (urun l) in E.
  destruct (urun l) as [u0|] eqn:E0; [|done]. destruct (usetData k v f u0) as [b u'| |] eqn:Es; try done.
  injection E as <-. econstructor; [by apply IH|exact Es].
Qed.
(** Two keys, one overwritten, one removed, one left for the destructor. *)
Example C23_nonvacuous : exists h u, history h u /\ u_cleaned u = [(1, 10); (2, 11)]%positive /\
  udestroy u = [(1, 10); (2, 11); (1, 12)]%positive /\
  owed h = [(1, 10); (2, 11); (1, 12)]%positive /\ length h = 5%nat.
Proof.
  set (l := [("a", Some 10%positive, Some 1%positive); ("a", Some 11%positive, Some 2%positive); ("a", None, None);
    ("b", Some 13%positive, None); ("c", Some 12%positive, Some 1%positive)] : list call).
  assert (H : match urun l with Some u => bool_decide (u_cleaned u = [(1, 10); (2, 11)]%positive) &&
    bool_decide (udestroy u = [(1, 10); (2, 11); (1, 12)]%positive) | None => false end = true) by (vm_compute; reflexivity).
  destruct (urun l) as [u|] eqn:E; [|discriminate H]. apply andb_true_iff in H as [H1 H2].
  apply bool_decide_eq_true in H1, H2.
  exists l, u. split; [apply urun_history; exact E|]. split; [exact H1|]. split; [exact H2|]. split; reflexivity.
Qed.

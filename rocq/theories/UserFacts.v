(** UserFacts.v -- proofs of C23. *)
From Verif Require Import UserSpec.
Open Scope string_scope.
Open Scope list_scope.

Lemma lastFor_snoc h k v f key : lastFor (h ++ [(k, v, f)]) key = if String.eqb k key then (fun v => (v, f)) <$> v else lastFor h key.
Proof. unfold lastFor. by rewrite foldl_app. Qed.
Lemma history_map h u : history h u -> forall k, u_map u !! k = lastFor h k.
Proof.
  induction 1 as [|h u k v f b u' _ IH E]; intros key; [done|].
  rewrite lastFor_snoc. unfold usetData in E.
  assert (M : forall x w (y : udata), u_map (uclean x w y) = u_map y) by (by intros []).
  destruct v as [v|].
  - injection E as _ <-. cbn. destruct (u_map u !! k) as [[w g]|] eqn:Ek; rewrite ?M.
    + destruct (String.eqb_spec k key) as [->|Hne]; [by rewrite lookup_insert|]. rewrite lookup_insert_ne by done. by rewrite <- IH.
    + destruct (String.eqb_spec k key) as [->|Hne]; [by rewrite lookup_insert|]. rewrite lookup_insert_ne by done. by rewrite <- IH.
  - destruct (u_map u !! k) as [[w g]|] eqn:Ek; [|done]. injection E as _ <-. cbn. rewrite M.
    destruct (String.eqb_spec k key) as [->|Hne]; [by rewrite lookup_delete|]. rewrite lookup_delete_ne by done. by rewrite <- IH.
Qed.
Lemma uclean_log x w u : u_cleaned (uclean x w u) = u_cleaned u ++ cleanupFor (Some (w, x)).
Proof. destruct x; cbn; [done|by rewrite app_nil_r]. Qed.

Lemma f_C23_set h u k v f : history h u ->
  match usetData k v f u with
  | Ok b u' => u_cleaned u' = u_cleaned u ++ cleanupFor (lastFor h k) /\ (b = true <-> v <> None /\ lastFor h k = None) /\
      (forall key, ugetData key u' = Ok (if String.eqb k key then v else fst <$> lastFor h key) u')
  | Crash _ => v = None /\ lastFor h k = None
  | NoFuel => False
  end.
Proof.
  intros Hh. pose proof (history_map _ _ Hh) as HM. pose proof (HM k) as Hk.
  destruct (usetData k v f u) as [b u'|c|] eqn:E.
  - assert (Hh' : history (h ++ [(k, v, f)]) u') by (econstructor; eauto).
    assert (HG : forall key, ugetData key u' = Ok (if String.eqb k key then v else fst <$> lastFor h key) u').
    { intros key. unfold ugetData, gets. rewrite (history_map _ _ Hh'), lastFor_snoc. destruct (String.eqb k key); [by destruct v|done]. }
    split; [|split; [|exact HG]]; clear HG Hh'; unfold usetData in E; rewrite <- Hk; destruct (u_map u !! k) as [[w g]|]; destruct v as [v|]; try done; injection E as <- <-; cbn [u_cleaned].
    + by rewrite uclean_log.
    + by rewrite uclean_log.
    + by rewrite app_nil_r.
    + split; [done|]. by intros [_ ?].
    + split; [done|]. by intros [? _].
    + split; done.
  - unfold usetData in E. rewrite <- Hk. destruct (u_map u !! k) as [[w g]|]; destruct v as [v|]; done.
  - unfold usetData in E. destruct (u_map u !! k) as [[w g]|]; destruct v as [v|]; done.
Qed.
(** The entries of the container and their clean-ups. *)
Definition due (m : gmap string (uval * option ufn)) : list (ufn * uval) := map_to_list m ≫= fun kv => cleanupFor (Some (snd kv)).
Lemma udestroy_due u : udestroy u = u_cleaned u ++ due (u_map u).
Proof.
  unfold udestroy, due. generalize (map_to_list (u_map u)) as l. intros l. revert u. induction l as [|[k [w x]] l IH]; intros u; cbn; [by rewrite app_nil_r|].
  rewrite IH, uclean_log. cbn. by rewrite <- app_assoc.
Qed.
Lemma due_insert m k x : m !! k = None -> due (<[k := x]> m) ≡ₚ cleanupFor (Some x) ++ due m.
Proof. intros Hk. unfold due. rewrite (map_to_list_insert m k x Hk). done. Qed.
Lemma due_delete m k : due m ≡ₚ cleanupFor (m !! k) ++ due (delete k m).
Proof.
  destruct (m !! k) as [x|] eqn:Ek; [|cbn; rewrite delete_notin by done; done].
  rewrite <- (insert_delete m k x Ek) at 1. apply due_insert. apply lookup_delete.
Qed.
Lemma owed_snoc h k v f : owed (h ++ [(k, v, f)]) = owed h ++ cleanupFor ((fun v => (v, f)) <$> v).
Proof. unfold owed. rewrite omap_app. f_equal. by destruct v, f. Qed.
Lemma f_C23_total h u : history h u -> udestroy u ≡ₚ owed h.
Proof.
  induction 1 as [|h u k v f b u' Hh IH E]; [done|]. rewrite udestroy_due in *.
  rewrite owed_snoc. rewrite <- IH. clear IH. unfold usetData in E.
  rewrite (due_delete (u_map u) k).
  assert (M : forall x w (y : udata), u_map (uclean x w y) = u_map y) by (by intros []).
  assert (G : forall x, due (<[k := x]> (u_map u)) ≡ₚ cleanupFor (Some x) ++ due (delete k (u_map u))).
  { intros x. rewrite (due_delete _ k), lookup_insert. by rewrite delete_insert_delete. }
  destruct (u_map u !! k) as [[w g]|]; destruct v as [v|]; try done; injection E as _ <-; cbn [u_cleaned u_map]; rewrite ?uclean_log, ?M, ?G; cbn [cleanupFor fmap option_fmap option_map]; rewrite ?app_nil_r.
  - rewrite <- !app_assoc. rewrite (Permutation_app_comm (cleanupFor (Some (v, f)))). by rewrite !app_assoc.
  - by rewrite <- !app_assoc.
  - cbn. rewrite (Permutation_app_comm (cleanupFor (Some (v, f)))). by rewrite !app_assoc.
Qed.

(** PredFacts.v -- predicates and references evaluate as PredSpec.v says. *)
From Verif Require Export PredSpec.
Open Scope string_scope.
Open Scope list_scope.

Lemma str_eqb_iff a b : String.eqb a b = true <-> a = b.
Proof. apply String.eqb_eq. Qed.
Lemma ascii_compare_lt c d : Ascii.compare c d = Lt <-> (N_of_ascii c < N_of_ascii d)%N.
Proof. unfold Ascii.compare. by rewrite N.compare_lt_iff. Qed.
Lemma ascii_compare_eq c d : Ascii.compare c d = Eq <-> c = d.
Proof.
  unfold Ascii.compare. rewrite N.compare_eq_iff. split; [|by intros ->].
  intros H. rewrite <- (ascii_N_embedding c), <- (ascii_N_embedding d). by rewrite H.
Qed.
Lemma compare_lex a b : String.compare a b = Lt <-> lex a b.
Proof.
  revert b. induction a as [|c a IH]; intros [|d b]; cbn.
  - split; [done|by inversion 1].
  - split; [constructor|done].
  - split; [done|by inversion 1].
  - destruct (Ascii.compare c d) eqn:E.
    + apply ascii_compare_eq in E as <-. rewrite IH. split; [by constructor|].
      inversion 1; subst; [lia|done].
    + split; [intros _; constructor; by apply ascii_compare_lt|done].
    + split; [done|]. inversion 1; subst.
      * match goal with HH : (_ < _)%N |- _ => apply ascii_compare_lt in HH end. congruence.
      * assert (Ascii.compare d d = Eq) by (by apply ascii_compare_eq). congruence.
Qed.
Lemma compare_eq a b : String.compare a b = Eq <-> a = b.
Proof.
  split; [apply String.compare_eq_iff|]. intros <-. induction a as [|c a IH]; cbn; [done|].
  by rewrite (proj2 (ascii_compare_eq c c) eq_refl).
Qed.
Lemma str_lt_lex a b : str_lt a b = true <-> lex a b.
Proof. unfold str_lt, String.ltb. rewrite <- compare_lex. by destruct (String.compare a b). Qed.
Lemma str_le_lex a b : str_le a b = true <-> a = b \/ lex a b.
Proof.
  unfold str_le, String.leb. rewrite <- compare_lex, <- compare_eq.
  destruct (String.compare a b); split; intros; try done; auto. by destruct H.
Qed.
Lemma eval_test_compares l t r : eval_test l t r = true <-> compares l t r.
Proof.
  destruct t; cbn.
  - apply String.eqb_eq.
  - rewrite negb_true_iff. apply String.eqb_neq.
  - apply str_lt_lex.
  - apply str_le_lex.
  - apply str_lt_lex.
  - rewrite str_le_lex. split; intros [->|]; auto.
Qed.

Section Eval.
Context (rf : string -> option string) (Hrf : forall x, Ascii.eqb (char0 x) "$" = false -> rf x = None).
Lemma operand_value x : operand rf x = valueOf rf x.
Proof.
  unfold operand, valueOf. destruct (Ascii.eqb (char0 x) "$") eqn:E.
  - by destruct (rf x).
  - by rewrite (Hrf x E).
Qed.
Lemma eval_holds p : forall b, eval_pred rf p = Some b -> (b = true <-> holds rf p).
Proof.
  induction p as [| |l t r|cs IH|cs IH|cs IH] using pred_ind'; intros b.
  - intros [= <-]. cbn. split; [done|tauto].
  - intros [= <-]. done.
  - intros [= <-]. cbn [holds]. rewrite !operand_value. apply eval_test_compares.
  - done.
  - induction IH as [|c cs Hc Hcs IHc] in b |- *; cbn.
    + intros [= <-]. done.
    + destruct (eval_pred rf c) as [[]|] eqn:E; [| |done].
      * intros Hb. specialize (IHc b Hb). specialize (Hc true eq_refl). rewrite IHc. cbn. tauto.
      * intros [= <-]. specialize (Hc false eq_refl). split; [done|]. intros [H _]. by apply Hc.
  - induction IH as [|c cs Hc Hcs IHc] in b |- *; cbn.
    + intros [= <-]. split; [done|tauto].
    + destruct (eval_pred rf c) as [[]|] eqn:E; [| |done].
      * intros [= <-]. specialize (Hc true eq_refl). tauto.
      * intros Hb. specialize (IHc b Hb). specialize (Hc false eq_refl). rewrite IHc. cbn.
        split; [auto|]. intros [H|H]; [|done]. by apply Hc in H.
Qed.
Lemma eval_defined p : negFree p -> exists b, eval_pred rf p = Some b.
Proof.
  induction p as [| |l t r|cs IH|cs IH|cs IH] using pred_ind'; try (intros _; by eexists).
  - done.
  - induction IH as [|c cs Hc Hcs IHc]; cbn; [by eexists|]. intros [H1 H2].
    destruct (Hc H1) as [[] ->]; [by apply IHc|by eexists].
  - induction IH as [|c cs Hc Hcs IHc]; cbn; [by eexists|]. intros [H1 H2].
    destruct (Hc H1) as [[] ->]; [by eexists|by apply IHc].
Qed.
End Eval.

(** References. *)
Lemma find_char_spec c x i y : find_char c x = Some (i, y) <->
  x = (i ++ String c y)%string /\ ~ In c (list_ascii_of_string i).
Proof.
  revert i. induction x as [|d x IH]; intros i; cbn.
  - split; [done|]. intros [H _]. by destruct i.
  - destruct (Ascii.eqb_spec d c) as [->|Hne].
    + split.
      * intros [= <- <-]. split; [done|]. cbn. tauto.
      * intros [H1 H2]. destruct i as [|e i]; cbn in H1; [by injection H1 as ->|]. injection H1 as <- _. exfalso. apply H2. by left.
    + destruct (find_char c x) as [[i' y']|] eqn:E.
      * split.
        { intros [= <- <-]. destruct (proj1 (IH i')) as [-> H2]; [done|]. split; [done|].
          cbn. intros [?|?]; [congruence|tauto]. }
        { intros [H1 H2]. destruct i as [|e i]; cbn in H1; [by injection H1 as -> _|]. injection H1 as <- H1.
          assert (Some (i', y') = Some (i, y)) as [= -> ->]; [|done]. apply IH. split; [done|]. cbn in H2. tauto. }
      * split; [done|]. intros [H1 H2]. destruct i as [|e i]; cbn in H1; [by injection H1 as -> _|]. injection H1 as <- H1.
        assert (None = Some (i, y)); [|done]. apply IH. split; [done|]. cbn in H2. tauto.
Qed.

Section Ref.
Context (D : doc).
Lemma hasId_spec i o : o ∈ d_objs D -> hasId D i o = true <-> idOf D o i.
Proof.
  intros Hin. unfold hasId, idOf. destruct (d_obj D !! o) as [ob|] eqn:E.
  - rewrite String.eqb_eq. split; [eauto|]. intros (_ & ob' & H1 & H2). congruence.
  - split; [done|]. intros (_ & ob' & H1 & _). congruence.
Qed.
Lemma hasAlias_spec i o : o ∈ d_objs D -> hasAlias D i o = true <-> aliasOf D o i.
Proof.
  intros Hin. unfold hasAlias, aliasOf. destruct (d_obj D !! o) as [ob|] eqn:E.
  - rewrite existsb_exists. split.
    + intros ([j c] & H1 & H2). cbn in H2. apply String.eqb_eq in H2 as ->. split; [done|].
      exists ob, c. split; [done|]. by apply elem_of_list_In.
    + intros (_ & ob' & c & H1 & H2). simplify_eq. exists (i, c). split; [by apply elem_of_list_In|]. cbn. apply String.eqb_refl.
  - split; [done|]. intros (_ & ob' & c & H1 & _). congruence.
Qed.
Lemma find_none_id i : List.find (hasId D i) (d_objs D) = None <-> forall o, ~ idOf D o i.
Proof.
  split.
  - intros H o Hid. assert (Hin : o ∈ d_objs D) by apply Hid. assert (Hf := find_none _ _ H o (proj1 (elem_of_list_In _ _) Hin)).
    apply (hasId_spec i o Hin) in Hid. congruence.
  - intros H. destruct (List.find (hasId D i) (d_objs D)) as [o|] eqn:E; [|done].
    apply find_some in E as [H1 H2]. apply elem_of_list_In in H1. apply hasId_spec in H2; [|done]. by apply H in H2.
Qed.
(** Looking up an id or alias finds an object known by it, and fails only if there is none. *)
Lemma lookup_known i o : getObjectByIdOrAlias D i = Some o -> knownAs D o i.
Proof.
  unfold getObjectByIdOrAlias. destruct (List.find (hasId D i) (d_objs D)) as [o'|] eqn:E.
  - intros [= ->]. apply find_some in E as [H1 H2]. apply elem_of_list_In in H1. left. by apply hasId_spec.
  - intros H%find_some. destruct H as [H1 H2]. apply elem_of_list_In in H1. right.
    split; [by apply find_none_id|by apply hasAlias_spec].
Qed.
Lemma lookup_unknown i : getObjectByIdOrAlias D i = None <-> forall o, ~ knownAs D o i.
Proof.
  split.
  - unfold getObjectByIdOrAlias. destruct (List.find (hasId D i) (d_objs D)) as [o'|] eqn:E; [done|].
    intros H o [Hid|[_ Ha]].
    + rewrite find_none_id in E. by apply E in Hid.
    + assert (Hin : o ∈ d_objs D) by apply Ha. assert (Hf := find_none _ _ H o (proj1 (elem_of_list_In _ _) Hin)).
      apply (hasAlias_spec i o Hin) in Ha. congruence.
  - intros H. destruct (getObjectByIdOrAlias D i) as [o|] eqn:E; [|done]. apply lookup_known in E. by apply H in E.
Qed.

Lemma ref_some s ref v : evalPropertyRef D s ref = Some v ->
  exists i name o, isRef ref i name /\ knownAs D o i /\ v = propOf s o name.
Proof.
  unfold evalPropertyRef. destruct ref as [|c rest]; [done|].
  destruct (find_char "." rest) as [[i name]|] eqn:E; [|by repeat case_match].
  destruct (getObjectByIdOrAlias D i) as [o|] eqn:E2; [|by repeat case_match].
  intros H. assert (c = "$"%char /\ Some (propOf s o name) = Some v) as [-> [= <-]] by (by repeat case_match; simplify_eq).
  exists i, name, o. apply find_char_spec in E as [-> H2].
  split; [split; [done|exact H2]|]. split; [by apply lookup_known|done].
Qed.
Lemma ref_is s ref i name : isRef ref i name ->
  evalPropertyRef D s ref = match getObjectByIdOrAlias D i with Some o => Some (propOf s o name) | None => None end.
Proof.
  intros [-> H]. change ("$" +:+ i +:+ "." +:+ name)%string with (String "$" (i +:+ "." +:+ name)). unfold evalPropertyRef.
  assert (E : find_char "." (i ++ "." ++ name)%string = Some (i, name)) by (by apply find_char_spec).
  by rewrite E.
Qed.
Lemma ref_none s ref : (forall i name o, isRef ref i name -> ~ knownAs D o i) <-> evalPropertyRef D s ref = None.
Proof.
  split.
  - intros H. destruct (evalPropertyRef D s ref) as [v|] eqn:E; [|done].
    apply ref_some in E as (i & name & o & H1 & H2 & _). by apply (H i name o) in H2.
  - intros E i name o H1 H2. rewrite (ref_is _ _ _ _ H1) in E.
    destruct (getObjectByIdOrAlias D i) eqn:E2; [done|]. rewrite lookup_unknown in E2. by apply E2 in H2.
Qed.
Lemma ref_dollar s x : Ascii.eqb (char0 x) "$" = false -> evalPropertyRef D s x = None.
Proof.
  destruct x as [|c x]; [done|]. cbn. intros H. destruct (decide (c = "$"%char)) as [->|Hne]; [done|].
  by repeat case_match; simplify_eq.
Qed.
Lemma evalPredicate_ok p s b s' : evalPredicate D p s = Ok b s' ->
  s' = s /\ (b = true <-> holds (evalPropertyRef D s) p).
Proof.
  unfold evalPredicate. destruct (eval_pred _ _) as [b'|] eqn:E; [|done]. intros [= <- <-]. split; [done|].
  eapply eval_holds; [|exact E]. intros x. apply ref_dollar.
Qed.
Lemma evalPredicate_defined p s : negFree p -> exists b, evalPredicate D p s = Ok b s.
Proof.
  intros H. unfold evalPredicate. destruct (eval_defined (evalPropertyRef D s) p H) as [b ->]. by exists b.
Qed.
End Ref.
Lemma isRef_unique ref i name i' name' : isRef ref i name -> isRef ref i' name' -> i = i' /\ name = name'.
Proof.
  intros [-> H] [E H']. injection E as E.
  assert (E1 : find_char "." (i ++ "." ++ name)%string = Some (i, name)) by (by apply find_char_spec).
  assert (E2 : find_char "." (i ++ "." ++ name)%string = Some (i', name')).
  { rewrite E. by apply find_char_spec. }
  rewrite E1 in E2. by injection E2.
Qed.

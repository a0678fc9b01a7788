(** StrFacts.v -- facts about the string functions of Str.v. *)
From Verif Require Export ParseSpec Num.
Open Scope string_scope.
Open Scope list_scope.

Lemma sapp_cons c a b : (String c a ++ b)%string = String c (a ++ b).
Proof. reflexivity. Qed.
Lemma chars_app a b : chars (a ++ b)%string = chars a ++ chars b.
Proof.
  unfold chars. induction a as [|c a IH]; [reflexivity|]. rewrite sapp_cons. cbn. f_equal. exact IH.
Qed.
Lemma chars_inj a b : chars a = chars b -> a = b.
Proof.
  unfold chars. intros H. rewrite <- (string_of_list_ascii_of_string a), H.
  apply string_of_list_ascii_of_string.
Qed.
Lemma chars_of l : chars (string_of_list_ascii l) = l.
Proof. apply list_ascii_of_string_of_list_ascii. Qed.
Lemma sapp_nil s : (s ++ "")%string = s.
Proof. apply chars_inj. rewrite chars_app. apply app_nil_r. Qed.
Lemma sapp_assoc a b c : ((a ++ b) ++ c)%string = (a ++ b ++ c)%string.
Proof. apply chars_inj. rewrite !chars_app. symmetry. apply app_assoc. Qed.
Lemma srev_chars s : chars (srev s) = rev (chars s).
Proof. unfold srev. apply chars_of. Qed.
Lemma srev_app a b : srev (a ++ b) = (srev b ++ srev a)%string.
Proof. apply chars_inj. rewrite srev_chars, !chars_app, !srev_chars, <- rev_app_distr. reflexivity. Qed.
Lemma srev_srev s : srev (srev s) = s.
Proof. apply chars_inj. rewrite !srev_chars. apply rev_involutive. Qed.
Lemma srev_cons c s : srev (String c s) = (srev s ++ String c "")%string.
Proof. apply chars_inj. rewrite srev_chars, chars_app, srev_chars. reflexivity. Qed.

Lemma free_cons c d s : free c (String d s) <-> d <> c /\ free c s.
Proof. unfold free. cbn. tauto. Qed.
Lemma free_app c a b : free c (a ++ b) <-> free c a /\ free c b.
Proof. unfold free. rewrite chars_app, in_app_iff. tauto. Qed.
Lemma free_nil c : free c "".
Proof. exact id. Qed.

Lemma cstr_free s : free NUL s -> cstr s = s.
Proof.
  induction s as [|c s IH]; intros H; [reflexivity|]. apply free_cons in H as [Hc H].
  cbn [cstr]. destruct (Ascii.eqb_spec c "000"); [contradiction|]. rewrite IH by exact H. reflexivity.
Qed.
Lemma cstr_is_free s : free NUL (cstr s).
Proof.
  induction s as [|c s IH]; [exact id|]. cbn [cstr].
  destruct (Ascii.eqb_spec c "000"); [exact id|]. apply free_cons. split; assumption.
Qed.

(** ** Splitting. *)
Lemma split_item sep tok it rest :
  free sep it -> split_go sep tok (it ++ String sep rest) = (srev tok ++ it)%string :: split_go sep "" rest.
Proof.
  revert tok. induction it as [|c it IH]; intros tok Hf.
  - change ("" ++ String sep rest)%string with (String sep rest). cbn [split_go].
    rewrite Ascii.eqb_refl, sapp_nil. reflexivity.
  - apply free_cons in Hf as [Hc Hf]. rewrite sapp_cons; cbn [split_go].
    destruct (Ascii.eqb_spec c sep); [contradiction|].
    rewrite IH by exact Hf. rewrite srev_cons, sapp_assoc. reflexivity.
Qed.
Lemma split_last sep tok it :
  free sep it -> split_go sep tok it = (if is_empty (srev tok ++ it) then [] else [srev tok ++ it])%string.
Proof.
  revert tok. induction it as [|c it IH]; intros tok Hf.
  - cbn. rewrite sapp_nil. destruct tok as [|c tok]; [reflexivity|].
    rewrite srev_cons. destruct (srev tok); reflexivity.
  - apply free_cons in Hf as [Hc Hf]. cbn [split_go].
    destruct (Ascii.eqb_spec c sep); [contradiction|].
    rewrite IH by exact Hf. rewrite srev_cons, sapp_assoc. reflexivity.
Qed.
Lemma split_join sep items :
  Forall (free sep) items ->
  xstrsplit (sep_join sep items) sep =
    match List.rev items with "" :: r => List.rev r | _ => items end.
Proof.
  unfold xstrsplit, sep_join. induction items as [|it items IH]; intros H; [reflexivity|].
  inversion H as [|x l Hx Hl]; subst. destruct items as [|it2 items].
  - cbn [String.concat]. rewrite split_last by exact Hx. destruct it; reflexivity.
  - change (String.concat (String sep "") (it :: it2 :: items))
      with (it ++ String sep "" ++ String.concat (String sep "") (it2 :: items))%string.
    change (String sep "" ++ ?x)%string with (String sep x). rewrite split_item by exact Hx. rewrite IH by exact Hl.
    change (srev "" ++ it)%string with it.
    change (rev (it :: it2 :: items)) with (rev (it2 :: items) ++ [it]).
    assert (Hne : rev (it2 :: items) <> []) by (cbn; destruct (rev items); discriminate).
    destruct (rev (it2 :: items)) as [|[|c s] r] eqn:E; [contradiction| |].
    + cbn. rewrite rev_app_distr. reflexivity.
    + reflexivity.
Qed.

(** ** White space. *)
Lemma isspace_white c : g_isspace c = true <-> white c.
Proof.
  assert (E : g_isspace c = existsb (N.eqb (N_of_ascii c)) [32; 9; 10; 12; 13]%N).
  { destruct c as [[] [] [] [] [] [] [] []]; reflexivity. }
  rewrite E, existsb_exists. unfold white. split.
  - intros (x & Hx & Heq). apply N.eqb_eq in Heq. subst. exact Hx.
  - intros H. eexists; split; [exact H|apply N.eqb_refl].
Qed.
Lemma isspace_not c : g_isspace c = false <-> ~ white c.
Proof. rewrite <- isspace_white. destruct (g_isspace c); split; congruence. Qed.
Lemma chug_spec s : exists l, s = (l ++ chug s)%string /\ blank l /\ (forall c u, chug s = String c u -> ~ white c).
Proof.
  induction s as [|c s (l & E & Hl & Hn)]; [exists ""; repeat split; [constructor|discriminate]|].
  cbn [chug]. destruct (g_isspace c) eqn:Ec.
  - exists (String c l). rewrite sapp_cons, <- E. repeat split; [|exact Hn].
    constructor; [by apply isspace_white|exact Hl].
  - exists "". repeat split; [constructor|]. intros c' u [= <- <-]. by apply isspace_not.
Qed.
Lemma blank_app a b : blank (a ++ b) <-> blank a /\ blank b.
Proof. unfold blank. rewrite chars_app. apply Forall_app. Qed.
Lemma blank_srev a : blank (srev a) <-> blank a.
Proof.
  unfold blank. rewrite srev_chars, !List.Forall_forall. split; intros H x Hx; apply H.
  - by apply in_rev in Hx. - by apply in_rev.
Qed.
Lemma chug_blank_app l s : blank l -> (forall c u, s = String c u -> ~ white c) -> chug (l ++ s) = s.
Proof.
  induction l as [|c l IH]; intros Hl Hs.
  - change ("" ++ s)%string with s. destruct s as [|c s]; [reflexivity|]. cbn. rewrite (proj2 (isspace_not c)); [reflexivity|].
    eapply Hs; reflexivity.
  - inversion Hl; subst. rewrite sapp_cons. cbn [chug]. rewrite (proj2 (isspace_white c)) by assumption. apply IH; assumption.
Qed.
(** [xstrstrip] computes the stripped string. *)
Lemma strip_stripped s t : stripped s t -> chug (chomp s) = t.
Proof.
  intros (l & r & -> & Hl & Hr & Hb & He). unfold chomp.
  rewrite <- !sapp_assoc, srev_app.
  rewrite srev_app. destruct t as [|c t].
  - change (srev "" ++ srev l)%string with (srev l).
    pose proof (chug_spec (srev r ++ srev l)) as (x & E & Hx & Hn).
    assert (Hbl : blank (srev r ++ srev l)) by (apply blank_app; split; apply blank_srev; assumption).
    destruct (chug (srev r ++ srev l)) as [|c u]; [reflexivity|].
    rewrite E in Hbl. apply blank_app in Hbl as [_ Hbl]. inversion Hbl; subst.
    exfalso. eapply Hn; [reflexivity|assumption].
  - rewrite chug_blank_app.
    + rewrite <- srev_app, srev_srev. apply chug_blank_app; [exact Hl|exact Hb].
    + apply blank_srev. exact Hr.
    + intros c' u E.
      destruct (srev (String c t)) as [|d v] eqn:E3.
      * apply (f_equal srev) in E3. rewrite srev_srev in E3. discriminate.
      * rewrite sapp_cons in E. injection E as -> _. apply (He c' (srev v)).
        apply (f_equal srev) in E3. rewrite srev_srev in E3. rewrite E3. apply srev_cons.
Qed.

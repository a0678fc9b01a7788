(** LtabStr.v -- the strings of NCL-ltab tables. *)
From Verif Require Export LtabSpec.
From Verif Require Import StrFacts DecFacts PredFacts.
Open Scope string_scope.
Open Scope list_scope.

Lemma tolower_eq a b : tolower a = tolower b <-> sameLetter a b.
Proof.
  assert (Inj : forall x y : ascii, N_of_ascii x = N_of_ascii y -> x = y) by (intros x y H; rewrite <- (ascii_N_embedding x), H; apply ascii_N_embedding).
  unfold tolower, sameLetter. pose proof (N_ascii_bounded a) as Ha. pose proof (N_ascii_bounded b) as Hb. split.
  - intros H. destruct (N.leb_spec 65 (N_of_ascii a)), (N.leb_spec (N_of_ascii a) 90), (N.leb_spec 65 (N_of_ascii b)), (N.leb_spec (N_of_ascii b) 90); cbn [andb] in H;
      apply (f_equal N_of_ascii) in H; rewrite ?N_ascii_embedding in H by lia; try (left; apply Inj; lia); try lia.
  - intros H. apply Inj. destruct (N.leb_spec 65 (N_of_ascii a)), (N.leb_spec (N_of_ascii a) 90), (N.leb_spec 65 (N_of_ascii b)), (N.leb_spec (N_of_ascii b) 90); cbn [andb];
      rewrite ?N_ascii_embedding by lia; destruct H as [->|[[? ?]|[? ?]]]; lia.
Qed.
Lemma caseeq_iff a b : xstrcaseeq a b = true <-> sameWord (cstr a) (cstr b).
Proof.
  unfold xstrcaseeq. rewrite String.eqb_eq. generalize (cstr a) (cstr b). clear a b. intros a. induction a as [|x a IH]; intros [|y b]; cbn [smap]; unfold sameWord; cbn [chars list_ascii_of_string].
  - split; [constructor|done].
  - split; [done|]. intros H. inversion H.
  - split; [done|]. intros H. inversion H.
  - split.
    + intros [= E1 E2]. constructor; [by apply tolower_eq|by apply IH].
    + intros H. inversion H as [|x1 y1 l1 l2 H1 H2]; subst. f_equal; [by apply tolower_eq|by apply IH].
Qed.
Lemma caseeq_no a b : xstrcaseeq a b = false <-> ~ sameWord (cstr a) (cstr b).
Proof. rewrite <- caseeq_iff. destruct (xstrcaseeq a b); split; congruence. Qed.
Lemma sameWord_sym a b : sameWord a b -> sameWord b a.
Proof.
  unfold sameWord. intros H. apply Forall2_flip. eapply Forall2_impl; [exact H|]. unfold flip, sameLetter. intros x y [->|[?|?]]; auto.
Qed.
Lemma text_free v s : text v = Some s -> free NUL s.
Proof. destruct v; cbn; try done; intros [= <-]; apply cstr_is_free. Qed.
Lemma without_free c s : without c s <-> free c s.
Proof. unfold without, free. by rewrite elem_of_list_In. Qed.
Lemma find_char_none c s : find_char c s = None <-> without c s.
Proof.
  unfold without. induction s as [|d s IH]; cbn [find_char chars list_ascii_of_string].
  - split; [|done]. intros _ H. by apply elem_of_nil in H.
  - destruct (Ascii.eqb_spec d c) as [->|Hne]; [split; [done|]; intros H; destruct H; left|].
    destruct (find_char c s) as [[x y]|] eqn:F.
    + split; [done|]. intros H. exfalso. destruct IH as [_ IH]. assert (X : Some (x, y) = None :> option (string * string)) by (apply IH; intros Hx; apply H; by right). done.
    + split; [|done]. intros _ H. apply elem_of_cons in H as [->|H]; [done|]. by destruct (proj1 IH eq_refl).
Qed.
Lemma find_char_some c s i n : find_char c s = Some (i, n) <-> s = (i ++ String c n)%string /\ without c i.
Proof. rewrite find_char_spec, without_free. done. Qed.
Lemma substring_0 n s : String.substring 0 n s = string_of_list_ascii (firstn n (chars s)).
Proof. revert n. induction s as [|c s IH]; intros [|n]; cbn; try done. f_equal. apply IH. Qed.
Lemma length_chars s : String.length s = List.length (chars s).
Proof. induction s; cbn; [done|]. f_equal. exact IHs. Qed.
Lemma droplast_snoc n c : droplast (n ++ String c "")%string = n.
Proof.
  unfold droplast. rewrite substring_0, length_chars, chars_app, app_length. cbn [chars list_ascii_of_string List.length].
  replace (List.length (chars n) + 1 - 1)%nat with (List.length (chars n) + 0)%nat by lia. rewrite firstn_app_2. cbn. rewrite app_nil_r. apply string_of_list_ascii_of_string.
Qed.
Lemma snoc_case s : s = "" \/ exists n c, s = (n ++ String c "")%string.
Proof.
  destruct (chars s) as [|x l] eqn:E using rev_ind; [left; by apply chars_inj|]. right. exists (string_of_list_ascii l), x. apply chars_inj. rewrite chars_app, chars_of. exact E.
Qed.
Lemma one_char (c : ascii) (x : string) : String c x = (String c "" ++ x)%string. Proof. done. Qed.
(** The three ways of naming an event. *)
Lemma names_split s : free NUL s ->
  (exists i n, find_char "@" s = Some (i, n) /\ names s i PRESENTATION (if xstrcaseeq "lambda" n then "@lambda" else n)) \/
  (find_char "@" s = None /\ exists i n, find_char "." s = Some (i, n) /\ names s i ATTRIBUTION n) \/
  (find_char "@" s = None /\ find_char "." s = None /\
     let '(i, n) := match find_char "<" s with Some x => x | None => (s, s) end in n = "" \/ (n <> "" /\ names s i SELECTION (droplast n))).
Proof.
  intros F. destruct (find_char "@" s) as [[i n]|] eqn:E1.
  - left. exists i, n. split; [done|]. apply find_char_some in E1 as [-> H1]. apply free_app in F as [_ F]. apply free_cons in F as [_ F].
    destruct (xstrcaseeq "lambda" n) eqn:C.
    + apply caseeq_iff in C. rewrite (cstr_free n F) in C. eapply nm_lambda; [reflexivity|done|by apply sameWord_sym].
    + apply caseeq_no in C. rewrite (cstr_free n F) in C. eapply nm_presentation; [reflexivity|done|]. intros X. by apply C, sameWord_sym.
  - right. apply find_char_none in E1. destruct (find_char "." s) as [[i n]|] eqn:E2.
    + left. split; [done|]. exists i, n. split; [done|]. apply find_char_some in E2 as [-> H1]. eapply nm_attribution; [reflexivity|done|done].
    + right. split; [done|]. split; [done|]. apply find_char_none in E2. destruct (find_char "<" s) as [[i n]|] eqn:E3.
      * apply find_char_some in E3 as [-> H1]. destruct (snoc_case n) as [->|(m & c & ->)]; [by left|right]. split; [by destruct m|]. rewrite droplast_snoc. eapply nm_selection; [reflexivity|done..].
      * apply find_char_none in E3. destruct (snoc_case s) as [->|(m & c & ->)]; [by left|right]. split; [by destruct m|]. rewrite droplast_snoc. eapply nm_selection'; [reflexivity|done..].
Qed.
Lemma sameWord_exact s t : (forall c, c ∈ chars t -> ~ (65 <= N_of_ascii c <= 90)%N /\ ~ (97 <= N_of_ascii c <= 122)%N) -> sameWord s t -> s = t.
Proof.
  intros H W. apply chars_inj. unfold sameWord in W. revert H. generalize dependent (chars t). generalize (chars s). clear s t. intros l1 l2 W. induction W as [|x y l1 l2 Hs W IH]; intros H; [done|]. f_equal.
  - assert (X : y ∈ y :: l2) by left. destruct (H y X) as [H1 H2]. destruct Hs as [->|[[? ?]|[? ?]]]; [done|lia|lia].
  - apply IH. intros c Hc. apply H. by right.
Qed.
Lemma testOf_is s t : free NUL s -> testOf s = Some t -> isTest s t.
Proof.
  intros F. unfold testOf.
  assert (X : forall u, Forall (fun c => (N_of_ascii c < 65)%N) (chars u) -> cstr u = u -> xstrcaseeq s u = true -> s = u).
  { intros u Hu Hc E. apply caseeq_iff in E. rewrite (cstr_free s F), Hc in E. apply sameWord_exact in E; [done|]. intros c Hin. rewrite Forall_forall in Hu. specialize (Hu _ (proj1 (elem_of_list_In _ _) Hin)). lia. }
  repeat (match goal with |- context [xstrcaseeq s ?u] => destruct (xstrcaseeq s u) eqn:?E; [apply X in E; [subst s|repeat constructor; vm_compute; done|done]; intros [= <-]; constructor|clear E] end). done.
Qed.

(** ParseFacts.v -- proofs of C24 and C25. *)
From Verif Require Export StrFacts.
Open Scope string_scope.
Open Scope list_scope.

Lemma strip_exists s : stripped s (chug (chomp s)).
Proof.
  destruct (chug_spec (srev s)) as (r & Er & Hr & Hnr).
  destruct (chug_spec (chomp s)) as (l & El & Hl & Hnl).
  exists l, (srev r). split; [|split; [exact Hl|split; [by apply blank_srev|split; [exact Hnl|]]]].
  - rewrite <- sapp_assoc, <- El. unfold chomp. rewrite <- srev_app, <- Er, srev_srev. reflexivity.
  - intros c u E. rewrite E in El. unfold chomp in El.
    apply (f_equal srev) in El. rewrite srev_srev, <- sapp_assoc, srev_app in El.
    apply (Hnr c (srev (l ++ u))). rewrite El. reflexivity.
Qed.
Lemma xstrstrip_spec s t : free NUL s -> (xstrstrip s = t <-> stripped s t).
Proof.
  intros Hf. unfold xstrstrip. rewrite cstr_free by exact Hf. split.
  - intros <-. apply strip_exists.
  - apply strip_stripped.
Qed.

(** ** C24 *)
Lemma split_join_last sep items :
  Forall (free sep) items -> List.last items "x" <> "" -> xstrsplit (sep_join sep items) sep = items.
Proof.
  intros Hf Hl. rewrite split_join by exact Hf.
  destruct items as [|x l] using rev_ind; [reflexivity|].
  rewrite rev_app_distr. cbn. rewrite last_last in Hl. destruct x; [contradiction|reflexivity].
Qed.
Lemma f_C24 sep items mn mx out :
  Forall (free sep) items -> Forall (free NUL) items -> List.last items "x" <> "" ->
  (try_parse_list (sep_join sep items) sep mn mx = Some out <->
   (mn <= List.length items <= mx)%nat /\ Forall2 stripped items out).
Proof.
  intros Hf Hn Hl. unfold try_parse_list. rewrite split_join_last by assumption.
  assert (Hs : map xstrstrip items = out <-> Forall2 stripped items out).
  { clear Hf Hl. split.
    - intros <-. induction Hn as [|x l Hx Hn IH]; cbn; constructor; [|exact IH].
      by apply xstrstrip_spec.
    - intros H. revert Hn. induction H as [|x y l l' Hx H IH]; intros Hn; [reflexivity|].
      inversion Hn; subst. cbn. f_equal; [by apply xstrstrip_spec|by apply IH]. }
  destruct (Nat.ltb_spec (List.length items) mn), (Nat.ltb_spec mx (List.length items)); cbn.
  1-3: split; [discriminate|lia].
  rewrite <- Hs. split; [intros [= ->]; split; [lia|reflexivity]|intros [_ ->]; reflexivity].
Qed.
Lemma f_C24_trailing sep items mn mx :
  Forall (free sep) items -> List.last items "x" <> "" ->
  try_parse_list (sep_join sep (items ++ [""])) sep mn mx = try_parse_list (sep_join sep items) sep mn mx.
Proof.
  intros Hf Hl. unfold try_parse_list. rewrite (split_join_last _ items) by assumption.
  rewrite split_join.
  - rewrite rev_app_distr. cbn. rewrite rev_involutive. reflexivity.
  - apply Forall_app. split; [exact Hf|]. repeat constructor. exact id.
Qed.

(** ** C25 *)
Lemma str_back_snoc s c : str_back (s ++ String c "") = Some c.
Proof.
  induction s as [|d s IH]; [reflexivity|]. rewrite sapp_cons. cbn [str_back].
  destruct (s ++ String c "")%string eqn:E; [|exact IH].
  apply (f_equal chars) in E. rewrite chars_app in E. destruct (chars s); discriminate.
Qed.
Lemma substring_prefix a b : String.substring 0 (String.length a) (a ++ b) = a.
Proof.
  induction a as [|c a IH]; [destruct b; reflexivity|]. rewrite sapp_cons. cbn. f_equal. exact IH.
Qed.
Lemma length_snoc a c : String.length (a ++ String c "") = S (String.length a).
Proof. induction a as [|d a IH]; [reflexivity|]. rewrite sapp_cons. cbn. f_equal. exact IH. Qed.
Lemma str_inner_wrap c s d : str_inner (String c (s ++ String d "")) = s.
Proof.
  cbn [str_inner]. destruct (s ++ String d "")%string eqn:E.
  - apply (f_equal chars) in E. rewrite chars_app in E. destruct (chars s); discriminate.
  - rewrite <- E, length_snoc. cbn. rewrite Nat.sub_0_r. apply substring_prefix.
Qed.

Definition quote (v : string) : string := String "'" (v ++ "'").
Lemma quoted_stripped v : stripped (quote v) (quote v).
Proof.
  exists "", "". split; [rewrite sapp_nil; reflexivity|]. split; [constructor|]. split; [constructor|].
  assert (Hq : ~ white "'") by (rewrite <- isspace_not; reflexivity).
  split.
  - intros c u [= <- _]. exact Hq.
  - intros c u E. unfold quote in E. rewrite <- sapp_cons in E.
    apply (f_equal str_back) in E. rewrite !str_back_snoc in E. injection E as <-. exact Hq.
Qed.
Lemma quote_free c v : c <> "'"%char -> free c v -> free c (quote v).
Proof.
  intros Hc Hv. apply free_cons. split; [congruence|]. apply free_app. split; [exact Hv|].
  apply free_cons. split; [congruence|exact id].
Qed.
Lemma table_item_print kv : plain_pair kv -> table_item (print_pair kv) = Some (Some kv).
Proof.
  destruct kv as [k v]. intros ((Kc & Ke & Kn) & (Vc & Ve & Vn) & Ks). cbn [fst snd] in *.
  unfold table_item.
  assert (E : try_parse_list (print_pair (k, v)) "=" 2 2 = Some [k; quote v]).
  { change (print_pair (k, v)) with (sep_join "=" [k; quote v]).
    apply f_C24.
    - repeat constructor; [exact Ke|]. apply quote_free; [discriminate|exact Ve].
    - repeat constructor; [exact Kn|]. apply quote_free; [discriminate|exact Vn].
    - discriminate.
    - split; [cbn; lia|]. repeat constructor; [exact Ks|apply quoted_stripped]. }
  rewrite E.
  assert (Ek : xstrstrip k = k) by (by apply xstrstrip_spec).
  assert (Eq : xstrstrip (quote v) = quote v).
  { apply xstrstrip_spec; [apply quote_free; [discriminate|exact Vn]|apply quoted_stripped]. }
  rewrite Ek, Eq.
  assert (Hq : quoted (quote v) = true).
  { unfold quoted. assert (Hb : str_back (quote v) = Some "'"%char).
    { unfold quote. rewrite <- sapp_cons. apply str_back_snoc. }
    unfold quote in Hb |- *. rewrite Hb. reflexivity. }
  rewrite Hq. unfold quote. rewrite str_inner_wrap. reflexivity.
Qed.
Lemma table_items_print t acc :
  Forall plain_pair t -> table_items (map print_pair t) acc = TabOk (rev acc ++ t).
Proof.
  intros H. revert acc. induction H as [|kv t Hkv H IH]; intros acc; cbn [map table_items].
  - rewrite app_nil_r. reflexivity.
  - rewrite table_item_print by exact Hkv. rewrite IH. cbn. rewrite <- app_assoc. reflexivity.
Qed.
Lemma plain_print c kv : c <> "'"%char -> c <> "="%char -> free c (fst kv) -> free c (snd kv) ->
  free c (print_pair kv).
Proof.
  intros H1 H2 Hk Hv. unfold print_pair. apply free_app. split; [exact Hk|].
  apply free_app. split; [apply free_cons; split; [congruence|apply free_cons; split; [congruence|exact id]]|].
  apply free_app. split; [exact Hv|apply free_cons; split; [congruence|exact id]].
Qed.
Lemma free_concat c sep l : c <> sep -> Forall (free c) l -> free c (sep_join sep l).
Proof.
  intros Hc H. unfold sep_join. induction H as [|x l Hx H IH]; [exact id|].
  destruct l as [|y l]; [exact Hx|]. apply free_app. split; [exact Hx|].
  apply free_app. split; [apply free_cons; split; [congruence|exact id]|exact IH].
Qed.
Lemma f_C25 t : Forall plain_pair t -> try_parse_table (print_table t) = TabOk t.
Proof.
  intros Ht. unfold try_parse_table.
  assert (Hf : free NUL (print_table t)).
  { unfold print_table. apply free_cons. split; [discriminate|]. apply free_app. split.
    - apply free_concat; [discriminate|]. apply List.Forall_forall. intros x Hx.
      apply in_map_iff in Hx as (kv & <- & Hkv). rewrite List.Forall_forall in Ht.
      destruct (Ht kv Hkv) as ((_ & _ & Hk) & (_ & _ & Hv) & _).
      apply plain_print; try discriminate; assumption.
    - apply free_cons. split; [discriminate|exact id]. }
  assert (Hb : str_back (print_table t) = Some "}"%char).
  { unfold print_table. rewrite <- sapp_assoc. apply str_back_snoc. }
  assert (Es : xstrstrip (print_table t) = print_table t).
  { apply xstrstrip_spec; [exact Hf|]. exists "", "". split; [rewrite sapp_nil; reflexivity|].
    split; [constructor|]. split; [constructor|]. split.
    - intros c u [= <- _]. rewrite <- isspace_not. reflexivity.
    - intros c u E. rewrite E, str_back_snoc in Hb. injection Hb as ->. rewrite <- isspace_not. reflexivity. }
  rewrite Es. unfold print_table in Hb |- *. change ("{" ++ ?x)%string with (String "{" x) in *.
  set (body := (sep_join "," (map print_pair t) ++ "}")%string) in *.
  cbv iota. rewrite Hb. cbn [Ascii.eqb Bool.eqb andb]. unfold body.
  rewrite str_inner_wrap.
  rewrite split_join_last.
  - rewrite table_items_print by exact Ht. reflexivity.
  - apply List.Forall_forall. intros x Hx. apply in_map_iff in Hx as (kv & <- & Hkv).
    rewrite List.Forall_forall in Ht. destruct (Ht kv Hkv) as ((Hk & _ & _) & (Hv & _ & _) & _).
    apply plain_print; try discriminate; assumption.
  - destruct t as [|kv t] using rev_ind; [discriminate|].
    rewrite map_app. cbn [map]. rewrite last_last. unfold print_pair.
    intros E. apply (f_equal chars) in E. rewrite !chars_app in E.
    destruct (chars (fst kv)); discriminate.
Qed.

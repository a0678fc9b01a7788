(** Props_Parse.v -- properties C24 (lists), C25 (tables), C26 (times), C27
    (percentages and pixels).  Vocabulary: ParseSpec.v. *)
From Verif Require Import NumFacts.
Open Scope string_scope.
Open Scope list_scope.

(** C24.  Parsing items joined by a separator they do not contain gives the items
    without surrounding white space, exactly when their number is within the
    bounds.  Missing from the full claim: lists whose last item is empty. *)
Theorem C24_list_parsing_partial : forall sep items mn mx out,
  Forall (free sep) items -> Forall (free NUL) items -> List.last items "x" <> "" ->
  (try_parse_list (sep_join sep items) sep mn mx = Some out <->
   (mn <= List.length items <= mx)%nat /\ Forall2 stripped items out).
Proof. exact f_C24. Qed.
Print Assumptions C24_list_parsing_partial.
(** A trailing empty item is not counted. *)
Theorem C24_trailing_item : forall sep items mn mx,
  Forall (free sep) items -> List.last items "x" <> "" ->
  try_parse_list (sep_join sep (items ++ [""])) sep mn mx = try_parse_list (sep_join sep items) sep mn mx.
Proof. exact f_C24_trailing. Qed.
Print Assumptions C24_trailing_item.
(** So the full claim is false: the two items "a" and "" are rejected by bounds 2, 2. *)
Theorem C24_refuted : exists sep items,
  Forall (free sep) items /\ Forall (free NUL) items /\ List.length items = 2 /\
  try_parse_list (sep_join sep items) sep 2 2 = None.
Proof.
  exists ","%char, ["a"; ""]. repeat split; repeat constructor; cbn; intros H;
    repeat destruct H as [H|H]; try discriminate H; contradiction.
Qed.
Print Assumptions C24_refuted.
Example C24_nonvacuous :
  try_parse_list " 10%, ,20 ,30" "," 1 4 = Some ["10%"; ""; "20"; "30"] /\
  " 10%, ,20 ,30" = sep_join "," [" 10%"; " "; "20 "; "30"] /\
  try_parse_list " 10%, ,20 ,30" "," 1 3 = None.
Proof. repeat split; reflexivity. Qed.

(** C25.  Parsing the printed form of a table gives the table. *)
Theorem C25_table_parsing : forall t, Forall plain_pair t -> try_parse_table (print_table t) = TabOk t.
Proof. exact f_C25. Qed.
Print Assumptions C25_table_parsing.
Example C25_nonvacuous :
  Forall plain_pair [("type", "bar wipe "); ("dur", ""); ("", "it's")] /\
  print_table [("type", "bar wipe "); ("dur", ""); ("", "it's")] = "{type='bar wipe ',dur='',='it's'}".
Proof.
  split; [|reflexivity].
  repeat constructor; cbn; try (intros H; repeat destruct H as [H|H]; try discriminate H; contradiction).
  all: exists "", ""; split; [reflexivity|]; split; [constructor|]; split; [constructor|].
  all: split; [intros c u E; try discriminate E; injection E as <- _; rewrite <- isspace_not; reflexivity|].
  all: intros c u E; apply (f_equal str_back) in E; rewrite str_back_snoc in E; cbn in E;
       try discriminate E; injection E as <-; rewrite <- isspace_not; reflexivity.
Qed.

(** C26.  "Ns" and "N" are N seconds, in nanoseconds, for every numeral up to
    4611686018 (146 years; 2^53/5^9).  Missing: larger numerals. *)
Theorem C26_seconds_partial : forall ds,
  digits ds -> (value ds <= 4611686018)%N ->
  try_parse_time (numeral ds ++ "s") = TOk (value ds * 1000000000) /\
  try_parse_time (numeral ds) = TOk (value ds * 1000000000).
Proof. exact f_C26_seconds. Qed.
Print Assumptions C26_seconds_partial.
(** "HH:MM:SS". *)
Theorem C26_clock_partial : forall h m s,
  digits h -> digits m -> digits s ->
  (3600 * value h + 60 * value m + value s <= 4611686018)%N ->
  try_parse_time (numeral h ++ ":" ++ numeral m ++ ":" ++ numeral s) =
    TOk ((3600 * value h + 60 * value m + value s) * 1000000000).
Proof. exact f_C26_clock. Qed.
Print Assumptions C26_clock_partial.
(** Whatever is accepted is, up to trailing white space, of one of the forms "N",
    "Ns" and "N:N:N"; missing: each N may also be empty. *)
Theorem C26_rejects_partial : forall s t,
  free NUL s -> try_parse_time s = TOk t ->
  exists u r, s = (u ++ r)%string /\ blank r /\ timeString u.
Proof. exact f_C26_only. Qed.
Print Assumptions C26_rejects_partial.
(** The full claim is false in three ways: strings without a number are accepted;
    a larger numeral is off by some nanoseconds; a negative one is undefined
    behaviour. *)
Theorem C26_refuted :
  try_parse_time "" = TOk 0 /\ try_parse_time "s" = TOk 0 /\ try_parse_time "::" = TOk 0 /\
  try_parse_time "4611686019s" = TOk 4611686019000000512 /\
  try_parse_time "-1s" = TUB.
Proof. vm_compute. repeat split. Qed.
Print Assumptions C26_refuted.
Example C26_nonvacuous :
  digits [0;9;0]%N /\ numeral [0;9;0]%N = "090" /\ value [0;9;0]%N = 90%N /\
  try_parse_time "01:00:05" = TOk 3605000000000 /\
  try_parse_time "5 apples" = TFail /\ try_parse_time "1:2" = TFail /\ try_parse_time "1.5s" = TOk 1500000000.
Proof. repeat split; try discriminate; vm_compute; try reflexivity; repeat constructor. Qed.

(** C27.  Whatever the string, the result lies in the requested range. *)
Theorem C27_range : forall odd s base lo hi, (lo <= hi)%Z ->
  (lo <= parse_percent odd s base lo hi <= hi)%Z.
Proof. exact f_C27_range. Qed.
Print Assumptions C27_range.
Theorem C27_pixel : forall odd s, (0 <= parse_pixel odd s <= 255)%Z.
Proof. intros odd s. apply f_C27_range. discriminate. Qed.
Print Assumptions C27_pixel.
(** A plain number is itself, brought into the range. *)
Theorem C27_number : forall odd ds base lo hi,
  digits ds -> (Z.of_N (value ds) <= 2147483647)%Z -> (lo <= hi)%Z ->
  parse_percent odd (numeral ds) base lo hi =
    Z.max lo (Z.min hi (Z.of_N (value ds))).
Proof.
  intros odd ds base lo hi Hd Hv Hle. rewrite f_C27_number by assumption.
  unfold clamp. destruct (Z.gtb_spec (Z.of_N (value ds)) hi), (Z.ltb_spec (Z.of_N (value ds)) lo); lia.
Qed.
Print Assumptions C27_number.
(** "v%" of [base] is v*base/100 rounded to a nearest integer. *)
Theorem C27_percent : forall odd ds base,
  digits ds -> (0 <= base)%Z -> (Z.of_N (value ds) * base <= 100 * 2147483647)%Z ->
  (Z.abs (100 * parse_percent odd (numeral ds ++ "%") base 0 2147483647 - Z.of_N (value ds) * base) <= 50)%Z.
Proof. exact f_C27_percent. Qed.
Print Assumptions C27_percent.
Example C27_nonvacuous :
  parse_percent (fun _ => 0%Z) "33%" 1000 0 2147483647 = 330%Z /\
  parse_percent (fun _ => 0%Z) "50%" 3 0 2147483647 = 2%Z /\
  parse_percent (fun _ => 0%Z) "-5" 3 0 2147483647 = 0%Z /\
  parse_percent (fun _ => 0%Z) "300" 255 0 255 = 255%Z /\
  parse_percent (fun _ => 0%Z) "12.7px" 255 0 255 = 13%Z.
Proof. vm_compute. repeat split. Qed.

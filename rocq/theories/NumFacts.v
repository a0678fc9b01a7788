(** NumFacts.v -- proofs of C26 and C27. *)
From Verif Require Export ParseFacts Float.
Open Scope string_scope.
Open Scope list_scope.

(** ** Reading numerals. *)
Lemma digit_cases d : (d < 10)%N -> In d [0;1;2;3;4;5;6;7;8;9]%N.
Proof. intros H. cbn. lia. Qed.
Ltac each_digit H :=
  apply digit_cases in H; cbn in H;
  repeat (destruct H as [<-|H]; [reflexivity|]); contradiction.
Lemma digit_val_digit d : (d < 10)%N -> digit_val (digit d) = Some d.
Proof. intros H. each_digit H. Qed.
Definition stopper (s : string) : Prop :=
  match s with
  | EmptyString => True
  | String c _ => c = "s"%char \/ c = ":"%char \/ c = "%"%char
  end.
Lemma read_digits_numeral ds rest acc cnt :
  Forall (fun d => d < 10)%N ds -> stopper rest ->
  read_digits acc cnt (numeral ds ++ rest) =
    (fold_left (fun a d => 10 * a + d)%N ds acc, (cnt + N.of_nat (List.length ds))%N, rest).
Proof.
  intros H Hr. revert acc cnt. induction H as [|d ds Hd H IH]; intros acc cnt.
  - change (numeral [] ++ rest)%string with rest. cbn [fold_left List.length]. rewrite N.add_0_r.
    destruct rest as [|c r]; [reflexivity|]. destruct Hr as [->|[->| ->]]; reflexivity.
  - change (numeral (d :: ds) ++ rest)%string with (String (digit d) (numeral ds ++ rest)).
    cbn [read_digits]. rewrite digit_val_digit by exact Hd. rewrite IH.
    cbn [fold_left List.length]. do 2 f_equal; [f_equal; lia|lia].
Qed.
Lemma strtod_numeral ds rest :
  digits ds -> stopper rest ->
  strtod (numeral ds ++ rest) = LNum false (value ds) 1 rest.
Proof.
  intros [Hne Hd] Hr. destruct ds as [|d ds]; [contradiction|].
  inversion Hd as [|x l Hx Hl]; subst.
  assert (E1 : skip_space (numeral (d :: ds) ++ rest) = (numeral (d :: ds) ++ rest)%string).
  { change (numeral (d :: ds) ++ rest)%string with (String (digit d) (numeral ds ++ rest)).
    cbn [skip_space]. replace (c_isspace (digit d)) with false by (symmetry; each_digit Hx). reflexivity. }
  assert (E2 : read_sign (numeral (d :: ds) ++ rest) = (false, numeral (d :: ds) ++ rest)%string).
  { change (numeral (d :: ds) ++ rest)%string with (String (digit d) (numeral ds ++ rest)).
    generalize (numeral ds ++ rest)%string. intros r. each_digit Hx. }
  assert (E3 : special_start (numeral (d :: ds) ++ rest) = false).
  { change (numeral (d :: ds) ++ rest)%string with (String (digit d) (numeral ds ++ rest)).
    unfold special_start.
    assert (H1 : Ascii.eqb (tolower (digit d)) "i" = false) by each_digit Hx.
    assert (H2 : Ascii.eqb (tolower (digit d)) "n" = false) by each_digit Hx.
    rewrite H1, H2. cbn [andb orb].
    assert (H3 : match (numeral ds ++ rest)%string with
                 | String d _ => Ascii.eqb (tolower d) "x" | _ => false end = false).
    { destruct ds as [|d' ds].
      - change (numeral [] ++ rest)%string with rest.
        destruct rest as [|c r]; [reflexivity|]. destruct Hr as [->|[->| ->]]; reflexivity.
      - change (numeral (d' :: ds) ++ rest)%string with (String (digit d') (numeral ds ++ rest)).
        inversion Hl as [|y l' Hy _]; subst. each_digit Hy. }
    rewrite H3, andb_false_r. reflexivity. }
  unfold strtod. rewrite E1, E2, E3. rewrite read_digits_numeral by assumption.
  fold (value (d :: ds)). set (v := value (d :: ds)).
  assert (Hn : N.eqb (0 + N.of_nat (List.length (d :: ds))) 0 = false).
  { apply N.eqb_neq. cbn [List.length]. lia. }
  rewrite Hn.
  clearbody v.
  destruct rest as [|c r]; [|destruct Hr as [->|[->| ->]]]; cbn; rewrite N.mul_1_r; reflexivity.
Qed.
Lemma strtod_val_numeral ds rest :
  digits ds -> stopper rest ->
  strtod_val (numeral ds ++ rest) = Some (rnd (fint (Z.of_N (value ds))), rest).
Proof. intros H1 H2. unfold strtod_val. rewrite strtod_numeral by assumption. reflexivity. Qed.

Lemma numeral_free c ds : digits ds -> (N_of_ascii c < 48 \/ 57 < N_of_ascii c)%N -> free c (numeral ds).
Proof.
  intros [_ Hd] Hc Hin. unfold numeral in Hin. rewrite chars_of in Hin.
  apply in_map_iff in Hin as (d & <- & Hin). rewrite List.Forall_forall in Hd. specialize (Hd d Hin).
  unfold digit in Hc. rewrite N_ascii_embedding in Hc by lia. lia.
Qed.
Lemma numeral_snoc ds : digits ds -> exists u d, numeral ds = (u ++ String (digit d) "")%string /\ (d < 10)%N.
Proof.
  intros [Hne Hd]. destruct ds as [|d ds] using rev_ind; [contradiction|].
  exists (numeral ds), d. apply Forall_app in Hd as [_ Hd]. inversion Hd; subst. split; [|assumption].
  apply chars_inj. unfold numeral. rewrite chars_app, !chars_of, map_app. reflexivity.
Qed.
Lemma chomp_snoc u c : ~ white c -> chomp (u ++ String c "") = (u ++ String c "")%string.
Proof.
  intros H. unfold chomp. rewrite srev_app. change (srev (String c "") ++ srev u)%string with (String c (srev u)).
  cbn [chug]. rewrite (proj2 (isspace_not c) H). rewrite srev_cons, srev_srev. reflexivity.
Qed.
Lemma digit_not_white d : (d < 10)%N -> ~ white (digit d).
Proof. intros H. apply isspace_not. each_digit H. Qed.

(** ** Exact arithmetic on small integers. *)
Open Scope Z_scope.
Definition isInt (x : fl) (z : Z) : Prop := feq x (fint z).
Lemma isInt_mul x y a b m j :
  isInt x a -> isInt y b -> Z.abs (a * b) = m * 2 ^ j -> 0 <= m < 2 ^ 53 -> 0 <= j ->
  isInt (fmul x y) (a * b).
Proof.
  unfold isInt. intros Hx Hy E Hm Hj. unfold fmul.
  eapply feq_trans; [|apply (rnd_exact (a * b) m j); assumption].
  apply rnd_feq. revert Hx Hy. unfold feq, fint. cbn [fst snd].
  rewrite !Z.mul_1_r. intros -> ->. rewrite Pos2Z.inj_mul. lia.
Qed.
Lemma isInt_add x y a b :
  isInt x a -> isInt y b -> Z.abs (a + b) < 2 ^ 53 -> isInt (fadd x y) (a + b).
Proof.
  unfold isInt. intros Hx Hy E. unfold fadd.
  eapply feq_trans; [|apply (rnd_int (a + b)); assumption].
  apply rnd_feq. revert Hx Hy. unfold feq, fint. cbn [fst snd].
  rewrite !Z.mul_1_r. intros -> ->. rewrite Pos2Z.inj_mul. lia.
Qed.
Lemma isInt_fint z : isInt (fint z) z.
Proof. apply feq_refl. Qed.
Lemma to_time_int x z : isInt x z -> 0 <= z -> z * 1953125 < 2 ^ 53 -> to_time x = TOk (Z.to_N (z * 1000000000)).
Proof.
  intros Hx Hz Hb. unfold to_time.
  rewrite (ftrunc_feq_int _ (z * 1000000000)).
  - destruct (Z.leb_spec 0 (z * 1000000000)); [|lia].
    destruct (Z.ltb_spec (z * 1000000000) 18446744073709551616); [reflexivity|].
    change (2 ^ 53) with 9007199254740992 in Hb. lia.
  - apply (isInt_mul x (fint 1000000000) z 1000000000 (z * 1953125) 9); try assumption.
    + apply isInt_fint.
    + change (2 ^ 9) with 512. lia.
    + lia.
    + lia.
Qed.
Close Scope Z_scope.

Definition TBOUND : N := 4611686018.   (* 2^53 / 5^9 *)
Lemma rnd_isInt n : (n <= TBOUND)%N -> isInt (rnd (fint (Z.of_N n))) (Z.of_N n).
Proof. intros H. apply rnd_int. unfold TBOUND in H. change (2 ^ 53)%Z with 9007199254740992%Z. lia. Qed.

Lemma f_C26_seconds ds :
  digits ds -> (value ds <= 4611686018)%N ->
  try_parse_time (numeral ds ++ "s") = TOk (value ds * 1000000000) /\
  try_parse_time (numeral ds) = TOk (value ds * 1000000000).
Proof.
  intros Hd Hb.
  assert (Ht : to_time (rnd (fint (Z.of_N (value ds)))) = TOk (value ds * 1000000000)).
  { rewrite (to_time_int _ (Z.of_N (value ds))).
    - f_equal. lia.
    - apply rnd_isInt, Hb.
    - lia.
    - change (2 ^ 53)%Z with 9007199254740992%Z. lia. }
  split; unfold try_parse_time.
  - rewrite cstr_free, chomp_snoc.
    + rewrite strtod_val_numeral; [exact Ht|exact Hd|cbn; auto].
    + rewrite <- isspace_not. reflexivity.
    + apply free_app. split; [apply numeral_free; [exact Hd|left; reflexivity]|].
      apply free_cons. split; [discriminate|exact id].
  - destruct (numeral_snoc ds Hd) as (u & d & E & Hdd).
    assert (Hc : chomp (numeral ds) = numeral ds).
    { rewrite E. apply chomp_snoc, digit_not_white, Hdd. }
    rewrite cstr_free, Hc by (apply numeral_free; [exact Hd|left; reflexivity]).
    rewrite <- (sapp_nil (numeral ds)).
    rewrite strtod_val_numeral; [exact Ht|exact Hd|exact I].
Qed.
Lemma f_C26_clock h m s :
  digits h -> digits m -> digits s ->
  (3600 * value h + 60 * value m + value s <= 4611686018)%N ->
  try_parse_time (numeral h ++ ":" ++ numeral m ++ ":" ++ numeral s) =
    TOk ((3600 * value h + 60 * value m + value s) * 1000000000).
Proof.
  intros Hh Hm Hs Hb. unfold try_parse_time.
  destruct (numeral_snoc s Hs) as (u & d & E & Hdd).
  assert (Hf : forall ds, digits ds -> free NUL (numeral ds)).
  { intros ds H. apply numeral_free; [exact H|left; reflexivity]. }
  assert (Hc : free NUL ":") by (apply free_cons; split; [discriminate|exact id]).
  rewrite cstr_free.
  2:{ rewrite !free_app. repeat split; auto. }
  assert (Hch : chomp (numeral h ++ ":" ++ numeral m ++ ":" ++ numeral s)
                = (numeral h ++ ":" ++ numeral m ++ ":" ++ numeral s)%string).
  { rewrite E, <- !sapp_assoc. apply chomp_snoc, digit_not_white, Hdd. }
  rewrite Hch. rewrite strtod_val_numeral; [|exact Hh|right; left; reflexivity].
  assert (Hcol : forall x, (":" ++ x)%string = String ":" x) by reflexivity.
  rewrite !Hcol. cbn [is_empty orb]. cbv beta iota.
  replace (String.eqb (String ":" (numeral m ++ String ":" (numeral s))) "s") with false by reflexivity.
  cbv beta iota.
  rewrite strtod_val_numeral; [|exact Hm|right; left; reflexivity]. cbv beta iota.
  rewrite <- (sapp_nil (numeral s)).
  rewrite strtod_val_numeral; [|exact Hs|exact I]. cbn [is_empty].
  set (H := value h) in *. set (Mi := value m) in *. set (S := value s) in *. clearbody H Mi S.
  assert (E1 : isInt (fmul (fint 3600) (rnd (fint (Z.of_N H)))) (3600 * Z.of_N H)).
  { apply (isInt_mul _ _ 3600 (Z.of_N H) (3600 * Z.of_N H) 0); try lia.
    - apply isInt_fint. - apply rnd_isInt. unfold TBOUND. lia. }
  assert (E2 : isInt (fmul (fint 60) (rnd (fint (Z.of_N Mi)))) (60 * Z.of_N Mi)).
  { apply (isInt_mul _ _ 60 (Z.of_N Mi) (60 * Z.of_N Mi) 0); try lia.
    - apply isInt_fint. - apply rnd_isInt. unfold TBOUND. lia. }
  assert (E3 : isInt (rnd (fint (Z.of_N S))) (Z.of_N S)) by (apply rnd_isInt; unfold TBOUND; lia).
  assert (E4 := isInt_add _ _ _ _ E1 E2 ltac:(lia)).
  assert (E5 := isInt_add _ _ _ _ E4 E3 ltac:(lia)).
  rewrite (to_time_int _ _ E5).
  - f_equal. lia.
  - lia.
  - change (2 ^ 53)%Z with 9007199254740992%Z. lia.
Qed.

(** ** Only times are accepted. *)
Lemma c_isspace_white c : c_isspace c = true -> cwhite c.
Proof.
  assert (E : c_isspace c = existsb (N.eqb (N_of_ascii c)) [32; 9; 10; 11; 12; 13]%N).
  { destruct c as [[] [] [] [] [] [] [] []]; reflexivity. }
  rewrite E, existsb_exists. intros (x & Hx & Heq). apply N.eqb_eq in Heq. subst. exact Hx.
Qed.
Lemma skip_space_spec s : exists w, s = (w ++ skip_space s)%string /\ Forall cwhite (chars w).
Proof.
  induction s as [|c s (w & E & Hw)]; [exists ""; split; [reflexivity|constructor]|].
  cbn [skip_space]. destruct (c_isspace c) eqn:Ec.
  - exists (String c w). rewrite sapp_cons, <- E. split; [reflexivity|].
    constructor; [by apply c_isspace_white|exact Hw].
  - exists "". split; [reflexivity|constructor].
Qed.
Lemma read_sign_spec s : exists sg, signStr sg /\ s = (sg ++ snd (read_sign s))%string.
Proof.
  destruct s as [|c s]; [exists ""; split; [left|]; reflexivity|].
  assert (H : (c = "-" \/ c = "+" \/ read_sign (String c s) = (false, String c s))%char).
  { destruct c as [[] [] [] [] [] [] [] []]; auto. }
  destruct H as [->|[->| ->]].
  - exists "-". split; [right; right; reflexivity|reflexivity].
  - exists "+". split; [right; left; reflexivity|reflexivity].
  - exists "". split; [left; reflexivity|reflexivity].
Qed.
Lemma digit_val_isDigit c d : digit_val c = Some d -> isDigit c.
Proof.
  unfold digit_val, isDigit. destruct (N.leb_spec 48 (N_of_ascii c)), (N.leb_spec (N_of_ascii c) 57);
    cbn; intros [= <-]; lia.
Qed.
Lemma read_digits_spec s : forall acc cnt, exists ds,
  s = (ds ++ snd (read_digits acc cnt s))%string /\ allDigits ds /\
  snd (fst (read_digits acc cnt s)) = (cnt + N.of_nat (String.length ds))%N.
Proof.
  induction s as [|c s IH]; intros acc cnt; cbn [read_digits].
  - exists "". split; [reflexivity|]. split; [constructor|]. cbn. lia.
  - destruct (digit_val c) as [d|] eqn:Ed.
    + destruct (IH (acc * 10 + d)%N (cnt + 1)%N) as (ds & E & Hd & Hn).
      exists (String c ds). rewrite sapp_cons, <- E. split; [reflexivity|]. split.
      * constructor; [by eapply digit_val_isDigit|exact Hd].
      * rewrite Hn. cbn [String.length]. lia.
    + exists "". split; [reflexivity|]. split; [constructor|]. cbn. lia.
Qed.
Lemma read_exp_spec s : exists x, exponent x /\ s = (x ++ snd (read_exp s))%string.
Proof.
  destruct s as [|c s]; [exists ""; split; [left|]; reflexivity|]. unfold read_exp.
  destruct (Ascii.eqb_spec c "e") as [->|He]; [|destruct (Ascii.eqb_spec c "E") as [->|HE]]; cbn [orb].
  3: exists ""; split; [left|]; reflexivity.
  all: destruct (read_sign_spec s) as (sg & Hsg & E); destruct (read_sign s) as [neg s1] eqn:E1;
       cbn [snd] in E; destruct (read_digits_spec s1 0 0) as (ds & E2 & Hds & Hn);
       destruct (read_digits 0 0 s1) as [[v n] s2]; cbn [fst snd] in *;
       destruct (N.eqb_spec n 0) as [->|Hnz];
       [exists ""; split; [left; reflexivity|reflexivity]|].
  - exists ("e" ++ sg ++ ds)%string. split.
    + right. exists "e", sg, ds. repeat split; auto. intros ->. cbn in Hn. lia.
    + cbn [snd]. rewrite !sapp_assoc, <- E2, <- E. reflexivity.
  - exists ("E" ++ sg ++ ds)%string. split.
    + right. exists "E", sg, ds. repeat split; auto. intros ->. cbn in Hn. lia.
    + cbn [snd]. rewrite !sapp_assoc, <- E2, <- E. reflexivity.
Qed.
Lemma strtod_spec s neg n d r : strtod s = LNum neg n d r -> exists p, s = (p ++ r)%string /\ isNumber p.
Proof.
  unfold strtod. destruct (skip_space_spec s) as (w & Ew & Hw).
  destruct (read_sign_spec (skip_space s)) as (sg & Hsg & Esg).
  destruct (read_sign (skip_space s)) as [neg' s1]. cbn [snd] in Esg.
  destruct (special_start s1); [discriminate|].
  destruct (read_digits_spec s1 0 0) as (a & Ea & Ha & Hn1).
  destruct (read_digits 0 0 s1) as [[v1 n1] s2]. cbn [fst snd] in *.
  set (frac := match s2 with
      | String "." s2' => let '(v, n, r) := read_digits v1 0 s2' in
                          if (N.eqb n1 0 && N.eqb n 0)%N then (v1, 0%N, s2) else (v, n, r)
      | _ => (v1, 0%N, s2)
      end).
  assert (Hf : exists b, s2 = (b ++ snd frac)%string /\
     (b = "" /\ snd (fst frac) = 0%N \/
      exists f, b = String "." f /\ allDigits f /\ snd (fst frac) = N.of_nat (String.length f) /\
                (n1 <> 0%N \/ f <> ""))).
  { assert (H : frac = (v1, 0%N, s2) \/ exists s2', s2 = String "." s2' /\
      frac = let '(v, n, r) := read_digits v1 0 s2' in
             if (N.eqb n1 0 && N.eqb n 0)%N then (v1, 0%N, s2) else (v, n, r)).
    { unfold frac. destruct s2 as [|c s2]; [left; reflexivity|].
      destruct c as [[] [] [] [] [] [] [] []]; try (left; reflexivity).
      right. exists s2. split; reflexivity. }
    destruct H as [H|(s2' & -> & H)].
    - rewrite H. exists "". split; [reflexivity|]. left. split; reflexivity.
    - destruct (read_digits_spec s2' v1 0) as (f & Ef & Hf & Hn).
      destruct (read_digits v1 0 s2') as [[v n'] r']. cbn [fst snd] in *.
      destruct (N.eqb n1 0 && N.eqb n' 0)%N eqn:Ez; rewrite H; cbn [fst snd].
      + exists "". split; [reflexivity|]. left. split; reflexivity.
      + exists (String "." f). rewrite sapp_cons, <- Ef. split; [reflexivity|]. right.
        exists f. split; [reflexivity|]. split; [exact Hf|]. split; [lia|].
        destruct (N.eqb_spec n1 0); [|left; assumption]. cbn in Ez. apply N.eqb_neq in Ez.
        right. intros ->. cbn in Hn. lia. }
  clearbody frac. destruct frac as [[v2 n2] s3]. cbn [fst snd] in Hf.
  destruct (N.eqb n1 0 && N.eqb n2 0)%N eqn:Ez; [discriminate|].
  destruct (read_exp_spec s3) as (x & Hx & Ex). destruct (read_exp s3) as [e s4]. cbn [snd] in Ex.
  intros H. assert (Hr : r = s4).
  { revert H. destruct (0 <=? e - Z.of_N n2)%Z; intros [= _ _ _ ->]; reflexivity. }
  subst r. destruct Hf as (b & Eb & Hb).
  exists (w ++ sg ++ a ++ b ++ x)%string. split.
  - rewrite !sapp_assoc, <- Ex, <- Eb, <- Ea, <- Esg. exact Ew.
  - exists w, sg, a, b, x. split; [reflexivity|]. split; [exact Hw|]. split; [exact Hsg|].
    split; [exact Hx|]. split; [exact Ha|].
    assert (Hane : n1 <> 0%N -> a <> "").
    { intros Hnz ->. cbn in Hn1. lia. }
    destruct Hb as [[-> Hn2]|(f & -> & Hff & Hn2 & Hor)].
    + left. split; [reflexivity|]. apply Hane. intros ->. rewrite Hn2 in Ez. discriminate.
    + right. exists f. split; [reflexivity|]. split; [exact Hff|].
      destruct Hor as [Hor|Hor]; [left; by apply Hane|right; exact Hor].
Qed.
Lemma strtod_val_spec s x r : strtod_val s = Some (x, r) -> exists p, s = (p ++ r)%string /\ numberOrNothing p.
Proof.
  unfold strtod_val. destruct (strtod s) as [neg n d r'| |] eqn:E; [|intros [= <- <-]|discriminate].
  - intros [= _ <-]. destruct (strtod_spec _ _ _ _ _ E) as (p & E2 & Hp). exists p. split; [exact E2|right; exact Hp].
  - exists "". split; [reflexivity|left; reflexivity].
Qed.
(** [t] is [s] without trailing white space. *)
Lemma chomp_spec s : exists r, s = (chomp s ++ r)%string /\ blank r.
Proof.
  destruct (chug_spec (srev s)) as (r & E & Hr & _). exists (srev r).
  split; [|by apply blank_srev]. unfold chomp. rewrite <- srev_app, <- E, srev_srev. reflexivity.
Qed.
Lemma colon_case e : (exists e1, e = String ":" e1) \/
  (forall A (a : string -> A) b, match e with String ":" e1 => a e1 | _ => b end = b).
Proof.
  destruct e as [|c e]; [right; reflexivity|].
  destruct c as [[] [] [] [] [] [] [] []]; try (right; reflexivity). left. eauto.
Qed.
Lemma f_C26_only s t :
  free NUL s -> try_parse_time s = TOk t ->
  exists u r, s = (u ++ r)%string /\ blank r /\ timeString u.
Proof.
  intros Hf H. destruct (chomp_spec s) as (r & Er & Hr). exists (chomp s), r.
  split; [exact Er|]. split; [exact Hr|]. revert H. unfold try_parse_time. rewrite cstr_free by exact Hf.
  generalize (chomp s). clear. intros s.
  destruct (strtod_val s) as [[secs e]|] eqn:E1; [|discriminate].
  destruct (strtod_val_spec _ _ _ E1) as (a & -> & Ha).
  destruct (is_empty e || String.eqb e "s")%bool eqn:Ee.
  { intros _. left. exists a. split; [exact Ha|]. destruct e; [left; apply sapp_nil|].
    cbn [is_empty orb] in Ee. apply String.eqb_eq in Ee. rewrite Ee. right. reflexivity. }
  destruct (colon_case e) as [[e1 ->]|Hc]; [|rewrite Hc; discriminate].
  destruct (strtod_val e1) as [[m e2]|] eqn:E2; [|discriminate].
  destruct (strtod_val_spec _ _ _ E2) as (b & -> & Hb).
  destruct (colon_case e2) as [[e3 ->]|Hc]; [|rewrite Hc; discriminate].
  destruct (strtod_val e3) as [[x e4]|] eqn:E3; [|discriminate].
  destruct (strtod_val_spec _ _ _ E3) as (c & -> & Hcc).
  destruct (is_empty e4) eqn:E4; [|discriminate]. destruct e4; [|discriminate].
  intros _. right. exists a, b, c. repeat split; try assumption. rewrite sapp_nil. reflexivity.
Qed.

(** ** C27 *)
Open Scope Z_scope.
Lemma clamp_range x lo hi : lo <= hi -> lo <= clamp x lo hi <= hi.
Proof. unfold clamp. intros H. destruct (Z.gtb_spec x hi), (Z.ltb_spec x lo); lia. Qed.
Lemma clamp_id x lo hi : lo <= x <= hi -> clamp x lo hi = x.
Proof. unfold clamp. intros H. destruct (Z.gtb_spec x hi), (Z.ltb_spec x lo); lia. Qed.
Lemma to_int_id x : -2147483648 <= x <= 2147483647 -> to_int x = x.
Proof.
  intros H. unfold to_int. destruct (Z.le_gt_cases 0 x).
  - rewrite Z.mod_small by lia. destruct (Z.ltb_spec x 2147483648); lia.
  - assert (E : x mod 4294967296 = x + 4294967296).
    { symmetry. apply (Z.mod_unique x 4294967296 (-1)); lia. }
    rewrite E. destruct (Z.ltb_spec (x + 4294967296) 2147483648); lia.
Qed.
Lemma f_C27_range odd s base lo hi : lo <= hi -> lo <= parse_percent odd s base lo hi <= hi.
Proof. apply clamp_range. Qed.
Lemma f_C27_number odd ds base lo hi :
  digits ds -> Z.of_N (value ds) <= 2147483647 ->
  parse_percent odd (numeral ds) base lo hi = clamp (Z.of_N (value ds)) lo hi.
Proof.
  intros Hd Hv. unfold parse_percent.
  rewrite cstr_free by (apply numeral_free; [exact Hd|left; reflexivity]).
  rewrite <- (sapp_nil (numeral ds)), strtod_val_numeral; [|exact Hd|exact I].
  rewrite (flround_feq _ (fint (Z.of_N (value ds)))).
  - rewrite flround_int, to_int_id by lia. reflexivity.
  - apply rnd_int. change (2 ^ 53) with 9007199254740992. lia.
Qed.
Lemma f_C27_percent odd ds base :
  digits ds -> 0 <= base -> Z.of_N (value ds) * base <= 100 * 2147483647 ->
  Z.abs (100 * parse_percent odd (numeral ds ++ "%") base 0 2147483647 - Z.of_N (value ds) * base) <= 50.
Proof.
  intros Hd Hb Hv. unfold parse_percent.
  rewrite cstr_free.
  2:{ apply free_app. split; [apply numeral_free; [exact Hd|left; reflexivity]|].
      apply free_cons. split; [discriminate|exact id]. }
  rewrite strtod_val_numeral; [|exact Hd|right; right; reflexivity]. cbv beta iota.
  set (v := Z.of_N (value ds)) in *. assert (Hv0 : 0 <= v) by lia. clearbody v. clear Hd ds.
  destruct (Z.eq_dec v 0) as [->|Hvnz].
  { assert (E : flround (fmul (fdiv100 (rnd (fint 0))) (fint base)) = 0) by reflexivity.
    rewrite E. change (clamp (to_int 0) 0 2147483647) with 0. lia. }
  destruct (Z.eq_dec base 0) as [->|Hbnz].
  { assert (E : flround (fmul (fdiv100 (rnd (fint v))) (fint 0)) = 0).
    { unfold fmul, fint. cbn [fst snd]. rewrite Z.mul_0_r. reflexivity. }
    rewrite E. change (clamp (to_int 0) 0 2147483647) with 0. lia. }
  assert (Hv2 : v <= 100 * 2147483647) by nia.
  assert (E0 : feq (rnd (fint v)) (fint v)) by (apply rnd_int; change (2 ^ 53) with 9007199254740992; lia).
  set (y1 := rnd (v, 100%positive)).
  assert (E1 : feq (fdiv100 (rnd (fint v))) y1).
  { apply rnd_feq. revert E0. unfold feq, fint. cbn [fst snd]. lia. }
  set (y2 := rnd (fst y1 * base, snd y1)).
  assert (E2 : feq (fmul (fdiv100 (rnd (fint v))) (fint base)) y2).
  { apply rnd_feq. revert E1. unfold feq, fint. cbn [fst snd]. rewrite Pos.mul_1_r. intros E1. nia. }
  rewrite (flround_feq _ _ E2).
  pose proof (rnd_nonneg v 100 Hv0) as P1. fold y1 in P1.
  pose proof (rnd_err v 100 Hv0) as R1. fold y1 in R1.
  assert (P1b : 0 <= fst y1 * base) by nia.
  pose proof (rnd_nonneg (fst y1 * base) (snd y1) P1b) as P2. fold y2 in P2.
  pose proof (rnd_err (fst y1 * base) (snd y1) P1b) as R2. fold y2 in R2.
  pose proof (flround_near y2 P2) as R3.
  set (r := flround y2) in *. clearbody r.
  specialize (R1 ltac:(left; lia)).
  assert (Hy1 : 100 <= 2 ^ 8) by (cbn; lia).
  assert (R2' : 2 ^ 53 * Z.abs (fst y2 * Zpos (snd y1) - fst y1 * base * Zpos (snd y2))
                <= fst y1 * base * Zpos (snd y2)).
  { apply R2. left.
    (* y1 is at least 1/200 *)
    assert (H : Zpos (snd y1) <= fst y1 * 200).
    { change (2 ^ 53) with 9007199254740992 in R1.
      set (a := fst y1) in *. set (p := Zpos (snd y1)) in *. clearbody a p.
      destruct (Z.abs_spec (a * 100 - v * p)) as [[_ A]|[_ A]]; rewrite A in R1; nia. }
    assert (1 <= base) by lia. change (2 ^ 1022) with (200 * (2 ^ 1022 / 200) + 104).
    set (B := 2 ^ 1022 / 200). assert (0 <= B) by (apply Z.div_pos; lia). clearbody B. nia. }
  clear R2. clearbody y1 y2. destruct y1 as [a p], y2 as [b q]. cbn [fst snd] in *.
  clear E0 E1 E2 P1b Hy1. change (2 ^ 53) with 9007199254740992 in *.
  assert (Hfin : Z.abs (100 * r - v * base) <= 50).
  { assert (Hmul : forall x y, x * (Zpos p * Zpos q) < (y + 1) * (Zpos p * Zpos q) -> x <= y).
    { intros x y H. apply Z.mul_lt_mono_pos_r in H; lia. }
    assert (Ha : a * 100 <= 2 * (v * Zpos p)) by lia.
    assert (K1 : 2 * Z.abs (100 * r * (Zpos p * Zpos q) - 100 * b * Zpos p) <= 100 * (Zpos p * Zpos q)).
    { replace (100 * r * (Zpos p * Zpos q) - 100 * b * Zpos p) with (- (50 * Zpos p * (2 * b - 2 * r * Zpos q))) by lia.
      rewrite Z.abs_opp, Z.abs_mul, (Z.abs_eq (50 * Zpos p)) by lia. nia. }
    assert (K2 : 9007199254740992 * Z.abs (100 * b * Zpos p - 100 * a * base * Zpos q) <= 100 * a * base * Zpos q).
    { replace (100 * b * Zpos p - 100 * a * base * Zpos q) with (100 * (b * Zpos p - a * base * Zpos q)) by lia.
      rewrite Z.abs_mul, (Z.abs_eq 100) by lia. lia. }
    assert (K3 : 9007199254740992 * Z.abs (100 * a * base * Zpos q - v * base * (Zpos p * Zpos q)) <= v * base * (Zpos p * Zpos q)).
    { replace (100 * a * base * Zpos q - v * base * (Zpos p * Zpos q)) with ((base * Zpos q) * (a * 100 - v * Zpos p)) by lia.
      rewrite Z.abs_mul, (Z.abs_eq (base * Zpos q)) by lia.
      replace (9007199254740992 * (base * Zpos q * Z.abs (a * 100 - v * Zpos p)))
        with ((base * Zpos q) * (9007199254740992 * Z.abs (a * 100 - v * Zpos p))) by lia.
      replace (v * base * (Zpos p * Zpos q)) with ((base * Zpos q) * (v * Zpos p)) by lia.
      apply Z.mul_le_mono_nonneg_l; [lia|exact R1]. }
    assert (K2b : 100 * a * base * Zpos q <= 2 * (v * base * (Zpos p * Zpos q))).
    { replace (100 * a * base * Zpos q) with (base * Zpos q * (a * 100)) by lia.
      replace (2 * (v * base * (Zpos p * Zpos q))) with (base * Zpos q * (2 * (v * Zpos p))) by lia.
      apply Z.mul_le_mono_nonneg_l; [lia|exact Ha]. }
    set (PQ := Zpos p * Zpos q) in *. assert (0 < PQ) by lia.
    assert (Hvb : 3 * (v * base) * PQ <= 900719925474 * PQ).
    { apply Z.mul_le_mono_nonneg_r; lia. }
    apply Z.abs_le. split.
    - assert (-(100 * r - v * base) <= 50); [|lia]. apply Hmul. lia.
    - apply Hmul. lia. }
  assert (Hr0 : 0 <= r).
  { assert (0 <= v * base) by nia. lia. }
  assert (Hr1 : r <= 2147483647) by lia.
  rewrite to_int_id by lia. rewrite clamp_id by lia. exact Hfin.
Qed.
Close Scope Z_scope.

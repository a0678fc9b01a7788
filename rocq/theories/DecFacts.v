(** DecFacts.v -- decimal literals (C26), integers and booleans (C46). *)
From Verif Require Import StrFacts ParseFacts NumFacts Float.
From Verif Require Export DecSpec Num.
From Coq Require Import Lqa.
Open Scope string_scope.
Open Scope list_scope.

Definition noDigit (s : string) : Prop := match s with EmptyString => True | String c _ => digit_val c = None end.
Lemma read_digits_more ds rest acc cnt : Forall (fun d => d < 10)%N ds -> noDigit rest ->
  read_digits acc cnt (numeral ds ++ rest) = (fold_left (fun a d => 10 * a + d)%N ds acc, (cnt + N.of_nat (List.length ds))%N, rest).
Proof.
  intros H Hr. revert acc cnt. induction H as [|d ds Hd H IH]; intros acc cnt.
  - change (numeral [] ++ rest)%string with rest. cbn [fold_left List.length]. rewrite N.add_0_r.
    destruct rest as [|c r]; [reflexivity|]. cbn in Hr |- *. rewrite Hr. reflexivity.
  - change (numeral (d :: ds) ++ rest)%string with (String (digit d) (numeral ds ++ rest)).
    cbn [read_digits]. rewrite digit_val_digit by exact Hd. rewrite IH.
    cbn [fold_left List.length]. do 2 f_equal; [f_equal; lia|lia].
Qed.
Lemma stop_noDigit r : stopper r -> noDigit r.
Proof. destruct r; [done|]. by intros [->|[-> | ->]]. Qed.
Lemma stop_exp xs e rest : exponentOf xs e -> stopper rest -> noDigit (xs ++ rest) /\ (forall r, (xs ++ rest)%string <> String "." r) /\ (forall c r, (xs ++ rest)%string = String c r -> tolower c <> "x"%char).
Proof.
  intros H Hr. destruct H as [[-> _]|(c & sg & ds & Hc & _ & -> & _)].
  - change ("" ++ rest)%string with rest. split; [by apply stop_noDigit|]. destruct rest as [|c r]; [done|]. destruct Hr as [->|[-> | ->]]; split; [done| |done| |done|]; intros c' r' [= <- _]; discriminate.
  - destruct Hc as [-> | ->]; cbn; (split; [done|]); (split; [done|]); intros c' r' [= <- _]; discriminate.
Qed.
Lemma sign_num ds rest : digits ds -> read_sign (numeral ds ++ rest) = (false, numeral ds ++ rest)%string.
Proof.
  intros [Hne Hd]. destruct ds as [|d ds]; [done|]. inversion Hd as [|x l Hx Hl]; subst. change (numeral (d :: ds) ++ rest)%string with (String (digit d) (numeral ds ++ rest)).
  generalize (numeral ds ++ rest)%string. intros r. apply digit_cases in Hx. cbn in Hx. repeat destruct Hx as [<-|Hx]; try done.
Qed.
Lemma read_exp_exact xs e rest : exponentOf xs e -> stopper rest -> read_exp (xs ++ rest) = (e, rest).
Proof.
  intros H Hr. destruct H as [[-> ->]|(c & sg & ds & Hc & Hd & -> & Hs)].
  - change ("" ++ rest)%string with rest. destruct rest as [|c r]; [done|]. by destruct Hr as [->|[-> | ->]].
  - assert (E : read_exp ((c ++ sg ++ numeral ds) ++ rest) = let '(neg, s1) := read_sign (sg ++ numeral ds ++ rest) in let '(v, n, s2) := read_digits 0 0 s1 in
       if N.eqb n 0 then (0%Z, ((c ++ sg ++ numeral ds) ++ rest)%string) else ((if neg then - Z.of_N v else Z.of_N v)%Z, s2)).
    { rewrite !sapp_assoc. by destruct Hc as [-> | ->]. }
    rewrite E. assert (Hn : N.eqb (0 + N.of_nat (List.length ds)) 0 = false). { apply N.eqb_neq. destruct ds; [by destruct Hd|]. cbn [List.length]. lia. }
    destruct Hs as [[[-> | ->] ->]|[-> ->]].
    + change ("" ++ numeral ds ++ rest)%string with (numeral ds ++ rest)%string. rewrite sign_num by done. rewrite read_digits_more by (try apply Hd; by apply stop_noDigit). by rewrite Hn.
    + change ("+" ++ numeral ds ++ rest)%string with (String "+" (numeral ds ++ rest)). cbn [read_sign]. rewrite read_digits_more by (try apply Hd; by apply stop_noDigit). by rewrite Hn.
    + change ("-" ++ numeral ds ++ rest)%string with (String "-" (numeral ds ++ rest)). cbn [read_sign]. rewrite read_digits_more by (try apply Hd; by apply stop_noDigit). by rewrite Hn.
Qed.
Lemma second_char a fs f xs e rest : digits a -> fractionOf fs f -> exponentOf xs e -> stopper rest ->
  skip_space (numeral a ++ fs ++ xs ++ rest) = (numeral a ++ fs ++ xs ++ rest)%string /\ special_start (numeral a ++ fs ++ xs ++ rest) = false.
Proof.
  intros [Hne Hd] [Hf Hfs] He Hr. destruct a as [|d ds]; [done|]. inversion Hd as [|x l Hx Hl]; subst.
  change (numeral (d :: ds) ++ fs ++ xs ++ rest)%string with (String (digit d) (numeral ds ++ fs ++ xs ++ rest)). set (t := (numeral ds ++ fs ++ xs ++ rest)%string).
  assert (Ht : match t with String c _ => Ascii.eqb (tolower c) "x" | EmptyString => false end = false).
  { unfold t. destruct ds as [|d' ds].
    - change (numeral [] ++ fs ++ xs ++ rest)%string with (fs ++ xs ++ rest)%string. destruct Hfs as [[-> _]| ->].
      + change ("" ++ xs ++ rest)%string with (xs ++ rest)%string. destruct (stop_exp xs e rest He Hr) as (_ & _ & H). destruct (xs ++ rest)%string as [|c r]; [done|]. apply Ascii.eqb_neq. by eapply H.
      + done.
    - change (numeral (d' :: ds) ++ fs ++ xs ++ rest)%string with (String (digit d') (numeral ds ++ fs ++ xs ++ rest)). inversion Hl as [|y l' Hy _]; subst. apply digit_cases in Hy. cbn in Hy. repeat destruct Hy as [<-|Hy]; try done. }
  clearbody t. split.
  - cbn [skip_space]. apply digit_cases in Hx. cbn in Hx. repeat destruct Hx as [<-|Hx]; try done.
  - unfold special_start. rewrite Ht, andb_false_r. apply digit_cases in Hx. cbn in Hx. repeat destruct Hx as [<-|Hx]; try done.
Qed.
Lemma fold_digits_app a f : fold_left (fun a d => 10 * a + d)%N f (value a) = value (a ++ f).
Proof. unfold value. by rewrite fold_left_app. Qed.
Lemma strtod_decimal a fs f xs e rest : digits a -> fractionOf fs f -> exponentOf xs e -> stopper rest ->
  strtod (numeral a ++ fs ++ xs ++ rest) =
    (let x := (e - Z.of_nat (List.length f))%Z in
     if (0 <=? x)%Z then LNum false (value (a ++ f) * pow10N (Z.to_N x))%N 1 rest else LNum false (value (a ++ f)) (pow10P (Z.to_N (- x))) rest).
Proof.
  intros Ha Hf He Hr. destruct (second_char a fs f xs e rest Ha Hf He Hr) as [E1 E2]. unfold strtod. rewrite E1, (sign_num a _ Ha), E2. destruct Ha as [Hne Hd]. destruct Hf as [Hf Hfs].
  assert (Hn : forall n, N.eqb (n + N.of_nat (List.length a)) 0 = false). { intros n. apply N.eqb_neq. destruct a; [done|]. cbn [List.length]. lia. }
  destruct (stop_exp xs e rest He Hr) as (S1 & S2 & _). destruct Hfs as [[-> ->]| ->].
  - change ("" ++ xs ++ rest)%string with (xs ++ rest)%string. rewrite read_digits_more by done. fold (value a). rewrite Hn, app_nil_r. cbn [List.length andb].
    pose proof (read_exp_exact xs e rest He Hr) as Re. set (t := (xs ++ rest)%string) in *. clearbody t.
    assert (Em : match t with String "." s2' => let '(v, n, r0) := read_digits (value a) 0 s2' in if (false && N.eqb n 0)%bool then (value a, 0%N, t) else (v, n, r0) | _ => (value a, 0%N, t) end = (value a, 0%N, t)).
    { destruct t as [|c r]; [done|]. assert (Hc : c <> "."%char) by (intros ->; by apply (S2 r)). destruct c as [[] [] [] [] [] [] [] []]; try reflexivity. by destruct Hc. }
    cbn [andb] in Em. rewrite Em, Re. reflexivity.
  - change (("." ++ numeral f) ++ xs ++ rest)%string with (String "." (numeral f ++ xs ++ rest)). rewrite read_digits_more by done. fold (value a). rewrite Hn. cbn [andb].
    rewrite read_digits_more by done. rewrite fold_digits_app, (read_exp_exact xs e rest He Hr), N.add_0_l, nat_N_Z. reflexivity.
Qed.
Lemma pow10P_pow n : Zpos (pow10P n) = (10 ^ Z.of_N n)%Z.
Proof. unfold pow10P. rewrite <- (N2Z.inj_pow 10). pose proof (N.pow_nonzero 10 n). destruct (10 ^ n)%N; [lia|done]. Qed.
Lemma decimal_val s q : decimalOf s q -> exists n d, (forall rest, stopper rest -> strtod_val (s ++ rest) = Some (rnd (Z.of_N n, d), rest)) /\ (Qmake (Z.of_N n) d == q)%Q.
Proof.
  intros (a & fs & f & xs & e & Ha & Hf & He & -> & Hq). set (x := (e - Z.of_nat (List.length f))%Z) in *.
  assert (H : forall rest, stopper rest -> strtod_val ((numeral a ++ fs ++ xs) ++ rest) = if (0 <=? x)%Z then Some (rnd (Z.of_N (value (a ++ f) * pow10N (Z.to_N x)), 1%positive), rest) else Some (rnd (Z.of_N (value (a ++ f)), pow10P (Z.to_N (- x))), rest)).
  { intros rest Hr. unfold strtod_val. rewrite !sapp_assoc, (strtod_decimal a fs f xs e rest Ha Hf He Hr). cbv zeta. fold x. by destruct (0 <=? x)%Z. }
  destruct (Z.leb_spec 0 x) as [Hx|Hx].
  - eexists _, _. split; [exact H|]. rewrite Hq. unfold pow10N. rewrite N2Z.inj_mul, N2Z.inj_pow, Z2N.id by done. change (Z.of_N 10) with 10%Z.
    rewrite <- (Zpower_Qpower 10 x Hx). unfold Qeq, inject_Z, Qmult. cbn. lia.
  - eexists _, _. split; [exact H|]. rewrite Hq. replace x with (- (- x))%Z at 2 by lia. rewrite Qpower_opp, <- (Zpower_Qpower 10 (- x) ltac:(lia)).
    pose proof (pow10P_pow (Z.to_N (- x))) as Hp. rewrite Z2N.id in Hp by lia. rewrite <- Hp. unfold Qeq, inject_Z, Qmult, Qinv. cbn. lia.
Qed.
Definition Qof (x : fl) : Q := Qmake (fst x) (snd x).
Lemma rnd_Q x : (0 <= Qof x)%Q -> (Qof x == 0 \/ 1 # 2 ^ 1000 <= Qof x)%Q -> (Qabs (Qof (rnd x) - Qof x) <= Qof x * (1 # 9007199254740992))%Q.
Proof.
  destruct x as [z d]. intros Hz Hs. assert (Hz' : (0 <= z)%Z) by (unfold Qle in Hz; cbn in Hz; lia).
  assert (Hd : (Zpos d <= z * 2 ^ 1022)%Z \/ z = 0%Z).
  { destruct Hs as [Hs|Hs]; [right; unfold Qeq in Hs; cbn in Hs; lia|left]. unfold Qle in Hs. cbn [Qof fst snd Qnum Qden] in Hs. rewrite Pos2Z.inj_pow in Hs. change (2 ^ 1022)%Z with (2 ^ 1000 * 2 ^ 22)%Z. set (P := (2 ^ 1000)%Z) in *. clearbody P. lia. }
  pose proof (rnd_err z d Hz' Hd) as H. destruct (rnd (z, d)) as [v p]. cbn [fst snd] in H. unfold Qof, Qabs, Qminus, Qplus, Qopp, Qmult, Qle. cbn [fst snd Qnum Qden]. rewrite !Pos2Z.inj_mul. change (2 ^ 53)%Z with 9007199254740992%Z in H.
  assert (E : (v * Zpos d + - z * Zpos p = v * Zpos d - z * Zpos p)%Z) by lia. rewrite E. set (A := Z.abs (v * Zpos d - z * Zpos p)) in *. clearbody A.
  assert (H2 : (9007199254740992 * A * Zpos d <= z * Zpos p * Zpos d)%Z) by (apply Z.mul_le_mono_nonneg_r; lia). lia.
Qed.
Lemma trunc_Q x : (0 <= Qof x)%Q -> (inject_Z (ftrunc x) <= Qof x)%Q /\ (Qof x < inject_Z (ftrunc x) + 1)%Q /\ (0 <= ftrunc x)%Z.
Proof.
  destruct x as [z d]. intros Hz. assert (Hz' : (0 <= z)%Z) by (unfold Qle in Hz; cbn in Hz; lia). unfold ftrunc, Qof. cbn [fst snd]. rewrite Z.quot_div_nonneg by lia.
  pose proof (Z.mul_div_le z (Zpos d) ltac:(lia)). pose proof (Z.mul_succ_div_gt z (Zpos d) ltac:(lia)). pose proof (Z.div_pos z (Zpos d) Hz' ltac:(lia)). set (k := (z / Zpos d)%Z) in *. clearbody k.
  unfold Qle, Qlt, inject_Z, Qplus. cbn. split; [lia|]. split; lia.
Qed.
Lemma to_time_Q x q : (0 <= q)%Q -> (q == 0 \/ 1 # 2 ^ 900 <= q)%Q -> (q * 1000000000 <= 9223372036854775808)%Q -> (Qabs (Qof x - q) <= q * (1 # 9007199254740992))%Q ->
  exists t, to_time x = TOk t /\ (Qabs (inject_Z (Z.of_N t) - q * 1000000000) <= 1 + q * 1000000000 * (1 # 2251799813685248))%Q.
Proof.
  intros Hq Hs Hb Hx. apply Qabs_Qle_condition in Hx as [Hx1 Hx2].
  assert (Hx0 : (0 <= Qof x)%Q) by lra.
  unfold to_time, fmul. set (y := ((fst x * fst (fint 1000000000))%Z, (snd x * snd (fint 1000000000))%positive)).
  assert (Ey : (Qof y == Qof x * 1000000000)%Q) by (unfold Qof, y, Qeq, Qmult; cbn; lia).
  assert (Hy0 : (0 <= Qof y)%Q) by (rewrite Ey; lra).
  assert (Hys : (Qof y == 0 \/ 1 # 2 ^ 1000 <= Qof y)%Q).
  { destruct Hs as [Hs|Hs]; [left; rewrite Ey; lra|right]. rewrite Ey. assert (H1 : ((1 # 2 ^ 900) * (1 # 2) <= Qof x)%Q) by (set (c := (1 # 2 ^ 900)%Q) in *; clearbody c; lra).
    assert (H2 : (1 # 2 ^ 1000 <= (1 # 2 ^ 900) * (1 # 2))%Q) by (vm_compute; discriminate). set (c := ((1 # 2 ^ 900) * (1 # 2))%Q) in *. set (d := (1 # 2 ^ 1000)%Q) in *. clearbody c d. lra. }
  pose proof (rnd_Q y Hy0 Hys) as He. apply Qabs_Qle_condition in He as [He1 He2]. rewrite Ey in He1, He2.
  assert (Hr0 : (0 <= Qof (rnd y))%Q) by lra. destruct (trunc_Q (rnd y) Hr0) as (T1 & T2 & T3). set (t := ftrunc (rnd y)) in *.
  assert (Hlt : (inject_Z t < inject_Z 18446744073709551616)%Q). { change (inject_Z 18446744073709551616) with (18446744073709551616#1)%Q. lra. }
  rewrite <- Zlt_Qlt in Hlt. rewrite (proj2 (Z.leb_le 0 t) T3), (proj2 (Z.ltb_lt t _) Hlt). cbn [andb]. exists (Z.to_N t). split; [done|]. rewrite Z2N.id by done. apply Qabs_Qle_condition. split; lra.
Qed.
Lemma decimal_snoc s q : decimalOf s q -> exists u d, s = (u ++ String (digit d) "")%string /\ (d < 10)%N \/ s = (u ++ ".")%string.
Proof.
  intros (a & fs & f & xs & e & Ha & Hf & He & -> & _). destruct He as [[-> _]|(c & sg & ds & _ & Hd & -> & _)].
  - rewrite sapp_nil. destruct Hf as [Hf [[-> _]| ->]].
    + rewrite sapp_nil. destruct (numeral_snoc a Ha) as (u & d & E & Hd). exists u, d. by left.
    + destruct f as [|d0 f]; [exists (numeral a), 0%N; by right|]. destruct (numeral_snoc (d0 :: f)) as (u & d & E & Hd); [by split|]. rewrite E. exists (numeral a ++ "." ++ u)%string, d. left. by rewrite !sapp_assoc.
  - destruct (numeral_snoc ds Hd) as (u & d & E & Hdd). rewrite E. exists (numeral a ++ fs ++ c ++ sg ++ u)%string, d. left. by rewrite !sapp_assoc.
Qed.
Lemma numeral_free0 c ds : Forall (fun d => d < 10)%N ds -> (N_of_ascii c < 48 \/ 57 < N_of_ascii c)%N -> free c (numeral ds).
Proof. intros H Hc. destruct ds as [|d ds]; [exact id|]. apply numeral_free; [by split|done]. Qed.
Lemma decimal_free s q : decimalOf s q -> free NUL s.
Proof.
  intros (a & fs & f & xs & e & Ha & [Hf Hfs] & He & -> & _). assert (N0 : (N_of_ascii NUL < 48 \/ 57 < N_of_ascii NUL)%N) by (left; reflexivity).
  apply free_app. split; [apply numeral_free0; [apply Ha|done]|]. apply free_app. split.
  - destruct Hfs as [[-> _]| ->]; [exact id|]. apply free_app. split; [intros [H|H]; [discriminate H|done]|]. by apply numeral_free0.
  - destruct He as [[-> _]|(c & sg & ds & Hc & Hd & -> & Hs)]; [exact id|]. apply free_app. split; [destruct Hc as [-> | ->]; intros [H|H]; try discriminate H; done|].
    apply free_app. split; [|apply numeral_free0; [apply Hd|done]]. destruct Hs as [[[-> | ->] _]|[-> _]]; intros H; [done|destruct H as [H|H]; [discriminate H|done]|destruct H as [H|H]; [discriminate H|done]].
Qed.
Lemma f_C26_decimal s q : decimalOf s q -> (q == 0 \/ 1 # 2 ^ 900 <= q)%Q -> (q * 1000000000 <= 9223372036854775808)%Q ->
  exists t, try_parse_time (s ++ "s") = TOk t /\ try_parse_time s = TOk t /\ (Qabs (inject_Z (Z.of_N t) - q * 1000000000) <= 1 + q * 1000000000 * (1 # 2251799813685248))%Q.
Proof.
  intros H Hs Hb. destruct (decimal_val s q H) as (n & d & E & Eq). pose proof (decimal_free _ _ H) as Hf.
  assert (Hq0 : (0 <= q)%Q) by (rewrite <- Eq; unfold Qle; cbn; lia).
  destruct (to_time_Q (rnd (Z.of_N n, d)) q Hq0) as (t & Ht & He); [exact Hs|exact Hb| |].
  { rewrite <- Eq. apply rnd_Q; unfold Qof; cbn [fst snd]; rewrite Eq; [done|]. destruct Hs as [Hs|Hs]; [by left|right]. eapply Qle_trans; [|exact Hs]. vm_compute. discriminate. }
  exists t. split; [|split; [|done]]; unfold try_parse_time.
  - rewrite cstr_free, chomp_snoc.
    + rewrite (E "s") by (by left). exact Ht.
    + rewrite <- isspace_not. reflexivity.
    + apply free_app. split; [done|]. apply free_cons. split; [discriminate|exact id].
  - assert (Hc : chomp s = s). { destruct (decimal_snoc s q H) as (u & d0 & [[-> Hd]| ->]); [apply chomp_snoc, digit_not_white, Hd|apply chomp_snoc; rewrite <- isspace_not; reflexivity]. }
    rewrite cstr_free, Hc by done. rewrite <- (sapp_nil s). rewrite (E "" I). exact Ht.
Qed.

(** ** Integers. *)
Lemma noDigit_iff rest : noDigit rest <-> forall c r, rest = String c r -> ~ isDigit c.
Proof.
  destruct rest as [|c r]; cbn; [split; [intros _ c r H; discriminate H|done]|]. unfold digit_val, isDigit. split.
  - intros H c' r' [= <- _] Hd. destruct (N.leb_spec 48 (N_of_ascii c)), (N.leb_spec (N_of_ascii c) 57); try lia. discriminate H.
  - intros H. specialize (H c r eq_refl). destruct (N.leb_spec 48 (N_of_ascii c)), (N.leb_spec (N_of_ascii c) 57); try done. exfalso. lia.
Qed.
Lemma skip_blank w s : blank w -> skip_gspace (w ++ s) = skip_gspace s.
Proof. intros H. induction w as [|c w IH]; [done|]. inversion H as [|x l Hx Hl]; subst. change (String c w ++ s)%string with (String c (w ++ s)). cbn [skip_gspace]. apply isspace_white in Hx. rewrite Hx. by apply IH. Qed.
Definition clampTo (lo hi z : Z) : Z := Z.max lo (Z.min hi z).
Lemma clamp_is z lo hi : (lo <= hi)%Z -> clamp z lo hi = clampTo lo hi z.
Proof. intros H. unfold clamp, clampTo. destruct (Z.gtb_spec z hi), (Z.ltb_spec z lo); lia. Qed.
Lemma skip_start sg ds rest : digits ds -> sg = "" \/ sg = "+" \/ sg = "-" -> skip_gspace (sg ++ numeral ds ++ rest) = (sg ++ numeral ds ++ rest)%string.
Proof.
  intros [Hne Hd] [->|[-> | ->]]; [|done|done]. destruct ds as [|d ds]; [done|]. inversion Hd as [|x l Hx Hl]; subst. change ("" ++ numeral (d :: ds) ++ rest)%string with (String (digit d) (numeral ds ++ rest)).
  generalize (numeral ds ++ rest)%string. intros r. apply digit_cases in Hx. cbn in Hx. repeat destruct Hx as [<-|Hx]; try done.
Qed.
Lemma f_integer s z : free NUL s -> integerAt s z -> xstrtoint s = Some (clampTo (-2147483648) 2147483647 z).
Proof.
  intros Hf (w & sg & ds & rest & -> & Hw & Hd & Hr & Hs). apply noDigit_iff in Hr. unfold xstrtoint, strtoll10. rewrite cstr_free by done. rewrite skip_blank, skip_start by (try done; tauto).
  assert (Hn : N.eqb (0 + N.of_nat (List.length ds)) 0 = false). { apply N.eqb_neq. destruct ds; [by destruct Hd|]. cbn [List.length]. lia. }
  destruct Hs as [[[-> | ->] ->]|[-> ->]].
  - change ("" ++ numeral ds ++ rest)%string with (numeral ds ++ rest)%string. rewrite sign_num by done. rewrite read_digits_more by (try apply Hd; done). rewrite Hn, !clamp_is by lia. f_equal. unfold clampTo. fold (value ds). lia.
  - change ("+" ++ numeral ds ++ rest)%string with (String "+" (numeral ds ++ rest)). cbn [read_sign]. rewrite read_digits_more by (try apply Hd; done). rewrite Hn, !clamp_is by lia. f_equal. unfold clampTo. fold (value ds). lia.
  - change ("-" ++ numeral ds ++ rest)%string with (String "-" (numeral ds ++ rest)). cbn [read_sign]. rewrite read_digits_more by (try apply Hd; done). rewrite Hn, !clamp_is by lia. f_equal. unfold clampTo. fold (value ds). lia.
Qed.
Lemma read_digits_back s : forall acc cnt, exists ds, s = (numeral ds ++ snd (read_digits acc cnt s))%string /\ Forall (fun d => d < 10)%N ds /\ snd (fst (read_digits acc cnt s)) = (cnt + N.of_nat (List.length ds))%N /\ noDigit (snd (read_digits acc cnt s)).
Proof.
  induction s as [|c s IH]; intros acc cnt; cbn [read_digits].
  - exists []. cbn. split; [done|]. split; [constructor|]. split; [lia|done].
  - destruct (digit_val c) as [d|] eqn:Ed.
    + destruct (IH (acc * 10 + d)%N (cnt + 1)%N) as (ds & E & Hd & Hn & Hr). exists (d :: ds).
      assert (Hdc : (d < 10)%N /\ c = digit d). { unfold digit_val in Ed. destruct (N.leb_spec 48 (N_of_ascii c)), (N.leb_spec (N_of_ascii c) 57); try discriminate Ed. cbn in Ed. injection Ed as <-. split; [lia|]. unfold digit. replace (48 + (N_of_ascii c - 48))%N with (N_of_ascii c) by lia. by rewrite ascii_N_embedding. }
      destruct Hdc as [Hdc ->]. split; [|split; [by constructor|split; [cbn [List.length]; lia|done]]].
      change (numeral (d :: ds) ++ snd (read_digits (acc * 10 + d) (cnt + 1) s))%string with (String (digit d) (numeral ds ++ snd (read_digits (acc * 10 + d) (cnt + 1) s))). by rewrite <- E.
    + exists []. cbn [snd fst List.length]. split; [done|]. split; [constructor|]. split; [lia|]. exact Ed.
Qed.
Lemma skip_gspace_back s : exists w, s = (w ++ skip_gspace s)%string /\ blank w.
Proof.
  induction s as [|c s (w & E & Hw)]; [exists ""; split; [done|constructor]|]. cbn [skip_gspace]. destruct (g_isspace c) eqn:Ec; [|exists ""; split; [done|constructor]].
  exists (String c w). split; [by rewrite sapp_cons, <- E|]. constructor; [by apply isspace_white|done].
Qed.
Lemma f_integer_only s : free NUL s -> xstrtoint s = None <-> forall z, ~ integerAt s z.
Proof.
  intros Hf. split.
  - intros H z Hz. rewrite (f_integer s z Hf Hz) in H. discriminate H.
  - intros H. unfold xstrtoint, strtoll10. rewrite cstr_free by done. destruct (skip_gspace_back s) as (w & Ew & Hw). destruct (read_sign (skip_gspace s)) as [neg s1] eqn:Es.
    assert (Hsg : exists sg, skip_gspace s = (sg ++ s1)%string /\ if neg then sg = "-" else sg = "" \/ sg = "+").
    { destruct (skip_gspace s) as [|c r]; [injection Es as <- <-; exists ""; auto|]. destruct (Ascii.eqb_spec c "-") as [->|N1]; [injection Es as <- <-; by exists "-"|].
      destruct (Ascii.eqb_spec c "+") as [->|N2]; [injection Es as <- <-; exists "+"; auto|]. exists "". destruct c as [[] [] [] [] [] [] [] []]; try (injection Es as <- <-; auto; fail); by (destruct N1 || destruct N2). }
    destruct Hsg as (sg & Esg & Hsg). destruct (read_digits_back s1 0 0) as (ds & Ed & Hd & Hn & Hr). destruct (read_digits 0 0 s1) as [[v n] rest]. cbn [fst snd] in *. destruct (N.eqb_spec n 0) as [_|Hnz]; [done|]. exfalso.
    assert (Hds : digits ds) by (split; [intros ->; cbn in Hn; lia|done]).
    apply (H (if neg then (- Z.of_N (value ds))%Z else Z.of_N (value ds))). exists w, sg, ds, rest. split; [congruence|]. split; [done|]. split; [done|]. split; [by apply noDigit_iff|]. destruct neg; auto.
Qed.
(** ** Booleans. *)
Lemma tolower_iff a b : (97 <= N_of_ascii b <= 122)%N -> tolower a = b <-> sameLetter a b.
Proof.
  intros Hb. unfold tolower, sameLetter. pose proof (N_ascii_bounded a) as Ha. destruct (N.leb_spec 65 (N_of_ascii a)), (N.leb_spec (N_of_ascii a) 90); cbn [andb]; split.
  - intros <-. right. left. rewrite N_ascii_embedding by lia. lia.
  - intros [->|[[E _]|[E _]]]; [lia| |lia]. rewrite E. apply ascii_N_embedding.
  - intros ->. by left.
  - intros [->|[[E ?]|[E ?]]]; [done|lia|lia].
  - intros ->. by left.
  - intros [->|[[E ?]|[E ?]]]; [done|lia|lia].
  - intros ->. by left.
  - intros [->|[[E ?]|[E ?]]]; [done|lia|lia].
Qed.
Lemma smap_iff s t : Forall (fun b => 97 <= N_of_ascii b <= 122)%N (chars t) -> smap tolower s = t <-> sameWord s t.
Proof.
  revert t. induction s as [|a s IH]; intros [|b t] Ht; cbn [smap]; unfold sameWord; cbn [chars list_ascii_of_string].
  - split; [constructor|done].
  - split; [done|]. intros H. inversion H.
  - split; [done|]. intros H. inversion H.
  - cbn in Ht. inversion Ht as [|x l Hx Hl]; subst. split.
    + intros [= E1 E2]. constructor; [by apply tolower_iff|by apply IH].
    + intros H. inversion H as [|x1 y1 l1 l2 H1 H2]; subst. f_equal; [by apply tolower_iff|by apply IH].
Qed.
Lemma f_boolean s b : free NUL s -> try_parse_bool s = Some b <-> sameWord s (if b then "true" else "false").
Proof.
  intros Hf. unfold try_parse_bool, xstrcaseeq. rewrite (cstr_free s Hf). change (smap tolower (cstr "true")) with "true". change (smap tolower (cstr "false")) with "false".
  assert (HT : smap tolower s = "true" <-> sameWord s "true") by (apply smap_iff; repeat constructor; vm_compute; discriminate).
  assert (HF : smap tolower s = "false" <-> sameWord s "false") by (apply smap_iff; repeat constructor; vm_compute; discriminate).
  destruct (String.eqb_spec (smap tolower s) "true") as [E|N1]; [|destruct (String.eqb_spec (smap tolower s) "false") as [E|N2]].
  - destruct b; split; try done; [by intros _; apply HT|]. intros H. apply HF in H. congruence.
  - destruct b; split; try done; [|by intros _; apply HF]. intros H. apply HT in H. congruence.
  - destruct b; split; try done; intros H; exfalso; [apply N1; by apply HT|apply N2; by apply HF].
Qed.

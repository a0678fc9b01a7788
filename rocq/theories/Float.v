(** Float.v -- facts about the binary64 rounding of Num.v: it is monotone, exact on
    numbers with at most 53 significant bits, and odd.  Used for C26, C27, C29,
    C32. *)
From Verif Require Export Num.
Open Scope N_scope.

Lemma posmul (a b : positive) : Npos (a * b) = Npos a * Npos b.
Proof. reflexivity. Qed.

(** ** Nearest integer, ties to even. *)
Lemma div_even_spec a (b : positive) :
  Npos b * (2 * div_even a b) <= 2 * a + Npos b /\
  2 * a <= Npos b * (2 * div_even a b + 1) /\
  (2 * a = Npos b * (2 * div_even a b + 1) \/ 2 * a + Npos b = Npos b * (2 * div_even a b) ->
   N.even (div_even a b) = true).
Proof.
  unfold div_even. pose proof (N.div_mod a (Npos b) ltac:(lia)) as H.
  pose proof (N.mod_lt a (Npos b) ltac:(lia)) as Hlt.
  set (q := a / Npos b) in *. set (r := a mod Npos b) in *. clearbody q r.
  destruct (N.compare_spec (2 * r) (Npos b)) as [E|E|E]; [destruct (N.even q) eqn:Hq|..].
  - repeat split; [nia|nia|]. intros _; exact Hq.
  - repeat split; [nia|nia|]. intros _. rewrite N.even_add, Hq. reflexivity.
  - repeat split; [nia|nia|]. intros [?|?]; exfalso; nia.
  - repeat split; [nia|nia|]. intros [?|?]; exfalso; nia.
Qed.

Lemma div_even_mono a (b : positive) a' (b' : positive) :
  a * Npos b' <= a' * Npos b -> div_even a b <= div_even a' b'.
Proof.
  intros Hle. destruct (N.le_gt_cases (div_even a b) (div_even a' b')) as [H|H]; [exact H|].
  destruct (div_even_spec a b) as (H1 & _ & H3). destruct (div_even_spec a' b') as (_ & H2' & H3').
  set (q := div_even a b) in *. set (q' := div_even a' b') in *. clearbody q q'.
  assert (Hq : q = q' + 1 \/ q' + 2 <= q) by lia. destruct Hq as [->|Hq].
  - assert (E1 : 2 * a' = Npos b' * (2 * q' + 1)).
    { assert (Npos b' * (Npos b * (2 * q' + 1)) <= Npos b' * (2 * a)) by (apply N.mul_le_mono_l; nia).
      assert (Npos b * (2 * a') <= Npos b * (Npos b' * (2 * q' + 1))) by (apply N.mul_le_mono_l; nia).
      assert (Npos b * (2 * a') = Npos b * (Npos b' * (2 * q' + 1))) as E by nia.
      apply N.mul_cancel_l in E; [exact E|lia]. }
    assert (E2 : 2 * a + Npos b = Npos b * (2 * (q' + 1))).
    { assert (Npos b' * (2 * a + Npos b) = Npos b' * (Npos b * (2 * (q' + 1)))) as E.
      { assert (Npos b' * (Npos b * (2 * (q' + 1))) <= Npos b' * (2 * a + Npos b))
          by (apply N.mul_le_mono_l; nia).
        assert (Npos b * (2 * a') = Npos b * (Npos b' * (2 * q' + 1))) by (rewrite E1; reflexivity).
        nia. }
      apply N.mul_cancel_l in E; [exact E|lia]. }
    specialize (H3 (or_intror E2)). specialize (H3' (or_introl E1)).
    rewrite N.even_add, H3' in H3. discriminate.
  - exfalso.
    assert (Npos b' * (Npos b * (2 * q' + 3)) <= Npos b' * (2 * a)) by (apply N.mul_le_mono_l; nia).
    assert (Npos b * (2 * a') <= Npos b * (Npos b' * (2 * q' + 1))) by (apply N.mul_le_mono_l; nia).
    nia.
Qed.

Lemma div_even_scale a (b c : positive) : div_even (a * Npos c) (b * c) = div_even a b.
Proof. apply N.le_antisymm; apply div_even_mono; nia. Qed.
Lemma div_even_exact q (b : positive) : div_even (q * Npos b) b = q.
Proof.
  unfold div_even. rewrite N.div_mul, N.mod_mul by lia.
  destruct (N.compare_spec (2 * 0) (Npos b)); lia.
Qed.

(** ** Comparing n/d with powers of two. *)
Lemma cmp_shift n d t s t' s' :
  s + t' <= s' + t -> n * 2 ^ t < d * 2 ^ s -> n * 2 ^ t' < d * 2 ^ s'.
Proof.
  intros Hle H.
  assert (H1 : n * 2 ^ t * 2 ^ t' < d * 2 ^ s * 2 ^ t').
  { apply N.mul_lt_mono_pos_r; [|exact H]. apply N.neq_0_lt_0, N.pow_nonzero. lia. }
  assert (H2 : 2 ^ s * 2 ^ t' <= 2 ^ s' * 2 ^ t).
  { rewrite <- !N.pow_add_r. apply N.pow_le_mono_r; lia. }
  assert (H3 : n * 2 ^ t' * 2 ^ t < d * 2 ^ s' * 2 ^ t) by nia.
  revert H3. apply N.mul_lt_mono_pos_r. apply N.neq_0_lt_0, N.pow_nonzero. lia.
Qed.

Definition kexp (n : N) (d : positive) : N := Z.to_N (f64_exp n d + 1074).
Lemma f64_exp_ge n d : (-1074 <= f64_exp n d)%Z.
Proof. unfold f64_exp. lia. Qed.

Lemma f64_exp_spec n (d : positive) :
  n <> 0 ->
  n * 2 ^ 1074 < Npos d * 2 ^ (53 + kexp n d) /\
  (kexp n d <> 0 -> Npos d * 2 ^ (52 + kexp n d) <= n * 2 ^ 1074).
Proof.
  intros Hn. unfold kexp, f64_exp.
  pose proof (N.log2_spec n ltac:(lia)) as [Ha Hb].
  pose proof (N.log2_spec (Npos d) ltac:(lia)) as [Hc Hd].
  set (L1 := N.log2 n) in *. set (L2 := N.log2 (Npos d)) in *.
  assert (Hup : n * 2 ^ L2 < Npos d * 2 ^ (N.succ L1)).
  { assert (n * 2 ^ L2 < 2 ^ N.succ L1 * 2 ^ L2).
    { apply N.mul_lt_mono_pos_r; [|exact Hb]. apply N.neq_0_lt_0, N.pow_nonzero. lia. }
    assert (2 ^ N.succ L1 * 2 ^ L2 <= 2 ^ N.succ L1 * Npos d) by (apply N.mul_le_mono_l; exact Hc).
    lia. }
  assert (Hlo : ~ n * 2 ^ (N.succ L2) < Npos d * 2 ^ L1).
  { assert (Npos d * 2 ^ L1 <= 2 ^ N.succ L2 * 2 ^ L1) by (apply N.mul_le_mono_r; lia).
    assert (2 ^ N.succ L2 * 2 ^ L1 <= 2 ^ N.succ L2 * n) by (apply N.mul_le_mono_l; exact Ha).
    lia. }
  set (e0 := (Z.of_N L1 - Z.of_N L2 - 52)%Z).
  set (small := if (0 <=? e0)%Z then (n <? Npos d * 2 ^ (52 + Z.to_N e0))
                else (n * 2 ^ Z.to_N (- e0) <? Npos d * 2 ^ 52)).
  assert (Hsm : forall t s, (Z.of_N s - Z.of_N t = 52 + e0)%Z ->
            (small = true <-> n * 2 ^ t < Npos d * 2 ^ s)).
  { intros t s Hts. unfold small. destruct (Z.leb_spec 0 e0).
    - rewrite N.ltb_lt. split; intros HH.
      + apply (cmp_shift n (Npos d) 0 (52 + Z.to_N e0)); [lia|]. rewrite N.mul_1_r. exact HH.
      + apply (cmp_shift _ _ _ _ 0 (52 + Z.to_N e0)) in HH; [|lia]. rewrite N.mul_1_r in HH. exact HH.
    - rewrite N.ltb_lt. split; intros HH.
      + eapply cmp_shift, HH. lia.
      + eapply cmp_shift, HH. lia. }
  clearbody small. clearbody L1 L2.
  split.
  - destruct small eqn:Es.
    + destruct (Hsm (52 + L2) (52 + Z.to_N (52 + e0 + Z.of_N L2)) ltac:(lia)) as [Hs _].
      specialize (Hs eq_refl). eapply cmp_shift, Hs. lia.
    + eapply cmp_shift, Hup. lia.
  - intros Hk. apply N.le_ngt. intros HH. destruct small eqn:Es.
    + apply Hlo. eapply cmp_shift, HH. lia.
    + destruct (Hsm 1074 (52 + Z.to_N (e0 + 1074)) ltac:(lia)) as [_ Hs].
      discriminate Hs. eapply cmp_shift, HH. lia.
Qed.

(** The rounded value, scaled by 2^1074 to an integer. *)
Definition scaled (n : N) (d : positive) : N :=
  div_even (n * 2 ^ 1074) (d * pow2P (Z.of_N (kexp n d))) * 2 ^ kexp n d.
Lemma pow2P_pow e : Npos (pow2P e) = 2 ^ Z.to_N e.
Proof.
  unfold pow2P. destruct (2 ^ Z.to_N e) eqn:E; [|reflexivity].
  exfalso. revert E. apply N.pow_nonzero. lia.
Qed.
Lemma pow2P_add x y : (0 <= x)%Z -> (0 <= y)%Z -> pow2P (x + y) = (pow2P x * pow2P y)%positive.
Proof.
  intros Hx Hy. assert (H : Npos (pow2P (x + y)) = Npos (pow2P x * pow2P y)).
  { rewrite posmul, !pow2P_pow, Z2N.inj_add, N.pow_add_r by assumption. reflexivity. }
  congruence.
Qed.
Lemma f64_scaled n d :
  n <> 0 -> fst (f64 n d) * 2 ^ 1074 = scaled n d * Npos (snd (f64 n d)).
Proof.
  intros Hn. unfold f64. destruct n as [|n]; [congruence|].
  unfold round_at, scaled, kexp. pose proof (f64_exp_ge (N.pos n) d) as Hge.
  set (e := f64_exp (N.pos n) d) in *. clearbody e.
  rewrite Z2N.id by lia.
  destruct (Z.leb_spec 0 e); cbn [fst snd].
  - rewrite N.mul_1_r. rewrite pow2P_add by lia. rewrite Pos.mul_assoc.
    change (2 ^ 1074) with (Npos (pow2P 1074)). rewrite div_even_scale.
    rewrite Z2N.inj_add by lia. rewrite N.pow_add_r.
    change (2 ^ Z.to_N 1074) with (Npos (pow2P 1074)). lia.
  - rewrite pow2P_pow.
    replace (2 ^ 1074) with (2 ^ Z.to_N (- e) * 2 ^ Z.to_N (e + 1074)).
    2:{ rewrite <- N.pow_add_r. f_equal. lia. }
    rewrite (N.mul_assoc (Npos n)), <- (pow2P_pow (e + 1074)), div_even_scale. lia.
Qed.

Lemma scaled_mono n d n' d' :
  n <> 0 -> n' <> 0 -> n * Npos d' <= n' * Npos d -> scaled n d <= scaled n' d'.
Proof.
  intros Hn Hn' Hle. unfold scaled.
  destruct (f64_exp_spec n d Hn) as [Hu Hl]. destruct (f64_exp_spec n' d' Hn') as [Hu' Hl'].
  set (k := kexp n d) in *. set (k' := kexp n' d') in *. clearbody k k'.
  assert (Hx : n * 2 ^ 1074 * Npos d' <= n' * 2 ^ 1074 * Npos d) by nia.
  set (a := n * 2 ^ 1074) in *. set (a' := n' * 2 ^ 1074) in *. clearbody a a'.
  assert (Hkk : k <= k').
  { destruct (N.le_gt_cases k k') as [|Hgt]; [assumption|exfalso].
    assert (H1 : 2 ^ (53 + k') <= 2 ^ (52 + k)) by (apply N.pow_le_mono_r; lia).
    specialize (Hl ltac:(lia)).
    assert (Npos d' * (Npos d * 2 ^ (52 + k)) <= Npos d' * a) by (apply N.mul_le_mono_l; exact Hl).
    assert (Npos d * a' < Npos d * (Npos d' * 2 ^ (53 + k'))) by (apply N.mul_lt_mono_pos_l; [lia|exact Hu']).
    assert (Npos d * Npos d' * 2 ^ (53 + k') <= Npos d * Npos d' * 2 ^ (52 + k))
      by (apply N.mul_le_mono_l; exact H1).
    lia. }
  destruct (N.eq_dec k k') as [->|Hne].
  - apply N.mul_le_mono_r. apply div_even_mono. rewrite !posmul, pow2P_pow. nia.
  - specialize (Hl' ltac:(lia)).
    assert (H1 : div_even a (d * pow2P (Z.of_N k)) <= 2 ^ 53).
    { rewrite <- (div_even_exact (2 ^ 53) 1). apply div_even_mono.
      rewrite !posmul, pow2P_pow, N2Z.id. rewrite N.pow_add_r in Hu. lia. }
    assert (H2 : 2 ^ 52 <= div_even a' (d' * pow2P (Z.of_N k'))).
    { rewrite <- (div_even_exact (2 ^ 52) 1). apply div_even_mono.
      rewrite !posmul, pow2P_pow, N2Z.id. rewrite N.pow_add_r in Hl'. lia. }
    assert (H3 : 2 ^ 53 * 2 ^ k <= 2 ^ 52 * 2 ^ k').
    { rewrite <- !N.pow_add_r. apply N.pow_le_mono_r; lia. }
    set (q := div_even a (d * pow2P (Z.of_N k))) in *. set (q' := div_even a' (d' * pow2P (Z.of_N k'))) in *.
    clearbody q q'.
    apply N.le_trans with (2 ^ 53 * 2 ^ k); [apply N.mul_le_mono_r; exact H1|].
    apply N.le_trans with (2 ^ 52 * 2 ^ k'); [exact H3|]. apply N.mul_le_mono_r; exact H2.
Qed.

Lemma f64_mono n d n' d' :
  n * Npos d' <= n' * Npos d ->
  fst (f64 n d) * Npos (snd (f64 n' d')) <= fst (f64 n' d') * Npos (snd (f64 n d)).
Proof.
  intros Hle. destruct (N.eq_dec n 0) as [->|Hn]; [cbn; lia|].
  assert (Hn' : n' <> 0) by nia.
  pose proof (scaled_mono n d n' d' Hn Hn' Hle) as Hs.
  pose proof (f64_scaled n d Hn) as E. pose proof (f64_scaled n' d' Hn') as E'.
  set (v := fst (f64 n d)) in *. set (p := Npos (snd (f64 n d))) in *.
  set (v' := fst (f64 n' d')) in *. set (p' := Npos (snd (f64 n' d'))) in *.
  clearbody v p v' p'. set (S := scaled n d) in *. set (S' := scaled n' d') in *. clearbody S S'.
  assert (H : v * p' * 2 ^ 1074 <= v' * p * 2 ^ 1074).
  { replace (v * p' * 2 ^ 1074) with (S * (p * p')) by nia.
    replace (v' * p * 2 ^ 1074) with (S' * (p * p')) by nia. apply N.mul_le_mono_r. exact Hs. }
  apply N.mul_le_mono_pos_r in H; [exact H|]. apply N.neq_0_lt_0, N.pow_nonzero. lia.
Qed.

(** Numbers m * 2^j / 1 with m < 2^53 are not changed. *)
Lemma f64_exact m j : m < 2 ^ 53 -> fst (f64 (m * 2 ^ j) 1) = m * 2 ^ j * Npos (snd (f64 (m * 2 ^ j) 1)).
Proof.
  intros Hm. destruct (N.eq_dec (m * 2 ^ j) 0) as [->|Hn]; [reflexivity|].
  pose proof (f64_scaled _ 1 Hn) as E. destruct (f64_exp_spec _ 1 Hn) as [_ Hl].
  unfold scaled in E. set (k := kexp (m * 2 ^ j) 1) in *. clearbody k.
  assert (Hk : k <= j + 1074).
  { destruct (N.le_gt_cases k (j + 1074)) as [|Hgt]; [assumption|exfalso].
    specialize (Hl ltac:(lia)).
    assert (2 ^ (53 + (j + 1074)) <= 2 ^ (52 + k)) by (apply N.pow_le_mono_r; lia).
    rewrite N.pow_add_r in H. rewrite (N.pow_add_r 2 j 1074) in H.
    assert (0 < 2 ^ j * 2 ^ 1074) by (rewrite <- N.pow_add_r; apply N.neq_0_lt_0, N.pow_nonzero; lia).
    nia. }
  assert (Hd : m * 2 ^ j * 2 ^ 1074 = m * 2 ^ (j + 1074 - k) * Npos (1 * pow2P (Z.of_N k))).
  { rewrite Pos.mul_1_l, pow2P_pow, N2Z.id. rewrite <- !N.mul_assoc, <- !N.pow_add_r. do 2 f_equal. lia. }
  rewrite Hd, div_even_exact in E.
  replace (m * 2 ^ (j + 1074 - k) * 2 ^ k) with (m * 2 ^ j * 2 ^ 1074) in E.
  2:{ rewrite <- !N.mul_assoc, <- !N.pow_add_r. do 2 f_equal. lia. }
  assert (E2 : 2 ^ 1074 * fst (f64 (m * 2 ^ j) 1) = 2 ^ 1074 * (m * 2 ^ j * Npos (snd (f64 (m * 2 ^ j) 1))))
    by lia.
  apply N.mul_cancel_l in E2; [exact E2|]. apply N.pow_nonzero. lia.
Qed.
Close Scope N_scope.

(** ** Signed values. *)
Open Scope Z_scope.
Definition fle (x y : fl) : Prop := fst x * Zpos (snd y) <= fst y * Zpos (snd x).
Definition flt (x y : fl) : Prop := fst x * Zpos (snd y) < fst y * Zpos (snd x).
Definition feq (x y : fl) : Prop := fst x * Zpos (snd y) = fst y * Zpos (snd x).

Lemma fle_refl x : fle x x.
Proof. unfold fle. lia. Qed.
Lemma fle_trans x y z : fle x y -> fle y z -> fle x z.
Proof.
  unfold fle. destruct x as [a p], y as [b q], z as [c r]; cbn. intros H1 H2.
  assert (H : a * Zpos r * Zpos q <= c * Zpos p * Zpos q).
  { apply Z.le_trans with (b * Zpos p * Zpos r).
    - replace (a * Zpos r * Zpos q) with (a * Zpos q * Zpos r) by lia.
      apply Z.mul_le_mono_nonneg_r; lia.
    - replace (b * Zpos p * Zpos r) with (b * Zpos r * Zpos p) by lia.
      replace (c * Zpos p * Zpos q) with (c * Zpos q * Zpos p) by lia.
      apply Z.mul_le_mono_nonneg_r; lia. }
  apply Z.mul_le_mono_pos_r in H; lia.
Qed.
Lemma feq_le x y : feq x y <-> fle x y /\ fle y x.
Proof. unfold feq, fle. lia. Qed.
Lemma feq_refl x : feq x x.
Proof. reflexivity. Qed.
Lemma feq_sym x y : feq x y -> feq y x.
Proof. unfold feq. lia. Qed.
Lemma feq_trans x y z : feq x y -> feq y z -> feq x z.
Proof. rewrite !feq_le. intros [] []. split; eapply fle_trans; eassumption. Qed.
Lemma flt_nge x y : flt x y <-> ~ fle y x.
Proof. unfold fle, flt. lia. Qed.
Lemma fle_total x y : fle x y \/ fle y x.
Proof. unfold fle. lia. Qed.

Lemma rnd_mono x y : fle x y -> fle (rnd x) (rnd y).
Proof.
  destruct x as [a p], y as [b q]. unfold fle, rnd. cbn [fst snd]. intros H.
  pose proof (f64_mono (Z.abs_N a) p (Z.abs_N b) q) as M1.
  pose proof (f64_mono (Z.abs_N b) q (Z.abs_N a) p) as M2.
  destruct (f64 (Z.abs_N a) p) as [v r] eqn:E1. destruct (f64 (Z.abs_N b) q) as [w t] eqn:E2.
  cbn [fst snd] in *.
  destruct (Z.lt_trichotomy a 0) as [Ha|[Ha|Ha]]; destruct (Z.lt_trichotomy b 0) as [Hb|[Hb|Hb]];
    subst; rewrite ?(Z.sgn_neg a), ?(Z.sgn_neg b), ?(Z.sgn_pos a), ?(Z.sgn_pos b) by assumption;
    cbn [Z.sgn]; try lia.
Qed.
Lemma rnd_feq x y : feq x y -> feq (rnd x) (rnd y).
Proof. rewrite !feq_le. intros []. split; apply rnd_mono; assumption. Qed.
(** Integers with at most 53 significant bits are exact. *)
Lemma rnd_exact z m j : Z.abs z = m * 2 ^ j -> 0 <= m < 2 ^ 53 -> 0 <= j -> feq (rnd (fint z)) (fint z).
Proof.
  intros Hz Hm Hj. unfold feq, rnd, fint. cbn [fst snd].
  pose proof (f64_exact (Z.to_N m) (Z.to_N j) ltac:(lia)) as E.
  assert (Hn : Z.abs_N z = (Z.to_N m * 2 ^ Z.to_N j)%N).
  { apply N2Z.inj. rewrite N2Z.inj_abs_N, N2Z.inj_mul, N2Z.inj_pow, !Z2N.id by lia. exact Hz. }
  rewrite Hn. destruct (f64 _ 1) as [v p] eqn:E1. cbn [fst snd] in *. rewrite <- Hn in E.
  assert (E2 : Z.of_N v = Z.abs z * Zpos p).
  { rewrite E, N2Z.inj_mul, N2Z.inj_abs_N. reflexivity. }
  rewrite E2. pose proof (Z.abs_sgn z) as E3. nia.
Qed.
Lemma rnd_int z : Z.abs z < 2 ^ 53 -> feq (rnd (fint z)) (fint z).
Proof. intros H. apply (rnd_exact z (Z.abs z) 0); lia. Qed.
(** Rounding never crosses a representable number. *)
Lemma rnd_le_int x z : Z.abs z < 2 ^ 53 -> fle x (fint z) -> fle (rnd x) (fint z).
Proof.
  intros Hz H. eapply fle_trans; [apply rnd_mono, H|]. pose proof (rnd_int z Hz) as E. apply feq_le in E. apply E.
Qed.
Lemma rnd_ge_int x z : Z.abs z < 2 ^ 53 -> fle (fint z) x -> fle (fint z) (rnd x).
Proof.
  intros Hz H. eapply fle_trans; [|apply rnd_mono, H]. pose proof (rnd_int z Hz) as E. apply feq_le in E. apply E.
Qed.

(** ** To integers. *)
Lemma flround_mono x y : fle x y -> flround x <= flround y.
Proof.
  destruct x as [a p], y as [b q]. unfold fle, flround. cbn [fst snd]. intros H.
  assert (M : forall u v p q, 0 <= u -> 0 <= v -> u * Zpos q <= v * Zpos p ->
            (2 * u + Zpos p) / (2 * Zpos p) <= (2 * v + Zpos q) / (2 * Zpos q)).
  { clear. intros u v p q Hu Hv H. apply Z.div_le_lower_bound; [lia|].
    pose proof (Z.mul_div_le (2 * u + Zpos p) (2 * Zpos p) ltac:(lia)).
    set (k := (2 * u + Zpos p) / (2 * Zpos p)) in *. clearbody k.
    assert (Zpos p * (2 * Zpos q * k) <= Zpos p * (2 * v + Zpos q)) by nia.
    apply Z.mul_le_mono_pos_l in H1; lia. }
  assert (P : forall u p, 0 <= u -> 0 <= (2 * u + Zpos p) / (2 * Zpos p)).
  { intros u r Hu. apply Z.div_pos; lia. }
  destruct (Z.lt_trichotomy a 0) as [Ha|[Ha|Ha]]; destruct (Z.lt_trichotomy b 0) as [Hb|[Hb|Hb]];
    subst; rewrite ?(Z.sgn_neg a), ?(Z.sgn_neg b), ?(Z.sgn_pos a), ?(Z.sgn_pos b) by assumption;
    cbn [Z.sgn]; try lia.
  - pose proof (M (Z.abs b) (Z.abs a) q p). lia.
  - pose proof (P (Z.abs a) p). lia.
  - pose proof (P (Z.abs a) p). pose proof (P (Z.abs b) q). lia.
  - pose proof (P (Z.abs b) q). lia.
  - pose proof (M (Z.abs a) (Z.abs b) p q). lia.
Qed.
Lemma flround_int z : flround (fint z) = z.
Proof.
  unfold flround, fint. cbn [fst snd]. rewrite Z.mul_1_r.
  rewrite (Z.mul_comm 2), Z.div_add_l by lia. change (1 / 2) with 0. lia.
Qed.
Lemma flround_feq x y : feq x y -> flround x = flround y.
Proof. rewrite feq_le. intros [H1 H2]. apply flround_mono in H1, H2. lia. Qed.
Lemma ftrunc_feq_int x z : feq x (fint z) -> ftrunc x = z.
Proof.
  unfold feq, ftrunc, fint. cbn [fst snd]. rewrite Z.mul_1_r. intros ->. apply Z.quot_mul. lia.
Qed.
Close Scope Z_scope.

(** ** Relative error of rounding (outside the subnormal range). *)
Lemma f64_err n (d : positive) :
  n <> 0%N -> (Npos d * 2 ^ 52 <= n * 2 ^ 1074)%N ->
  (2 ^ 53 * Z.abs (Z.of_N (fst (f64 n d)) * Zpos d - Z.of_N n * Zpos (snd (f64 n d)))
   <= Z.of_N n * Zpos (snd (f64 n d)))%Z.
Proof.
  intros Hn Hsub. pose proof (f64_scaled n d Hn) as E. unfold scaled in E.
  destruct (f64_exp_spec n d Hn) as [_ Hl].
  set (v := fst (f64 n d)) in *. set (p := snd (f64 n d)) in *. clearbody v p.
  set (k := kexp n d) in *. clearbody k.
  assert (Hk : (Npos d * 2 ^ (52 + k) <= n * 2 ^ 1074)%N).
  { destruct (N.eq_dec k 0) as [->|Hk]; [exact Hsub|apply Hl, Hk]. }
  destruct (div_even_spec (n * 2 ^ 1074) (d * pow2P (Z.of_N k))) as (H1 & H2 & _).
  set (q := div_even (n * 2 ^ 1074) (d * pow2P (Z.of_N k))) in *. clearbody q.
  rewrite posmul, pow2P_pow, N2Z.id in H1, H2.
  rewrite N.pow_add_r in Hk.
  assert (HP : (0 < 2 ^ 1074)%N) by (apply N.neq_0_lt_0, N.pow_nonzero; lia).
  set (P := (2 ^ 1074)%N) in *. set (K := (2 ^ k)%N) in *. clearbody P K. change (2 ^ 52)%N with 4503599627370496%N in Hk.
  change (2 ^ 53)%Z with 9007199254740992%Z.
  assert (H3 : (Z.of_N P * Z.abs (Z.of_N v * Zpos d - Z.of_N n * Zpos p) * 2
                <= Zpos p * (Zpos d * Z.of_N K))%Z).
  { assert (EZ : (Z.of_N v * Z.of_N P = Z.of_N q * Z.of_N K * Zpos p)%Z) by lia.
    assert (A1 : (Zpos d * Z.of_N K * (2 * Z.of_N q) <= 2 * (Z.of_N n * Z.of_N P) + Zpos d * Z.of_N K)%Z) by lia.
    assert (A2 : (2 * (Z.of_N n * Z.of_N P) <= Zpos d * Z.of_N K * (2 * Z.of_N q + 1))%Z) by lia.
    assert (B1 : (Zpos p * (Zpos d * Z.of_N K * (2 * Z.of_N q) - 2 * (Z.of_N n * Z.of_N P)) <= Zpos p * (Zpos d * Z.of_N K))%Z).
    { apply Z.mul_le_mono_nonneg_l; lia. }
    assert (B2 : (Zpos p * (2 * (Z.of_N n * Z.of_N P) - Zpos d * Z.of_N K * (2 * Z.of_N q)) <= Zpos p * (Zpos d * Z.of_N K))%Z).
    { apply Z.mul_le_mono_nonneg_l; lia. }
    assert (C : (Z.of_N P * (Z.of_N v * Zpos d - Z.of_N n * Zpos p) * 2
       = Zpos p * (Zpos d * Z.of_N K * (2 * Z.of_N q) - 2 * (Z.of_N n * Z.of_N P)))%Z).
    { replace (Z.of_N P * (Z.of_N v * Zpos d - Z.of_N n * Zpos p) * 2)%Z
        with ((Z.of_N v * Z.of_N P) * Zpos d * 2 - Z.of_N P * Z.of_N n * Zpos p * 2)%Z by lia.
      rewrite EZ. lia. }
    destruct (Z.abs_spec (Z.of_N v * Zpos d - Z.of_N n * Zpos p)) as [[_ ->]|[_ ->]]; lia. }
  assert (H4 : (Zpos p * (Zpos d * (4503599627370496 * Z.of_N K)) <= Zpos p * (Z.of_N n * Z.of_N P))%Z).
  { apply Z.mul_le_mono_nonneg_l; lia. }
  assert (H5 : (Z.of_N P * (9007199254740992 * Z.abs (Z.of_N v * Zpos d - Z.of_N n * Zpos p))
                <= Z.of_N P * (Z.of_N n * Zpos p))%Z) by lia.
  apply Z.mul_le_mono_pos_l in H5; lia.
Qed.

Open Scope Z_scope.
Lemma rnd_nonneg z d : 0 <= z -> 0 <= fst (rnd (z, d)).
Proof. unfold rnd. cbn [fst snd]. destruct (f64 _ d). cbn. lia. Qed.
Lemma rnd_err z (d : positive) :
  0 <= z -> Zpos d <= z * 2 ^ 1022 \/ z = 0 ->
  2 ^ 53 * Z.abs (fst (rnd (z, d)) * Zpos d - z * Zpos (snd (rnd (z, d)))) <= z * Zpos (snd (rnd (z, d))).
Proof.
  intros Hz Hs. destruct (Z.eq_dec z 0) as [->|Hnz]; [cbn; lia|].
  destruct Hs as [Hs|]; [|contradiction].
  pose proof (f64_err (Z.to_N z) d ltac:(lia)) as H. unfold rnd. cbn [fst snd].
  replace (Z.abs_N z) with (Z.to_N z) by lia.
  destruct (f64 (Z.to_N z) d) as [v p]. cbn [fst snd] in *. rewrite Z2N.id in H by lia.
  rewrite Z.sgn_pos by lia. rewrite Z.mul_1_l. apply H.
  change (2 ^ 1074)%N with (2 ^ 1022 * 2 ^ 52)%N. rewrite N.mul_assoc. apply N.mul_le_mono_r.
  change (2 ^ 1022)%N with (Z.to_N (2 ^ 1022)). lia.
Qed.
Lemma flround_near x : 0 <= fst x -> Z.abs (2 * fst x - 2 * flround x * Zpos (snd x)) <= Zpos (snd x).
Proof.
  destruct x as [z p]. cbn [fst snd]. intros Hz. unfold flround. cbn [fst snd].
  destruct (Z.eq_dec z 0) as [->|Hnz].
  { cbn [Z.sgn]. lia. }
  rewrite Z.sgn_pos by lia. rewrite (Z.abs_eq z) by lia. rewrite Z.mul_1_l.
  pose proof (Z.mul_div_le (2 * z + Zpos p) (2 * Zpos p) ltac:(lia)).
  pose proof (Z.mul_succ_div_gt (2 * z + Zpos p) (2 * Zpos p) ltac:(lia)).
  set (k := (2 * z + Zpos p) / (2 * Zpos p)) in *. clearbody k. lia.
Qed.
Close Scope Z_scope.

(** ** Rounding a rounded value changes nothing. *)
Open Scope N_scope.
Lemma scaled_fix v (p : positive) q k :
  v <> 0 -> v * 2 ^ 1074 = q * 2 ^ k * Npos p -> q <= 2 ^ 53 -> scaled v p = q * 2 ^ k.
Proof.
  intros Hv E Hq. destruct (f64_exp_spec v p Hv) as [_ Hl]. unfold scaled. rewrite E in *.
  set (k' := kexp v p) in *. clearbody k'.
  assert (X : forall m, q * 2 ^ k = m * 2 ^ k' ->
            div_even (q * 2 ^ k * Npos p) (p * pow2P (Z.of_N k')) * 2 ^ k' = q * 2 ^ k).
  { intros m Em. rewrite Em. f_equal.
    transitivity (div_even (m * Npos (p * pow2P (Z.of_N k'))) (p * pow2P (Z.of_N k')));
      [f_equal|apply div_even_exact].
    rewrite posmul, pow2P_pow, N2Z.id. ring. }
  destruct (N.le_gt_cases k' k) as [Hk|Hk].
  - apply (X (q * 2 ^ (k - k'))). rewrite <- N.mul_assoc, <- N.pow_add_r. do 2 f_equal. lia.
  - specialize (Hl ltac:(lia)).
    assert (H1 : 2 ^ (52 + k') <= q * 2 ^ k).
    { assert (Npos p * 2 ^ (52 + k') <= Npos p * (q * 2 ^ k)) as HH by lia.
      apply N.mul_le_mono_pos_l in HH; lia. }
    assert (H2 : 2 ^ (53 + k) <= 2 ^ (52 + k')) by (apply N.pow_le_mono_r; lia).
    assert (H3 : q * 2 ^ k <= 2 ^ 53 * 2 ^ k) by (apply N.mul_le_mono_r; exact Hq).
    rewrite <- N.pow_add_r in H3.
    apply (X (2 ^ 52)). rewrite <- N.pow_add_r. lia.
Qed.
Lemma f64_idem n d :
  fst (f64 (fst (f64 n d)) (snd (f64 n d))) * Npos (snd (f64 n d))
  = fst (f64 n d) * Npos (snd (f64 (fst (f64 n d)) (snd (f64 n d)))).
Proof.
  destruct (N.eq_dec n 0) as [->|Hn]; [reflexivity|].
  pose proof (f64_scaled n d Hn) as E. destruct (f64_exp_spec n d Hn) as [Hu _].
  unfold scaled in E. set (v := fst (f64 n d)) in *. set (p := snd (f64 n d)) in *. clearbody v p.
  destruct (N.eq_dec v 0) as [->|Hv]; [reflexivity|].
  set (q := div_even (n * 2 ^ 1074) (d * pow2P (Z.of_N (kexp n d)))) in *.
  assert (Hq : q <= 2 ^ 53).
  { unfold q. rewrite <- (div_even_exact (2 ^ 53) 1). apply div_even_mono.
    rewrite !posmul, pow2P_pow, N2Z.id. rewrite N.pow_add_r in Hu. lia. }
  pose proof (scaled_fix v p q _ Hv E Hq) as S. pose proof (f64_scaled v p Hv) as E'.
  rewrite S in E'. clearbody q. set (K := 2 ^ kexp n d) in *. clearbody K.
  set (v' := fst (f64 v p)) in *. set (p' := snd (f64 v p)) in *. clearbody v' p'.
  assert (HP : 2 ^ 1074 <> 0) by (apply N.pow_nonzero; lia). set (P := 2 ^ 1074) in *. clearbody P.
  assert (H : P * (v' * Npos p) = P * (v * Npos p')) by nia.
  apply N.mul_cancel_l in H; assumption.
Qed.
Close Scope N_scope.
Lemma rnd_idem x : feq (rnd (rnd x)) (rnd x).
Proof.
  destruct x as [z d]. unfold feq, rnd. cbn [fst snd].
  pose proof (f64_idem (Z.abs_N z) d) as H.
  destruct (f64 (Z.abs_N z) d) as [v p] eqn:E1. cbn [fst snd] in *.
  destruct (Z.eq_dec z 0%Z) as [->|Hz].
  { cbn in E1. injection E1 as <- <-. reflexivity. }
  replace (Z.abs_N (Z.sgn z * Z.of_N v)%Z) with v by lia.
  destruct (f64 v p) as [v' p'] eqn:E2. cbn [fst snd] in *.
  destruct (N.eq_dec v 0%N) as [->|Hv].
  { cbn in E2. injection E2 as <- <-. lia. }
  replace (Z.sgn (Z.sgn z * Z.of_N v)%Z) with (Z.sgn z) by lia. nia.
Qed.

(** AnimTime.v -- when animations arrive (C29): the rounding errors of binary64
    stay below half a pixel for a million redraws. *)
From Verif Require Export AnimFacts AnimSpec.
Require Import QArith Qabs Lqa Sorted.
Open Scope Z_scope.
Open Scope list_scope.

Definition e53 : Q := 1 # 9007199254740992.
Lemma toQ_rnd x y : (toQ x == toQ y -> toQ (rnd x) == toQ (rnd y))%Q.
Proof. intros H. apply (rnd_feq x y), H. Qed.
Lemma toQ_rnd_idem x : (toQ (rnd (rnd x)) == toQ (rnd x))%Q.
Proof. apply rnd_idem. Qed.
Lemma rnd_neg z d : rnd (- z, d) = ((- fst (rnd (z, d)))%Z, snd (rnd (z, d))).
Proof.
  unfold rnd. cbn [fst snd]. replace (Z.abs_N (- z)) with (Z.abs_N z) by lia. destruct (f64 (Z.abs_N z) d). cbn.
  rewrite Z.sgn_opp. f_equal. lia.
Qed.

(** Relative error, for positive values that are not subnormal. *)
Lemma rnd_rel x : (1 # pow2P 1022 <= toQ x)%Q ->
  ((1 - e53) * toQ x <= toQ (rnd x) /\ toQ (rnd x) <= (1 + e53) * toQ x)%Q.
Proof.
  destruct x as [z d]. intros H. unfold toQ, Qle in H. cbn [Qnum Qden fst snd] in H.
  assert (Hz : 0 < z).
  { clear -H. revert H. generalize (pow2P 1022). intros P H. nia. }
  assert (Hp : Zpos (pow2P 1022) = 2 ^ 1022) by (vm_compute; reflexivity).
  rewrite Hp in H. clear Hp.
  pose proof (rnd_err z d ltac:(lia)) as E.
  rewrite Z.mul_1_l in H. pose proof (E (or_introl H)) as E'. clear E H.
  destruct (rnd (z, d)) as [v p]. cbn [fst snd] in *. change (2 ^ 53) with 9007199254740992 in E'.
  unfold e53, toQ, Qle. cbn [fst snd Qnum Qden Qmult Qminus Qplus Qopp]. lia.
Qed.
Lemma rnd_abs_pos x :
  (0 <= toQ x)%Q -> (toQ x <= 4294967296)%Q ->
  (toQ x - (1 # 2097152) <= toQ (rnd x) /\ toQ (rnd x) <= toQ x + (1 # 2097152))%Q.
Proof.
  intros H0 H1. destruct (Qlt_le_dec (toQ x) (1 # pow2P 1022)) as [Hs|Hb].
  - assert (L : (toQ (rnd x) <= toQ (rnd (1%Z, pow2P 1022)))%Q).
    { apply (rnd_mono x (1%Z, pow2P 1022)), fle_Q, Qlt_le_weak. exact Hs. }
    assert (L2 : (toQ (rnd (1%Z, pow2P 1022)) <= 1 # 4194304)%Q) by (vm_compute; discriminate).
    assert (L3 : (1 # pow2P 1022 <= 1 # 4194304)%Q) by (vm_compute; discriminate).
    assert (L4 : (0 <= toQ (rnd x))%Q) by (apply (rd_nonneg rnd rnd_mono rnd_int), H0).
    set (q := toQ (rnd (1%Z, pow2P 1022))) in *. clearbody q.
    set (w := 1 # pow2P 1022) in *. clearbody w. split; lra.
  - destruct (rnd_rel x Hb) as [A B]. unfold e53 in *. split; lra.
Qed.
Lemma toQ_opp z d : (toQ ((- z)%Z, d) == - toQ (z, d))%Q.
Proof. reflexivity. Qed.
Lemma rnd_abs x :
  (- (4294967296) <= toQ x)%Q -> (toQ x <= 4294967296)%Q ->
  (toQ x - (1 # 2097152) <= toQ (rnd x) /\ toQ (rnd x) <= toQ x + (1 # 2097152))%Q.
Proof.
  intros H0 H1. destruct (Qlt_le_dec (toQ x) 0) as [Hn|Hp]; [|apply rnd_abs_pos; assumption].
  destruct x as [z d].
  pose proof (rnd_abs_pos ((- z)%Z, d)) as A. rewrite toQ_opp in A.
  specialize (A ltac:(lra) ltac:(lra)). rewrite rnd_neg in A. rewrite toQ_opp in A.
  change (toQ (fst (rnd (z, d)), snd (rnd (z, d)))) with (toQ (rnd (z, d))) in A. lra.
Qed.
(** A value is determined up to 2^-21 by its rounding if that is small. *)
Lemma rnd_abs_inv x :
  (- (2147483648) <= toQ (rnd x))%Q -> (toQ (rnd x) <= 2147483648)%Q ->
  (toQ x - (1 # 2097152) <= toQ (rnd x) /\ toQ (rnd x) <= toQ x + (1 # 2097152))%Q.
Proof.
  intros H0 H1. apply rnd_abs.
  - apply Qnot_lt_le. intros C.
    assert (L : (toQ (rnd x) <= toQ (rnd (fint (-4294967296))))%Q).
    { apply (rnd_mono x), fle_Q, Qlt_le_weak. exact C. }
    assert (L2 : (toQ (rnd (fint (-4294967296))) == -4294967296)%Q) by (vm_compute; reflexivity).
    rewrite L2 in L. lra.
  - apply Qnot_lt_le. intros C.
    assert (L : (toQ (rnd (fint 4294967296)) <= toQ (rnd x))%Q).
    { apply (rnd_mono (fint 4294967296)), fle_Q, Qlt_le_weak. exact C. }
    assert (L2 : (toQ (rnd (fint 4294967296)) == 4294967296)%Q) by (vm_compute; reflexivity).
    rewrite L2 in L. lra.
Qed.

(** lround of a value less than half away from an integer. *)
Lemma flround_neg z d : flround ((- z)%Z, d) = - flround (z, d).
Proof. unfold flround. cbn [fst snd]. rewrite Z.sgn_opp, Z.abs_opp. lia. Qed.
Lemma flround_close x T :
  (inject_Z T - (1 # 2) < toQ x)%Q -> (toQ x < inject_Z T + (1 # 2))%Q -> flround x = T.
Proof.
  destruct x as [z d]. unfold toQ, Qlt. cbn. intros H1 H2.
  assert (A : 2 * T * Zpos d - Zpos d < 2 * z) by lia.
  assert (B : 2 * z < 2 * T * Zpos d + Zpos d) by lia. clear H1 H2.
  assert (P : forall z T, 0 <= z -> 2 * T * Zpos d - Zpos d < 2 * z -> 2 * z < 2 * T * Zpos d + Zpos d -> flround (z, d) = T).
  { clear. intros z T Hz A B. pose proof (flround_near (z, d) Hz) as N. cbn [fst snd] in N.
    set (k := flround (z, d)) in *. clearbody k. nia. }
  destruct (Z.le_gt_cases 0 z) as [Hz|Hz]; [apply P; lia|].
  pose proof (P (- z) (- T)) as P'. rewrite flround_neg in P'. lia.
Qed.

(** ** The speed. *)
Definition two31 (z : Z) : Prop := Z.abs z <= 2147483648.
Lemma speed_low v T dur :
  two31 v -> two31 T -> v <> T -> (0 < dur < W64)%N ->
  ((1 - 2 * e53) * inject_Z (Z.abs (T - v)) <=
   toQ (gdiv rnd (gabs (gadd rnd (fint T) (gneg (fint v)))) (rnd (fint (Z.of_N dur)))) * inject_Z (Z.of_N dur))%Q
  /\ (1 # pow2P 66 <= toQ (gdiv rnd (gabs (gadd rnd (fint T) (gneg (fint v)))) (rnd (fint (Z.of_N dur)))))%Q.
Proof.
  intros Hv HT Hne Hd. unfold two31 in *.
  assert (Hdel : (toQ (gabs (gadd rnd (fint T) (gneg (fint v)))) == inject_Z (Z.abs (T - v)))%Q).
  { assert (E : feq (rnd (fint (T - v))) (fint (T - v))).
    { apply rnd_int. change (2 ^ 53) with 9007199254740992. lia. }
    unfold gadd, gneg, fint. cbn [fst snd]. rewrite !Z.mul_1_r.
    replace (T + - v) with (T - v) by lia. change (1 * 1)%positive with 1%positive.
    unfold feq, fint in E. destruct (rnd (T - v, 1%positive)) as [p q]. unfold gabs, toQ, Qeq. cbn [fst snd Qnum Qden inject_Z] in *.
    rewrite !Z.mul_1_r in *. rewrite E, Z.abs_mul. reflexivity. }
  set (X := gabs (gadd rnd (fint T) (gneg (fint v)))) in *. clearbody X.
  assert (Hr : ((1 - e53) * inject_Z (Z.of_N dur) <= toQ (rnd (fint (Z.of_N dur))) /\
                toQ (rnd (fint (Z.of_N dur))) <= (1 + e53) * inject_Z (Z.of_N dur))%Q).
  { change (inject_Z (Z.of_N dur)) with (toQ (fint (Z.of_N dur))). apply rnd_rel.
    apply Qle_trans with (inject_Z 1).
    - vm_compute. discriminate.
    - unfold toQ, fint. cbn [fst snd]. change (inject_Z 1 <= inject_Z (Z.of_N dur))%Q. rewrite <- Zle_Qle. lia. }
  assert (HD : (1 <= inject_Z (Z.of_N dur))%Q) by (change 1%Q with (inject_Z 1); rewrite <- Zle_Qle; lia).
  assert (HD2 : (inject_Z (Z.of_N dur) <= 18446744073709551616)%Q).
  { change 18446744073709551616%Q with (inject_Z 18446744073709551616). rewrite <- Zle_Qle. unfold W64 in Hd. lia. }
  assert (Hde : (1 <= inject_Z (Z.abs (T - v)))%Q) by (change 1%Q with (inject_Z 1); rewrite <- Zle_Qle; lia).
  set (D := inject_Z (Z.of_N dur)) in *. set (r := rnd (fint (Z.of_N dur))) in *. clearbody D r.
  set (del := inject_Z (Z.abs (T - v))) in *. clearbody del.
  assert (Hrp : (0 < toQ r)%Q) by (unfold e53 in *; lra).
  assert (Hq : (toQ ((fst X * Zpos (snd r))%Z, (snd X * Z.to_pos (fst r))%positive) * toQ r == del)%Q).
  { rewrite <- Hdel. destruct X as [a b], r as [c d]. unfold toQ, Qlt, Qeq in *. cbn [fst snd Qnum Qden Qmult] in *.
    assert (0 < c) by lia. rewrite !Pos2Z.inj_mul, Z2Pos.id by assumption. lia. }
  unfold gdiv. set (q := ((fst X * Zpos (snd r))%Z, (snd X * Z.to_pos (fst r))%positive)) in *. clearbody q.
  assert (Hqp : (0 < toQ q)%Q).
  { apply Qnot_le_lt. intros C. assert (toQ q * toQ r <= 0)%Q by nra. lra. }
  assert (Hq2 : ((1 - e53) * del <= toQ q * D)%Q).
  { (* q D (1+e) >= q r = del *)
    assert (toQ q * toQ r <= toQ q * ((1 + e53) * D))%Q by (apply Qmult_le_l; lra).
    assert (X1 : (del <= (1 + e53) * (toQ q * D))%Q) by lra.
    unfold e53 in *. lra. }
  assert (Hlow : (1 # pow2P 65 <= toQ q)%Q).
  { assert (toQ q * D <= toQ q * 18446744073709551616)%Q by (apply Qmult_le_l; lra).
    assert ((1 # 2) <= toQ q * 18446744073709551616)%Q by (unfold e53 in *; lra).
    change (pow2P 65) with 36893488147419103232%positive. lra. }
  assert (Hlow2 : (1 # pow2P 1022 <= toQ q)%Q).
  { eapply Qle_trans; [|exact Hlow]. vm_compute. discriminate. }
  destruct (rnd_rel q Hlow2) as [R1 _]. split.
  - assert ((1 - e53) * toQ q * D <= toQ (rnd q) * D)%Q by (apply Qmult_le_r; lra).
    assert ((1 - e53) * ((1 - e53) * del) <= (1 - e53) * (toQ q * D))%Q.
    { apply Qmult_le_l; [unfold e53; lra|exact Hq2]. }
    unfold e53 in *. lra.
  - change (pow2P 65) with 36893488147419103232%positive in Hlow.
    change (pow2P 66) with 73786976294838206464%positive. unfold e53 in *. lra.
Qed.

(** ** Progress of one animation; sg is the direction. *)
Definition u21 : Q := 1 # 2097152.
Record prog (v T : Z) (dur f : N) (i : nat) (a : anim) : Prop := {
  pr_dur : an_dur a = dur;
  pr_T : an_target a = fint T;
  pr_speed : ((1 - 2 * e53) * inject_Z (Z.abs (T - v)) <= toQ (an_speed a) * inject_Z (Z.of_N dur))%Q;
  pr_speed2 : (1 # pow2P 66 <= toQ (an_speed a))%Q;
  pr_rspeed : (toQ (rnd (an_speed a)) == toQ (an_speed a))%Q;
  pr_last : (f <= an_last a < W64)%N;
  pr_gap : (Qabs (inject_Z T - toQ (an_cur a)) * inject_Z (Z.of_N dur) <=
            inject_Z (Z.abs (T - v)) * inject_Z (Z.of_N dur)
            - (1 - 4 * e53) * inject_Z (Z.abs (T - v)) * inject_Z (Z.of_N (an_last a - f))
            + inject_Z (Z.of_nat i) * u21 * inject_Z (Z.of_N dur))%Q }.

Lemma tsub_le a b : (b <= a < W64)%N -> tsub a b = (a - b)%N.
Proof.
  intros H. unfold tsub. replace (a + W64 - b)%N with (a - b + 1 * W64)%N by lia.
  rewrite N.mod_add by (unfold W64; lia). apply N.mod_small. lia.
Qed.
Lemma injZ_nonneg z : 0 <= z -> (0 <= inject_Z z)%Q.
Proof. intros H. change 0%Q with (inject_Z 0). rewrite <- Zle_Qle. exact H. Qed.

(** The increment, at least (1 - 4e) of the ideal one. *)
Lemma inc_low s del D dt :
  (1 # pow2P 66 <= toQ s)%Q -> (toQ (rnd s) == toQ s)%Q ->
  ((1 - 2 * e53) * del <= toQ s * D)%Q -> (0 < D)%Q -> (0 < del)%Q -> (dt < W64)%N ->
  ((1 - 4 * e53) * del * inject_Z (Z.of_N dt) <= toQ (gmul rnd (gmul rnd (fint 1) s) (rnd (fint (Z.of_N dt)))) * D)%Q.
Proof.
  intros Hs Hrs Hsd HD Hdel Hdt.
  assert (E1 : (toQ (gmul rnd (fint 1) s) == toQ s)%Q).
  { unfold gmul. rewrite <- Hrs. apply toQ_rnd. rewrite gmul_arg. rewrite toQ_int. change (inject_Z 1) with 1%Q. lra. }
  destruct (N.eq_dec dt 0) as [->|Hne].
  { change (inject_Z (Z.of_N 0)) with 0%Q.
    assert (0 <= toQ (gmul rnd (gmul rnd (fint 1) s) (rnd (fint (Z.of_N 0)))))%Q.
    { apply (rd_nonneg rnd rnd_mono rnd_int). rewrite gmul_arg.
      change (toQ (rnd (fint (Z.of_N 0)))) with 0%Q. lra. }
    nra. }
  assert (Hdt1 : (1 <= inject_Z (Z.of_N dt))%Q) by (change 1%Q with (inject_Z 1); rewrite <- Zle_Qle; lia).
  assert (Hr : ((1 - e53) * inject_Z (Z.of_N dt) <= toQ (rnd (fint (Z.of_N dt))))%Q).
  { change (inject_Z (Z.of_N dt)) with (toQ (fint (Z.of_N dt))). apply rnd_rel.
    apply Qle_trans with (inject_Z 1); [vm_compute; discriminate|]. rewrite toQ_int, <- Zle_Qle. lia. }
  set (d := inject_Z (Z.of_N dt)) in *. clearbody d. set (r := rnd (fint (Z.of_N dt))) in *. clearbody r.
  set (m := gmul rnd (fint 1) s) in *. clearbody m.
  unfold gmul. set (x := ((fst m * fst r)%Z, (snd m * snd r)%positive)) in *.
  assert (Ex : (toQ x == toQ s * toQ r)%Q) by (unfold x; rewrite gmul_arg, E1; reflexivity).
  clearbody x.
  assert (Hsp : (0 < toQ s)%Q).
  { eapply Qlt_le_trans; [|exact Hs]. vm_compute. reflexivity. }
  assert (Hx1 : (toQ s * ((1 - e53) * d) <= toQ x)%Q).
  { rewrite Ex. apply Qmult_le_l; assumption. }
  assert (Hx2 : (1 # pow2P 67 <= toQ x)%Q).
  { change (pow2P 66) with 73786976294838206464%positive in Hs.
    change (pow2P 67) with 147573952589676412928%positive.
    assert (toQ s * (1 # 2) <= toQ s * ((1 - e53) * d))%Q by (apply Qmult_le_l; unfold e53; lra).
    lra. }
  assert (Hx3 : (1 # pow2P 1022 <= toQ x)%Q) by (eapply Qle_trans; [|exact Hx2]; vm_compute; discriminate).
  destruct (rnd_rel x Hx3) as [R _].
  assert (A1 : ((1 - e53) * toQ x * D <= toQ (rnd x) * D)%Q) by (apply Qmult_le_r; assumption).
  assert (A2 : (toQ s * ((1 - e53) * d) * D <= toQ x * D)%Q) by (apply Qmult_le_r; assumption).
  assert (A3 : ((1 - 2 * e53) * del * d <= toQ s * D * d)%Q) by (apply Qmult_le_r; lra).
  assert (A4 : (0 <= del * d)%Q) by (apply Qmult_le_0_compat; lra).
  unfold e53 in *. lra.
Qed.

Lemma gmul_neg1 s dt :
  (toQ (gmul rnd (gmul rnd (fint (-1)) s) dt) == - toQ (gmul rnd (gmul rnd (fint 1) s) dt))%Q.
Proof.
  unfold gmul, fint. cbn [fst snd].
  replace (-1 * fst s) with (- (1 * fst s)) by lia. rewrite rnd_neg. cbn [fst snd].
  set (w := rnd (1 * fst s, (1 * snd s)%positive)).
  replace (- fst w * fst dt) with (- (fst w * fst dt)) by lia. rewrite rnd_neg.
  apply toQ_opp.
Qed.

Lemma step_prog v T dur f i a t :
  two31 v -> two31 T -> v <> T -> (0 < dur < W64)%N -> (an_last a <= t < W64)%N ->
  okAnim rnd v T a -> prog v T dur f i a -> an_done a = false ->
  an_done (animUpdate rnd t a) = false ->
  prog v T dur f (S i) (animUpdate rnd t a).
Proof.
  intros Hv HT Hne Hd Ht Hok Hp Ha Hnd.
  assert (HT53 : Z.abs T < 2 ^ 53) by (unfold two31 in HT; change (2 ^ 53) with 9007199254740992; lia).
  destruct (update_ok rnd rnd_mono rnd_int rnd_idem t v T a HT53 Hok) as (Hok' & Hmv & _).
  destruct Hp as [Pd PT Ps Ps2 Prs Pl Pg].
  pose proof (inc_low (an_speed a) (inject_Z (Z.abs (T - v))) (inject_Z (Z.of_N dur)) (t - an_last a)
                Ps2 Prs Ps) as Hinc.
  assert (HDp : (0 < inject_Z (Z.of_N dur))%Q) by (change 0%Q with (inject_Z 0); rewrite <- Zlt_Qlt; lia).
  assert (Hdelp : (0 < inject_Z (Z.abs (T - v)))%Q) by (change 0%Q with (inject_Z 0); rewrite <- Zlt_Qlt; lia).
  specialize (Hinc HDp Hdelp ltac:(lia)).
  assert (Hbnd : (- (2147483648) <= toQ (an_cur (animUpdate rnd t a)) /\ toQ (an_cur (animUpdate rnd t a)) <= 2147483648)%Q).
  { unfold two31 in *.
    assert (-(2147483648) <= inject_Z v /\ inject_Z v <= 2147483648)%Q.
    { change (-(2147483648))%Q with (inject_Z (-2147483648)). change 2147483648%Q with (inject_Z 2147483648).
      rewrite <- !Zle_Qle. lia. }
    assert (-(2147483648) <= inject_Z T /\ inject_Z T <= 2147483648)%Q.
    { change (-(2147483648))%Q with (inject_Z (-2147483648)). change 2147483648%Q with (inject_Z 2147483648).
      rewrite <- !Zle_Qle. lia. }
    destruct (oa_bet _ _ _ _ Hok') as [[]|[]]; lra. }
  assert (Hin : (0 <= toQ (gmul rnd (gmul rnd (fint 1) (an_speed a)) (rnd (fint (Z.of_N (t - an_last a))))))%Q).
  { apply (rd_nonneg rnd rnd_mono rnd_int). rewrite gmul_arg. apply Qmult_le_0_compat.
    - apply (rd_nonneg rnd rnd_mono rnd_int). rewrite gmul_arg. apply Qmult_le_0_compat; [discriminate|].
      exact (oa_speed _ _ _ _ Hok).
    - apply (rd_nonneg rnd rnd_mono rnd_int). rewrite toQ_int. apply injZ_nonneg. lia. }
  set (D := inject_Z (Z.of_N dur)) in *. set (del := inject_Z (Z.abs (T - v))) in *.
  assert (Hdist : (inject_Z (Z.of_N (t - f)) == inject_Z (Z.of_N (an_last a - f)) + inject_Z (Z.of_N (t - an_last a)))%Q).
  { rewrite <- inject_Z_plus. replace (Z.of_N (t - f)) with (Z.of_N (an_last a - f) + Z.of_N (t - an_last a)) by lia. reflexivity. }
  assert (HSi : (inject_Z (Z.of_nat (S i)) == inject_Z (Z.of_nat i) + 1)%Q).
  { rewrite Nat2Z.inj_succ. unfold Z.succ. rewrite inject_Z_plus. reflexivity. }
  assert (Hstep : (Qabs (inject_Z T - toQ (an_cur (animUpdate rnd t a))) <=
     Qabs (inject_Z T - toQ (an_cur a))
     - toQ (gmul rnd (gmul rnd (fint 1) (an_speed a)) (rnd (fint (Z.of_N (t - an_last a))))) + u21)%Q
     /\ an_last (animUpdate rnd t a) = t /\ an_dur (animUpdate rnd t a) = an_dur a
     /\ an_target (animUpdate rnd t a) = an_target a /\ an_speed (animUpdate rnd t a) = an_speed a).
  { clear Pg Ps Ps2 Prs Hdist HSi. revert Hnd Hbnd Hmv. unfold animUpdate. rewrite (tsub_le t) by lia. rewrite PT.
    set (J := gmul rnd (gmul rnd (fint 1) (an_speed a)) (rnd (fint (Z.of_N (t - an_last a))))) in *.
    destruct (gltb (an_cur a) (fint T)) eqn:Eup.
    - assert (Hlt : (toQ (an_cur a) < inject_Z T)%Q) by (apply (gltb_Q (an_cur a) (fint T)); exact Eup).
      fold J. destruct (_ || _)%bool; cbn [an_done an_cur]; intros Hnd Hbnd Hmv; [discriminate|].
      split; [|repeat split].
      unfold gadd in *. set (x := ((fst (an_cur a) * Zpos (snd J) + fst J * Zpos (snd (an_cur a)))%Z, (snd (an_cur a) * snd J)%positive)) in *.
      assert (Ex : (toQ x == toQ (an_cur a) + toQ J)%Q) by apply gadd_arg. clearbody x.
      destruct (rnd_abs_inv x (proj1 Hbnd) (proj2 Hbnd)) as [R1 R2]. unfold u21.
      rewrite !Qabs_pos; [lra|lra|].
      destruct Hmv as [[]|[]]; lra.
    - assert (Hge : (inject_Z T <= toQ (an_cur a))%Q).
      { apply Qnot_lt_le. intros C. change (inject_Z T) with (toQ (fint T)) in C. apply gltb_Q in C. congruence. }
      set (Jn := gmul rnd (gmul rnd (fint (-1)) (an_speed a)) (rnd (fint (Z.of_N (t - an_last a))))) in *.
      assert (EJ : (toQ Jn == - toQ J)%Q) by apply gmul_neg1. clearbody Jn.
      destruct (_ || _)%bool; cbn [an_done an_cur]; intros Hnd Hbnd Hmv; [discriminate|].
      split; [|repeat split].
      unfold gadd in *. set (x := ((fst (an_cur a) * Zpos (snd Jn) + fst Jn * Zpos (snd (an_cur a)))%Z, (snd (an_cur a) * snd Jn)%positive)) in *.
      assert (Ex : (toQ x == toQ (an_cur a) + toQ Jn)%Q) by apply gadd_arg. clearbody x.
      destruct (rnd_abs_inv x (proj1 Hbnd) (proj2 Hbnd)) as [R1 R2]. unfold u21.
      rewrite !Qabs_neg; [lra|lra|].
      destruct Hmv as [[]|[]]; lra. }
  destruct Hstep as (Hstep & El & Ed & ET & Es).
  split; rewrite ?El, ?Ed, ?ET, ?Es; try assumption.
  - split; lia.
  - fold D del. set (J := toQ (gmul rnd (gmul rnd (fint 1) (an_speed a)) (rnd (fint (Z.of_N (t - an_last a)))))) in *.
    set (g := Qabs (inject_Z T - toQ (an_cur a))) in *.
    set (g' := Qabs (inject_Z T - toQ (an_cur (animUpdate rnd t a)))) in *.
    assert (A : (g' * D <= (g - J + u21) * D)%Q) by (apply Qmult_le_r; assumption).
    assert (B : (inject_Z (Z.of_nat (S i)) * u21 * D == inject_Z (Z.of_nat i) * u21 * D + u21 * D)%Q).
    { rewrite HSi. ring. }
    assert (C : ((1 - 4 * e53) * del * inject_Z (Z.of_N (t - f)) ==
        (1 - 4 * e53) * del * inject_Z (Z.of_N (an_last a - f)) + (1 - 4 * e53) * del * inject_Z (Z.of_N (t - an_last a)))%Q).
    { rewrite Hdist. ring. }
    lra.
Qed.

Lemma init_prog v T dur f a :
  two31 v -> two31 T -> v <> T -> (0 < dur < W64)%N -> (f < W64)%N ->
  an_target a = fint T -> an_dur a = dur ->
  prog v T dur f 0 (animInit rnd (fint v) f a).
Proof.
  intros Hv HT Hne Hd Hf ET Ed. unfold animInit. rewrite ET, Ed.
  replace (0 <? dur)%N with true by (symmetry; apply N.ltb_lt; lia).
  destruct (speed_low v T dur Hv HT Hne Hd) as [S1 S2].
  split; cbn [an_dur an_target an_speed an_last an_cur]; try assumption; try reflexivity.
  - unfold gdiv. apply toQ_rnd_idem.
  - split; [apply N.le_refl|exact Hf].
  - rewrite N.sub_diag. change (inject_Z (Z.of_N 0)) with 0%Q. change (inject_Z (Z.of_nat 0)) with 0%Q.
    rewrite toQ_int.
    assert (E : (Qabs (inject_Z T - inject_Z v) == inject_Z (Z.abs (T - v)))%Q).
    { unfold Qminus. rewrite <- inject_Z_opp, <- inject_Z_plus. reflexivity. }
    rewrite E. ring_simplify. apply Qle_refl.
Qed.

(** Close enough at the end. *)
Lemma prog_arrived v T dur f i a :
  two31 v -> two31 T -> v <> T -> (0 < dur < W64)%N ->
  prog v T dur f i a -> (f + dur <= an_last a)%N -> Z.of_nat i <= 1000000 -> flround (an_cur a) = T.
Proof.
  intros Hv HT Hne Hd [Pd PT Ps Ps2 Prs Pl Pg] Hend Hi. unfold two31 in *.
  assert (HDp : (0 < inject_Z (Z.of_N dur))%Q) by (change 0%Q with (inject_Z 0); rewrite <- Zlt_Qlt; lia).
  assert (Hdelp : (0 < inject_Z (Z.abs (T - v)))%Q) by (change 0%Q with (inject_Z 0); rewrite <- Zlt_Qlt; lia).
  assert (Hdel2 : (inject_Z (Z.abs (T - v)) <= 4294967296)%Q).
  { change 4294967296%Q with (inject_Z 4294967296). rewrite <- Zle_Qle. lia. }
  assert (HE : (inject_Z (Z.of_N dur) <= inject_Z (Z.of_N (an_last a - f)))%Q) by (rewrite <- Zle_Qle; lia).
  assert (Hi2 : (inject_Z (Z.of_nat i) <= 1000000)%Q).
  { change 1000000%Q with (inject_Z 1000000). rewrite <- Zle_Qle. lia. }
  set (D := inject_Z (Z.of_N dur)) in *. set (del := inject_Z (Z.abs (T - v))) in *.
  set (I := inject_Z (Z.of_nat i)) in *. set (E := inject_Z (Z.of_N (an_last a - f))) in *.
  set (g := Qabs (inject_Z T - toQ (an_cur a))) in *.
  clearbody D del I E.
  assert (A1 : ((1 - 4 * e53) * del * D <= (1 - 4 * e53) * del * E)%Q).
  { apply Qmult_le_l; [|exact HE]. apply Qmult_lt_0_compat; [reflexivity|exact Hdelp]. }
  assert (A2 : (g * D <= (4 * e53 * del + I * u21) * D)%Q) by (ring_simplify in A1; ring_simplify; lra).
  assert (A3 : (g <= 4 * e53 * del + I * u21)%Q) by (apply Qmult_le_r in A2; assumption).
  assert (A4 : (g < 1 # 2)%Q) by (unfold e53, u21 in A3; lra).
  apply Qabs_Qlt_condition in A4. apply flround_close; lra.
Qed.

(** ** On the canvas. *)
Lemma animUpdate_last t a : an_last (animUpdate rnd t a) = t.
Proof. unfold animUpdate. destruct (_ || _)%bool; reflexivity. Qed.
Lemma animUpdate_dur0 t a : an_dur a = 0%N -> an_done (animUpdate rnd t a) = true.
Proof. intros E. unfold animUpdate. rewrite E. reflexivity. Qed.
Section Arrive.
Context (odd : string -> Z) (W H : Z).
Lemma inRange_two31 n z : inRange n z -> two31 z.
Proof. unfold inRange, two31, cvMin, cvMax. destruct (String.eqb _ _); lia. Qed.

Lemma redraws_prog t0 rs c r v ts t :
  okCanvas c -> List.NoDup (map rq_name rs) -> In r rs -> startOf odd W H r c = Some v ->
  v <> targetOf odd W H r -> (0 < rq_dur r < W64)%N ->
  StronglySorted N.le (t0 :: ts ++ [t]) -> (t < W64)%N ->
  let f := if is_empty (rq_from r) then hd t ts else t0 in
  runningP rnd (fun a => an_last a = t /\ prog v (targetOf odd W H r) (rq_dur r) f (S (length ts)) a)
    (rq_name r) v (targetOf odd W H r)
    (fst (played rnd odd W H t0 rs c (ts ++ [t]))) (snd (played rnd odd W H t0 rs c (ts ++ [t]))) \/
  finished (rq_name r) (targetOf odd W H r)
    (fst (played rnd odd W H t0 rs c (ts ++ [t]))) (snd (played rnd odd W H t0 rs c (ts ++ [t]))).
Proof.
  intros Hc Hnd Hin Hs Hne Hd Hso Htw f.
  destruct (schedule_waiting rnd rnd_mono rnd_int odd W H t0 rs c r v Hin Hs Hc) as (Hw & Hp & Hv & HT).
  pose proof (schedule_nodup rnd odd W H t0 rs Hnd) as Hnd0.
  unfold played.
  revert t Hso Htw f.
  induction ts as [|u ts IH] using rev_ind; intros t Hso Htw f.
  - clear Hw. cbn [app] in *.
    assert (Hle : (t0 <= t)%N).
    { apply StronglySorted_inv in Hso as [_ Hf]. inversion Hf. assumption. }
    destruct (isProp_get (rq_name r) c Hp) as [x Hx].
    assert (Hin' : In (newOf rnd odd W H t0 r) (scheduleAll rnd odd W H t0 rs)).
    { rewrite scheduleAll_eq. apply in_map, Hin. }
    change (redraws rnd [t] (scheduleAll rnd odd W H t0 rs) c) with (animTick rnd t (scheduleAll rnd odd W H t0 rs) c).
    set (a := newOf rnd odd W H t0 r) in *.
    set (b := if an_init a then a else animInit rnd (fint x) t a).
    assert (Hb : okAnim rnd v (targetOf odd W H r) b /\ prog v (targetOf odd W H r) (rq_dur r) f 0 b).
    { unfold startOf in Hs. rewrite Hx in Hs. injection Hs as Hs.
      unfold b, a, newOf, f. destruct (is_empty (rq_from r)) eqn:Ef; cbn [an_init newAnim animInit].
      - subst x. split.
        + apply (init_ok rnd rnd_mono rnd_int); [eapply inRange_small, Hv|reflexivity].
        + cbn [hd]. apply init_prog; try assumption; try reflexivity; eapply inRange_two31; eassumption.
      - subst v. split.
        + apply (init_ok rnd rnd_mono rnd_int); [eapply inRange_small, Hv|reflexivity].
        + apply init_prog; try assumption; try reflexivity; try (eapply inRange_two31; eassumption). lia. }
    destruct Hb as [Hb1 Hb2].
    assert (Ebd : an_done b = false).
    { unfold b, a, newOf. destruct (is_empty (rq_from r)); reflexivity. }
    assert (Ebl : (an_last b <= t)%N).
    { unfold b, a, newOf. destruct (is_empty (rq_from r)); cbn; lia. }
    eapply (tick_ok rnd rnd_mono rnd_int rnd_idem _ t (rq_name r) v (targetOf odd W H r) _ c a x); try assumption.
    + apply newOf_name.
    + apply newOf_done.
    + unfold tickA. fold b. intros Ed. split; [apply animUpdate_last|].
      apply step_prog; try assumption; try (eapply inRange_two31; eassumption). lia.
  - rewrite <- app_assoc in Hso. cbn [app] in Hso.
    assert (Hso' : StronglySorted N.le (t0 :: ts ++ [u]) /\ (u <= t)%N).
    { clear -Hso. split.
      - change (t0 :: ts ++ [u; t]) with ((t0 :: ts) ++ [u] ++ [t]) in Hso. rewrite app_assoc in Hso.
        change (t0 :: ts ++ [u]) with ((t0 :: ts) ++ [u]).
        revert Hso. generalize ((t0 :: ts) ++ [u]). clear. intros l. induction l as [|y l IH]; intros Hs; [constructor|].
        cbn in Hs. apply StronglySorted_inv in Hs as [Hs Hf]. constructor; [apply IH, Hs|].
        apply Forall_app in Hf as [Hf _]. exact Hf.
      - change (t0 :: ts ++ [u; t]) with ((t0 :: ts) ++ [u; t]) in Hso. revert Hso.
        generalize (t0 :: ts). clear. intros l. induction l as [|y l IH]; intros Hs.
        + cbn in Hs. apply StronglySorted_inv in Hs as [_ Hf]. inversion Hf. assumption.
        + cbn in Hs. apply StronglySorted_inv in Hs as [Hs _]. apply IH, Hs. }
    destruct Hso' as [Hso' Hut].
    specialize (IH u Hso' ltac:(lia)). cbv zeta in IH.
    rewrite redraws_snoc.
    pose proof (redraws_nodup rnd (ts ++ [u]) _ c Hnd0) as Hnd1.
    destruct (redraws rnd (ts ++ [u]) (scheduleAll rnd odd W H t0 rs) c) as [l1 c1]. cbn [fst snd] in *.
    destruct IH as [(a & Ha & Hn & Hda & Hok & [Hla Hpr] & Hx)|Hf].
    + eapply (tick_ok rnd rnd_mono rnd_int rnd_idem _ t (rq_name r) v (targetOf odd W H r) l1 c1 a); try eassumption.
      * rewrite (oa_init _ _ _ _ Hok). exact Hok.
      * unfold tickA. rewrite (oa_init _ _ _ _ Hok). intros Ed. split; [apply animUpdate_last|].
        rewrite app_length. cbn [length]. replace (length ts + 1)%nat with (S (length ts)) by lia.
        assert (Ef : f = (if is_empty (rq_from r) then hd u ts else t0)).
        { unfold f. destruct ts; reflexivity. }
        rewrite Ef. apply step_prog; try assumption; try (eapply inRange_two31; eassumption). lia.
    + right. apply tick_finished, Hf.
Qed.

Lemma redraws_zero t0 rs c r v ts :
  okCanvas c -> List.NoDup (map rq_name rs) -> In r rs -> startOf odd W H r c = Some v ->
  rq_dur r = 0%N -> ts <> [] ->
  finished (rq_name r) (targetOf odd W H r)
    (fst (played rnd odd W H t0 rs c ts)) (snd (played rnd odd W H t0 rs c ts)).
Proof.
  intros Hc Hnd Hin Hs Hd Hts.
  destruct (schedule_waiting rnd rnd_mono rnd_int odd W H t0 rs c r v Hin Hs Hc) as (_ & Hp & Hv & HT).
  pose proof (schedule_nodup rnd odd W H t0 rs Hnd) as Hnd0. unfold played.
  induction ts as [|t ts IH] using rev_ind; [congruence|].
  destruct (decide (ts = [])) as [->|Hne].
  2:{ rewrite redraws_snoc. apply tick_finished, IH, Hne. }
  clear IH Hts. cbn [app].
  change (redraws rnd [t] (scheduleAll rnd odd W H t0 rs) c) with (animTick rnd t (scheduleAll rnd odd W H t0 rs) c).
  destruct (isProp_get (rq_name r) c Hp) as [x Hx].
  assert (Hin' : In (newOf rnd odd W H t0 r) (scheduleAll rnd odd W H t0 rs)).
  { rewrite scheduleAll_eq. apply in_map, Hin. }
  destruct (tick_ok rnd rnd_mono rnd_int rnd_idem (fun _ => False) t (rq_name r) v (targetOf odd W H r) _ c
              _ x Hnd0 Hv HT Hin' (newOf_name _ _ _ _ _ _) (newOf_done _ _ _ _ _ _) Hx) as [[(a & _ & _ & _ & _ & [] & _)|Hf] _].
  - unfold startOf in Hs. rewrite Hx in Hs. injection Hs as Hs.
    unfold newOf. destruct (is_empty (rq_from r)); cbn [an_init newAnim animInit]; subst;
      (apply (init_ok rnd rnd_mono rnd_int); [eapply inRange_small, Hv|reflexivity]).
  - unfold tickA. rewrite animUpdate_dur0; [discriminate|].
    unfold newOf. destruct (is_empty (rq_from r)); exact Hd.
  - exact Hf.
Qed.
Lemma f_C29_arrival t0 rs c r v ts t :
  okCanvas c -> List.NoDup (map rq_name rs) -> In r rs -> startOf odd W H r c = Some v ->
  (rq_dur r < W64)%N ->
  StronglySorted N.le (t0 :: ts ++ [t]) -> (t < W64)%N ->
  Z.of_nat (length (ts ++ [t])) <= 1000000 ->
  ((if is_empty (rq_from r) then hd t ts else t0) + rq_dur r <= t)%N ->
  cvGet (rq_name r) (snd (played rnd odd W H t0 rs c (ts ++ [t]))) = Some (targetOf odd W H r).
Proof.
  intros Hc Hnd Hin Hs Hd Hso Htw Hlen Hend.
  destruct (f_C29 rnd rnd_mono rnd_int rnd_idem odd W H t0 rs c (ts ++ [t]) 0%N r v Hc Hnd Hin Hs) as (x & y & Hx & _ & Hvx & _ & Hun).
  { destruct ts; discriminate. }
  destruct (Z.eq_dec v (targetOf odd W H r)) as [->|Hne].
  { rewrite Hx. f_equal. unfold onTheWay in Hvx. lia. }
  destruct (N.eq_dec (rq_dur r) 0) as [Hz|Hz].
  - eapply redraws_zero; try eassumption. destruct ts; discriminate.
  - destruct (redraws_prog t0 rs c r v ts t Hc Hnd Hin Hs Hne ltac:(lia) Hso Htw) as [(a & _ & _ & _ & Hok & [Hl Hpr] & Hy)|[_ Hy]]; [|exact Hy].
    rewrite Hy. f_equal.
    destruct (schedule_waiting rnd rnd_mono rnd_int odd W H t0 rs c r v Hin Hs Hc) as (_ & _ & Hv & HT).
    eapply prog_arrived; try exact Hpr; try (eapply inRange_two31; eassumption); try assumption; try lia.
    rewrite app_length in Hlen. cbn in Hlen. lia.
Qed.
End Arrive.

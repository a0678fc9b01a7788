(** AnimFacts.v -- animations move towards their target (C29). *)
From Verif Require Export Animator Float NumFacts.
Require Import QArith Lqa.
Open Scope Z_scope.
Open Scope list_scope.

(** ** Values as rationals. *)
Definition toQ (x : fl) : Q := Qmake (fst x) (snd x).
Lemma fle_Q x y : fle x y <-> (toQ x <= toQ y)%Q.
Proof. reflexivity. Qed.
Lemma feq_Q x y : feq x y <-> (toQ x == toQ y)%Q.
Proof. reflexivity. Qed.
Lemma gleb_Q x y : gleb x y = true <-> (toQ x <= toQ y)%Q.
Proof. unfold gleb, toQ, Qle. cbn. apply Z.leb_le. Qed.
Lemma gltb_Q x y : gltb x y = true <-> (toQ x < toQ y)%Q.
Proof. unfold gltb, toQ, Qlt. cbn. apply Z.ltb_lt. Qed.
Lemma toQ_int z : toQ (fint z) = inject_Z z.
Proof. reflexivity. Qed.

Section Moves.
Context (rd : fl -> fl).
Hypothesis rd_mono : forall x y, fle x y -> fle (rd x) (rd y).
Hypothesis rd_int : forall z, Z.abs z < 2 ^ 53 -> feq (rd (fint z)) (fint z).
Hypothesis rd_idem : forall x, feq (rd (rd x)) (rd x).

Definition rep (x : fl) : Prop := feq (rd x) x.
Lemma rep_rd x : rep (rd x).
Proof. apply rd_idem. Qed.
Lemma rd_nonneg x : (0 <= toQ x)%Q -> (0 <= toQ (rd x))%Q.
Proof.
  intros H. pose proof (rd_int 0 ltac:(reflexivity)) as E. rewrite feq_Q in E.
  assert (H1 : (toQ (rd (fint 0)) <= toQ (rd x))%Q) by (apply fle_Q, rd_mono, fle_Q, H).
  rewrite E in H1. exact H1.
Qed.
Lemma rd_nonpos x : (toQ x <= 0)%Q -> (toQ (rd x) <= 0)%Q.
Proof.
  intros H. pose proof (rd_int 0 ltac:(reflexivity)) as E. rewrite feq_Q in E.
  assert (H1 : (toQ (rd x) <= toQ (rd (fint 0)))%Q) by (apply fle_Q, rd_mono, fle_Q, H).
  rewrite E in H1. exact H1.
Qed.
Lemma gmul_arg x y : (toQ ((fst x * fst y)%Z, (snd x * snd y)%positive) == toQ x * toQ y)%Q.
Proof. reflexivity. Qed.
Lemma gadd_arg x y :
  (toQ ((fst x * Zpos (snd y) + fst y * Zpos (snd x))%Z, (snd x * snd y)%positive) == toQ x + toQ y)%Q.
Proof. reflexivity. Qed.

Lemma gadd_up x y : rep x -> (0 <= toQ y)%Q -> (toQ x <= toQ (gadd rd x y))%Q.
Proof.
  intros Hx Hy. assert (Hx' : (toQ (rd x) == toQ x)%Q) by exact Hx. rewrite <- Hx' at 1. apply fle_Q, rd_mono, fle_Q.
  rewrite gadd_arg. lra.
Qed.
Lemma gadd_down x y : rep x -> (toQ y <= 0)%Q -> (toQ (gadd rd x y) <= toQ x)%Q.
Proof.
  intros Hx Hy. assert (Hx' : (toQ (rd x) == toQ x)%Q) by exact Hx. rewrite <- Hx'. apply fle_Q, rd_mono, fle_Q.
  rewrite gadd_arg. lra.
Qed.

(** ** One animation. *)
Definition fbetween (v : Z) (x : fl) (T : Z) : Prop :=
  ((inject_Z v <= toQ x /\ toQ x <= inject_Z T) \/ (inject_Z T <= toQ x /\ toQ x <= inject_Z v))%Q.
Record okAnim (v T : Z) (a : anim) : Prop := {
  oa_rep : rep (an_cur a); oa_T : an_target a = fint T;
  oa_speed : (0 <= toQ (an_speed a))%Q; oa_init : an_init a = true;
  oa_bet : fbetween v (an_cur a) T }.

Lemma update_ok t v T a :
  Z.abs T < 2 ^ 53 -> okAnim v T a ->
  okAnim v T (animUpdate rd t a) /\
  ((toQ (an_cur a) <= toQ (an_cur (animUpdate rd t a)) /\ toQ (an_cur (animUpdate rd t a)) <= inject_Z T)
   \/ (inject_Z T <= toQ (an_cur (animUpdate rd t a)) /\ toQ (an_cur (animUpdate rd t a)) <= toQ (an_cur a)))%Q
  /\ (an_done a = false -> an_done (animUpdate rd t a) = true -> an_cur (animUpdate rd t a) = fint T).
Proof.
  intros HT [Hrep HTa Hs Hi Hb].
  unfold animUpdate. rewrite HTa.
  assert (Hdt : (0 <= toQ (rd (fint (Z.of_N (tsub t (an_last a))))))%Q).
  { apply rd_nonneg. rewrite toQ_int. unfold Qle. cbn. lia. }
  set (dt := rd (fint (Z.of_N (tsub t (an_last a))))) in *.
  destruct (gltb (an_cur a) (fint T)) eqn:Eup.
  - assert (Hlt : (toQ (an_cur a) < inject_Z T)%Q) by (apply (gltb_Q (an_cur a) (fint T)); exact Eup).
    assert (Hin : (0 <= toQ (gmul rd (gmul rd (fint 1) (an_speed a)) dt))%Q).
    { apply rd_nonneg. rewrite gmul_arg. apply Qmult_le_0_compat; [|exact Hdt].
      apply rd_nonneg. rewrite gmul_arg. apply Qmult_le_0_compat; [unfold Qle; cbn; lia|exact Hs]. }
    pose proof (gadd_up _ _ Hrep Hin) as Hup.
    set (cur := gadd rd (an_cur a) _) in *.
    assert (Hrc : rep cur) by apply rep_rd. clearbody cur.
    destruct (an_dur a =? 0)%N; cbn [orb andb negb].
    2: destruct (gleb (fint T) cur) eqn:Ele; cbn [orb andb negb].
    1,2: split; [|split; [left; cbn [an_cur]; rewrite toQ_int; split; lra|reflexivity]].
    1,2: constructor; cbn; auto using rd_int; [apply rd_int, HT|].
    1,2: destruct Hb as [[]|[]]; [left|right]; rewrite toQ_int; split; lra.
    assert (Hc : (toQ cur < inject_Z T)%Q).
    { apply Qnot_le_lt. intros C. change (inject_Z T) with (toQ (fint T)) in C. apply gleb_Q in C. congruence. }
    split; [|split; [left; cbn [an_cur]; split; lra|cbn; congruence]].
    constructor; cbn; auto. destruct Hb as [[]|[]]; [left|right]; split; lra.
  - assert (Hge : (inject_Z T <= toQ (an_cur a))%Q).
    { apply Qnot_lt_le. intros C. change (inject_Z T) with (toQ (fint T)) in C. apply gltb_Q in C. congruence. }
    assert (Hin : (toQ (gmul rd (gmul rd (fint (-1)) (an_speed a)) dt) <= 0)%Q).
    { apply rd_nonpos. rewrite gmul_arg.
      assert (H1 : (toQ (gmul rd (fint (-1)) (an_speed a)) <= 0)%Q).
      { apply rd_nonpos. rewrite gmul_arg. change (toQ (fint (-1))) with (inject_Z (-1)).
        change (inject_Z (-1)) with (-1)%Q. lra. }
      set (u := toQ _) in *. set (w := toQ dt) in *. clearbody u w. nra. }
    pose proof (gadd_down _ _ Hrep Hin) as Hup.
    set (cur := gadd rd (an_cur a) _) in *.
    assert (Hrc : rep cur) by apply rep_rd. clearbody cur.
    destruct (an_dur a =? 0)%N; cbn [orb andb negb].
    2: destruct (gleb cur (fint T)) eqn:Ele; cbn [orb andb negb].
    1,2: split; [|split; [right; cbn [an_cur]; rewrite toQ_int; split; lra|reflexivity]].
    1,2: constructor; cbn; auto using rd_int; [apply rd_int, HT|].
    1,2: destruct Hb as [[]|[]]; [left|right]; rewrite toQ_int; split; lra.
    assert (Hc : (inject_Z T < toQ cur)%Q).
    { apply Qnot_le_lt. intros C. change (inject_Z T) with (toQ (fint T)) in C. apply gleb_Q in C. congruence. }
    split; [|split; [right; cbn [an_cur]; split; lra|cbn; congruence]].
    constructor; cbn; auto. destruct Hb as [[]|[]]; [left|right]; split; lra.
Qed.
Lemma init_ok t v T a :
  Z.abs v < 2 ^ 53 -> an_target a = fint T -> okAnim v T (animInit rd (fint v) t a).
Proof.
  intros Hv HT. constructor; cbn.
  - apply rd_int, Hv.
  - exact HT.
  - destruct (0 <? an_dur a)%N; [|unfold Qle; cbn; lia].
    unfold gdiv. apply rd_nonneg. unfold Qle. cbn. rewrite Z.mul_1_r.
    apply Z.mul_nonneg_nonneg; [|lia]. lia.
  - reflexivity.
  - destruct (Z.le_ge_cases v T); [left|right]; rewrite toQ_int; split; rewrite <- ?Zle_Qle; lia.
Qed.
End Moves.

From Verif Require Import AnimSpec.
Open Scope Z_scope.
(** ** The canvas. *)
Definition isProp (n : string) : Prop := In n ["top"; "left"; "width"; "height"; "transparency"]%string.
Lemma cvGet_isProp n c v : cvGet n c = Some v -> isProp n.
Proof.
  unfold cvGet, isProp.
  repeat match goal with |- context [String.eqb n ?k] =>
    destruct (String.eqb_spec n k) as [->|]; [intros _; cbn; tauto|] end. discriminate.
Qed.
Lemma isProp_get n c : isProp n -> exists v, cvGet n c = Some v.
Proof. unfold isProp. cbn. intuition subst; cbn; eauto. Qed.
Lemma cvGet_set n m v c :
  isProp m -> cvGet n (cvSet m v c) = if String.eqb n m then Some v else cvGet n c.
Proof.
  intros Hm. destruct (String.eqb_spec n m) as [->|Hne].
  - cbn in Hm. intuition subst; reflexivity.
  - unfold cvGet. repeat match goal with |- context [String.eqb n ?k] =>
      destruct (String.eqb_spec n k) as [->|]; [cbn in Hm; intuition subst; try congruence; reflexivity|] end.
    reflexivity.
Qed.

Section Canvas.
Context (rd : fl -> fl).
(** One tick as a function of the value shown. *)
Definition tickA (t : N) (a : anim) (v : Z) : anim :=
  animUpdate rd t (if an_init a then a else animInit rd (fint v) t a).
Definition tickV (t : N) (a : anim) (v : Z) : Z :=
  clamp (flround (an_cur (tickA t a v))) (cvMin (an_name a)) (cvMax (an_name a)).
Lemma animUpdate_name t a : an_name (animUpdate rd t a) = an_name a.
Proof. unfold animUpdate. destruct (_ || _)%bool; reflexivity. Qed.
Lemma tickA_name t a v : an_name (tickA t a v) = an_name a.
Proof. unfold tickA. rewrite animUpdate_name. destruct (an_init a); reflexivity. Qed.
Lemma tickOne_some t a c v :
  cvGet (an_name a) c = Some v -> tickOne rd t a c = (tickA t a v, cvSet (an_name a) (tickV t a v) c).
Proof.
  intros E. unfold tickOne. rewrite E. fold (tickA t a v). unfold tickV. rewrite tickA_name. reflexivity.
Qed.
Lemma tickOne_name t a c : an_name (fst (tickOne rd t a c)) = an_name a.
Proof.
  destruct (cvGet (an_name a) c) eqn:E; [rewrite (tickOne_some _ _ _ _ E); apply tickA_name|].
  unfold tickOne. rewrite E. reflexivity.
Qed.
Lemma tickOne_other t a c n : n <> an_name a -> cvGet n (snd (tickOne rd t a c)) = cvGet n c.
Proof.
  intros Hn. destruct (cvGet (an_name a) c) eqn:E.
  - rewrite (tickOne_some _ _ _ _ E). cbn. rewrite cvGet_set by (eapply cvGet_isProp, E).
    destruct (String.eqb_spec n (an_name a)); congruence.
  - unfold tickOne. rewrite E. reflexivity.
Qed.
Lemma tickAll_cons t a l c :
  tickAll rd t (a :: l) c =
  (fst (tickOne rd t a c) :: fst (tickAll rd t l (snd (tickOne rd t a c))),
   snd (tickAll rd t l (snd (tickOne rd t a c)))).
Proof. cbn. destruct (tickOne rd t a c) as [a' c']. cbn. destruct (tickAll rd t l c'). reflexivity. Qed.
Lemma tickAll_names t l : forall c, map an_name (fst (tickAll rd t l c)) = map an_name l.
Proof.
  induction l as [|a l IH]; intros c; [reflexivity|].
  rewrite tickAll_cons. cbn. rewrite tickOne_name, IH. reflexivity.
Qed.
Lemma tickAll_other t l : forall c n, ~ scheduled n l -> cvGet n (snd (tickAll rd t l c)) = cvGet n c.
Proof.
  induction l as [|a l IH]; intros c n Hn; [reflexivity|].
  rewrite tickAll_cons. cbn [snd]. unfold scheduled in Hn. cbn in Hn.
  rewrite IH by (unfold scheduled; tauto). apply tickOne_other. intros ->. tauto.
Qed.
Lemma tickAll_at t l : forall c a v,
  List.NoDup (map an_name l) -> In a l -> cvGet (an_name a) c = Some v ->
  In (tickA t a v) (fst (tickAll rd t l c)) /\
  cvGet (an_name a) (snd (tickAll rd t l c)) = Some (tickV t a v).
Proof.
  induction l as [|b l IH]; intros c a v Hnd Hin Hv; [destruct Hin|].
  rewrite tickAll_cons. cbn [fst snd]. cbn in Hnd. inversion_clear Hnd as [|? ? Hnin Hnd'].
  destruct Hin as [->|Hin].
  - rewrite tickAll_other by exact Hnin. rewrite (tickOne_some _ _ _ _ Hv). cbn [fst snd].
    rewrite cvGet_set, String.eqb_refl by (eapply cvGet_isProp, Hv). split; [left; reflexivity|reflexivity].
  - assert (Hne : an_name a <> an_name b).
    { intros E. apply Hnin. rewrite <- E. apply in_map, Hin. }
    destruct (IH (snd (tickOne rd t b c)) a v Hnd' Hin) as [H1 H2].
    + rewrite tickOne_other; assumption.
    + split; [right; exact H1|exact H2].
Qed.
Lemma nodup_filter (f : anim -> bool) l :
  List.NoDup (map an_name l) -> List.NoDup (map an_name (List.filter f l)).
Proof.
  induction l as [|a l IH]; cbn; intros H; [exact H|]. inversion_clear H as [|? ? Hn H'].
  destruct (f a); cbn; [|apply IH, H']. constructor; [|apply IH, H'].
  intros C. apply Hn. apply in_map_iff in C as (x & E & Hx). apply filter_In in Hx as [Hx _].
  rewrite <- E. apply in_map, Hx.
Qed.
Lemma animTick_eq t l c :
  animTick rd t l c = (List.filter (fun a => negb (an_done a)) (fst (tickAll rd t l c)), snd (tickAll rd t l c)).
Proof. unfold animTick. destruct (tickAll rd t l c). reflexivity. Qed.
Lemma animTick_nodup t l c : List.NoDup (map an_name l) -> List.NoDup (map an_name (fst (animTick rd t l c))).
Proof. intros H. rewrite animTick_eq. apply nodup_filter. rewrite tickAll_names. exact H. Qed.
Lemma in_name_uniq l a b :
  List.NoDup (map an_name l) -> In a l -> In b l -> an_name a = an_name b -> a = b.
Proof.
  induction l as [|x l IH]; intros Hnd Ha Hb E; [destruct Ha|].
  cbn in Hnd. inversion_clear Hnd as [|? ? Hn H'].
  destruct Ha as [->|Ha], Hb as [->|Hb]; auto.
  - destruct Hn. rewrite E. apply in_map, Hb.
  - destruct Hn. rewrite <- E. apply in_map, Ha.
Qed.

Hypothesis rd_mono : forall x y, fle x y -> fle (rd x) (rd y).
Hypothesis rd_int : forall z, Z.abs z < 2 ^ 53 -> feq (rd (fint z)) (fint z).
Hypothesis rd_idem : forall x, feq (rd (rd x)) (rd x).

(** ** The invariant of one animated property between redraws. *)
Definition waiting (n : string) (v T : Z) (l : list anim) (c : canvas) : Prop :=
  exists a, In a l /\ an_name a = n /\ an_done a = false /\ an_target a = fint T /\
    (okAnim rd v T a \/ (an_init a = false /\ cvGet n c = Some v)).
Definition runningP (P : anim -> Prop) (n : string) (v T : Z) (l : list anim) (c : canvas) : Prop :=
  exists a, In a l /\ an_name a = n /\ an_done a = false /\ okAnim rd v T a /\ P a /\
    cvGet n c = Some (flround (an_cur a)).
Notation running := (runningP (fun _ => True)).
Definition finished (n : string) (T : Z) (l : list anim) (c : canvas) : Prop :=
  ~ scheduled n l /\ cvGet n c = Some T.

Lemma flround_le_int x z : (toQ x <= inject_Z z)%Q -> flround x <= z.
Proof. intros H. rewrite <- (flround_int z). apply flround_mono. exact H. Qed.
Lemma flround_ge_int x z : (inject_Z z <= toQ x)%Q -> z <= flround x.
Proof. intros H. rewrite <- (flround_int z). apply flround_mono. exact H. Qed.
Lemma between_round v x T : fbetween v x T -> onTheWay v (flround x) T.
Proof.
  intros [[H1 H2]|[H1 H2]]; [left|right]; split;
    (apply flround_ge_int || apply flround_le_int); assumption.
Qed.
Definition inRange (n : string) (z : Z) : Prop := cvMin n <= z <= cvMax n.
Lemma inRange_between n v x T : inRange n v -> inRange n T -> onTheWay v x T -> inRange n x.
Proof. unfold inRange, onTheWay. lia. Qed.
Lemma inRange_small n z : inRange n z -> Z.abs z < 2 ^ 53.
Proof. unfold inRange, cvMin, cvMax. change (2 ^ 53) with 9007199254740992. destruct (String.eqb _ _); lia. Qed.
Lemma clamp_ok n z : inRange n z -> clamp z (cvMin n) (cvMax n) = z.
Proof. apply clamp_id. Qed.

(** What one tick does to an animation that is or gets initialised. *)
Lemma tick_ok (P : anim -> Prop) t n v T l c a x :
  List.NoDup (map an_name l) -> inRange n v -> inRange n T ->
  In a l -> an_name a = n -> an_done a = false -> cvGet n c = Some x ->
  okAnim rd v T (if an_init a then a else animInit rd (fint x) t a) ->
  (an_done (tickA t a x) = false -> P (tickA t a x)) ->
  (runningP P n v T (fst (animTick rd t l c)) (snd (animTick rd t l c)) \/
   finished n T (fst (animTick rd t l c)) (snd (animTick rd t l c))) /\
  exists y, cvGet n (snd (animTick rd t l c)) = Some y /\ onTheWay v y T /\
    (okAnim rd v T a -> onTheWay (flround (an_cur a)) y T).
Proof.
  intros Hnd Hv HT Hin Hn Hd Hx Hok HP.
  destruct (update_ok rd rd_mono rd_int rd_idem t v T _ (inRange_small _ _ HT) Hok) as (Hok' & Hmv & Hdone).
  destruct (tickAll_at t l c a x Hnd Hin ltac:(rewrite Hn; exact Hx)) as [H1 H2].
  rewrite animTick_eq. cbn [fst snd].
  assert (Hv' : tickV t a x = flround (an_cur (tickA t a x))).
  { unfold tickV. rewrite Hn. apply clamp_ok. eapply inRange_between; [exact Hv|exact HT|].
    apply between_round. exact (oa_bet _ _ _ _ Hok'). }
  rewrite Hn, Hv' in H2.
  assert (Hnd' : List.NoDup (map an_name (fst (tickAll rd t l c)))) by (rewrite tickAll_names; exact Hnd).
  split.
  - destruct (an_done (tickA t a x)) eqn:Ed.
    + right. split.
      * intros C. apply in_map_iff in C as (b & Eb & Hb). apply filter_In in Hb as [Hb Hb'].
        assert (b = tickA t a x) as ->.
        { apply (in_name_uniq _ _ _ Hnd' Hb H1). rewrite tickA_name, Hn. exact Eb. }
        rewrite Ed in Hb'. discriminate.
      * rewrite H2. f_equal. unfold tickA in *. rewrite Hdone; [apply flround_int| |exact Ed].
        destruct (an_init a); exact Hd.
    + left. exists (tickA t a x). split; [|split; [|split; [|split; [|split]]]].
      * apply filter_In. rewrite Ed. auto.
      * rewrite tickA_name. exact Hn.
      * exact Ed.
      * exact Hok'.
      * apply HP; reflexivity.
      * exact H2.
  - exists (flround (an_cur (tickA t a x))). split; [exact H2|]. split.
    + apply between_round. exact (oa_bet _ _ _ _ Hok').
    + intros Ha. unfold tickA. rewrite (oa_init _ _ _ _ Ha) in *.
      destruct Hmv as [[M1 M2]|[M1 M2]]; [left|right]; split.
      all: first [apply flround_mono; exact M1|apply flround_mono; exact M2
                 |apply flround_le_int; exact M2|apply flround_ge_int; exact M1].
Qed.

Lemma tick_waiting t n v T l c :
  List.NoDup (map an_name l) -> isProp n -> inRange n v -> inRange n T -> waiting n v T l c ->
  running n v T (fst (animTick rd t l c)) (snd (animTick rd t l c)) \/
  finished n T (fst (animTick rd t l c)) (snd (animTick rd t l c)).
Proof.
  intros Hnd Hp Hv HT (a & Hin & Hn & Hd & HTa & Hc).
  destruct (isProp_get n c Hp) as [x Hx].
  assert (Hok : okAnim rd v T (if an_init a then a else animInit rd (fint x) t a)).
  { destruct Hc as [Hc|[Hi Hx']].
    - rewrite (oa_init _ _ _ _ Hc). exact Hc.
    - rewrite Hi. assert (x = v) as -> by congruence.
      apply init_ok; auto. eapply inRange_small, Hv. }
  eapply (tick_ok (fun _ => True) t n v T l c a x); auto.
Qed.
Lemma tick_running t n v T l c :
  List.NoDup (map an_name l) -> inRange n v -> inRange n T -> running n v T l c ->
  (running n v T (fst (animTick rd t l c)) (snd (animTick rd t l c)) \/
   finished n T (fst (animTick rd t l c)) (snd (animTick rd t l c))) /\
  exists x y, cvGet n c = Some x /\ cvGet n (snd (animTick rd t l c)) = Some y /\ onTheWay x y T.
Proof.
  intros Hnd Hv HT (a & Hin & Hn & Hd & Hok & _ & Hx).
  destruct (tick_ok (fun _ => True) t n v T l c a _ Hnd Hv HT Hin Hn Hd Hx) as (H1 & y & Hy & _ & H2).
  { rewrite (oa_init _ _ _ _ Hok). exact Hok. }
  { auto. }
  split; [exact H1|]. exists (flround (an_cur a)), y. auto.
Qed.
Lemma tick_finished t n T l c :
  finished n T l c -> finished n T (fst (animTick rd t l c)) (snd (animTick rd t l c)).
Proof.
  intros [H1 H2]. rewrite animTick_eq. cbn [fst snd]. split.
  - intros C. apply H1. apply in_map_iff in C as (b & Eb & Hb). apply filter_In in Hb as [Hb _].
    unfold scheduled. rewrite <- (tickAll_names t l c), <- Eb. apply in_map, Hb.
  - rewrite tickAll_other by exact H1. exact H2.
Qed.

(** ** Scheduling. *)
Context (odd : string -> Z) (W H : Z).
Lemma base_eq n : anim_base W H n = (whole W H n, most n).
Proof.
  unfold anim_base, whole, most, horizontal, vertical, onByte. cbn [existsb]. rewrite !orb_false_r.
  destruct (String.eqb_spec n "top") as [->|]; [reflexivity|]. destruct (String.eqb_spec n "height") as [->|]; [reflexivity|].
  destruct (String.eqb_spec n "left") as [->|]; [reflexivity|]. destruct (String.eqb_spec n "width") as [->|]; [reflexivity|].
  cbn [orb]. destruct (_ || _)%bool; reflexivity.
Qed.
Definition newOf (t0 : N) (r : request) : anim :=
  let a := newAnim (rq_name r) (if is_empty (rq_from r) then fint 0 else fint (wanted odd W H (rq_name r) (rq_from r)))
             (fint (targetOf odd W H r)) (rq_dur r) in
  if is_empty (rq_from r) then a
  else animInit rd (fint (wanted odd W H (rq_name r) (rq_from r))) t0 a.
Lemma scheduleAll_eq t0 rs : scheduleAll rd odd W H t0 rs = map (newOf t0) rs.
Proof.
  unfold scheduleAll. change (map (newOf t0) rs) with (@nil anim ++ map (newOf t0) rs).
  generalize (@nil anim) as l. induction rs as [|r rs IH]; intros l; cbn [fold_left map].
  - rewrite app_nil_r. reflexivity.
  - rewrite IH. unfold doSchedule, newOf, wanted, targetOf, wanted.
    rewrite base_eq.
    destruct (is_empty (rq_from r)); rewrite <- app_assoc; reflexivity.
Qed.
Lemma newOf_name t0 r : an_name (newOf t0 r) = rq_name r.
Proof. unfold newOf. destruct (is_empty _); reflexivity. Qed.
Lemma newOf_done t0 r : an_done (newOf t0 r) = false.
Proof. unfold newOf. destruct (is_empty _); reflexivity. Qed.
Lemma newOf_target t0 r : an_target (newOf t0 r) = fint (targetOf odd W H r).
Proof. unfold newOf. destruct (is_empty _); reflexivity. Qed.
Lemma wanted_range n s : isProp n -> inRange n (wanted odd W H n s).
Proof.
  intros Hp. unfold wanted, inRange. cbn in Hp.
  pose proof (f_C27_range odd s (fst (anim_base W H n)) 0 (snd (anim_base W H n))) as R. rewrite base_eq in R. cbn [fst snd] in R.
  intuition subst; cbn in *; change (2 ^ 31 - 1)%Z with 2147483647%Z in *; specialize (R ltac:(lia)); lia.
Qed.
Lemma schedule_waiting t0 rs c r v :
  In r rs -> startOf odd W H r c = Some v -> okCanvas c ->
  waiting (rq_name r) v (targetOf odd W H r) (scheduleAll rd odd W H t0 rs) c /\
  isProp (rq_name r) /\ inRange (rq_name r) v /\ inRange (rq_name r) (targetOf odd W H r).
Proof.
  intros Hin Hs Hc. unfold startOf in Hs. destruct (cvGet (rq_name r) c) as [x|] eqn:Ex; [|discriminate].
  assert (Hp : isProp (rq_name r)) by (eapply cvGet_isProp, Ex).
  assert (HT : inRange (rq_name r) (targetOf odd W H r)) by (apply wanted_range, Hp).
  assert (Hv : inRange (rq_name r) v).
  { injection Hs as <-. destruct (is_empty _); [exact (Hc _ _ Ex)|apply wanted_range, Hp]. }
  repeat split; try assumption; try apply Hv; try apply HT.
  rewrite scheduleAll_eq. exists (newOf t0 r).
  split; [apply in_map, Hin|]. rewrite newOf_name, newOf_done, newOf_target.
  repeat split. injection Hs as Hs. unfold newOf. destruct (is_empty (rq_from r)) eqn:Ef.
  - right. subst v. split; [reflexivity|exact Ex].
  - left. subst v. apply init_ok; auto. eapply inRange_small, Hv.
Qed.
Lemma schedule_nodup t0 rs :
  List.NoDup (map rq_name rs) -> List.NoDup (map an_name (scheduleAll rd odd W H t0 rs)).
Proof.
  intros Hn. rewrite scheduleAll_eq, map_map.
  rewrite (map_ext _ rq_name); [exact Hn|]. intros r. apply newOf_name.
Qed.
Lemma redraws_snoc ts t l c :
  redraws rd (ts ++ [t]) l c = animTick rd t (fst (redraws rd ts l c)) (snd (redraws rd ts l c)).
Proof. unfold redraws. rewrite fold_left_app. reflexivity. Qed.
Lemma redraws_nodup ts l c : List.NoDup (map an_name l) -> List.NoDup (map an_name (fst (redraws rd ts l c))).
Proof.
  intros Hn. induction ts as [|t ts IH] using rev_ind; [exact Hn|].
  rewrite redraws_snoc. apply animTick_nodup, IH.
Qed.
Lemma redraws_inv ts n v T l c :
  ts <> [] -> List.NoDup (map an_name l) -> isProp n -> inRange n v -> inRange n T -> waiting n v T l c ->
  running n v T (fst (redraws rd ts l c)) (snd (redraws rd ts l c)) \/
  finished n T (fst (redraws rd ts l c)) (snd (redraws rd ts l c)).
Proof.
  intros Hts Hnd Hp Hv HT Hw. induction ts as [|t ts IH] using rev_ind; [congruence|].
  rewrite redraws_snoc. destruct (decide (ts = [])) as [->|Hne].
  - apply (tick_waiting t n v T l c); assumption.
  - destruct (IH Hne) as [Hr|Hf].
    + apply tick_running; auto using redraws_nodup.
    + right. apply tick_finished, Hf.
Qed.

Lemma f_C29 t0 rs c ts t r v :
  okCanvas c -> List.NoDup (map rq_name rs) -> In r rs -> startOf odd W H r c = Some v -> ts <> [] ->
  exists x y,
    cvGet (rq_name r) (snd (played rd odd W H t0 rs c ts)) = Some x /\
    cvGet (rq_name r) (snd (played rd odd W H t0 rs c (ts ++ [t]))) = Some y /\
    onTheWay v x (targetOf odd W H r) /\
    onTheWay x y (targetOf odd W H r) /\
    (~ scheduled (rq_name r) (fst (played rd odd W H t0 rs c ts)) -> x = targetOf odd W H r).
Proof.
  intros Hc Hnd Hin Hs Hts.
  destruct (schedule_waiting t0 rs c r v Hin Hs Hc) as (Hw & Hp & Hv & HT).
  apply schedule_nodup with (t0 := t0) in Hnd.
  pose proof (redraws_inv ts _ _ _ _ _ Hts Hnd Hp Hv HT Hw) as Hi.
  unfold played. rewrite redraws_snoc.
  pose proof (redraws_nodup ts _ c Hnd) as Hnd'.
  set (T := targetOf odd W H r) in *. set (n := rq_name r) in *.
  destruct (redraws rd ts (scheduleAll rd odd W H t0 rs) c) as [l1 c1]. cbn [fst snd] in *.
  destruct Hi as [Hr|Hf].
  - destruct (tick_running t n v T l1 c1 Hnd' Hv HT Hr) as (_ & x & y & Hx & Hy & Hxy).
    exists x, y. repeat split; try assumption.
    + destruct Hr as (a & _ & _ & _ & Hok & _ & Hx'). rewrite Hx in Hx'. injection Hx' as ->.
      apply between_round, (oa_bet _ _ _ _ Hok).
    + intros Hno. destruct Hr as (a & Ha & En & _). destruct Hno. unfold scheduled. rewrite <- En. apply in_map, Ha.
  - pose proof (tick_finished t n T l1 c1 Hf) as [_ Hy]. destruct Hf as [_ Hx].
    exists T, T. repeat split; try assumption.
    + unfold onTheWay. lia.
    + unfold onTheWay. lia.
Qed.
Lemma f_C29_others t0 rs c ts n :
  ~ In n (map rq_name rs) -> cvGet n (snd (played rd odd W H t0 rs c ts)) = cvGet n c.
Proof.
  intros Hn. unfold played.
  assert (Hs : ~ scheduled n (scheduleAll rd odd W H t0 rs)).
  { unfold scheduled. rewrite scheduleAll_eq, map_map. rewrite (map_ext _ rq_name); [exact Hn|]. intros; apply newOf_name. }
  assert (Hx : ~ scheduled n (fst (redraws rd ts (scheduleAll rd odd W H t0 rs) c)) /\
     cvGet n (snd (redraws rd ts (scheduleAll rd odd W H t0 rs) c)) = cvGet n c); [|apply Hx].
  induction ts as [|t ts [IH1 IH2]] using rev_ind; [split; [exact Hs|reflexivity]|].
  rewrite redraws_snoc, animTick_eq. cbn [fst snd]. split.
  - intros C. apply IH1. apply in_map_iff in C as (b & Eb & Hb). apply filter_In in Hb as [Hb _].
    unfold scheduled. erewrite <- tickAll_names. rewrite <- Eb. apply in_map, Hb.
  - rewrite tickAll_other by exact IH1. exact IH2.
Qed.
End Canvas.

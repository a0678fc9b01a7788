(** FactsValues.v -- C31 (parameters of links), C32 (nested regions). *)
From Verif Require Import ParseSpec NumFacts.
From Verif Require Export Parser ParserWp ValuesSpec.
Open Scope string_scope.
Open Scope list_scope.

(** ** C31. *)
Lemma sref_some s r : sref s = Some r <-> s = ("$" ++ r)%string.
Proof. split; [destruct s as [|c s]; [done|]; unfold sref; destruct (decide (c = "$"%char)) as [->|Hc]; [by intros [= <-]|]|by intros ->].
  destruct c as [[] [] [] [] [] [] [] []]; try done. Qed.
Lemma sref_none s : sref s = None <-> isPlain s.
Proof.
  unfold isPlain. destruct (sref s) as [r|] eqn:E.
  - apply sref_some in E as ->. split; [done|]. intros H. destruct (H r eq_refl).
  - split; [|done]. intros _ r ->. by rewrite (proj2 (sref_some _ r) eq_refl) in E.
Qed.
Lemma f_C31 binds links props ref v : denotes (fun n => sget n binds) (fun n => sget n links) (fun n => sget n props) ref v <-> resolveParameter ref binds links props = v.
Proof.
  unfold resolveParameter. split.
  - intros H. inversion H as [r Hr|n w Hn Hw|n m w u Hn Hw Hu|n m w Hn Hw Hu|n Hb Hl]; subst.
    + by rewrite (proj2 (sref_none _) Hr).
    + rewrite (proj2 (sref_some _ n) eq_refl). destruct Hn as [Hn|[H1 Hn]]; rewrite ?H1, Hn; by rewrite (proj2 (sref_none _) Hw).
    + rewrite (proj2 (sref_some _ n) eq_refl). destruct Hn as [Hn|[H1 Hn]]; rewrite ?H1, Hn; by rewrite (proj2 (sref_some _ m) eq_refl), Hu.
    + rewrite (proj2 (sref_some _ n) eq_refl). destruct Hn as [Hn|[H1 Hn]]; rewrite ?H1, Hn; by rewrite (proj2 (sref_some _ m) eq_refl), Hu.
    + by rewrite (proj2 (sref_some _ n) eq_refl), Hb, Hl.
  - intros <-. destruct (sref ref) as [n|] eqn:E; [|apply sref_none in E; by constructor]. apply sref_some in E as ->.
    destruct (sget n binds) as [w|] eqn:Eb; [|destruct (sget n links) as [w|] eqn:El; [|by constructor]].
    all: (destruct (sref w) as [m|] eqn:Ew; [apply sref_some in Ew; destruct (sget m props) as [u|] eqn:Eu; [eapply D_property; eauto|subst w; eapply D_unbound; eauto]|apply sref_none in Ew; eapply D_param; eauto]).
    all: rewrite ?Ew in *; auto.
Qed.

(** ** C32. *)
Lemma pct_bounds odd ds base : digits ds -> (value ds <= 100)%N -> (0 <= base <= MAXINT)%Z -> (Z.abs (100 * parse_percent odd (numeral ds ++ "%")%string base 0 MAXINT - Z.of_N (value ds) * base) <= 50)%Z.
Proof. intros Hd Hp Hb. apply f_C27_percent; [done|lia|]. unfold MAXINT in Hb. nia. Qed.
Lemma cint_ok z (Q : Z -> pst -> Prop) s : Q z s -> pw (cint z) Q s.
Proof. intros H. unfold cint. destruct (bool_decide _); [by apply pw_ret|apply pw_crash]. Qed.
(** One axis: the region given by its start, or by its end. *)
Lemma axis base l w p q : (0 <= base)%Z -> (Z.abs (100 * l - p * base) <= 50)%Z -> (Z.abs (100 * w - q * base) <= 50)%Z -> (0 <= p)%Z -> (0 <= q)%Z -> (p + q <= 100)%Z ->
  (0 <= l)%Z /\ (0 <= w)%Z /\ (l + w <= base + 1)%Z /\ ((base mod 100 = 0)%Z -> (l + w <= base)%Z).
Proof.
  intros Hb H1 H2 Hp Hq Hpq. assert (A1 : (0 <= p * base)%Z) by (by apply Z.mul_nonneg_nonneg). assert (A2 : (0 <= q * base)%Z) by (by apply Z.mul_nonneg_nonneg).
  assert (A3 : (p * base + q * base <= 100 * base)%Z) by (rewrite <- Z.mul_add_distr_r; by apply Z.mul_le_mono_nonneg_r). split; [lia|]. split; [lia|]. split; [lia|].
  intros Hm. apply Z.mod_divide in Hm as [c ->]; [|lia]. replace (p * (c * 100))%Z with (100 * (p * c))%Z in * by ring. replace (q * (c * 100))%Z with (100 * (q * c))%Z in * by ring. lia.
Qed.
Lemma f_C32 odd par a s : (0 <= r_w par <= MAXINT)%Z -> (0 <= r_h par <= MAXINT)%Z ->
  forall side1 side2 l w t h, side1 = "left" /\ sget "right" a = None \/ side1 = "right" /\ sget "left" a = None -> side2 = "top" /\ sget "bottom" a = None \/ side2 = "bottom" /\ sget "top" a = None ->
  pct side1 a l -> pct "width" a w -> pct side2 a t -> pct "height" a h -> (l + w <= 100)%N -> (t + h <= 100)%N ->
  pw (regionRect odd par a) (fun r s' => s' = s /\ insideBy 1 r par /\ ((r_w par mod 100 = 0)%Z -> (r_h par mod 100 = 0)%Z -> insideBy 0 r par)) s.
Proof.
  intros Hw Hh side1 side2 l w t h A1 A2 (dl & Dl & <- & Sl) (dw & Dw & <- & Sw) (dt & Dt & <- & St) (dh & Dh & <- & Sh) S1 S2.
  pose proof (pct_bounds odd dl (r_w par) Dl ltac:(lia) Hw) as B1. pose proof (pct_bounds odd dw (r_w par) Dw ltac:(lia) Hw) as B2.
  pose proof (pct_bounds odd dt (r_h par) Dt ltac:(lia) Hh) as B3. pose proof (pct_bounds odd dh (r_h par) Dh ltac:(lia) Hh) as B4.
  pose proof (axis (r_w par) _ _ _ _ ltac:(lia) B1 B2 ltac:(lia) ltac:(lia) ltac:(lia)) as (X1 & X2 & X3 & X4). pose proof (axis (r_h par) _ _ _ _ ltac:(lia) B3 B4 ltac:(lia) ltac:(lia) ltac:(lia)) as (Y1 & Y2 & Y3 & Y4).
  clear B1 B2 B3 B4. unfold regionRect, iadd, isub. rewrite Sw, Sh.
  set (pl := parse_percent odd (numeral dl ++ "%")%string (r_w par) 0 MAXINT) in *. set (pt := parse_percent odd (numeral dt ++ "%")%string (r_h par) 0 MAXINT) in *.
  set (pwi := parse_percent odd (numeral dw ++ "%")%string (r_w par) 0 MAXINT) in *. set (ph := parse_percent odd (numeral dh ++ "%")%string (r_h par) 0 MAXINT) in *.
  destruct A1 as [[-> N1]|[-> N1]], A2 as [[-> N2]|[-> N2]]; rewrite ?N1, ?N2, ?Sl, ?St; cbv zeta; fold pl; fold pt; fold pwi; fold ph.
  all: repeat first [apply pw_bind | apply cint_ok | apply pw_ret | progress cbv beta].
  all: unfold insideBy; cbn [r_x r_y r_w r_h]; split; [done|]; split; [lia|]; intros M1 M2; specialize (X4 M1); specialize (Y4 M2); lia.
Qed.
Lemma f_C32_ok odd par a s r s' : (0 <= r_w par <= 2147483647)%Z -> (0 <= r_h par <= 2147483647)%Z ->
  forall side1 side2 l w t h,
  (side1 = "left" /\ sget "right" a = None \/ side1 = "right" /\ sget "left" a = None) ->
  (side2 = "top" /\ sget "bottom" a = None \/ side2 = "bottom" /\ sget "top" a = None) ->
  pct side1 a l -> pct "width" a w -> pct side2 a t -> pct "height" a h -> (l + w <= 100)%N -> (t + h <= 100)%N ->
  regionRect odd par a s = POk r s' -> insideBy 1 r par /\ ((r_w par mod 100 = 0)%Z -> (r_h par mod 100 = 0)%Z -> insideBy 0 r par).
Proof. intros Hw Hh side1 side2 l w t h A1 A2 P1 P2 P3 P4 S1 S2 H. exact (proj2 (pw_ok _ _ _ _ _ (f_C32 odd par a s Hw Hh _ _ _ _ _ _ A1 A2 P1 P2 P3 P4 S1 S2) H)). Qed.
Lemma cint_same z s : pw (cint z) (fun _ s' => s' = s) s. Proof. by apply cint_ok. Qed.
Lemma f_C32_pushed E e s e' s' par : head (p_rects s) = Some par -> pushRegion E e s = POk e' s' ->
  exists r s1, regionRect (pe_odd E) par (el_attrs e) s = POk r s1 /\ p_rects s' = r :: p_rects s.
Proof.
  intros Hp H. unfold pushRegion in H. unfold pbind at 1 in H. unfold pgets at 1 in H. unfold pbind at 1 in H. rewrite Hp in H. unfold pof at 1, pret at 1 in H. cbv beta iota zeta in H.
  unfold pbind at 1 in H. destruct (regionRect (pe_odd E) par (el_attrs e) s) as [r s1| | |] eqn:Er; try discriminate H. exists r, s1. split; [done|].
  assert (Es : s1 = s).
  { assert (G : pw (regionRect (pe_odd E) par (el_attrs e)) (fun _ s' => s' = s) s); [|exact (pw_ok _ _ _ _ _ G Er)]. unfold regionRect, iadd, isub.
    repeat match goal with |- context [match sget ?n ?a with _ => _ end] => destruct (sget n a) end; cbv zeta; repeat first [apply pw_bind | apply cint_ok | apply pw_ret | progress cbv beta]; done. }
  subst s1. clear Er. assert (G : pw (pmod (fun s2 => p_set_rects (r :: p_rects s2) s2) ;;; (let* z := pgets p_zorder in let* z' := iadd z 1 in pmod (p_set_zorder z') ;;; pret e)) (fun _ s2 => p_rects s2 = r :: p_rects s) s).
  { unfold iadd. p1. p1. p1. p1. p1. apply cint_ok. p1. p1. p1. done. }
  revert H G. unfold pw, pbind, pmod, pgets, iadd, cint, pret. destruct (bool_decide _); [|done]. intros [= _ <-] G. exact G.
Qed.
Lemma w_C32 :
  (exists r s', regionRect (fun _ => 0%Z) (mkRect 10 0 100 101) [("left", "25%")] (initial id "" 0 800 600) = POk r s' /\ r_x r = 35%Z /\ (r_x r + r_w r = 10 + 100 + 25)%Z) /\
  (exists r s', regionRect (fun _ => 0%Z) (mkRect 10 0 100 101) [("left", "60%"); ("right", "20%"); ("width", "20%")] (initial id "" 0 800 600) = POk r s' /\ (10 + 100 < r_x r)%Z).
Proof. split; eexists _, _; (split; [vm_compute; reflexivity|]); [split; vm_compute; reflexivity|vm_compute; reflexivity]. Qed.

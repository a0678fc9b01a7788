(** StartFacts.v -- a started player agrees with the properties of its media (C28). *)
From Coq Require Import Sorting.Sorted.
From Verif Require Import Frame SetProps PlayerSpec NumFacts PlayerFacts PredSpec PredFacts.
Open Scope m_scope.
Open Scope string_scope.
Open Scope list_scope.
Notation valueOf := PlayerSpec.valueOf.

Section Pure.
Context (D : doc) (W H : Z).
Notation X := (d_ext D).
Notation pstep := (pstep D W H).
Notation px := (px X).
Notation opacity := (opacity X).

Inductive psteps : list string -> table -> pattrs -> table -> pattrs -> Prop :=
  | ps_nil T T' a : (forall j, T' j = T j) -> psteps [] T a T' a
  | ps_skip k ks T a T' a' : T k = None -> psteps ks T a T' a' -> psteps (k :: ks) T a T' a'
  | ps_step k v ks T a T1 a1 T' a' : T k = Some v -> pstep k v T a T1 a1 -> psteps ks T1 a1 T' a' -> psteps (k :: ks) T a T' a'.

(** ** Which attribute a property touches. *)
Lemma shows_fields n v a a' : shows X W H n v a a' ->
  (n <> "left" -> n <> "right" -> a_x a' = a_x a) /\
  (n <> "top" -> n <> "bottom" -> a_y a' = a_y a) /\
  (n <> "width" -> a_w a' = a_w a) /\ (n <> "height" -> a_h a' = a_h a) /\
  (n <> "zIndex" -> a_zi a' = a_zi a) /\ (n <> "zOrder" -> a_zo a' = a_zo a) /\
  (n <> "transparency" -> a_alpha a' = a_alpha a) /\ (n <> "visible" -> a_visible a' = a_visible a) /\
  (n <> "duration" -> a_duration a' = a_duration a) /\ (n <> "uri" -> a_uri a' = a_uri a) /\
  (n <> "type" -> a_type a' = a_type a) /\ (n <> "debug" -> a_debug a' = a_debug a) /\
  (n <> "focusIndex" -> a_focusIndex a' = a_focusIndex a) /\ (n <> "focusBorderWidth" -> a_fbw a' = a_fbw a) /\
  (n <> "focusBorderTransparency" -> a_fbt a' = a_fbt a).
Proof.
  unfold shows.
  repeat match goal with |- context [String.eqb n ?k] => destruct (String.eqb_spec n k) as [->|]; [
    intros Hs; repeat match goal with
      | H : exists _, _ |- _ => destruct H
      | H : _ /\ _ |- _ => destruct H
      | H : _ \/ _ |- _ => destruct H end; subst; cbn; repeat split; intros; congruence|] end.
  intros ->. repeat split.
Qed.

(** ** One property and one simple attribute. *)
Lemma canonical_ne k n : k <> n -> (n <> "background" /\ n <> "balance" /\ n <> "bass" /\ n <> "duration" /\ n <> "speed" /\ n <> "volume" /\ n <> "treble") ->
  canonical k <> n.
Proof.
  unfold canonical. intros Hk Hn.
  repeat match goal with |- context [String.eqb k ?j] => destruct (String.eqb_spec k j) as [->|]; [intuition congruence|] end. done.
Qed.
Lemma one_keep {A} (f : pattrs -> A) r b k v a a' :
  (forall v a a', shows X W H "right" v a a' -> f a' = f a) ->
  (forall v a a', shows X W H "bottom" v a a' -> f a' = f a) ->
  (forall v a a', shows X W H (canonical k) v a a' -> f a' = f a) ->
  showsOne X W H r b k v a a' -> f a' = f a.
Proof.
  intros Hr Hb Hk (c & H1 & H2). rewrite <- (Hk _ _ _ H1).
  destruct (_ && _)%bool; [by eapply Hr|]. destruct (_ && _)%bool; [by eapply Hb|]. by subst.
Qed.
Lemma seq_keep {A} (f : pattrs -> A) r b l :
  (forall k v a a', k ∈ map fst l -> showsOne X W H r b k v a a' -> f a' = f a) -> forall a a',
  showsSeq X W H r b l a a' -> f a' = f a.
Proof.
  induction l as [|[k v] l IH]; intros Hl a a'; cbn [showsSeq]; [by intros ->|].
  intros (c & H1 & H2). rewrite (IH ltac:(intros; eapply Hl; [right; eassumption|eassumption]) _ _ H2).
  eapply Hl; [left|exact H1].
Qed.
Lemma map_fst_combine_in (ns vs : list string) k : k ∈ map fst (combine ns vs) -> k ∈ ns.
Proof.
  rewrite !elem_of_list_In, in_map_iff. intros ([k' v] & <- & Hin). by apply in_combine_l in Hin.
Qed.
Lemma comps_in k c : c ∈ components k -> c ∈ ["left"; "top"; "width"; "height"].
Proof.
  unfold components. repeat (destruct (String.eqb _ _)); intros Hc;
    repeat (apply elem_of_cons in Hc as [-> |Hc]; [set_solver|]); by apply elem_of_nil in Hc.
Qed.
Lemma four c (P : string -> Prop) : c ∈ ["left"; "top"; "width"; "height"] -> P "left" -> P "top" -> P "width" -> P "height" -> P c.
Proof. intros Hc ????. repeat (apply elem_of_cons in Hc as [-> |Hc]; [done|]). by apply elem_of_nil in Hc. Qed.
(** A property leaves an attribute alone if its components (or itself) do. *)
Lemma step_keep {A} (f : pattrs -> A) k v T a T' a' :
  (forall k' r b v a a', k' = k \/ k' ∈ components k -> showsOne X W H r b k' v a a' -> f a' = f a) ->
  pstep k v T a T' a' -> f a' = f a.
Proof.
  intros Hf. unfold PlayerFacts.pstep. destruct (components k) as [|n0 ns] eqn:Ec.
  - intros [_ H1]. eapply Hf; [by left|exact H1].
  - intros (vs & _ & _ & _ & H1). eapply seq_keep; [|exact H1]. intros k' v' b b' Hk. eapply Hf. right. by eapply map_fst_combine_in.
Qed.
Lemma assigned_other l : forall T j, j ∉ map fst l -> assigned l T j = T j.
Proof.
  induction l as [|[k v] l IH]; intros T j Hj; cbn [assigned]; [done|]. cbn in Hj. apply not_elem_of_cons in Hj as [Hj1 Hj2].
  rewrite IH by done. by destruct (String.eqb_spec j k).
Qed.
Lemma step_table k v T a T' a' j : pstep k v T a T' a' -> j ∉ components k -> T' j = T j.
Proof.
  unfold PlayerFacts.pstep. destruct (components k) as [|n0 ns] eqn:Ec; [intros [H1 _] _; apply H1|].
  intros (vs & _ & _ & H1 & _) Hj. rewrite H1. apply assigned_other. intros Hin. apply Hj. by eapply map_fst_combine_in.
Qed.
Lemma steps_table ks T a T' a' : psteps ks T a T' a' -> forall j, j ∉ ["left"; "top"; "width"; "height"] -> T' j = T j.
Proof.
  induction 1 as [T T' a HT|k ks T a T' a' Hk Hs IH|k v ks T a T1 a1 T' a' Hk Hp Hs IH]; intros j Hj; auto.
  rewrite IH by done. eapply step_table; [exact Hp|]. intros Hc. by apply Hj, (comps_in k).
Qed.
Lemma steps_app l1 : forall l2 T a T' a', psteps (l1 ++ l2) T a T' a' -> exists T1 a1, psteps l1 T a T1 a1 /\ psteps l2 T1 a1 T' a'.
Proof.
  induction l1 as [|k l1 IH]; intros l2 T a T' a' Hs.
  - exists T, a. split; [by constructor|done].
  - cbn in Hs. inversion Hs; subst; clear Hs.
    + match goal with Hp : psteps _ _ _ _ _ |- _ => rename Hp into Hr end. destruct (IH _ _ _ _ _ Hr) as (T2 & a2 & G1 & G2). exists T2, a2. split; [by apply ps_skip|done].
    + match goal with Hp : psteps _ _ _ _ _ |- _ => rename Hp into Hr end. destruct (IH _ _ _ _ _ Hr) as (T2 & a2 & G1 & G2). exists T2, a2. split; [by eapply ps_step|done].
Qed.
(** Simple attributes: one property, never spread. *)
Lemma simple {A} (f : pattrs -> A) n (R : string -> A -> Prop) ks T a T' a' :
  psteps ks T a T' a' -> n ∉ ["left"; "top"; "width"; "height"] ->
  (forall k v T a T' a', k <> n -> pstep k v T a T' a' -> f a' = f a) ->
  (forall v T a T' a', pstep n v T a T' a' -> R v (f a')) ->
  (T' n = None -> f a' = f a) /\ (n ∉ ks -> f a' = f a) /\ (n ∈ ks -> forall v, T' n = Some v -> R v (f a')).
Proof.
  intros Hs Hn Hkeep Hset.
  induction Hs as [T T' a HT|k ks T a T' a' Hk Hs IH|k v ks T a T1 a1 T' a' Hk Hp Hs IH].
  - repeat split; auto. intros Hin. by apply elem_of_nil in Hin.
  - destruct IH as (I1 & I2 & I3). split; [done|]. split; [intros Hnk; apply I2; set_solver|].
    intros Hin v Hv. apply elem_of_cons in Hin as [-> |Hin]; [|by apply I3].
    rewrite (steps_table _ _ _ _ _ Hs) in Hv by done. congruence.
  - destruct IH as (I1 & I2 & I3).
    assert (T' n = T n) as E by (rewrite (steps_table _ _ _ _ _ Hs) by done; eapply step_table; [exact Hp|]; intros Hc; by apply Hn, (comps_in k)).
    destruct (decide (k = n)) as [->|Hkn].
    + split; [congruence|]. split; [set_solver|]. intros _ v' Hv'. destruct (decide (n ∈ ks)) as [Hin|Hin]; [by apply I3|].
      rewrite (I2 Hin). assert (v' = v) as -> by congruence. by eapply Hset.
    + split; [intros HN; rewrite (I1 HN); by eapply Hkeep|]. split; [intros Hnk; rewrite I2 by set_solver; by eapply Hkeep|].
      intros Hin. apply elem_of_cons in Hin as [->|Hin]; [done|]. by apply I3.
Qed.
(** For each simple attribute: other properties keep it, its own sets it. *)
Ltac keep := intros k v T a T' a' Hk Hp; eapply step_keep; [|exact Hp];
  intros k' r b v' c c' Hk'; apply one_keep;
  intros ? ? ? Hs; apply shows_fields in Hs; destruct_and! Hs;
  match goal with F : _ -> ?G |- ?G => apply F end; try discriminate;
  apply canonical_ne; [|repeat split; discriminate];
  destruct Hk' as [->|Hk']; [done|]; apply comps_in in Hk';
  apply (four _ (fun z => z <> _) Hk'); discriminate.
Ltac set1 := intros v T a T' a' [_ (c & Hs & ->)]; try exact Hs.
Lemma keep_zi k v T a T' a' : k <> "zIndex" -> pstep k v T a T' a' -> a_zi a' = a_zi a.
Proof. revert k v T a T' a'. keep. Qed.
Lemma keep_zo k v T a T' a' : k <> "zOrder" -> pstep k v T a T' a' -> a_zo a' = a_zo a.
Proof. revert k v T a T' a'. keep. Qed.
Lemma keep_alpha k v T a T' a' : k <> "transparency" -> pstep k v T a T' a' -> a_alpha a' = a_alpha a.
Proof. revert k v T a T' a'. keep. Qed.
Lemma keep_visible k v T a T' a' : k <> "visible" -> pstep k v T a T' a' -> a_visible a' = a_visible a.
Proof. revert k v T a T' a'. keep. Qed.
Lemma keep_uri k v T a T' a' : k <> "uri" -> pstep k v T a T' a' -> a_uri a' = a_uri a.
Proof. revert k v T a T' a'. keep. Qed.
Lemma keep_type k v T a T' a' : k <> "type" -> pstep k v T a T' a' -> a_type a' = a_type a.
Proof. revert k v T a T' a'. keep. Qed.
Lemma keep_debug k v T a T' a' : k <> "debug" -> pstep k v T a T' a' -> a_debug a' = a_debug a.
Proof. revert k v T a T' a'. keep. Qed.
Lemma keep_fi k v T a T' a' : k <> "focusIndex" -> pstep k v T a T' a' -> a_focusIndex a' = a_focusIndex a.
Proof. revert k v T a T' a'. keep. Qed.
Lemma keep_fbw k v T a T' a' : k <> "focusBorderWidth" -> pstep k v T a T' a' -> a_fbw a' = a_fbw a.
Proof. revert k v T a T' a'. keep. Qed.
Lemma keep_fbt k v T a T' a' : k <> "focusBorderTransparency" -> pstep k v T a T' a' -> a_fbt a' = a_fbt a.
Proof. revert k v T a T' a'. keep. Qed.
Lemma keep_dur k v T a T' a' : k <> "duration" -> k <> "explicitDur" -> pstep k v T a T' a' -> a_duration a' = a_duration a.
Proof.
  intros Hk1 Hk2 Hp. eapply step_keep; [|exact Hp].
  intros k' r b v' c c' Hk'. apply one_keep;
  intros ? ? ? Hs; apply shows_fields in Hs; destruct_and! Hs;
  match goal with F : _ -> ?G |- ?G => apply F end; try discriminate.
  assert (k' <> "duration" /\ k' <> "explicitDur") as [? ?].
  { destruct Hk' as [->|Hk']; [done|]. apply comps_in in Hk'. apply (four _ (fun z => z <> "duration" /\ z <> "explicitDur") Hk'); done. }
  unfold canonical. repeat match goal with |- context [String.eqb k' ?j] => destruct (String.eqb_spec k' j) as [->|]; [congruence|] end. done.
Qed.

(** ** Geometry. *)
Definition geo (a : pattrs) : Z * Z * Z * Z := (a_x a, a_y a, a_w a, a_h a).
Definition rx (T : table) (x w : Z) : Z :=
  if String.eqb (default "" (T "right")) "" then x else (W - w - px W (default "" (T "right")))%Z.
Definition by_ (T : table) (y h : Z) : Z :=
  if String.eqb (default "" (T "bottom")) "" then y else (H - h - px h (default "" (T "bottom")))%Z.
Definition gkeys : list string := ["left"; "right"; "top"; "bottom"; "width"; "height"; "location"; "size"; "bounds"].
Lemma g_other k v T a T' a' : pstep k v T a T' a' -> k ∉ gkeys -> geo a' = geo a /\ forall j, T' j = T j.
Proof.
  intros Hp Hk. unfold gkeys in Hk. rewrite !not_elem_of_cons in Hk. destruct_and! Hk.
  assert (Ec : components k = []).
  { unfold components. by repeat match goal with |- context [String.eqb k ?j] => destruct (String.eqb_spec k j) as [->|]; [congruence|] end. }
  unfold PlayerFacts.pstep in Hp. rewrite Ec in Hp. destruct Hp as [HT (c & Hs & Hc)]. split; [|done].
  destruct (String.eqb_spec k "width"); [congruence|]. destruct (String.eqb_spec k "height"); [congruence|]. cbn in Hc. subst c.
  apply shows_fields in Hs. destruct_and! Hs. unfold geo.
  assert (Hcn : forall n, n ∈ gkeys -> k <> n -> canonical k <> n).
  { intros m Hn Hne. apply canonical_ne; [done|]. clear -Hn. unfold gkeys in Hn.
    repeat (apply elem_of_cons in Hn as [-> |Hn]; [repeat split; discriminate|]). by apply elem_of_nil in Hn. }
  f_equal; [f_equal; [f_equal|]|]; match goal with F : _ -> ?G |- ?G => apply F | F : _ -> _ -> ?G |- ?G => apply F end;
    apply Hcn; try assumption; apply (bool_decide_unpack _); vm_compute; exact I.
Qed.
Lemma one_left r b v a a' : showsOne X W H r b "left" v a a' -> a' = setX a (px W (valueOf "left" v)).
Proof. intros (c & Hs & ->). exact Hs. Qed.
Lemma one_right r b v a a' : showsOne X W H r b "right" v a a' -> a' = setX a (W - a_w a - px W (valueOf "right" v))%Z.
Proof. intros (c & Hs & ->). exact Hs. Qed.
Lemma one_top r b v a a' : showsOne X W H r b "top" v a a' -> a' = setY a (px H (valueOf "top" v)).
Proof. intros (c & Hs & ->). exact Hs. Qed.
Lemma one_bottom r b v a a' : showsOne X W H r b "bottom" v a a' -> a' = setY a (H - a_h a - px (a_h a) (valueOf "bottom" v))%Z.
Proof. intros (c & Hs & ->). exact Hs. Qed.
Definition rxs (r : string) (x w : Z) : Z := if String.eqb r "" then x else (W - w - px W r)%Z.
Definition bys (b : string) (y h : Z) : Z := if String.eqb b "" then y else (H - h - px h b)%Z.
Lemma one_width r b v a a' : showsOne X W H r b "width" v a a' ->
  let w := px W (valueOf "width" v) in geo a' = (rxs r (a_x a) w, a_y a, w, a_h a).
Proof.
  intros (c & Hs & Hc). change (c = setW a (px W (valueOf "width" v))) in Hs. subst c. cbn [String.eqb Ascii.eqb Bool.eqb andb] in Hc.
  cbv zeta. unfold rxs. destruct (String.eqb_spec r "") as [->|Hr]; cbn in Hc.
  - by subst a'.
  - change (a' = setX (setW a (px W (valueOf "width" v))) (W - px W (valueOf "width" v) - px W r)) in Hc. by subst a'.
Qed.
Lemma one_height r b v a a' : showsOne X W H r b "height" v a a' ->
  let h := px H (valueOf "height" v) in geo a' = (a_x a, bys b (a_y a) h, a_w a, h).
Proof.
  intros (c & Hs & Hc). change (c = setH a (px H (valueOf "height" v))) in Hs. subst c. cbn [String.eqb Ascii.eqb Bool.eqb andb] in Hc.
  cbv zeta. unfold bys. destruct (String.eqb_spec b "") as [->|Hr]; cbn in Hc.
  - by subst a'.
  - change (a' = setY (setH a (px H (valueOf "height" v))) (H - px H (valueOf "height" v) - px (px H (valueOf "height" v)) b)) in Hc. by subst a'.
Qed.
Notation R T := (default "" (T "right")).
Notation B T := (default "" (T "bottom")).
Lemma g_left v T a T' a' : pstep "left" v T a T' a' ->
  geo a' = (px W (valueOf "left" v), a_y a, a_w a, a_h a) /\ forall j, T' j = T j.
Proof. intros [HT H1]. apply one_left in H1. by subst. Qed.
Lemma g_right v T a T' a' : pstep "right" v T a T' a' ->
  geo a' = ((W - a_w a - px W (valueOf "right" v))%Z, a_y a, a_w a, a_h a) /\ forall j, T' j = T j.
Proof. intros [HT H1]. apply one_right in H1. by subst. Qed.
Lemma g_top v T a T' a' : pstep "top" v T a T' a' ->
  geo a' = (a_x a, px H (valueOf "top" v), a_w a, a_h a) /\ forall j, T' j = T j.
Proof. intros [HT H1]. apply one_top in H1. by subst. Qed.
Lemma g_bottom v T a T' a' : pstep "bottom" v T a T' a' ->
  geo a' = (a_x a, (H - a_h a - px (a_h a) (valueOf "bottom" v))%Z, a_w a, a_h a) /\ forall j, T' j = T j.
Proof. intros [HT H1]. apply one_bottom in H1. by subst. Qed.
Lemma g_width v T a T' a' : pstep "width" v T a T' a' ->
  let w := px W (valueOf "width" v) in geo a' = (rxs (R T) (a_x a) w, a_y a, w, a_h a) /\ forall j, T' j = T j.
Proof. intros [HT H1]. apply one_width in H1. by split. Qed.
Lemma g_height v T a T' a' : pstep "height" v T a T' a' ->
  let h := px H (valueOf "height" v) in geo a' = (a_x a, bys (B T) (a_y a) h, a_w a, h) /\ forall j, T' j = T j.
Proof. intros [HT H1]. apply one_height in H1. by split. Qed.
Definition upd (T : table) (k : string) (v : string) : table := fun j => if String.eqb j k then Some v else T j.
Lemma g_location v T a T' a' : pstep "location" v T a T' a' -> exists l t,
  try_parse_list (valueOf "location" v) "," 2 2 = Some [l; t] /\
  geo a' = (px W (valueOf "left" l), px H (valueOf "top" t), a_w a, a_h a) /\ forall j, T' j = upd (upd T "left" l) "top" t j.
Proof.
  intros (vs & E & Hl & HT & Hs). destruct vs as [|l [|t [|]]]; try discriminate Hl. exists l, t.
  split; [exact E|]. destruct Hs as (a1 & H1 & a2 & H2 & ->). apply one_left in H1. apply one_top in H2. subst. split; [done|exact HT].
Qed.
Lemma g_size v T a T' a' : pstep "size" v T a T' a' -> exists vw vh,
  try_parse_list (valueOf "size" v) "," 2 2 = Some [vw; vh] /\
  let w := px W (valueOf "width" vw) in let h := px H (valueOf "height" vh) in
  geo a' = (rxs (R T) (a_x a) w, bys (B T) (a_y a) h, w, h) /\ forall j, T' j = upd (upd T "width" vw) "height" vh j.
Proof.
  intros (vs & E & Hl & HT & Hs). destruct vs as [|l [|t [|]]]; try discriminate Hl. exists l, t.
  split; [exact E|]. destruct Hs as (a1 & H1 & a2 & H2 & ->). apply one_width in H1. apply one_height in H2. cbv zeta in *.
  split; [|exact HT]. rewrite H2. unfold geo in H1. injection H1 as -> -> -> _. done.
Qed.
Lemma g_bounds v T a T' a' : pstep "bounds" v T a T' a' -> exists vl vt vw vh,
  try_parse_list (valueOf "bounds" v) "," 4 4 = Some [vl; vt; vw; vh] /\
  let w := px W (valueOf "width" vw) in let h := px H (valueOf "height" vh) in
  geo a' = (rxs (R T) (px W (valueOf "left" vl)) w, bys (B T) (px H (valueOf "top" vt)) h, w, h) /\
  forall j, T' j = upd (upd (upd (upd T "left" vl) "top" vt) "width" vw) "height" vh j.
Proof.
  intros (vs & E & Hl & HT & Hs). destruct vs as [|l [|t [|vw [|vh [|]]]]]; try discriminate Hl. exists l, t, vw, vh.
  split; [exact E|]. destruct Hs as (a1 & H1 & a2 & H2 & a3 & H3 & a4 & H4 & ->).
  apply one_left in H1. apply one_top in H2. apply one_width in H3. apply one_height in H4. cbv zeta in *. subst a1 a2.
  split; [|exact HT]. rewrite H4. unfold geo in H3. injection H3 as -> -> -> _. done.
Qed.
(** All cases at once. *)
Lemma gcases k v T a T' a' (P : Prop) : pstep k v T a T' a' ->
  (k = "left" -> geo a' = (px W (valueOf "left" v), a_y a, a_w a, a_h a) -> (forall j, T' j = T j) -> P) ->
  (k = "right" -> geo a' = ((W - a_w a - px W (valueOf "right" v))%Z, a_y a, a_w a, a_h a) -> (forall j, T' j = T j) -> P) ->
  (k = "top" -> geo a' = (a_x a, px H (valueOf "top" v), a_w a, a_h a) -> (forall j, T' j = T j) -> P) ->
  (k = "bottom" -> geo a' = (a_x a, (H - a_h a - px (a_h a) (valueOf "bottom" v))%Z, a_w a, a_h a) -> (forall j, T' j = T j) -> P) ->
  (k = "width" -> geo a' = (rxs (R T) (a_x a) (px W (valueOf "width" v)), a_y a, px W (valueOf "width" v), a_h a) -> (forall j, T' j = T j) -> P) ->
  (k = "height" -> geo a' = (a_x a, bys (B T) (a_y a) (px H (valueOf "height" v)), a_w a, px H (valueOf "height" v)) -> (forall j, T' j = T j) -> P) ->
  (k = "location" -> forall l t, try_parse_list (valueOf "location" v) "," 2 2 = Some [l; t] ->
     geo a' = (px W (valueOf "left" l), px H (valueOf "top" t), a_w a, a_h a) ->
     (forall j, T' j = upd (upd T "left" l) "top" t j) -> P) ->
  (k = "size" -> forall vw vh, try_parse_list (valueOf "size" v) "," 2 2 = Some [vw; vh] ->
     geo a' = (rxs (R T) (a_x a) (px W (valueOf "width" vw)), bys (B T) (a_y a) (px H (valueOf "height" vh)), px W (valueOf "width" vw), px H (valueOf "height" vh)) ->
     (forall j, T' j = upd (upd T "width" vw) "height" vh j) -> P) ->
  (k = "bounds" -> forall vl vt vw vh, try_parse_list (valueOf "bounds" v) "," 4 4 = Some [vl; vt; vw; vh] ->
     geo a' = (rxs (R T) (px W (valueOf "left" vl)) (px W (valueOf "width" vw)), bys (B T) (px H (valueOf "top" vt)) (px H (valueOf "height" vh)), px W (valueOf "width" vw), px H (valueOf "height" vh)) ->
     (forall j, T' j = upd (upd (upd (upd T "left" vl) "top" vt) "width" vw) "height" vh j) -> P) ->
  (k ∉ gkeys -> geo a' = geo a -> (forall j, T' j = T j) -> P) -> P.
Proof.
  intros Hp Gl Gr Gt Gb Gw Gh Glo Gsi Gbo Go.
  destruct (decide (k ∈ gkeys)) as [Hin|Hin]; [|by destruct (g_other _ _ _ _ _ _ Hp Hin); apply Go].
  unfold gkeys in Hin. repeat (apply elem_of_cons in Hin as [-> |Hin]; [|]).
  - apply g_left in Hp as [? ?]. by apply Gl.
  - apply g_right in Hp as [? ?]. by apply Gr.
  - apply g_top in Hp as [? ?]. by apply Gt.
  - apply g_bottom in Hp as [? ?]. by apply Gb.
  - apply g_width in Hp as [? ?]. by apply Gw.
  - apply g_height in Hp as [? ?]. by apply Gh.
  - apply g_location in Hp as (l & t & ? & ? & ?). by eapply Glo.
  - apply g_size in Hp as (l & t & ? & ? & ?). by eapply Gsi.
  - apply g_bounds in Hp as (l & t & ? & ? & ? & ? & ?). by eapply Gbo.
  - by apply elem_of_nil in Hin.
Qed.
(** Entries never disappear; right and bottom never change. *)
Lemma step_mono k v T a T' a' j : pstep k v T a T' a' -> T' j = None -> T j = None.
Proof.
  intros Hp. apply (gcases _ _ _ _ _ _ _ Hp); intros; repeat match goal with HT : forall j, T' j = _ |- _ => pose proof (HT j) as E; clear HT end;
    try congruence; unfold upd in E; repeat (destruct (String.eqb j _) in E; [congruence|]); congruence.
Qed.
Lemma steps_mono ks T a T' a' : psteps ks T a T' a' -> forall j, T' j = None -> T j = None.
Proof.
  induction 1 as [T T' a HT|k ks T a T' a' Hk Hs IH|k v ks T a T1 a1 T' a' Hk Hp Hs IH]; intros j Hj; [congruence|auto|].
  eapply step_mono; [exact Hp|auto].
Qed.
(** An invariant of a run of steps. *)
Lemma steps_inv (I : table -> pattrs -> Prop) (ok : string -> Prop) ks T a T' a' : psteps ks T a T' a' ->
  (forall k, k ∈ ks -> ok k) ->
  (forall T T' a, (forall j, T' j = T j) -> I T a -> I T' a) ->
  (forall k v T a T1 a1, T k = Some v -> ok k -> pstep k v T a T1 a1 -> (forall j, T' j = None -> T1 j = None) -> I T a -> I T1 a1) ->
  I T a -> I T' a'.
Proof.
  intros Hs Hok Hext Hstep HI.
  induction Hs as [T T' a HT|k ks T a T' a' Hk Hs IH|k v ks T a T1 a1 T' a' Hk Hp Hs IH].
  - by eapply Hext.
  - apply IH; auto. intros; apply Hok; by right.
  - apply IH; [intros; apply Hok; by right|done|].
    eapply Hstep; [exact Hk|apply Hok; left|exact Hp| |exact HI]. eapply steps_mono, Hs.
Qed.

Lemma split_at ks n : StronglySorted lex ks -> n ∈ ks -> exists l1 l2, ks = l1 ++ n :: l2 /\ (forall k, k ∈ l2 -> lex n k) /\ (forall k, k ∈ l1 -> lex k n).
Proof.
  intros Hs Hin. apply elem_of_list_split in Hin as (l1 & l2 & ->). exists l1, l2. split; [done|].
  induction l1 as [|x l1 IH]; cbn in Hs; apply StronglySorted_inv in Hs as [Hs Hf]; rewrite List.Forall_forall in Hf.
  - split; [intros k Hk; apply Hf, elem_of_list_In, Hk|intros k Hk; by apply elem_of_nil in Hk].
  - destruct (IH Hs) as [I1 I2]. split; [done|]. intros k Hk. apply elem_of_cons in Hk as [->|Hk]; [|by apply I2].
    apply Hf, in_or_app. right. by left.
Qed.
Lemma lex_ne n k j : lex n k -> str_lt n j = false -> k <> j.
Proof. intros Hl Hj ->. apply str_lt_lex in Hl. congruence. Qed.
Lemma lex_ne' n k j : lex k n -> str_lt j n = false -> k <> j.
Proof. intros Hl Hj ->. apply str_lt_lex in Hl. congruence. Qed.
(** One key in the middle of a run. *)
Lemma run_at ks n T a T' a' : StronglySorted lex ks -> n ∈ ks -> psteps ks T a T' a' ->
  exists l1 l2 T1 a1 T2 a2, (forall k, k ∈ l2 -> lex n k) /\ (forall k, k ∈ l1 -> lex k n) /\
    psteps l1 T a T1 a1 /\ psteps l2 T2 a2 T' a' /\
    ((T1 n = None /\ T2 = T1 /\ a2 = a1) \/ exists v, T1 n = Some v /\ pstep n v T1 a1 T2 a2).
Proof.
  intros Hs Hin Hp. destruct (split_at _ _ Hs Hin) as (l1 & l2 & -> & H1 & H2).
  destruct (steps_app _ _ _ _ _ _ Hp) as (T1 & a1 & P1 & P2). inversion P2; subst.
  - exists l1, l2, T1, a1, T1, a1. repeat split; auto.
  - match goal with A : pstep n _ _ _ ?T2 ?a2, B : psteps _ ?T2 ?a2 _ _ |- _ => exists l1, l2, T1, a1, T2, a2 end. repeat split; eauto.
Qed.
Ltac gc Hp := apply (gcases _ _ _ _ _ _ _ Hp); clear Hp; intros; subst; unfold geo in *;
  repeat match goal with E : (_, _, _, _) = (_, _, _, _) |- _ => injection E as ? ? ? ? end.
Ltac tb := repeat match goal with HT : forall j, _ = _ |- _ => rewrite !HT; clear HT end.
(** The width, when no entry for it, has not changed. *)
Lemma none_w ks T a T' a' : psteps ks T a T' a' -> T' "width" = None -> a_w a' = a_w a.
Proof.
  intros Hs Hn. revert Hs. intros Hs. apply (steps_inv (fun _ b => a_w b = a_w a) (fun _ => True) _ _ _ _ _ Hs); [done|done| |done].
  intros k v T1 b T2 b' Hk _ Hp Hm <-. pose proof (Hm _ Hn) as HN. gc Hp; try congruence;
    repeat match goal with HT : forall j, T2 j = _ |- _ => rewrite HT in HN; clear HT end; try discriminate HN; congruence.
Qed.
Lemma none_h ks T a T' a' : psteps ks T a T' a' -> T' "height" = None -> a_h a' = a_h a.
Proof.
  intros Hs Hn. apply (steps_inv (fun _ b => a_h b = a_h a) (fun _ => True) _ _ _ _ _ Hs); [done|done| |done].
  intros k v T1 b T2 b' Hk _ Hp Hm <-. pose proof (Hm _ Hn) as HN. gc Hp; try congruence;
    repeat match goal with HT : forall j, T2 j = _ |- _ => rewrite HT in HN; clear HT end; try discriminate HN; congruence.
Qed.
Lemma none_x ks T a T' a' : psteps ks T a T' a' -> T' "left" = None -> T' "right" = None -> a_x a' = a_x a.
Proof.
  intros Hs Hn Hr. apply (steps_inv (fun _ b => a_x b = a_x a) (fun _ => True) _ _ _ _ _ Hs); [done|done| |done].
  intros k v T1 b T2 b' Hk _ Hp Hm <-. pose proof (Hm _ Hn) as HN. pose proof (Hm _ Hr) as HR. gc Hp; try congruence;
    repeat match goal with HT : forall j, T2 j = _ |- _ => rewrite HT in HN, HR; clear HT end; try discriminate HN; try congruence.
  - cbn in HR. rewrite HR in *. unfold rxs in *. cbn in *. congruence.
  - cbn in HR. rewrite HR in *. unfold rxs in *. cbn in *. congruence.
Qed.
Lemma agrees_w ks T a T' a' : StronglySorted lex ks -> psteps ks T a T' a' -> "width" ∈ ks ->
  a_w a = px W "100%" -> a_w a' = px W (inForce T' "width").
Proof.
  intros Hso Hs Hin Ha. destruct (run_at _ _ _ _ _ _ Hso Hin Hs) as (l1 & l2 & T1 & a1 & T2 & a2 & L2 & L1 & P1 & P2 & HC).
  assert (G : a_w a' = a_w a2 /\ T' "width" = T2 "width").
  { apply (steps_inv (fun T b => a_w b = a_w a2 /\ T "width" = T2 "width") (fun k => lex "width" k) _ _ _ _ _ P2); [exact L2|..|split; reflexivity].
    - intros T3 T4 b HT [I1 I2]. split; [done|]. by rewrite HT.
    - intros k v T3 b T4 b' _ Hk Hp _ [I1 I2].
      pose proof (lex_ne _ _ "bounds" Hk eq_refl). pose proof (lex_ne _ _ "size" Hk eq_refl). pose proof (lex_ne _ _ "width" Hk eq_refl).
      gc Hp; try contradiction; (split; [congruence|]); tb; done. }
  destruct G as [-> E]. unfold inForce. rewrite E. destruct HC as [(HN & -> & ->)|(v & Hv & Hp)].
  - rewrite HN. rewrite (none_w _ _ _ _ _ P1 HN). done.
  - apply g_width in Hp as [E2 HT]. rewrite HT, Hv. unfold geo in E2. by injection E2.
Qed.
Lemma agrees_h ks T a T' a' : StronglySorted lex ks -> psteps ks T a T' a' -> "height" ∈ ks ->
  a_h a = px H "100%" -> a_h a' = px H (inForce T' "height").
Proof.
  intros Hso Hs Hin Ha. destruct (run_at _ _ _ _ _ _ Hso Hin Hs) as (l1 & l2 & T1 & a1 & T2 & a2 & L2 & L1 & P1 & P2 & HC).
  apply (steps_inv (fun T b => a_h b = px H (inForce T "height")) (fun k => lex "height" k) _ _ _ _ _ P2); [exact L2|..].
  - intros T3 T4 b HT I1. unfold inForce. by rewrite HT.
  - intros k v T3 b T4 b' _ Hk Hp _ I1. unfold inForce in *.
    pose proof (lex_ne _ _ "bounds" Hk eq_refl). pose proof (lex_ne _ _ "height" Hk eq_refl).
    gc Hp; try contradiction; tb; try congruence; cbn; congruence.
  - unfold inForce. destruct HC as [(HN & -> & ->)|(v & Hv & Hp)].
    + rewrite HN. rewrite (none_h _ _ _ _ _ P1 HN). done.
    + apply g_height in Hp as [E2 HT]. rewrite HT, Hv. unfold geo in E2. by injection E2.
Qed.
Lemma steps_rb ks T a T' a' : psteps ks T a T' a' -> T' "right" = T "right" /\ T' "bottom" = T "bottom".
Proof.
  intros Hs. split; apply (steps_table _ _ _ _ _ Hs); apply (bool_decide_unpack _); vm_compute; exact I.
Qed.
Lemma agrees_x0 ks T a T' a' : StronglySorted lex ks -> psteps ks T a T' a' -> "left" ∈ ks ->
  a_x a = px W "0" -> T' "right" = None -> a_x a' = px W (inForce T' "left").
Proof.
  intros Hso Hs Hin Ha Hr. destruct (run_at _ _ _ _ _ _ Hso Hin Hs) as (l1 & l2 & T1 & a1 & T2 & a2 & L2 & L1 & P1 & P2 & HC).
  assert (G : a_x a' = px W (inForce T' "left") /\ T' "right" = None).
  { apply (steps_inv (fun T b => a_x b = px W (inForce T "left") /\ T "right" = None) (fun k => lex "left" k) _ _ _ _ _ P2); [exact L2|..].
    - intros T3 T4 b HT I1. unfold inForce. by rewrite !HT.
    - intros k v T3 b T4 b' Hkv Hk Hp _ [I1 I2]. unfold inForce in *.
      pose proof (lex_ne _ _ "bounds" Hk eq_refl). pose proof (lex_ne _ _ "left" Hk eq_refl).
      assert (k <> "right") by congruence.
      gc Hp; try contradiction; tb; (split; [|exact I2]); unfold rxs in *; cbn; rewrite ?I2 in *; cbn in *; congruence.
    - destruct (steps_rb _ _ _ _ _ P2) as [Er _]. split; [|congruence]. unfold inForce. destruct HC as [(HN & -> & ->)|(v & Hv & Hp)].
      + rewrite HN. rewrite (none_x _ _ _ _ _ P1 HN); [done|congruence].
      + apply g_left in Hp as [E2 HT]. rewrite HT, Hv. unfold geo in E2. by injection E2. }
  apply G.
Qed.
Lemma rxs_nonempty r x w : r <> "" -> rxs r x w = (W - w - px W r)%Z.
Proof. unfold rxs. by destruct (String.eqb_spec r ""). Qed.
Lemma bys_nonempty r x w : r <> "" -> bys r x w = (H - w - px w r)%Z.
Proof. unfold bys. by destruct (String.eqb_spec r ""). Qed.
Lemma agrees_x1 ks T a T' a' r : StronglySorted lex ks -> psteps ks T a T' a' -> "right" ∈ ks ->
  T' "right" = Some r -> r <> "" -> a_x a' = (W - a_w a' - px W r)%Z.
Proof.
  intros Hso Hs Hin Hr Hne. destruct (run_at _ _ _ _ _ _ Hso Hin Hs) as (l1 & l2 & T1 & a1 & T2 & a2 & L2 & L1 & P1 & P2 & HC).
  assert (G : a_x a' = (W - a_w a' - px W r)%Z /\ T' "right" = Some r).
  { apply (steps_inv (fun T b => a_x b = (W - a_w b - px W r)%Z /\ T "right" = Some r) (fun k => lex "right" k) _ _ _ _ _ P2); [exact L2|..].
    - intros T3 T4 b HT I1. by rewrite !HT.
    - intros k v T3 b T4 b' Hkv Hk Hp _ [I1 I2].
      pose proof (lex_ne _ _ "bounds" Hk eq_refl). pose proof (lex_ne _ _ "left" Hk eq_refl).
      pose proof (lex_ne _ _ "location" Hk eq_refl). pose proof (lex_ne _ _ "right" Hk eq_refl).
      gc Hp; try contradiction; tb; (split; [|exact I2]); rewrite ?I2 in *; cbn in *; rewrite ?rxs_nonempty in * by done; congruence.
    - destruct (steps_rb _ _ _ _ _ P2) as [Er _]. split; [|congruence]. destruct HC as [(HN & -> & ->)|(v & Hv & Hp)]; [congruence|].
      apply g_right in Hp as [E2 HT]. rewrite Er, HT, Hv in Hr. injection Hr as ->. unfold geo in E2. injection E2 as -> _ -> _.
      by rewrite valueOf_nonempty. }
  apply G.
Qed.
Lemma agrees_y0 ks T a T' a' v : StronglySorted lex ks -> psteps ks T a T' a' -> "top" ∈ ks ->
  T' "top" = Some v -> a_y a' = px H (valueOf "top" v).
Proof.
  intros Hso Hs Hin Ht. destruct (run_at _ _ _ _ _ _ Hso Hin Hs) as (l1 & l2 & T1 & a1 & T2 & a2 & L2 & L1 & P1 & P2 & HC).
  assert (G : a_y a' = a_y a2 /\ T' "top" = T2 "top").
  { apply (steps_inv (fun T b => a_y b = a_y a2 /\ T "top" = T2 "top") (fun k => lex "top" k) _ _ _ _ _ P2); [exact L2|..|split; reflexivity].
    - intros T3 T4 b HT [I1 I2]. split; [done|]. by rewrite HT.
    - intros k w T3 b T4 b' _ Hk Hp _ [I1 I2].
      pose proof (lex_ne _ _ "bounds" Hk eq_refl). pose proof (lex_ne _ _ "size" Hk eq_refl). pose proof (lex_ne _ _ "height" Hk eq_refl).
      pose proof (lex_ne _ _ "location" Hk eq_refl). pose proof (lex_ne _ _ "top" Hk eq_refl). pose proof (lex_ne _ _ "bottom" Hk eq_refl).
      gc Hp; try contradiction; (split; [congruence|]); tb; done. }
  destruct G as [-> E]. destruct HC as [(HN & -> & ->)|(w & Hv & Hp)]; [congruence|].
  apply g_top in Hp as [E2 HT]. rewrite E, HT, Hv in Ht. injection Ht as ->. unfold geo in E2. by injection E2.
Qed.
Lemma none_y ks T a T' a' : psteps ks T a T' a' -> T' "top" = None -> T' "bottom" = None -> a_y a' = a_y a.
Proof.
  intros Hs Hn Hr. apply (steps_inv (fun _ b => a_y b = a_y a) (fun _ => True) _ _ _ _ _ Hs); [done|done| |done].
  intros k v T1 b T2 b' Hk _ Hp Hm <-. pose proof (Hm _ Hn) as HN. pose proof (Hm _ Hr) as HR. gc Hp; try congruence;
    repeat match goal with HT : forall j, T2 j = _ |- _ => rewrite HT in HN, HR; clear HT end; try discriminate HN; try congruence.
  - cbn in HR. rewrite HR in *. unfold bys in *. cbn in *. congruence.
  - cbn in HR. rewrite HR in *. unfold bys in *. cbn in *. congruence.
Qed.
Lemma agrees_y1 ks T a T' a' r : StronglySorted lex ks -> psteps ks T a T' a' -> "bottom" ∈ ks ->
  T' "top" = None -> T' "bottom" = Some r -> r <> "" -> a_y a' = (H - a_h a' - px (a_h a') r)%Z.
Proof.
  intros Hso Hs Hin Htop Hr Hne. destruct (run_at _ _ _ _ _ _ Hso Hin Hs) as (l1 & l2 & T1 & a1 & T2 & a2 & L2 & L1 & P1 & P2 & HC).
  assert (G : a_y a' = (H - a_h a' - px (a_h a') r)%Z /\ T' "bottom" = Some r).
  { apply (steps_inv (fun T b => a_y b = (H - a_h b - px (a_h b) r)%Z /\ T "bottom" = Some r) (fun k => lex "bottom" k) _ _ _ _ _ P2); [exact L2|..].
    - intros T3 T4 b HT I1. by rewrite !HT.
    - intros k v T3 b T4 b' Hkv Hk Hp Hm [I1 I2]. pose proof (Hm _ Htop) as HN.
      pose proof (lex_ne _ _ "bottom" Hk eq_refl).
      gc Hp; try contradiction; repeat match goal with HT : forall j, T4 j = _ |- _ => rewrite ?HT in HN |- *; clear HT end; try discriminate HN; try congruence;
        (split; [|exact I2]); rewrite ?I2 in *; cbn in *; rewrite ?bys_nonempty in * by done; congruence.
    - destruct (steps_rb _ _ _ _ _ P2) as [_ Er]. split; [|congruence]. destruct HC as [(HN & -> & ->)|(v & Hv & Hp)]; [congruence|].
      apply g_bottom in Hp as [E2 HT]. rewrite Er, HT, Hv in Hr. injection Hr as ->. unfold geo in E2. injection E2 as _ -> _ ->.
      by rewrite valueOf_nonempty. }
  apply G.
Qed.

(** ** The table at the end. *)
Lemma sp_location T v a T' a' : T "location" = Some v -> pstep "location" v T a T' a' ->
  T' "left" = spread T "location" 0 /\ T' "top" = spread T "location" 1.
Proof.
  intros Hv Hp. apply g_location in Hp as (l & t & E & _ & HT). unfold spread. rewrite !HT, Hv.
  change (length (components "location")) with 2. rewrite E. done.
Qed.
Lemma sp_size T v a T' a' : T "size" = Some v -> pstep "size" v T a T' a' ->
  T' "width" = spread T "size" 0 /\ T' "height" = spread T "size" 1.
Proof.
  intros Hv Hp. apply g_size in Hp as (l & t & E & _ & HT). unfold spread. rewrite !HT, Hv.
  change (length (components "size")) with 2. rewrite E. done.
Qed.
Lemma sp_bounds T v a T' a' : T "bounds" = Some v -> pstep "bounds" v T a T' a' ->
  T' "left" = spread T "bounds" 0 /\ T' "top" = spread T "bounds" 1 /\ T' "width" = spread T "bounds" 2 /\ T' "height" = spread T "bounds" 3.
Proof.
  intros Hv Hp. apply g_bounds in Hp as (l & t & w & h & E & _ & HT). unfold spread. rewrite !HT, Hv.
  change (length (components "bounds")) with 4. rewrite E. done.
Qed.
Lemma spread_some T v a T' a' c i : T c = Some v -> pstep c v T a T' a' -> i < length (components c) -> is_Some (spread T c i).
Proof.
  intros Hv Hp Hi. unfold spread. rewrite Hv. unfold PlayerFacts.pstep in Hp. destruct (components c) as [|n ns]; [cbn in Hi; lia|].
  destruct Hp as (vs & -> & Hl & _). destruct (nth_error vs i) eqn:E; [by eexists|]. apply nth_error_None in E. cbn in *. lia.
Qed.
Lemma keepT ks T a T' a' j : psteps ks T a T' a' -> (forall k, k ∈ ks -> T k <> None -> j ∉ components k) -> T' j = T j.
Proof.
  induction 1 as [T T' a HT|k ks T a T' a' Hk Hs IH|k v ks T a T1 a1 T' a' Hk Hp Hs IH]; intros Hj; [auto|..].
  - apply IH. intros. apply Hj; [by right|done].
  - assert (Hk' : forall c, components c <> [] -> T1 c = T c).
    { intros c Hc. eapply step_table; [exact Hp|]. intros Hin. apply comps_in in Hin. revert Hc. apply (four _ (fun c => components c <> [] -> False) Hin); by intros []. }
    rewrite IH.
    + eapply step_table; [exact Hp|]. apply Hj; [left|congruence].
    + intros c Hc HT. destruct (components c) eqn:Ec; [intros Hin; by apply elem_of_nil in Hin|]. rewrite <- Ec.
      apply Hj; [by right|]. rewrite <- Hk'; [done|congruence].
Qed.
Lemma spread_same T T' c i : T' c = T c -> spread T' c i = spread T c i.
Proof. unfold spread. by intros ->. Qed.
Lemma comps_of j k : j ∈ components k -> (k = "bounds") \/ (k = "location" /\ j ∈ ["left"; "top"]) \/ (k = "size" /\ j ∈ ["width"; "height"]).
Proof.
  unfold components. destruct (String.eqb_spec k "bounds"); [auto|]. destruct (String.eqb_spec k "location"); [auto|].
  destruct (String.eqb_spec k "size"); [auto|]. intros Hin. by apply elem_of_nil in Hin.
Qed.
Lemma final_entry ks T a T' a' j c i ib :
  StronglySorted lex ks -> psteps ks T a T' a' -> (forall k, T k <> None -> k ∈ ks) ->
  c ∉ ["left"; "top"; "width"; "height"] -> str_lt c "bounds" = false -> c <> "bounds" ->
  (forall k, j ∈ components k -> k = "bounds" \/ k = c) ->
  (i < length (components c)) -> ib < 4 ->
  (forall T v a T' a', T c = Some v -> pstep c v T a T' a' -> T' j = spread T c i) ->
  (forall T v a T' a', T "bounds" = Some v -> pstep "bounds" v T a T' a' -> T' j = spread T "bounds" ib) ->
  T' j = orElse (spread T c i) (orElse (spread T "bounds" ib) (T j)).
Proof.
  intros Hso Hs Hall Hc Hlt Hcb Hcomp Hi Hib Hsc Hsb.
  assert (Hb : "bounds" ∉ ["left"; "top"; "width"; "height"]) by (apply (bool_decide_unpack _); vm_compute; exact I).
  destruct (T c) as [v|] eqn:Ec.
  - destruct (run_at _ c _ _ _ _ Hso ltac:(apply Hall; congruence) Hs) as (l1 & l2 & T1 & a1 & T2 & a2 & L2 & L1 & P1 & P2 & HC).
    pose proof (steps_table _ _ _ _ _ P1 c Hc) as E1.
    destruct HC as [(HN & _)|(v' & Hv' & Hp)]; [congruence|].
    rewrite (keepT _ _ _ _ _ j P2).
    + rewrite (Hsc _ _ _ _ _ Hv' Hp). destruct (spread_some _ _ _ _ _ _ i Hv' Hp Hi) as [y Hy].
      rewrite <- (spread_same T T1 c i E1), Hy. done.
    + intros k Hk _ Hj. apply Hcomp in Hj as [-> | ->].
      * exact (lex_ne _ _ "bounds" (L2 _ Hk) Hlt eq_refl).
      * apply (lex_ne c c c (L2 _ Hk)); [|done]. destruct (str_lt c c) eqn:E; [|done]. exfalso.
        unfold str_lt, String.ltb in E. destruct (String.compare c c) eqn:E2; try done. pose proof (String.compare_antisym c c) as E3. rewrite E2 in E3. discriminate E3.
  - assert (spread T c i = None) as -> by (unfold spread; by rewrite Ec). cbn [orElse].
    destruct (T "bounds") as [v|] eqn:Eb.
    + destruct (run_at _ "bounds" _ _ _ _ Hso ltac:(apply Hall; congruence) Hs) as (l1 & l2 & T1 & a1 & T2 & a2 & L2 & L1 & P1 & P2 & HC).
      pose proof (steps_table _ _ _ _ _ P1 "bounds" Hb) as E1. pose proof (steps_table _ _ _ _ _ P1 c Hc) as E2.
      destruct HC as [(HN & _)|(v' & Hv' & Hp)]; [congruence|].
      pose proof (step_table _ _ _ _ _ _ c Hp ltac:(intros Hin; apply Hc; by apply (comps_in "bounds"))) as E3.
      rewrite (keepT _ _ _ _ _ j P2).
      * rewrite (Hsb _ _ _ _ _ Hv' Hp). destruct (spread_some _ _ _ _ _ _ ib Hv' Hp Hib) as [y Hy].
        rewrite <- (spread_same T T1 "bounds" ib E1), Hy. done.
      * intros k Hk HT Hj. apply Hcomp in Hj as [-> | ->]; [|congruence].
        exact (lex_ne _ _ "bounds" (L2 _ Hk) eq_refl eq_refl).
    + assert (spread T "bounds" ib = None) as -> by (unfold spread; by rewrite Eb). cbn [orElse].
      apply (keepT _ _ _ _ _ j Hs). intros k _ HT Hj. apply Hcomp in Hj as [-> | ->]; congruence.
Qed.
Lemma final_table ks T a T' a' : StronglySorted lex ks -> psteps ks T a T' a' -> (forall k, T k <> None -> k ∈ ks) ->
  forall j, T' j = spreadTable T j.
Proof.
  intros Hso Hs Hall j. unfold spreadTable.
  assert (N1 : "location" ∉ ["left"; "top"; "width"; "height"]) by (apply (bool_decide_unpack _); vm_compute; exact I).
  assert (N2 : "size" ∉ ["left"; "top"; "width"; "height"]) by (apply (bool_decide_unpack _); vm_compute; exact I).
  assert (C1 : forall k, "left" ∈ components k -> k = "bounds" \/ k = "location").
  { intros k Hk. apply comps_of in Hk as [?|[[? _]|[_ Hk]]]; auto. exfalso. revert Hk. apply (bool_decide_unpack _); vm_compute; exact I. }
  assert (C2 : forall k, "top" ∈ components k -> k = "bounds" \/ k = "location").
  { intros k Hk. apply comps_of in Hk as [?|[[? _]|[_ Hk]]]; auto. exfalso. revert Hk. apply (bool_decide_unpack _); vm_compute; exact I. }
  assert (C3 : forall k, "width" ∈ components k -> k = "bounds" \/ k = "size").
  { intros k Hk. apply comps_of in Hk as [?|[[_ Hk]|[? _]]]; auto. exfalso. revert Hk. apply (bool_decide_unpack _); vm_compute; exact I. }
  assert (C4 : forall k, "height" ∈ components k -> k = "bounds" \/ k = "size").
  { intros k Hk. apply comps_of in Hk as [?|[[_ Hk]|[? _]]]; auto. exfalso. revert Hk. apply (bool_decide_unpack _); vm_compute; exact I. }
  destruct (String.eqb_spec j "left") as [->|Hl].
  { apply (final_entry _ _ _ _ _ _ _ _ _ Hso Hs Hall N1); [vm_compute; reflexivity|discriminate|exact C1|vm_compute; lia|lia| |]; intros ? ? ? ? ? Hv Hp; [pose proof (sp_location _ _ _ _ _ Hv Hp) as G|pose proof (sp_bounds _ _ _ _ _ Hv Hp) as G]; destruct_and? G; assumption. }
  destruct (String.eqb_spec j "top") as [->|Ht].
  { apply (final_entry _ _ _ _ _ _ _ _ _ Hso Hs Hall N1); [vm_compute; reflexivity|discriminate|exact C2|vm_compute; lia|lia| |]; intros ? ? ? ? ? Hv Hp; [pose proof (sp_location _ _ _ _ _ Hv Hp) as G|pose proof (sp_bounds _ _ _ _ _ Hv Hp) as G]; destruct_and? G; assumption. }
  destruct (String.eqb_spec j "width") as [->|Hw].
  { apply (final_entry _ _ _ _ _ _ _ _ _ Hso Hs Hall N2); [vm_compute; reflexivity|discriminate|exact C3|vm_compute; lia|lia| |]; intros ? ? ? ? ? Hv Hp; [pose proof (sp_size _ _ _ _ _ Hv Hp) as G|pose proof (sp_bounds _ _ _ _ _ Hv Hp) as G]; destruct_and? G; assumption. }
  destruct (String.eqb_spec j "height") as [->|Hh].
  { apply (final_entry _ _ _ _ _ _ _ _ _ Hso Hs Hall N2); [vm_compute; reflexivity|discriminate|exact C4|vm_compute; lia|lia| |]; intros ? ? ? ? ? Hv Hp; [pose proof (sp_size _ _ _ _ _ Hv Hp) as G|pose proof (sp_bounds _ _ _ _ _ Hv Hp) as G]; destruct_and? G; assumption. }
  apply (steps_table _ _ _ _ _ Hs). rewrite !not_elem_of_cons. repeat split; try done. intros Hin. by apply elem_of_nil in Hin.
Qed.

(** ** Everything together. *)
Definition freshAttrs : pattrs := mkPattrs false "" 4 255 0 0 W H 0 0 255 true TIME_NONE "" "application/x-ginga-timer".
Lemma hundred base : (0 <= base <= 2147483647)%Z -> px base "100%" = base.
Proof.
  intros Hb. unfold PlayerSpec.px.
  pose proof (f_C27_percent (x_odd X) [1%N; 0%N; 0%N] base ltac:(split; [discriminate|repeat constructor; lia]) ltac:(lia)) as Hp.
  change (numeral [1%N; 0%N; 0%N] ++ "%")%string with "100%" in Hp. change (Z.of_N (value [1%N; 0%N; 0%N])) with 100%Z in Hp.
  specialize (Hp ltac:(lia)). lia.
Qed.
Lemma zero base : px base "0" = 0%Z.
Proof.
  unfold PlayerSpec.px. pose proof (f_C27_number (x_odd X) [0%N] base 0 2147483647) as Hp.
  change (numeral [0%N]) with "0" in Hp. rewrite Hp; [reflexivity|split; [discriminate|repeat constructor; lia]|vm_compute; discriminate].
Qed.
Lemma dur_facts ks T a T' a' : StronglySorted lex ks -> psteps ks T a T' a' -> (forall k, T k <> None -> k ∈ ks) ->
  a_duration a = TIME_NONE ->
  let v := match T' "explicitDur" with Some v => valueOf "explicitDur" v | None => inForce T' "duration" end in
  (v = "indefinite" /\ a_duration a' = TIME_NONE) \/ (v <> "indefinite" /\ try_parse_time v = TOk (a_duration a')).
Proof.
  intros Hso Hs Hall Ha v. pose (Rd := fun v z => (v = "indefinite" /\ z = TIME_NONE) \/ (v <> "indefinite" /\ try_parse_time v = TOk z)).
  change (Rd v (a_duration a')).
  assert (NE : "explicitDur" ∉ ["left"; "top"; "width"; "height"]) by (apply (bool_decide_unpack _); vm_compute; exact I).
  assert (ND : "duration" ∉ ["left"; "top"; "width"; "height"]) by (apply (bool_decide_unpack _); vm_compute; exact I).
  assert (Hset : forall n v T a T' a', n = "explicitDur" \/ n = "duration" -> pstep n v T a T' a' -> Rd (valueOf n v) (a_duration a')).
  { intros n w T1 b T2 b' Hn Hp. assert (Hsh : shows X W H "duration" (valueOf n w) b b').
    { destruct Hn as [-> | ->]; destruct Hp as [_ (c & Hc & ->)]; exact Hc. }
    unfold shows in Hsh. cbn [String.eqb Ascii.eqb Bool.eqb] in Hsh. unfold Rd.
    destruct Hsh as [[H1 ->]|(H1 & t & H2 & ->)]; [left|right]; done. }
  destruct (T' "explicitDur") as [w|] eqn:Ee.
  - pose proof (steps_table _ _ _ _ _ Hs _ NE) as E. subst v.
    destruct (run_at _ "explicitDur" _ _ _ _ Hso ltac:(apply Hall; congruence) Hs) as (l1 & l2 & T1 & a1 & T2 & a2 & L2 & L1 & P1 & P2 & HC).
    pose proof (steps_table _ _ _ _ _ P1 _ NE) as E1. destruct HC as [(HN & _)|(v' & Hv' & Hp)]; [congruence|].
    assert (v' = w) as -> by congruence.
    assert (a_duration a' = a_duration a2) as ->; [|eapply Hset; [|exact Hp]; auto].
    apply (steps_inv (fun _ b => a_duration b = a_duration a2) (fun k => lex "explicitDur" k) _ _ _ _ _ P2); [exact L2|done| |done].
    intros k w' T3 b T4 b' _ Hk Hp' _ <-. eapply keep_dur; [..|exact Hp'].
    + exact (lex_ne _ _ "duration" Hk eq_refl).
    + exact (lex_ne _ _ "explicitDur" Hk eq_refl).
  - assert (HT : T "explicitDur" = None) by (rewrite <- (steps_table _ _ _ _ _ Hs _ NE); done).
    assert (G : (T' "duration" = None -> a_duration a' = a_duration a) /\ ("duration" ∈ ks -> forall v, T' "duration" = Some v -> Rd (valueOf "duration" v) (a_duration a'))).
    { clear -Hs HT Hset NE ND.
      enough (T' "duration" = T "duration" /\ (T' "duration" = None -> a_duration a' = a_duration a) /\ ("duration" ∉ ks -> a_duration a' = a_duration a) /\
          ("duration" ∈ ks -> forall v, T' "duration" = Some v -> Rd (valueOf "duration" v) (a_duration a'))) by tauto.
      induction Hs as [T T' a HT'|k ks T a T' a' Hk Hs IH|k v ks T a T1 a1 T' a' Hk Hp Hs IH].
      - repeat split; auto. intros Hin. by apply elem_of_nil in Hin.
      - destruct (IH HT) as (I0 & I1 & I2 & I3). split; [done|]. split; [done|]. split; [intros Hn; apply I2; set_solver|].
        intros Hin v Hv. apply elem_of_cons in Hin as [<-|Hin]; [congruence|]. by apply I3.
      - assert (HT1 : T1 "explicitDur" = None).
        { rewrite (step_table _ _ _ _ _ _ "explicitDur" Hp); [done|]. intros Hc; by apply NE, (comps_in k). }
        assert (HD1 : T1 "duration" = T "duration").
        { apply (step_table _ _ _ _ _ _ "duration" Hp). intros Hc; by apply ND, (comps_in k). }
        destruct (IH HT1) as (I0 & I1 & I2 & I3). split; [congruence|].
        destruct (decide (k = "duration")) as [->|Hkn].
        + split; [congruence|]. split; [set_solver|]. intros _ v' Hv'. destruct (decide ("duration" ∈ ks)) as [Hin|Hin]; [by apply I3|].
          rewrite (I2 Hin). assert (v' = v) as -> by congruence. eapply Hset; [|exact Hp]; auto.
        + assert (a_duration a1 = a_duration a) as <- by (eapply keep_dur; [exact Hkn|congruence|exact Hp]).
          split; [done|]. split; [intros Hn; apply I2; set_solver|]. intros Hin. apply elem_of_cons in Hin as [<-|Hin]; [done|]. by apply I3. }
    destruct G as [G1 G2]. subst v. unfold inForce. destruct (T' "duration") as [w|] eqn:Ed; cbn [default].
    + apply G2; [|done]. apply Hall. rewrite <- (steps_table _ _ _ _ _ Hs _ ND). congruence.
    + rewrite G1, Ha by done. left. done.
Qed.
Lemma pick {A} (f : pattrs -> A) n (R : string -> A -> Prop) ks T a T' a' :
  psteps ks T a T' a' -> (forall k, T k <> None -> k ∈ ks) ->
  bool_decide (n ∈ ["left"; "top"; "width"; "height"]) = false ->
  (forall k v T a T' a', k <> n -> pstep k v T a T' a' -> f a' = f a) ->
  (forall v T a T' a', pstep n v T a T' a' -> R (valueOf n v) (f a')) ->
  R (valueOf n "") (f a) ->
  R (inForce T' n) (f a').
Proof.
  intros Hs Hall Hn Hk Hset Hd. apply bool_decide_eq_false in Hn.
  destruct (simple f n (fun v z => R (valueOf n v) z) _ _ _ _ _ Hs Hn Hk Hset) as (I1 & _ & I3).
  unfold inForce. destruct (T' n) as [v|] eqn:E; cbn [default].
  - apply I3; [|done]. apply Hall. rewrite <- (steps_table _ _ _ _ _ Hs _ Hn). congruence.
  - by rewrite I1.
Qed.
Lemma agrees_all ks T T' a' : (0 <= W <= 2147483647)%Z -> (0 <= H <= 2147483647)%Z ->
  StronglySorted lex ks -> psteps ks T freshAttrs T' a' -> (forall k, T k <> None -> k ∈ ks) ->
  (forall k, k ∈ ["left"; "top"; "width"; "height"] -> k ∈ ks) ->
  agrees X W H T' a'.
Proof.
  intros HW HH Hso Hs Hall Hgk.
  assert (Hall' : forall k, T' k <> None -> k ∈ ks).
  { intros k Hk. destruct (decide (k ∈ ["left"; "top"; "width"; "height"])) as [Hin|Hin]; [by apply Hgk|].
    apply Hall. by rewrite <- (steps_table _ _ _ _ _ Hs). }
  constructor.
  - eapply agrees_w; [exact Hso|exact Hs|apply Hgk; set_solver|]. by rewrite hundred.
  - eapply agrees_h; [exact Hso|exact Hs|apply Hgk; set_solver|]. by rewrite hundred.
  - destruct (T' "right") as [r|] eqn:Er.
    + intros Hr. eapply agrees_x1; [exact Hso|exact Hs|apply Hall'; congruence|exact Er|exact Hr].
    + eapply agrees_x0; [exact Hso|exact Hs|apply Hgk; set_solver| |exact Er]. by rewrite zero.
  - destruct (T' "top") as [t|] eqn:Et.
    + unfold inForce. rewrite Et. eapply agrees_y0; [exact Hso|exact Hs|apply Hgk; set_solver|exact Et].
    + destruct (T' "bottom") as [b|] eqn:Eb.
      * intros Hb. eapply agrees_y1; [exact Hso|exact Hs|apply Hall'; congruence|exact Et|exact Eb|exact Hb].
      * rewrite (none_y _ _ _ _ _ Hs Et Eb). unfold inForce. rewrite Et. change (valueOf "top" (default "" None)) with "0". by rewrite zero.
  - apply (pick a_zi "zIndex" (fun v z => xstrtoint v = Some z) _ _ _ _ _ Hs Hall eq_refl keep_zi); [|reflexivity].
    intros v T1 b T2 b' [_ (c & (z & Hz & ->) & ->)]. exact Hz.
  - apply (pick a_zo "zOrder" (fun v z => xstrtoint v = Some z) _ _ _ _ _ Hs Hall eq_refl keep_zo); [|reflexivity].
    intros v T1 b T2 b' [_ (c & (z & Hz & ->) & ->)]. exact Hz.
  - apply (pick a_alpha "transparency" (fun v z => z = opacity v) _ _ _ _ _ Hs Hall eq_refl keep_alpha).
    + intros v T1 b T2 b' [_ (c & Hc & ->)]. change (c = setAlpha b (opacity (valueOf "transparency" v))) in Hc. by subst c.
    + cbn [a_alpha freshAttrs]. change (valueOf "transparency" "") with "0%". vm_compute. reflexivity.
  - apply (pick a_visible "visible" (fun v z => try_parse_bool v = Some z) _ _ _ _ _ Hs Hall eq_refl keep_visible); [|reflexivity].
    intros v T1 b T2 b' [_ (c & (z & Hz & ->) & ->)]. exact Hz.
  - by apply (dur_facts _ _ _ _ _ Hso Hs Hall).
  - apply (pick a_uri "uri" (fun v z => z = v) _ _ _ _ _ Hs Hall eq_refl keep_uri); [|reflexivity].
    intros v T1 b T2 b' [_ (c & Hc & ->)]. change (c = setUri b (valueOf "uri" v)) in Hc. by subst c.
  - apply (pick a_type "type" (fun v z => z = v) _ _ _ _ _ Hs Hall eq_refl keep_type); [|reflexivity].
    intros v T1 b T2 b' [_ (c & Hc & ->)]. change (c = setType b (valueOf "type" v)) in Hc. by subst c.
  - apply (pick a_debug "debug" (fun v z => try_parse_bool v = Some z) _ _ _ _ _ Hs Hall eq_refl keep_debug); [|reflexivity].
    intros v T1 b T2 b' [_ (c & (z & Hz & ->) & ->)]. exact Hz.
  - apply (pick a_focusIndex "focusIndex" (fun v z => z = v) _ _ _ _ _ Hs Hall eq_refl keep_fi); [|reflexivity].
    intros v T1 b T2 b' [_ (c & Hc & ->)]. change (c = setFocusIndex b (valueOf "focusIndex" v)) in Hc. by subst c.
  - apply (pick a_fbw "focusBorderWidth" (fun v z => xstrtoint v = Some z) _ _ _ _ _ Hs Hall eq_refl keep_fbw); [|reflexivity].
    intros v T1 b T2 b' [_ (c & (z & Hz & ->) & ->)]. exact Hz.
  - apply (pick a_fbt "focusBorderTransparency" (fun v z => z = opacity v) _ _ _ _ _ Hs Hall eq_refl keep_fbt).
    + intros v T1 b T2 b' [_ (c & Hc & ->)]. change (c = setFbt b (opacity (valueOf "focusBorderTransparency" v))) in Hc. by subst c.
    + cbn [a_fbt freshAttrs]. change (valueOf "focusBorderTransparency" "") with "0%". vm_compute. reflexivity.
Qed.
End Pure.

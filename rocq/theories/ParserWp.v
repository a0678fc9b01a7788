(** ParserWp.v -- reasoning about the parser monad: partial correctness. *)
From Verif Require Export Parser.
Open Scope string_scope.
Open Scope list_scope.

Definition pw {A} (m : P A) (Q : A -> pst -> Prop) (s : pst) : Prop :=
  match m s with POk a s' => Q a s' | _ => True end.
Lemma pw_mono {A} (m : P A) (Q R : A -> pst -> Prop) s : pw m Q s -> (forall a s', Q a s' -> R a s') -> pw m R s.
Proof. unfold pw. destruct (m s); auto. Qed.
Lemma pw_ret {A} (a : A) (Q : A -> pst -> Prop) s : Q a s -> pw (pret a) Q s.
Proof. exact (fun x => x). Qed.
Lemma pw_bind {A B} (m : P A) (f : A -> P B) (Q : B -> pst -> Prop) s : pw m (fun a s' => pw (f a) Q s') s -> pw (pbind m f) Q s.
Proof. unfold pw, pbind. destruct (m s); auto. Qed.
Lemma pw_gets {A} (f : pst -> A) (Q : A -> pst -> Prop) s : Q (f s) s -> pw (pgets f) Q s.
Proof. exact (fun x => x). Qed.
Lemma pw_mod f (Q : unit -> pst -> Prop) s : Q tt (f s) -> pw (pmod f) Q s.
Proof. exact (fun x => x). Qed.
Lemma pw_fail {A} e (Q : A -> pst -> Prop) s : pw (pfail e) Q s.
Proof. exact I. Qed.
Lemma pw_crash {A} e (Q : A -> pst -> Prop) s : pw (pcrash e) Q s.
Proof. exact I. Qed.
Lemma pw_nofuel {A} (Q : A -> pst -> Prop) s : pw (fun _ => PNoFuel) Q s.
Proof. exact I. Qed.
Lemma pw_assert b pos (Q : unit -> pst -> Prop) s : (b = true -> Q tt s) -> pw (passert b pos) Q s.
Proof. destruct b; unfold pw, passert; cbn; auto. Qed.
Lemma pw_check b e (Q : unit -> pst -> Prop) s : (b = true -> Q tt s) -> pw (pcheck b e) Q s.
Proof. destruct b; unfold pw, pcheck; cbn; auto. Qed.
Lemma pw_of {A} (o : option A) pos (Q : A -> pst -> Prop) s : (forall a, o = Some a -> Q a s) -> pw (pof o pos) Q s.
Proof. destruct o; unfold pw, pof; cbn; auto. Qed.
Lemma pw_ofe {A} (o : option A) e (Q : A -> pst -> Prop) s : (forall a, o = Some a -> Q a s) -> pw (pofe o e) Q s.
Proof. destruct o; unfold pw, pofe; cbn; auto. Qed.
Lemma pw_udata {A} (o : option A) (Q : A -> pst -> Prop) s : (forall a, o = Some a -> Q a s) -> pw (udata o) Q s.
Proof. apply pw_of. Qed.
Lemma pw_attr e n (Q : string -> pst -> Prop) s : (forall a, attr e n = Some a -> Q a s) -> pw (pattr e n) Q s.
Proof. apply pw_of. Qed.
Lemma pw_when b m (Q : unit -> pst -> Prop) s : (b = true -> pw m Q s) -> (b = false -> Q tt s) -> pw (pwhen b m) Q s.
Proof. destruct b; intros H1 H2; [exact (H1 eq_refl)|exact (H2 eq_refl)]. Qed.
Lemma pw_if {A} (b : bool) (m1 m2 : P A) (Q : A -> pst -> Prop) s : (b = true -> pw m1 Q s) -> (b = false -> pw m2 Q s) -> pw (if b then m1 else m2) Q s.
Proof. destruct b; auto. Qed.
Lemma pw_alloc (Q : positive -> pst -> Prop) s : Q (p_next s) (p_set_next (Pos.succ (p_next s)) s) -> pw palloc Q s.
Proof. exact (fun x => x). Qed.
Lemma pw_lift {A} (m : MG A) (Q : A -> pst -> Prop) s : wp True True m (fun a g => Q a (p_set_graph g s)) (p_graph s) -> pw (lift m) Q s.
Proof. unfold pw, lift, wp. destruct (m (p_graph s)); auto. Qed.
Lemma pw_cell p (Q : cell -> pst -> Prop) s : (forall a, p_cells s !! p = Some a -> Q a s) -> pw (cellOf p) Q s.
Proof. intros H. unfold pw, cellOf, pof. destruct (p_cells s !! p) eqn:E; [by apply H|done]. Qed.
Lemma pw_index n pos (Q : elt -> pst -> Prop) s : (forall a, p_cache s !! n = Some a -> Q a s) -> pw (cacheIndex n pos) Q s.
Proof. intros H. unfold pw, cacheIndex, pof. destruct (p_cache s !! n) eqn:E; [by apply H|done]. Qed.
Lemma pw_parent e pos (Q : elt -> pst -> Prop) s : (forall n a, el_up e = Some n -> p_cache s !! n = Some a -> Q a s) -> pw (cacheParent e pos) Q s.
Proof. intros H. unfold cacheParent. apply pw_bind, pw_of. intros n Hn. apply pw_index. eauto. Qed.
Lemma pw_eupd n f (Q : unit -> pst -> Prop) s : (forall a, p_cache s !! n = Some a -> Q tt (p_set_cache (<[n := f a]> (p_cache s)) s)) -> pw (eupd n f) Q s.
Proof. intros H. unfold eupd. apply pw_bind, pw_index. intros a Ha. apply pw_mod. auto. Qed.
Lemma pw_each {A} (f : A -> P unit) (l : list A) (I : list A -> pst -> Prop) (Q : unit -> pst -> Prop) s :
  I l s -> (forall x l' s', (exists p, l = p ++ x :: l') -> I (x :: l') s' -> pw (f x) (fun _ => I l') s') ->
  (forall s', I [] s' -> Q tt s') -> pw (peach f l) Q s.
Proof.
  intros HI Hs He. assert (H : forall l2 l1 s', l = l1 ++ l2 -> I l2 s' -> pw (peach f l2) Q s').
  { induction l2 as [|x l2 IH]; intros l1 s' El Hi; cbn [peach]; [apply pw_ret; auto|].
    apply pw_bind. eapply pw_mono; [apply Hs; [by exists l1|done]|]. intros [] s2 H2. apply (IH (l1 ++ [x])); [by rewrite <- app_assoc|done]. }
  by apply (H l []).
Qed.
Lemma pw_each_inv {A} (f : A -> P unit) (l : list A) (I : pst -> Prop) s :
  I s -> (forall x s', x ∈ l -> I s' -> pw (f x) (fun _ => I) s') -> pw (peach f l) (fun _ => I) s.
Proof.
  intros H0 Hs. apply (pw_each f l (fun _ => I)); [done| |done]. intros x l' s' [p ->] Hi. apply Hs; [|done]. apply elem_of_app. right. constructor.
Qed.
Lemma pw_map {A B} (f : A -> P B) (l : list A) (I : list B -> pst -> Prop) s :
  I [] s -> (forall x ys s', x ∈ l -> I ys s' -> pw (f x) (fun y => I (ys ++ [y])) s') -> pw (pmap f l) I s.
Proof.
  intros H0 Hs. assert (H : forall l2 ys s', l2 ⊆ l -> I ys s' -> pw (pmap f l2) (fun r => I (ys ++ r)) s').
  { induction l2 as [|x l2 IH]; intros ys s' El Hi; cbn [pmap]; [apply pw_ret; by rewrite app_nil_r|].
    apply pw_bind. eapply pw_mono; [apply Hs; [set_solver|done]|]. intros y s2 H2. apply pw_bind. eapply pw_mono; [apply (IH (ys ++ [y])); [set_solver|done]|].
    intros r s3 H3. apply pw_ret. cbv beta in *. by rewrite <- app_assoc in H3. }
  eapply pw_mono; [apply (H l []); done|]. done.
Qed.
Lemma pw_ok {A} (m : P A) Q s a s' : pw m Q s -> m s = POk a s' -> Q a s'.
Proof. unfold pw. by intros H E; rewrite E in H. Qed.
Lemma pw_conj {A} (m : P A) (Q R : A -> pst -> Prop) s : pw m Q s -> pw m R s -> pw m (fun a s' => Q a s' /\ R a s') s.
Proof. unfold pw. destruct (m s); auto. Qed.

(** One step. *)
Ltac p1 := match goal with
  | |- pw (pbind _ _) _ _ => apply pw_bind
  | |- pw (pret _) _ _ => apply pw_ret
  | |- pw (pgets _) _ _ => apply pw_gets
  | |- pw (pmod _) _ _ => apply pw_mod
  | |- pw (pfail _) _ _ => apply pw_fail
  | |- pw (pcrash _) _ _ => apply pw_crash
  | |- pw (passert _ _) _ _ => apply pw_assert; intros
  | |- pw (pcheck _ _) _ _ => apply pw_check; intros
  | |- pw (pof _ _) _ _ => apply pw_of; intros
  | |- pw (pofe _ _) _ _ => apply pw_ofe; intros
  | |- pw (udata _) _ _ => apply pw_udata; intros
  | |- pw (pattr _ _) _ _ => apply pw_attr; intros
  | |- pw (pwhen _ _) _ _ => apply pw_when; intros
  | |- pw (if _ then _ else _) _ _ => apply pw_if; intros
  | |- pw palloc _ _ => apply pw_alloc
  | |- pw (cellOf _) _ _ => apply pw_cell; intros
  | |- pw (cacheIndex _ _) _ _ => apply pw_index; intros
  | |- pw (cacheParent _ _) _ _ => apply pw_parent; intros
  | |- pw (eupd _ _) _ _ => apply pw_eupd; intros
  | |- pw (match ?x with _ => _ end) _ _ => destruct x eqn:?
  end; cbv beta iota.

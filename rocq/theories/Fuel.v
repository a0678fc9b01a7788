(** Fuel.v -- fuel is an artefact: once a run has enough of it, more changes nothing. *)
From Verif Require Export Wf Frame.
Open Scope string_scope.
Open Scope list_scope.

(** [m2] agrees with [m1] wherever [m1] does not run out of fuel. *)
Definition ext {S A} (m1 m2 : M S A) : Prop := forall s, m1 s <> NoFuel -> m2 s = m1 s.
Lemma ext_refl {S A} (m : M S A) : ext m m. Proof. by intros s. Qed.
Lemma ext_bind {S A B} (m1 m2 : M S A) (f1 f2 : A -> M S B) : ext m1 m2 -> (forall a, ext (f1 a) (f2 a)) -> ext (bind m1 f1) (bind m2 f2).
Proof.
  intros Hm Hf s. unfold bind. intros H. rewrite Hm; [|by destruct (m1 s)]. destruct (m1 s); try done. by apply Hf.
Qed.
Lemma ext_foreach {S A} (f1 f2 : A -> M S unit) l : (forall a, ext (f1 a) (f2 a)) -> ext (foreach f1 l) (foreach f2 l).
Proof. intros H. induction l as [|x l IH]; [apply ext_refl|]. cbn [foreach]. apply ext_bind; auto. Qed.
Lemma ext_if {S A} (b : bool) (m1 m2 m1' m2' : M S A) : ext m1 m1' -> ext m2 m2' -> ext (if b then m1 else m2) (if b then m1' else m2').
Proof. by destruct b. Qed.

Section Fuel.
Context (D : doc).
Ltac e1 := first [ apply ext_refl | assumption | match goal with H : _ |- ext _ _ => apply H end
  | apply ext_bind; [|intros ?] | apply ext_foreach; intros ? | apply ext_if
  | match goal with |- ext (match ?x with _ => _ end) _ => destruct x end ].
Ltac es := repeat e1.
Section Open.
Context (t1 t2 : eid -> trans -> ME bool) (v1 v2 : action -> ME nat).
Hypothesis (Ht : forall e t, ext (t1 e t) (t2 e t)) (Hv : forall a, ext (v1 a) (v2 a)).
Lemma ext_startParent o : ext (startParent D t1 o) (startParent D t2 o).
Proof. unfold startParent. es. Qed.
Lemma ext_ctx_before o e ev t : ext (ctx_before D t1 o e ev t) (ctx_before D t2 o e ev t).
Proof. unfold ctx_before. es. Qed.
Lemma ext_ctx_after o e ev t : ext (ctx_after D t1 o e ev t) (ctx_after D t2 o e ev t).
Proof. unfold ctx_after. pose proof ext_startParent. es. Qed.
Lemma ext_sw_choose o c l : ext (sw_choose D t1 o c l) (sw_choose D t2 o c l).
Proof. induction l as [|[x p] l IH]; cbn [sw_choose]; es. Qed.
Lemma ext_sw_before o e ev t : ext (sw_before D t1 o e ev t) (sw_before D t2 o e ev t).
Proof. unfold sw_before. pose proof ext_sw_choose. es. Qed.
Lemma ext_sw_after o e ev t : ext (sw_after D v1 o e ev t) (sw_after D v2 o e ev t).
Proof. unfold sw_after. es. Qed.
Lemma ext_anchor_seek o b f k i : ext (anchor_seek t1 o b f k i) (anchor_seek t2 o b f k i).
Proof. revert i. induction k as [|k IH]; intros i; cbn [anchor_seek]; es. Qed.
Lemma ext_start_anchor o e ev l : ext (media_start_anchor D t1 o e ev l) (media_start_anchor D t2 o e ev l).
Proof. unfold media_start_anchor. pose proof ext_anchor_seek. es. Qed.
Lemma ext_media_before o e ev t : ext (media_before D t1 v1 o e ev t) (media_before D t2 v2 o e ev t).
Proof. unfold media_before. pose proof ext_startParent. pose proof ext_start_anchor. es. Qed.
Lemma ext_tr_body e t : ext (tr_body D t1 v1 e t) (tr_body D t2 v2 e t).
Proof.
  unfold tr_body, before, after. pose proof ext_ctx_before. pose proof ext_ctx_after. pose proof ext_sw_before.
  pose proof ext_sw_after. pose proof ext_media_before. es.
Qed.
Lemma ext_triggered a : ext (triggered D v1 a) (triggered D v2 a).
Proof. unfold triggered, fire_parent, fire_swport. es. Qed.
Lemma ext_attempt a : ext (attempt D t1 a) (attempt D t2 a).
Proof. unfold attempt. es. Qed.
End Open.
Lemma ext_knot n : (forall e t, ext (tr D n e t) (tr D (S n) e t)) /\ (forall l, ext (loop D n l) (loop D (S n) l)).
Proof.
  induction n as [|n [IH1 IH2]]; [split; intros; intros s H; by destruct H|]. split.
  - intros e t. change (ext (tr_body D (tr D n) (fun a => loop D n [a]) e t) (tr_body D (tr D (S n)) (fun a => loop D (S n) [a]) e t)).
    apply ext_tr_body; auto.
  - intros l. change (ext (loop_body D (tr D n) (loop D n) l) (loop_body D (tr D (S n)) (loop D (S n)) l)).
    unfold loop_body. destruct l as [|a l]; [apply ext_refl|].
    pose proof (ext_attempt _ _ IH1) as HA.
    pose proof (ext_triggered (fun a => loop D n [a]) (fun a => loop D (S n) [a]) (fun a => IH2 [a])) as HT. es.
Qed.
Theorem fuel_tr n m e t s : n <= m -> tr D n e t s <> NoFuel -> tr D m e t s = tr D n e t s.
Proof.
  intros H Hn. induction H as [|m H IH]; [done|]. rewrite <- IH. apply (proj1 (ext_knot m)). by rewrite IH.
Qed.
Theorem fuel_loop n m l s : n <= m -> loop D n l s <> NoFuel -> loop D m l s = loop D n l s.
Proof.
  intros H Hn. induction H as [|m H IH]; [done|]. rewrite <- IH. apply (proj2 (ext_knot m)). by rewrite IH.
Qed.
End Fuel.

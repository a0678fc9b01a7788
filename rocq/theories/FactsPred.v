(** FactsPred.v -- statements of Props_Pred.v about predicates on the heap, proved. *)
From Verif Require Export PredHeap PredFacts.
Open Scope string_scope.
Open Scope list_scope.

Lemma f_C33_clone : forall h p t F k, den h p t F -> pdepth t <= k ->
  exists q h' G, pclone k p h = Ok q h' /\ den h' q t G /\ den h' p t F /\ G ## F /\
    parentOf h' q = Some None /\ (forall x, x ∉ G -> h' !! x = h !! x) /\
    (forall h2, (forall x, x ∉ G -> h2 !! x = h' !! x) -> den h2 p t F) /\
    (forall h2, (forall x, x ∉ F -> h2 !! x = h' !! x) -> den h2 q t G).
Proof.
  intros h p t F k Hd Hk. destruct (clone_all t k p h F Hd Hk) as (q & h' & G & E & Hq & Hp & HG & Hfr).
  assert (HF : F ⊆ dom h) by (by apply (proj1 (den_dom h) _ _ _ Hd)).
  exists q, h', G. split; [done|]. split; [done|].
  split; [eapply den_frame; [exact Hd|]; intros x Hx; apply Hfr; set_solver|].
  split; [set_solver|]. split; [done|]. split; [done|]. split.
  - intros h2 H2. eapply den_frame; [exact Hd|]. intros x Hx. rewrite H2 by set_solver. apply Hfr. set_solver.
  - intros h2 H2. eapply den_frame; [exact Hq|]. intros x Hx. apply H2. set_solver.
Qed.
Lemma f_C33_same : forall h p q t F G k rf, den h p t F -> den h q t G -> pdepth t <= k ->
  ptoString k p h = Ok (pred_str t) h /\ ptoString k q h = ptoString k p h /\ peval rf k q h = peval rf k p h /\
  (forall b, peval rf k p h = Ok b h <-> eval_pred rf t = Some b).
Proof.
  intros h p q t F G k rf Hp Hq Hk.
  rewrite (proj1 (toString_all h) _ _ _ Hp k Hk), (proj1 (toString_all h) _ _ _ Hq k Hk).
  rewrite (proj1 (eval_all rf h) _ _ _ Hp k Hk), (proj1 (eval_all rf h) _ _ _ Hq k Hk).
  split; [done|]. split; [done|]. split; [done|]. intros b. destruct (eval_pred rf t); cbn; split; intros [= ->]; done.
Qed.
Lemma f_C33_delete : forall h p t F k, den h p t F -> pdepth t <= k ->
  exists h', pdelete k p h = Ok tt h' /\ (forall x, x ∈ F -> h' !! x = None) /\ (forall x, x ∉ F -> h' !! x = h !! x).
Proof. intros h p t F k Hd Hk. eapply (delete_all h); eauto. Qed.

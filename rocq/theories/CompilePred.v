(** CompilePred.v -- C42: the predicates of conditions. *)
From Verif Require Import BuildOps ParserFrame DecSpec DecFacts PredSpec.
From Verif Require Export CompileKept.
From Verif Require Import PredSpec.
Open Scope string_scope.
Open Scope list_scope.

(** ** Conjunctions. *)
Lemma holds_and rf l : holds rf (PAnd l) <-> List.Forall (holds rf) l.
Proof.
  induction l as [|p l IH]; [split; [intros _; constructor|done]|]. change (holds rf (PAnd (p :: l))) with (holds rf p /\ holds rf (PAnd l)). split.
  - intros [H1 H2]. constructor; [done|by apply IH].
  - intros H. inversion H; subst. split; [done|by apply IH].
Qed.
Lemma negFree_and l : negFree (PAnd l) <-> List.Forall negFree l.
Proof.
  induction l as [|p l IH]; [split; [intros _; constructor|done]|]. change (negFree (PAnd (p :: l))) with (negFree p /\ negFree (PAnd l)). split.
  - intros [H1 H2]. constructor; [done|by apply IH].
  - intros H. inversion H; subst. split; [done|by apply IH].
Qed.
Lemma conj_none : conjunction None [].
Proof. split; [done|]. split; [intros rf|]; (split; [intros _; constructor|done]). Qed.
Lemma conj_and l : conjunction (Some (PAnd l)) l.
Proof. split; [done|]. split; [intros rf; apply holds_and|apply negFree_and]. Qed.
Lemma conj_one p : conjunction (Some p) [p].
Proof.
  split; [done|]. split; [intros rf|]; (split; [intros H; constructor; [done|constructor]|intros H; by inversion H]).
Qed.
Lemma conj_nest xs L : Forall2 conjunction xs L -> conjunction (Some (PAnd (omap id xs))) (List.concat L).
Proof.
  intros F. split; [done|]. cbn [trueIn]. split; [intros rf; rewrite holds_and|rewrite negFree_and]; induction F as [|o l xs L (H1 & H2 & H3) F IH]; cbn [List.concat omap list_omap id]; try (split; constructor; fail).
  - rewrite List.Forall_app, <- IH, <- (H2 rf). destruct o as [p|]; cbn.
    + split; [intros H; by inversion H|intros [A B]; by constructor].
    + tauto.
  - rewrite List.Forall_app, <- IH, <- H3. destruct o as [p|]; cbn.
    + split; [intros H; by inversion H|intros [A B]; by constructor].
    + tauto.
Qed.

(** ** Predicates read from the store. *)
Lemma readPred_ok b k : forall P q s, predAt b s P q -> pw (readPred k q) (fun r s' => s' = s /\ r = P) s.
Proof.
  induction k as [|k IH]; intros P q s H; [apply pw_nofuel|]. cbn [readPred]. p1. apply pw_cell. intros x Hx.
  assert (M : forall c l, predAt b s (combined c l) q -> match x with CellAtom _ _ _ => False | CellConn c' cs => c' = c /\ Forall2 (predAt b s) l cs end).
  { intros c l Hc. apply predAt_conn in Hc as (_ & _ & cs & H1 & H2). assert (x = CellConn c cs) as -> by congruence. done. }
  assert (R : forall l cs, Forall2 (predAt b s) l cs -> pw (pmap (readPred k) cs) (fun r s' => s' = s /\ r = l) s).
  { intros l cs F. induction F as [|p c l cs Hp F IHF]; cbn [pmap]; [by p1|]. p1. eapply pw_mono; [by apply IH|]. intros r s' [-> ->]. cbv beta. p1. eapply pw_mono; [exact IHF|]. intros r s' [-> ->]. cbv beta. by p1. }
  destruct P as [| |l t r|l|l|l].
  - by destruct H as (_ & _ & H).
  - by destruct H as (_ & _ & H).
  - destruct H as (_ & _ & H). assert (x = CellAtom l t r) as -> by congruence. by p1.
  - specialize (M CNeg l H). destruct x as [|c cs]; [done|]. destruct M as [-> M]. p1. eapply pw_mono; [by apply R|]. intros r s' [-> ->]. cbv beta. by p1.
  - specialize (M CAnd l H). destruct x as [|c cs]; [done|]. destruct M as [-> M]. p1. eapply pw_mono; [by apply R|]. intros r s' [-> ->]. cbv beta. by p1.
  - specialize (M COr l H). destruct x as [|c cs]; [done|]. destruct M as [-> M]. p1. eapply pw_mono; [by apply R|]. intros r s' [-> ->]. cbv beta. by p1.
Qed.
Definition kidsAt (b : positive) (s : pst) (g : list npred) (p : pid) : Prop := exists cs, (b <= p)%positive /\ (p < p_next s)%positive /\ p_cells s !! p = Some (CellConn CAnd cs) /\ Forall2 (predAt b s) g cs.
Lemma inherited_ok b m me s : p_cache s !! m = Some me -> el_tag me = "causalConnector" -> forall o G, chain b s (Some m) o G ->
  forall k acc, pw (inherited k o acc) (fun l s' => s' = s /\ exists ps, l = ps ++ acc /\ Forall2 (kidsAt b s) G ps) s.
Proof.
  intros Hm Ht o G H. induction H as [|n e p cs g G H1 H2 H3 H4 H4' H5 H6 H7 IH]; intros [|k] acc; try apply pw_nofuel; cbn [inherited]; p1; p1.
  - match goal with Hz : Some m = Some ?z |- _ => injection Hz as <- end. p1. apply pw_index. intros e He. assert (e = me) as -> by congruence. rewrite Ht. cbn [String.eqb Ascii.eqb Bool.eqb]. p1. split; [done|]. exists []. split; [done|constructor].
  - match goal with Hz : Some n = Some ?z |- _ => injection Hz as <- end. p1. apply pw_index. intros e' He'. assert (e' = e) as -> by congruence. rewrite H2. cbn [String.eqb Ascii.eqb Bool.eqb]. p1. p1. rewrite H3. eapply pw_mono; [apply IH|].
    intros l s' (-> & ps & -> & F). split; [done|]. exists (ps ++ [p]). split; [by rewrite <- app_assoc|]. apply Forall2_app; [done|]. constructor; [|constructor]. exists cs. done.
Qed.
Definition oneOf (g : list npred) (o : option npred) : Prop := match g with [] => o = None | [p] => o = Some p | _ => o = Some (PAnd g) end.
Definition allOf (G : list (list npred)) (o : option npred) : Prop := match G with [] => o = None | [g] => oneOf g o | _ => exists xs, Forall2 oneOf G xs /\ o = Some (PAnd (omap id xs)) end.
Lemma obtainOne_ok b k g p s : kidsAt b s g p -> pw (obtainOne k p) (fun o s' => s' = s /\ oneOf g o) s.
Proof.
  intros (cs & H1 & H2 & H3 & H4). unfold obtainOne, connKids. p1. p1. apply pw_cell. intros x Hx. assert (x = CellConn CAnd cs) as -> by congruence. p1. destruct H4 as [|q c g cs Hq H4]; [by p1|]. destruct H4 as [|q' c' g cs Hq' H4].
  - p1. eapply pw_mono; [by eapply readPred_ok|]. intros r s' [-> ->]. cbv beta. by p1.
  - p1. eapply pw_mono; [apply (readPred_ok b k (PAnd (q :: q' :: g)))|].
    + apply (predAt_conn b s CAnd). split; [done|]. split; [done|]. eexists. split; [exact H3|]. constructor; [done|by constructor].
    + intros r s' [-> ->]. cbv beta. by p1.
Qed.
Lemma obtain_ok b k m me r G s : p_cache s !! m = Some me -> el_tag me = "causalConnector" -> chain b s (Some m) (rl_parent r) G -> pw (obtainPredicate k r) (fun o s' => s' = s /\ allOf G o) s.
Proof.
  intros Hm Ht H. unfold obtainPredicate. p1. eapply pw_mono; [by eapply inherited_ok|]. intros l s' (-> & ps & -> & F). cbv beta. rewrite app_nil_r. destruct F as [|g p G ps Hp F]; [by p1|]. destruct F as [|g' p' G ps Hp' F]; [by eapply obtainOne_ok|].
  p1. eapply (pw_mono _ (fun xs s' => s' = s /\ Forall2 oneOf (g :: g' :: G) xs)).
  - assert (R : forall G ps, Forall2 (kidsAt b s) G ps -> pw (pmap (obtainOne k) ps) (fun xs s' => s' = s /\ Forall2 oneOf G xs) s).
    { clear. intros G ps F. induction F as [|g p G ps Hp F IHF]; cbn [pmap]; [p1; split; [done|constructor]|]. p1. eapply pw_mono; [by eapply obtainOne_ok|]. intros r s' [-> Hr]. cbv beta. p1. eapply pw_mono; [exact IHF|]. intros xs s' [-> Hxs]. cbv beta. p1. split; [done|by constructor]. }
    apply R. constructor; [done|by constructor].
  - intros xs s' [-> Hxs]. cbv beta. p1. split; [done|]. by exists xs.
Qed.

(** ** Statements of conditions. *)
Lemma solve_instance t p : solvePredicate t p = instance (fun m => sget m t) p.
Proof.
  assert (O : forall s, solveOperand t s = operandIn (fun m => sget m t) s). { intros s. unfold solveOperand, operandIn, sref. destruct s as [|[[] [] [] [] [] [] [] []] s]; done. }
  induction p as [| |l c r|c l IH] using npred_deep; [done|done|cbn; by rewrite !O|]. assert (E : map (solvePredicate t) l = map (instance (fun m => sget m t)) l) by (induction IH; cbn; congruence). destruct c; cbn; by rewrite E.
Qed.
Lemma one_conj f g o : oneOf g o -> conjunction (option_map (instance f) o) (map (instance f) g).
Proof.
  destruct g as [|p [|q g]]; cbn [oneOf]; intros ->; [apply conj_none|apply conj_one|]. apply (conj_and (map (instance f) (p :: q :: g))).
Qed.
Lemma omap_map {A B} (f : A -> B) xs : omap id (map (option_map f) xs) = map f (omap id xs).
Proof. induction xs as [|[x|] xs IH]; [done| |]; cbn [map option_map omap list_omap id]; [cbn; by f_equal|done]. Qed.
Definition final (t : smapT) (o : option npred) : option npred := match o with Some (PNeg [] | PAnd [] | POr []) | None => None | Some p => Some (solvePredicate t p) end.
Lemma final_some t p : p <> PNeg [] -> p <> PAnd [] -> p <> POr [] -> final t (Some p) = Some (instance (fun m => sget m t) p).
Proof. intros H1 H2 H3. rewrite <- solve_instance. destruct p as [| |l c r|[|a l]|[|a l]|[|a l]]; done. Qed.
Lemma states_some y p : states y p -> p <> PNeg [] /\ p <> PAnd [] /\ p <> POr [].
Proof.
  intros H. destruct H as [| ? ? ? ? ? ? Har|]; [done| |done]. destruct c; cbn in *; (split; [|split]); intros [= ->]; cbn in Har; lia.
Qed.
Lemma guarded_ok t A G o : allOf G o -> Forall2 (fun y g => Forall2 states (statementsOf y) g) A G -> guarded (fun m => sget m t) A (final t o).
Proof.
  intros H F. exists (List.concat G). split.
  { clear H. induction F as [|y g A G Hy F IH]; cbn; [constructor|]. by apply Forall2_app. }
  destruct G as [|g [|g' G]].
  - cbn in H. subst o. apply conj_none.
  - cbn [allOf] in H. cbn [List.concat]. rewrite app_nil_r. inversion F as [|y g0 A' G' Hy F']; subst. destruct g as [|p [|q g]]; cbn [oneOf] in H; subst o.
    + apply conj_none.
    + inversion Hy as [|y' p' ? ? Hs]; subst. destruct (states_some _ _ Hs) as (S1 & S2 & S3). rewrite final_some by done. apply conj_one.
    + rewrite final_some by done. apply (conj_and (map (instance _) (p :: q :: g))).
  - destruct H as (xs & Hxs & ->). assert (C : conjunction (Some (PAnd (map (instance (fun m => sget m t)) (omap id xs)))) (map (instance (fun m => sget m t)) (List.concat (g :: g' :: G)))).
    { rewrite <- omap_map, List.concat_map. apply conj_nest. clear - Hxs. induction Hxs as [|h x H xs Hx Hxs IH]; cbn [map]; constructor; [by apply one_conj|done]. }
    destruct (omap id xs) as [|a l] eqn:E.
    + cbn [final]. assert (Ez : List.concat (g :: g' :: G) = []); [|rewrite Ez; apply conj_none]. clear - Hxs E. induction Hxs as [|h x H xs Hx Hxs IH]; [done|]. cbn [omap list_omap id] in E. destruct x as [x|]; [done|]. cbn [List.concat]. rewrite IH by done. destruct h as [|p [|q h]]; done.
    + rewrite final_some by done. exact C.
Qed.

(** CompileWith.v -- C42: one link is compiled as its connector says. *)
From Verif Require Import BuildInv BuildOps BuildSpec BuildFacts Frame ParserFrame ParserEnd.
From Verif Require Export CompileSolve.
Open Scope string_scope.
Open Scope list_scope.

Lemma pw_mapL {A B C} x s0 (f : A -> P B) (Pr : C -> A -> Prop) (Q : graph -> C -> B -> Prop) : (forall g g' c b, gm g g' -> Q g c b -> Q g' c b) -> (forall a, km (f a)) ->
  (forall c a s, live x s -> mv s0 s -> Pr c a -> pw (f a) (fun b s' => Q (p_graph s') c b) s) -> forall L l, Forall2 Pr L l -> forall s, live x s -> mv s0 s -> pw (pmap f l) (fun ys s' => mv s s' /\ Forall2 (Q (p_graph s')) L ys) s.
Proof.
  intros HM HK HQ L l F. induction F as [|c a L l Hp F IH]; intros s Hs M0; cbn [pmap]; [p1; split; [apply mv_refl, Hs|constructor]|].
  p1. eapply pw_mono; [apply pw_conj; [apply HK, Hs|by apply HQ]|]. intros b s1 [M1 Q1]. cbv beta. pose proof (mv_live _ _ _ Hs M1) as L1. p1. eapply pw_mono; [apply IH; [done|by eapply mv_trans]|]. intros ys s2 [M2 F2]. cbv beta. p1.
  split; [by eapply mv_trans|]. constructor; [|done]. eapply HM; [|exact Q1]. apply mv_gm; [apply L1|done].
Qed.
Lemma gm_addLink g c a b : GInv g -> pwp (addLink c a b) (fun _ g' => gm g g') g.
Proof.
  intros I. unfold addLink. w1. w1. w1. w1. apply wp_oupd. intros ob Ho. split; [done| |].
  - split; [split; cbn; try done|].
    + intros o ob1 H1. destruct (decide (c = o)) as [<-|Hne]; [rewrite lookup_insert; eexists; split; [done|]; cbn; assert (ob1 = ob) as -> by congruence; done|rewrite lookup_insert_ne by done; eauto 10].
    + intros o ob1 ob2 _ H1 H2. destruct (decide (c = o)) as [<-|Hne]; [rewrite lookup_insert in H2; injection H2 as <-; cbn; congruence|rewrite lookup_insert_ne in H2 by done; congruence].
    + intros o ob1 ob2 H1 H2. cbn in H2. destruct (decide (c = o)) as [<-|Hne]; [rewrite lookup_insert in H2; injection H2 as <-; cbn; assert (ob1 = ob) as -> by congruence; done|rewrite lookup_insert_ne in H2 by done; assert (ob1 = ob2) as -> by congruence; done].
  - split; cbn; [|auto]. intros o ob1 H1. destruct (decide (c = o)) as [<-|Hne]; [rewrite lookup_insert; eexists; split; [done|]; cbn; congruence|rewrite lookup_insert_ne by done; eauto].
Qed.
Lemma forall2_r {A B} (R : A -> B -> Prop) L l z : Forall2 R L l -> z ∈ l -> exists y, y ∈ L /\ R y z.
Proof.
  intros F. induction F as [|a b L l H F IH]; intros Hz; [by apply elem_of_nil in Hz|]. apply elem_of_cons in Hz as [->|Hz]; [exists a; split; [by left|done]|]. destruct (IH Hz) as (y & Hy & Hr). exists y. split; [by right|done].
Qed.
Lemma every_role s cm cx rs B bs : Forall2 (rolesAre 1 s cm) (rolesIn cx) rs -> Forall2 bindIs B bs ->
  forallb (fun i => existsb (fun z => Nat.eqb (fst z) i) (boundOf rs bs)) (List.seq 0 (length rs)) = true -> forall r, r ∈ rolesOf cx -> exists b, b ∈ B /\ attrOf "role" b = attrOf "role" r.
Proof.
  intros F HB H r Hr. rewrite <- rolesIn_roles in Hr. apply elem_of_list_In, in_map_iff in Hr as (q & <- & Hq). apply In_nth_error in Hq as (i & Hi). pose proof (boundOf_spec _ _ _ _ _ _ F HB) as Bd.
  assert (Hlt : (i < length rs)%nat). { rewrite <- (Forall2_length _ _ _ F). apply nth_error_Some. by rewrite Hi. }
  rewrite forallb_forall in H. specialize (H i). rewrite in_seq in H. specialize (H ltac:(lia)). apply existsb_exists in H as (z & Hz & Ez). apply Nat.eqb_eq in Ez.
  apply elem_of_list_In in Hz. destruct (forall2_r _ _ _ _ Bd Hz) as (b & Hb & r' & R1 & R2 & R3 & R4). 
  rewrite Ez, Hi in R4. injection R4 as <-. apply elem_of_list_In, filter_In in Hb as [Hb _]. exists b. split; [by apply elem_of_list_In|]. unfold roleIn in R1. apply find_some in R1 as [_ R1]. apply String.eqb_eq in R1. done.
Qed.
(** The names are those of the binds to roles the connector does not have. *)
Lemma bound_ok x k c cx y cm rs ts bs s : live x s -> Forall2 (rolesAre 1 s cm) (rolesIn cx) rs -> (forall r, r ∈ ts <-> r ∈ testRoles cx) -> Forall2 bindIs (bindsOf y) bs ->
  pw (bindTable k c (List.filter (fun b => negb (mem (attr0 b "role") ts)) (freeOf rs bs)) []) (fun gh s' => s' = s /\ bound (p_graph s) x c cx y (fun m => sget m gh)) s.
Proof.
  intros L F E HB. pose proof (freeOf_spec _ _ _ _ _ _ F HB) as HF. pose proof (test_spec ts (testRoles cx) _ _ negb E HF) as HG. rewrite filter_and in HG.
  eapply pw_mono; [apply (bindTable_ok x k c s L _ _ HG)|]. intros gh s' [-> H]. split; [done|]. intros m. specialize (H m).
  set (p := fun a : xml => negb (hasRole cx a) && negb (mem (attrOf "role" a) (testRoles cx))) in *.
  assert (PF : forall b, p b = true <-> free cx (attrOf "role" b)).
  { intros b. unfold p, free. rewrite andb_true_iff, !negb_true_iff, hasRole_free. destruct (mem (attrOf "role" b) (testRoles cx)) eqn:Em.
    - apply mem_spec in Em. split; [intros [_ Hz]; discriminate Hz|]. intros [_ Hz]. done.
    - split; [|intros [Hz _]; done]. intros [Hz _]. split; [done|]. intros Hi. apply mem_spec in Hi. congruence. }
  destruct (lastBind (List.filter p (bindsOf y)) m) as [b|] eqn:Eb.
  - destruct H as (e & n & Hg & Hd & Hn). rewrite Hg. destruct (lastBind_in _ _ _ Eb) as [Hb Hm]. apply elem_of_list_In, filter_In in Hb as [Hb Hpb]. apply PF in Hpb. rewrite Hm in Hpb. split; [done|]. exists b, e, n. split; [|done].
    rewrite <- Eb. symmetry. apply lastBind_filter. intros b' _ Hm'. apply PF. by rewrite Hm'.
  - rewrite H. cbn. intros Hf. rewrite <- Eb. symmetry. apply lastBind_filter. intros b' _ Hm'. apply PF. by rewrite Hm'.
Qed.
Lemma filter_ext_in2 {A} (p q : A -> bool) l : (forall a, p a = q a) -> List.filter p l = List.filter q l.
Proof. intros H. induction l as [|a l IH]; cbn; [done|]. by rewrite H, IH. Qed.
(** What references in tests denote. *)
Lemma sins0_fold m l : forall acc : smapT, sget m (fold_left (fun acc p => sins0 (fst p) (snd p) acc) l acc) = match sget m acc with Some v => Some v | None => sget m l end.
Proof.
  induction l as [|[n v] l IH]; intros acc; cbn [fold_left]; [by destruct (sget m acc)|]. rewrite IH, sget_sins0. cbn [fst snd]. destruct (sget m acc) as [w|]; [done|]. unfold sget. rewrite look_cons. destruct (String.eqb n m); done.
Qed.
Lemma firstParam_cons b l m : firstParam (b :: l) m = match paramOf b m with Some v => Some v | None => firstParam l m end.
Proof. unfold firstParam. cbn [map List.filter]. by destruct (paramOf b m). Qed.
Lemma params_fold m B bs : Forall2 bindIs B bs -> forall acc : smapT,
  sget m (fold_left (fun acc b => fold_left (fun acc p => sins0 (fst p) (snd p) acc) (default [] (el_params b)) acc) bs acc) = match sget m acc with Some v => Some v | None => firstParam B m end.
Proof.
  intros F. induction F as [|b e B bs (_ & _ & l & Hl & Hp) F IH]; intros acc; cbn [fold_left]; [by destruct (sget m acc)|]. rewrite IH, sins0_fold, Hl. cbn [default]. rewrite firstParam_cons, Hp. destruct (sget m acc); [done|]. by destruct (paramOf b m).
Qed.
Lemma tested_ok x k c cx y cm rs ts bs s : live x s -> Forall2 (rolesAre 1 s cm) (rolesIn cx) rs -> (forall r, r ∈ ts <-> r ∈ testRoles cx) -> Forall2 bindIs (bindsOf y) bs ->
  let tb := List.filter (fun b => mem (attr0 b "role") ts) (freeOf rs bs) in
  pw (bindTable k c tb []) (fun t0 s' => s' = s /\
    tested (p_graph s) x c cx y (fun m => sget m (fold_left (fun acc b => fold_left (fun acc p => sins0 (fst p) (snd p) acc) (default [] (el_params b)) acc) tb t0)) /\
    (forallb (fun l => existsb (fun b => String.eqb l (attr0 b "role")) tb) ts = true -> forall m, m ∈ testRoles cx -> exists b, b ∈ testBinds cx y /\ attrOf "role" b = m)) s.
Proof.
  intros L F E HB tb. pose proof (freeOf_spec _ _ _ _ _ _ F HB) as HF. pose proof (test_spec ts (testRoles cx) _ _ (fun b => b) E HF) as HT. rewrite filter_and in HT.
  rewrite (filter_ext_in2 _ (fun b => bool_decide (attrOf "role" b ∈ testRoles cx) && negb (bool_decide (attrOf "role" b ∈ map (attrOf "role") (rolesOf cx))))) in HT.
  2: { intros b. rewrite andb_comm. f_equal.
    - destruct (mem (attrOf "role" b) (testRoles cx)) eqn:Em; symmetry; [apply bool_decide_eq_true; by apply mem_spec|apply bool_decide_eq_false; intros Hz; apply mem_spec in Hz; congruence].
    - f_equal. destruct (hasRole cx b) eqn:Eh; symmetry; [|apply bool_decide_eq_false; by apply hasRole_free].
      apply bool_decide_eq_true. destruct (decide (attrOf "role" b ∈ map (attrOf "role") (rolesOf cx))) as [Hd|Hd]; [done|]. apply hasRole_free in Hd. congruence. }
  fold (testBinds cx y) in HT. fold tb in HT.
  eapply pw_mono; [apply (bindTable_ok x k c s L _ _ HT)|]. intros t0 s' [-> H]. split; [done|]. split.
  - intros m. specialize (H m). rewrite (params_fold m _ _ HT). destruct (lastBind (testBinds cx y) m) as [b|].
    + destruct H as (e & n & H1 & H2 & H3). exists e, n. rewrite H1. done.
    + rewrite H. done.
  - intros Hall m Hm. apply E in Hm. rewrite forallb_forall in Hall. specialize (Hall m ltac:(by apply elem_of_list_In)). apply existsb_exists in Hall as (e & He & Hr). apply String.eqb_eq in Hr. apply elem_of_list_In in He. destruct (forall2_r _ _ _ _ HT He) as (b & Hb & Hbe).
    exists b. split; [done|]. rewrite <- (bind_role _ _ Hbe). done.
Qed.
Lemma solve_compiled x k d y c cx s : live x s -> linkAt 1 s y c d -> cx ∈ elementsOf x -> x_tag cx = "causalConnector" -> aget "id" (x_attrs cx) = aget "xconnector" (x_attrs y) ->
  pw (solveLink k d) (fun _ s' => exists lk, linked c lk (p_graph s) (p_graph s') /\ compiledWith (p_graph s') x c y cx lk) s.
Proof.
  intros L (e & bl & l & He & _ & Ht & Hk & Hbl & HB & Hl & Hp & Hc) Hcx Htc Hid.
  destruct (lv_conns _ _ L cx Hcx Htc) as (cm & (ce & rs & ts & Hce & Hct & Hci & Hrs & FR & Hts & ET) & HG).
  unfold solveLink. p1. apply pw_index. intros e' He'. assert (e' = e) as -> by congruence. clear He'. p1. apply pw_attr. intros ci Hci'. unfold cacheById. p1. p1. p1. p1.
  match goal with Hz : List.find _ _ = Some ?z |- _ => rename Hz into Hfd; rename z into ce' end.
  apply find_some in Hfd as [Hf1 Hf2]. cbn [map List.concat] in Hf1. rewrite app_nil_r in Hf1. apply elem_of_list_In, tagged_in in Hf1 as (cm' & _ & Hce' & Hct'). unfold hasId in Hf2. destruct (attr ce' "id") as [j|] eqn:Ej; [|done]. apply String.eqb_eq in Hf2 as ->.
  assert (cm' = cm) as ->. { eapply (proj2 (lv_uq _ _ L) cm' cm ce' ce); try done. rewrite Hci, Hid, <- Hk. exact Hci'. }
  assert (ce' = ce) as -> by congruence. clear Hce' Hct'.
  p1. apply pw_udata. intros ts' Hts'. assert (ts' = ts) as -> by congruence. clear Hts'. p1. apply pw_udata. intros rs' Hrs'. assert (rs' = rs) as -> by congruence. clear Hrs'.
  p1. apply pw_udata. intros bl' Hbl'. assert (bl' = bl) as -> by congruence. clear Hbl'. p1. apply pw_udata. intros l' Hl'. assert (l' = l) as -> by congruence. clear Hl'. p1. apply pw_udata. intros c' Hc'. assert (c' = c) as -> by congruence. clear Hc'.
  p1. eapply (pw_mono _ (fun bs s' => s' = s /\ Forall2 bindIs (bindsOf y) bs)).
  { clear - HB. induction HB as [|b n B bl [(e & l & He & H1 & H2 & H3 & H4) _] HB IH]; cbn [pmap]; [by p1|]. p1. apply pw_index. intros e' He'. assert (e' = e) as -> by congruence. p1. eapply pw_mono; [exact IH|]. intros bs s' [-> F]. cbv beta. p1. split; [done|]. constructor; [|done]. split; [done|]. split; [done|]. by exists l. }
  intros bs s' [-> FB]. cbv beta zeta. fold (boundOf rs bs). fold (freeOf rs bs).
  p1. p1. match goal with Hz : forallb _ (List.seq _ _) = true |- _ => rename Hz into HR end. p1. p1. p1.
  assert (FA : Forall2 (rolesAre 1 s cm) (rolesIn cx) rs).
  { apply rolesAre_intro; [by rewrite rolesIn_roles|]. destruct HG as (e2 & rs2 & K1 & K2 & K3). assert (e2 = ce) as -> by congruence. assert (rs2 = rs) as -> by congruence. exact K3. }
  eapply pw_mono; [by apply (tested_ok x k c cx y cm)|]. intros tmap s' [-> [Td Te]]. cbv beta. p1.
  match goal with Hz : forallb _ ts = true |- _ => rename Hz into HT end. specialize (Te HT). clear HT. set (tm2 := fold_left _ _ tmap) in *.
  eapply pw_mono; [by apply (bound_ok x k c cx y cm rs ts bs)|]. intros gh s' [-> Bd]. cbv beta. p1.
  set (f := fun m => sget m gh) in *.
  eapply pw_mono; [apply pw_conj; [apply (kr_map sl); intros z; apply (kr_bind sl); [apply sl_roleAction|intros ?; apply (kr_ret sl)]|apply (pw_mapL x s _ (boundAs s cm cx) (fun g b ca => fst ca = forCondition cx b /\ compiledBy g x c cx y f (fun m => sget m tm2) b (snd ca)))]|].
  - intros g g' b ca G [H1 H2]. split; [done|]. by eapply compiledBy_gm.
  - intros a s' I'. p1. eapply pw_mono; [by apply km_roleAction|]. intros ac s'' M. cbv beta. by p1.
  - intros b [i [rl e']] s' L' M' ([A r] & R1 & [R2 Rg] & R3 & R4). cbn [fst snd] in *. p1. destruct (mv_l _ _ M') as [LF _]. destruct (lf_ident _ _ _ _ _ LF Hce) as (ce2 & Hce2 & Hi2); [apply (lv_c _ _ L _ _ Hce)|].
    eapply pw_mono; [apply (roleAction_bind x k c l _ gh y b r rl e' A cm ce2 s' L'); try done|].
    + by rewrite (ident_tag _ _ Hi2).
    + intros Hcnd. destruct (Rg Hcnd) as (G & G1 & G2). exists G. split; [|done]. eapply (chain_cf none); [apply L|apply M'|exact LF|apply below_none|reflexivity|exact G1].
    + intros ac s'' [Hcb Hgd]. cbv beta. p1. cbn [fst snd]. split; [|by exists A, r]. unfold forCondition, roleFor. rewrite R1. apply R2.
  - by apply boundOf_spec.
  - exact L.
  - apply mv_refl, L.
  - intros acts s1 [N [M1 FC]]. cbv beta. apply pw_lift. pose proof (mv_live _ _ _ L M1) as L1.
    eapply wp_mono; [apply wp_conj; [by apply (linked_addLink (p_graph s))|apply gm_addLink, L1]|].
    intros [] g' [[HL _] G]. cbn [p_graph p_set_graph]. eexists. split; [exact HL|]. exists f, (fun m => sget m tm2). assert (G0 : gm (p_graph s) g') by (eapply gm_trans; [apply mv_gm; [apply L|exact M1]|exact G]). split; [by eapply bound_gm|]. split; [by eapply tested_gm|].
    apply filter_bool in FC as [F1 F2]. rewrite filter_and in F1, F2. cbn [fst snd]. split; [|split; [|split; [|exact Te]]].
    + rewrite (filter_ext_in2 (forCondition cx) (fun a => hasRole cx a && forCondition cx a)) by (intros b; unfold forCondition, hasRole; by destruct (roleFor cx b)). eapply Forall2_impl; [exact F1|]. intros b a. by apply compiledBy_gm.
    + rewrite (filter_ext_in2 (forAction cx) (fun a => hasRole cx a && negb (forCondition cx a))) by (intros b; unfold forCondition, forAction, hasRole; by destruct (roleFor cx b)). eapply Forall2_impl; [exact F2|]. intros b a. by apply compiledBy_gm.
    + by eapply every_role.
Qed.

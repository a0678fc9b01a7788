(** CompileProc.v -- C42: an element changes no element that is closed. *)
From Verif Require Import BuildOps ParserFrame.
From Verif Require Export CompileFrame.
Open Scope string_scope.
Open Scope list_scope.

(** ** Descriptors. *)
Definition isDesc (s : pst) (d : nid) : Prop := (d < p_next s)%positive /\ forall e, p_cache s !! d = Some e -> el_tag e = "descriptor".
Lemma isDesc_lq s s' d : lq s s' -> isDesc s d -> isDesc s' d.
Proof.
  intros [L _] [A B]. split; [pose proof (lf_next _ _ _ L); lia|]. intros e' He'. destruct (lf_back _ _ _ _ _ L He' A) as (e & He & Hi). unfold ident in Hi. injection Hi as Hi _ _ _. rewrite Hi. by apply B.
Qed.
Lemma lq_setAttr n a v s : isDesc s n -> pw (setAttr n a v) (fun _ s' => lq s s') s.
Proof.
  intros [_ H]. apply pw_eupd. intros e He. split; [|done]. assert (I : ident (el_set_attrs (sset a v (el_attrs e)) e) = ident e) by (unfold ident; cbn; by rewrite (H e He)). apply (lf_upd none s n e _ He I). right. unfold core. by rewrite I.
Qed.
Lemma lq_setAttr' n a v s0 s : isDesc s0 n -> lq s0 s -> pw (setAttr n a v) (fun _ s' => lq s0 s') s.
Proof. intros H Q. eapply pw_mono; [apply lq_setAttr; by eapply isDesc_lq|]. intros [] s' Q'. exact (pr_trans _ _ _ Q Q'). Qed.
Lemma lq_transition E d a s : isDesc s d -> pw (solveTransition E d a) (fun _ s' => lq s s') s.
Proof.
  intros H. unfold solveTransition. p1. p1. p1; [|p1; apply pr_refl]. unfold cacheById. p1. p1. p1. p1. p1. p1. by apply lq_setAttr.
Qed.
Lemma lq_descriptor E d s : isDesc s d -> pw (solveDescriptor E d) (fun _ s' => lq s s') s.
Proof.
  intros H. unfold solveDescriptor. p1. p1. p1. p1. p1. eapply (pw_mono _ (fun _ s' => lq s s')).
  { p1; [|p1; apply pr_refl]. unfold cacheById. p1. p1. p1. p1. apply pw_each_inv; [apply pr_refl|]. intros x s' _ Q. p1; [|done]. by apply lq_setAttr'. }
  intros [] s1 Q1. cbv beta. p1. eapply pw_mono; [apply lq_transition; by eapply isDesc_lq|]. intros [] s2 Q2. cbv beta.
  assert (Q : lq s s2) by exact (pr_trans _ _ _ Q1 Q2). eapply pw_mono; [apply lq_transition; by eapply isDesc_lq|]. intros [] s3 Q3. exact (pr_trans _ _ _ Q Q3).
Qed.
Lemma lq_descriptors E s : cinv s -> pw (peach (solveDescriptor E) (map el_node (tagged s "descriptor"))) (fun _ s' => lq s s') s.
Proof.
  intros C. apply pw_each_inv; [apply pr_refl|]. intros d s1 Hd Q. destruct (tagged_node _ _ _ C Hd) as (e & He & Ht).
  eapply pw_mono; [apply lq_descriptor; eapply isDesc_lq; [exact Q|]; split; [apply (C _ _ He)|]; intros e' He'; congruence|]. intros [] s2 Q2. exact (pr_trans _ _ _ Q Q2).
Qed.

(** ** The push function. *)
Definition opened (up : option (nid * string)) (s : pst) (m : nid) : Prop := option_map fst up = Some m \/ p_conn s = Some m.
Definition connOk (s s' : pst) : Prop := p_conn s' = p_conn s \/ p_conn s' = None.
Definition lfp (up : option (nid * string)) (s s' : pst) : Prop := lf (opened up s) s s' /\ connOk s s'.
Lemma lq_lfp up s s' : lq s s' -> lfp up s s'.
Proof. intros [A B]. split; [|by left]. eapply lf_mono; [|exact A]. intros n _ []. Qed.
Lemma lfp_trans up s s1 s2 : lfp up s s1 -> lfp up s1 s2 -> lfp up s s2.
Proof.
  intros [A A'] [B B']. split.
  - eapply lf_trans; [exact A|exact B|]. intros n Hn [H|H]; [by left|]. right. destruct A' as [A'|A']; congruence.
  - destruct A' as [A'|A'], B' as [B'|B']; unfold connOk; rewrite B'; auto.
Qed.
Lemma import_lf E go e up s : cinv s -> (forall up y s', cinv s' -> Par s' up -> pw (go up y) (fun _ s2 => post s' s2 /\ lfp up s' s2) s') -> pw (pushImport E go e) (fun _ s' => lfp up s s') s.
Proof.
  intros C Hgo. unfold pushImport. p1. p1. p1. p1. p1. p1. p1. p1. cbv zeta. p1. p1. p1. p1.
  match goal with |- pw _ _ ?x => set (s1 := x) end. assert (P1 : post s s1) by (apply quiet_post; [done|by apply quiet_simple|done|done]).
  p1. p1. p1. eapply pw_mono; [apply check_post, P1|]. intros r1 s2 [P2 K2]. p1. p1. p1. eapply pw_mono; [apply check_post, P2|]. intros r2 s3 [P3 K3].
  p1. p1. p1. p1. p1. match goal with |- pw _ _ ?x => set (s4 := x) end.
  assert (P4 : post s3 s4). { apply quiet_post; [apply P3| |done|done]. split; [|done]. split; cbn; [lia|done|]. intros nn. by destruct (p_cache s3 !! nn). }
  assert (Pr : Par s4 (Some (p_next s3, "head"))).
  { intros nn t [= <- <-]. split; [cbn; lia|]. intros e0 He0. cbn in He0. destruct (po_c _ _ P3 _ _ He0) as [Hlt _]. lia. }
  assert (L4 : lfp up s s4). { apply lq_lfp. destruct (ck_state _ _ _ _ _ _ _ K2) as [g2 ->]. destruct (ck_state _ _ _ _ _ _ _ K3) as [g3 E3]. unfold s4. rewrite E3. split; [|done]. split; cbn; [lia|done|done|]. exists []. rewrite app_nil_r. split; [done|]. intros nn Hnn. by apply elem_of_nil in Hnn. }
  assert (Hn : (p_next s <= p_next s3)%positive). { destruct (ck_state _ _ _ _ _ _ _ K2) as [g2 ->]. destruct (ck_state _ _ _ _ _ _ _ K3) as [g3 ->]. cbn. lia. }
  eapply (pw_mono _ (fun _ s' => (cinv s' /\ Par s' (Some (p_next s3, "head"))) /\ lfp up s s')).
  - apply pw_each_inv; [split; [split; [apply P4|exact Pr]|exact L4]|]. intros y s5 _ [[C5 Pr5] L5]. eapply pw_mono; [by apply Hgo|]. intros [] s6 [P6 [L6 O6]]. split; [split; [apply P6|eapply Par_ext; [apply P6|done]]|].
    destruct L5 as [L5 O5]. split.
    + eapply lf_trans; [exact L5|exact L6|]. intros m1 Hlt [Hm1|Hm1]; [cbn in Hm1; injection Hm1 as <-; lia|]. right. destruct O5 as [O5|O5]; clear -O5 Hm1; congruence.
    + destruct O5 as [O5|O5], O6 as [O6|O6]; unfold connOk; rewrite O6; auto.
  - intros [] s5 [_ L5]. p1. p1. p1. eapply lfp_trans; [exact L5|]. apply lq_lfp. split; [by apply lf_same|done].
Qed.
Definition pushed (up : option (nid * string)) (p : pushk) (n : nid) (s s' : pst) : Prop :=
  lf (opened up s) s s' /\ match p with PuConnector => p_conn s' = Some n | _ => connOk s s' end.
Lemma push_lf E go p e up s : cinv s -> Par s up -> el_up e = option_map fst up -> (p = PuDescParam -> exists n, up = Some (n, "descriptor")) ->
  (forall up y s', cinv s' -> Par s' up -> pw (go up y) (fun _ s2 => post s' s2 /\ lfp up s' s2) s') ->
  pw (push E (pushImport E go) p e) (fun _ s' => pushed up p (el_node e) s s') s.
Proof.
  intros C Hp Hup Hd Hgo. destruct (lqPush p) eqn:Ep.
  { eapply pw_mono; [by apply kl_push|]. intros e' s' Q. destruct (lq_lfp up _ _ Q) as [A B]. split; [done|]. destruct p; done. }
  assert (U : forall n ue f (Q : unit -> pst -> Prop), el_up e = Some n -> p_cache s !! n = Some ue -> (forall x, ident (f x) = ident x) -> (forall x, core (f x) = core x \/ opened up s n) -> pw (eupd (el_node ue) f) (fun _ s' => lf (opened up s) s s' /\ p_conn s' = p_conn s) s).
  { intros n ue f Q Hn Hue Hi Hf. apply pw_eupd. intros e1 He1. destruct (C _ _ Hue) as (_ & En & _). split; [|done]. eapply lf_upd; [exact He1|apply Hi|]. destruct (Hf e1); [by right|left; by rewrite En]. }
  destruct p; try discriminate Ep; cbn [push].
  - unfold pushDescParam. p1. p1. p1. p1. p1. apply pw_parent. intros n d Hn Hde. p1.
    assert (el_tag d = "descriptor") as Ht. { destruct (Hd eq_refl) as [m ->]. rewrite Hup in Hn. injection Hn as <-. destruct (Hp _ _ eq_refl) as [_ H']. exact (H' _ Hde). }
    apply pw_eupd. intros d' Hd'. p1. destruct (C _ _ Hde) as (_ & En & _). rewrite En in Hd'. assert (d' = d) as -> by congruence. split; [|by left]. rewrite En. match goal with |- lf _ _ (p_set_cache (<[_:=?b]> _) _) => assert (I : ident b = ident d) by (unfold ident; cbn; by rewrite Ht) end. eapply lf_upd; [done|done|]. right. unfold core. by rewrite I.
  - unfold pushConnector. p1. p1. p1. split; [by apply lf_same|done].
  - unfold pushSimple. p1. p1. cbv zeta. p1. eapply (pw_mono _ (fun _ s' => s' = s)).
    { destruct (look a reservedRoles) as [[ty tr]|]; repeat (first [done|p1]). }
    intros [ty tr] s' ->. p1. p1. p1. p1. p1. apply pw_udata. intros c Hc. repeat p1. split; [|by left]. eapply lf_upd; [done|done|]. left. by right.
  - unfold pushAssess. p1. eapply (pw_mono _ (fun _ s' => lf (opened up s) s s' /\ p_conn s' = p_conn s /\ forall n e, p_cache s' !! n = Some e -> el_node e = n)).
    { assert (N : forall n e, p_cache s !! n = Some e -> el_node e = n) by (intros n e0 He0; apply (C _ _ He0)).
      destruct (String.eqb _ _); [|apply pw_attr; intros; split; [apply lf_refl|done]]. apply pw_bind, pw_attr. intros r Hr. repeat p1. rename s into s0. match goal with Hc : p_conn s0 = Some ?c |- _ => rename c into c0; rename Hc into Hc0 end.
      split; [eapply lf_upd; [done|done|left; by right]|]. split; [done|]. cbn. intros n e0. destruct (decide (c0 = n)) as [<-|Hne]; [rewrite lookup_insert; intros [= <-]; cbn; eapply N; eassumption|rewrite lookup_insert_ne by done; apply N]. }
    intros str s1 (L1 & C1 & N1). cbv beta. p1. apply pw_parent. intros n ue Hn Hue. p1. eapply (pw_mono _ (fun _ s' => lf (opened up s) s s' /\ p_conn s' = p_conn s)).
    { destruct (el_left ue), (el_right ue); try done; apply pw_eupd; intros ue' Hue'; (split; [|done]); (eapply lf_trans; [exact L1|eapply (lf_upd none); [exact Hue'|done|by right]|intros ? _ []]). }
    intros [] s2 [L2 C2]. p1. split; [done|by left].
  - eapply pw_mono; [by apply import_lf|]. intros e' s' H. exact H.
  - unfold pushLinkParam. p1. p1. p1. p1. p1. apply pw_parent. intros n ue Hn Hue. p1. p1. p1. eapply pw_mono; [apply (U n); [exact (fun _ _ => True)|done|done|done|intros; right; left; congruence]|]. intros [] s' [A B]. p1. split; [done|by left].
  - unfold pushBind. p1. p1. p1. p1. p1. apply pw_parent. intros n ue Hn Hue. p1. p1. p1. eapply pw_mono; [apply (U n); [exact (fun _ _ => True)|done|done|done|intros; right; left; congruence]|]. intros [] s' [A B]. p1. split; [done|by left].
Qed.
Lemma pop_lf E k p n s : cinv s -> pw (pop E k p n) (fun _ s' => lf none s s' /\ p_conn s' = match p with PoConnector => None | _ => p_conn s end) s.
Proof.
  intros C. destruct p; try (eapply pw_mono; [apply kl_pop; discriminate|]; intros [] s' H; exact H); cbn [pop].
  - unfold popNcl. cbv zeta. p1. p1. p1. eapply pw_mono; [by apply lq_descriptors|]. intros [] s1 Q1. cbv beta.
    match goal with |- pw ?m _ _ => assert (K : kl m) by klt end. eapply pw_mono; [exact (K s1)|]. intros [] s2 Q2. exact (pr_trans _ _ _ Q1 Q2).
  - unfold popConnector. p1. p1. match goal with |- pw ?m _ ?x => assert (K : kl m) by (unfold udata; klt); set (s1 := x) end. eapply pw_mono; [exact (K s1)|]. intros [] s2 [L2 C2]. split; [|rewrite C2; done]. eapply lf_trans; [|exact L2|done]. by apply lf_same.
Qed.
Lemma cache_lf X e s s3 : lf X s s3 -> (p_next s <= el_node e)%positive -> (el_node e < p_next s3)%positive -> pw (cacheAdd e) (fun _ s' => lf X s s' /\ p_conn s' = p_conn s3) s3.
Proof.
  intros [A A0 B (l & D & F)] H1 H2. unfold cacheAdd. p1. p1. p1. p1. p1. split; [|done]. split; cbn; [lia| | |].
  - intros n Hn. rewrite lookup_insert_ne by lia. by apply A0.
  - intros n Hn HX. rewrite lookup_insert_ne by lia. by apply B.
  - exists (l ++ [el_node e]). split; [rewrite D; by rewrite <- app_assoc|]. intros n Hn. apply elem_of_app in Hn as [Hn|Hn]; [by apply F|]. apply elem_of_list_singleton in Hn as ->. lia.
Qed.
Definition connPop (x : string * syn) : bool := match sy_push (snd x), sy_pop (snd x) with PuConnector, PoConnector => true | PuConnector, _ => false | _, _ => true end.
Lemma connPop_all : forallb connPop syntax = true. Proof. vm_compute. reflexivity. Qed.
Lemma conn_pop t sy : synOf t = Some sy -> sy_push sy = PuConnector -> sy_pop sy = PoConnector.
Proof.
  intros H Ep. apply look_some in H. pose proof (forall_elem _ _ _ connPop_all H) as F. unfold connPop in F. cbn [snd] in F. rewrite Ep in F. by destruct (sy_pop sy).
Qed.
(** The steps of processing an element, again, with the frame. *)
Lemma process_lf E k : forall up x s, cinv s -> Par s up -> pw (processNode E k up x) (fun _ s' => lfp up s s') s.
Proof.
  induction k as [|k IH]; intros up x s C Hp; [apply pw_nofuel|]. apply process_rule; [done|done|]. intros sy attrs s1 K1.
  assert (Q2 : post s (p_set_next (Pos.succ (p_next s1)) s1)).
  { destruct (ck_state _ _ _ _ _ _ _ K1) as [g ->]. apply quiet_post; [done| |cbn; set_solver|done]. split; [|done]. split; cbn; [lia|done|]. intros nn. by destruct (p_cache s !! nn). }
  assert (Hn : p_next s1 = p_next s) by (by destruct (ck_state _ _ _ _ _ _ _ K1) as [g ->]).
  assert (L2 : lq s (p_set_next (Pos.succ (p_next s1)) s1)). { destruct (ck_state _ _ _ _ _ _ _ K1) as [g ->]. split; [|done]. split; cbn; [lia|done|done|]. exists []. rewrite app_nil_r. split; [done|]. intros nn Hnn. by apply elem_of_nil in Hnn. }
  eapply pw_mono; [apply pw_conj; [apply (push_shape E (pushImport E (processNode E k))); intros; apply import_shape|apply (push_lf E (processNode E k) (sy_push sy) _ up)]|].
  { apply Q2. } { eapply Par_ext; [apply Q2|done]. } { done. }
  { intros Hd. pose proof (syn_desc _ _ (ck_syn _ _ _ _ _ _ _ K1) Hd) as Hpar. destruct (ck_up _ _ _ _ _ _ _ K1) as [H|(u & Hu & Hin)]; [congruence|]. rewrite Hpar in Hin. apply elem_of_list_singleton in Hin as ->.
    destruct up as [[m t]|]; [|done]. cbn in Hu. injection Hu as ->. by exists m. }
  { intros up' y s' C' Hp'. eapply pw_mono; [apply pw_conj; [by apply process_post|by apply IH]|]. intros [] s2 [[P _] L]. done. }
  set (s2 := p_set_next _ _) in *. intros e s3 [(T1 & T2 & _) [L3 O3]]. cbn [el_node newElt] in T2, O3. cbv beta.
  assert (Hc2 : p_conn s2 = p_conn s) by apply L2.
  assert (L3' : lf (opened up s) s s3). { eapply lf_trans; [eapply lf_mono; [|apply L2]; intros ? _ []|exact L3|]. intros m Hm [H|H]; [by left|right; congruence]. }
  assert (N3 : (p_next s1 < p_next s3)%positive) by (pose proof (lf_next _ _ _ L3) as Hx; cbn in Hx; lia).
  assert (O3' : p_conn s3 = p_conn s \/ p_conn s3 = None \/ (p_conn s3 = Some (p_next s1) /\ sy_push sy = PuConnector)). { destruct (sy_push sy); try (destruct O3 as [O3|O3]; [left; congruence|auto]). auto. }
  clear O3. eapply (pw_mono _ (fun _ s4 => lf (opened up s) s s4 /\ p_conn s4 = p_conn s3)).
  { destruct (sy_cache sy); cbn [pwhen]; [|by p1]. apply cache_lf; [done|rewrite T2; lia|by rewrite T2]. }
  intros [] s4 [L4 C4] P4 Pr4. cbv beta in *. rewrite <- C4 in O3'. clear C4.
  eapply pw_mono; [apply (kids_rule E k _ _ _ s4 (fun _ s' => cinv s' /\ lf (opened up s) s s' /\ connOk s4 s')); [apply P4|done| |]|].
  - split; [apply P4|]. split; [done|by left].
  - intros y l' s' _ C' Hp' (_ & L' & O'). eapply pw_mono; [apply pw_conj; [by apply process_post|by apply IH]|]. intros [] s5 [[P5 _] [L5 O5]]. split; [apply P5|]. split.
    + eapply lf_trans; [exact L'|exact L5|]. intros m Hm [H|H]; [cbn in H; injection H as <-; lia|]. right. destruct O' as [O'|O']; [|congruence]. rewrite O' in H. destruct O3' as [X|[X|[X _]]]; [congruence|congruence|]. rewrite X in H. injection H as <-. lia.
    + destruct O5 as [O5|O5]; unfold connOk; rewrite O5; [exact O'|auto].
  - intros [] s5 (C5 & L5 & O5). cbv beta in *. eapply pw_mono; [by apply pop_lf|]. intros [] s6 [L6 O6]. split; [eapply lf_trans; [exact L5|exact L6|done]|].
    assert (Hdec : sy_pop sy = PoConnector \/ sy_pop sy <> PoConnector) by (destruct (sy_pop sy); (by left) || by right). destruct Hdec as [Eq|Hne].
    + rewrite Eq in O6. right. exact O6.
    + assert (O6' : p_conn s6 = p_conn s5) by (destruct (sy_pop sy); done). assert (Hpu : sy_push sy <> PuConnector) by (intros Hpu; apply Hne; by eapply conn_pop; [apply K1|]).
      unfold connOk. rewrite O6'. destruct O5 as [O5|O5]; rewrite O5; [|by right]. destruct O3' as [X|[X|[X X']]]; auto. by destruct Hpu.
Qed.

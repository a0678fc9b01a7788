(** TreeHead.v -- C45: the elements below head do not touch the document. *)
From Verif Require Import BuildInv BuildOps BuildSpec BuildFacts Frame ParserFrame.
From Verif Require Export TreeObjs.
Open Scope string_scope.
Open Scope list_scope.

Definition hd (s s' : pst) : Prop := p_graph s' = p_graph s /\ p_objs s' = p_objs s.
#[global] Instance pre_hd : ParserQuiet.preorder hd. Proof. split; [done|]. intros a b c [A B] [C D]. split; congruence. Qed.
Definition stillOk (x : string * syn) : bool :=
  negb (mem (fst x) headTags) || (negb (stackPush (sy_push (snd x))) && match sy_push (snd x) with PuArea | PuProperty => false | _ => true end || match sy_push (snd x) with PuImport => true | _ => false end) && negb (stackPop (sy_pop (snd x))).
Lemma stillOk_all : forallb stillOk syntax = true. Proof. vm_compute. reflexivity. Qed.
Lemma still t sy : synOf t = Some sy -> mem t headTags = true -> (sy_push sy = PuImport \/ (stackPush (sy_push sy) = false /\ (quietPush (sy_push sy) = true \/ sy_push sy = PuDescParam))) /\ stackPop (sy_pop sy) = false /\ quietPop (sy_pop sy) = true.
Proof.
  intros E Ht. apply look_some in E. apply (forall_elem _ _ _ stillOk_all) in E. unfold stillOk in E. cbn [fst snd] in E. rewrite Ht in E. cbn [negb orb] in E. apply andb_true_iff in E as [E1 E2].
  split; [destruct (sy_push sy); try discriminate E1; auto|]. destruct (sy_pop sy); try discriminate E2; auto.
Qed.
Lemma hd_push E imp p e : stackPush p = false -> (quietPush p = true \/ p = PuDescParam) -> kr hd (push E imp p e).
Proof.
  intros Hs Hq s. eapply pw_mono; [apply pw_conj; [apply (kb_push E imp p e Hs)|]|].
  - instantiate (1 := fun _ s' => p_graph s' = p_graph s). destruct Hq as [Hq| ->]; [eapply pw_mono; [by apply kq_push|]; intros e' s' (_ & G & _); exact G|].
    cbn [push]. unfold pushDescParam. p1. p1. p1. p1. p1. apply pw_parent. intros n d Hn Hd. p1. apply pw_eupd. intros d' Hd'. by p1.
  - intros e' s' [A B]. by split.
Qed.
Lemma hd_pop E k p n : stackPop p = false -> quietPop p = true -> kr hd (pop E k p n).
Proof.
  intros Hs Hq s. eapply pw_mono; [apply pw_conj; [apply (kb_pop E k p n Hs)|apply (kq_pop E k p n Hq)]|]. intros [] s' [A (_ & G & _)]. by split.
Qed.
Lemma hd_cache b e : kr hd (pwhen b (cacheAdd e)).
Proof.
  apply (kr_when hd). intros s. eapply pw_mono; [apply pw_conj; [apply kb_cacheAdd|]|].
  - instantiate (1 := fun _ s' => p_graph s' = p_graph s). unfold cacheAdd. p1. p1. p1. p1. by p1.
  - intros [] s' [A B]. by split.
Qed.
Lemma import_hd E go e up s : cinv s -> Par s up -> el_up e = option_map fst up -> (exists u, option_map snd up = Some u /\ mem u headTags = true) ->
  (forall up y s', cinv s' -> Par s' up -> pw (go up y) (fun _ s2 => post s' s2) s') ->
  (forall up y s', cinv s' -> Par s' up -> mem (x_tag y) headTags = true -> pw (go up y) (fun _ s2 => hd s' s2) s') ->
  pw (pushImport E go e) (fun _ s' => hd s s') s.
Proof.
  intros C Hp Hup (u & Hu & Hut) Hgo Hos. unfold pushImport. p1. apply pw_parent. intros n ue Hn Hue. p1. p1. p1. p1. p1. p1. cbv zeta. p1. p1. p1. p1.
  assert (Ht : mem (el_tag ue) headTags = true). { destruct up as [[m t]|]; [|done]. cbn in Hu, Hup. injection Hu as ->. rewrite Hup in Hn. injection Hn as ->. destruct (Hp _ _ eq_refl) as [_ H']. by rewrite (H' _ Hue). }
  match goal with |- pw _ _ ?x => set (s1 := x) end. assert (P1 : post s s1) by (apply quiet_post; [done|by apply quiet_simple|done|done]).
  p1. p1. p1. eapply pw_mono; [apply check_post, P1|]. intros r1 s2 [P2 K2]. p1. p1. p1. eapply pw_mono; [apply check_post, P2|]. intros r2 s3 [P3 K3].
  p1. p1. p1. p1. p1. match goal with |- pw _ _ ?x => set (s4 := x) end.
  assert (P4 : post s3 s4). { apply quiet_post; [apply P3| |done|done]. split; [|done]. split; cbn; [lia|done|]. intros nn. by destruct (p_cache s3 !! nn). }
  assert (Pr : Par s4 (Some (p_next s3, "head"))).
  { intros nn t [= <- <-]. split; [cbn; lia|]. intros e0 He0. cbn in He0. destruct (po_c _ _ P3 _ _ He0) as [Hlt _]. lia. }
  assert (O4 : hd s s4). { destruct (ck_state _ _ _ _ _ _ _ K2) as [g2 ->]. destruct (ck_state _ _ _ _ _ _ _ K3) as [g3 E3]. unfold s4. rewrite E3. by split. }
  eapply (pw_mono _ (fun _ s' => cinv s' /\ Par s' (Some (p_next s3, "head")) /\ hd s s')).
  - apply pw_each_inv; [split; [apply P4|done]|]. intros y s5 Hy (C5 & Pr5 & O5). eapply pw_mono; [apply pw_conj; [by apply Hgo|apply Hos; [done|done|]]|].
    + assert (Hk : forall hd t, y ∈ kidsTagged hd t -> x_tag y = t). { intros hd t Hi. unfold kidsTagged in Hi. apply elem_of_list_In, filter_In in Hi as [_ Hi]. by apply String.eqb_eq in Hi. }
      apply elem_of_app in Hy as [Hy|Hy]; [by rewrite (Hk _ _ Hy)|]. destruct (String.eqb (el_tag ue) "descriptorBase"); [|by apply elem_of_nil in Hy]. apply elem_of_app in Hy as [Hy|Hy]; by rewrite (Hk _ _ Hy).
    + intros [] s6 [P6 O6]. split; [apply P6|]. split; [eapply Par_ext; [apply P6|done]|]. exact (pr_trans _ _ _ O5 O6).
  - intros [] s5 (_ & _ & O5). p1. p1. p1. exact O5.
Qed.
Lemma process_still E k : forall up x s, cinv s -> Par s up -> mem (x_tag x) headTags = true -> pw (processNode E k up x) (fun _ s' => hd s s') s.
Proof.
  induction k as [|k IH]; intros up x s C Hp Ht; [apply pw_nofuel|]. apply process_rule; [done|done|]. intros sy attrs s1 K1.
  destruct (still _ _ (ck_syn _ _ _ _ _ _ _ K1) Ht) as (S1 & S2 & S3).
  assert (O1 : hd s (p_set_next (Pos.succ (p_next s1)) s1)) by (destruct (ck_state _ _ _ _ _ _ _ K1) as [g ->]; done).
  assert (Q2 : post s (p_set_next (Pos.succ (p_next s1)) s1)).
  { destruct (ck_state _ _ _ _ _ _ _ K1) as [g ->]. apply quiet_post; [done| |cbn; set_solver|done]. split; [|done]. split; cbn; [lia|done|]. intros nn. by destruct (p_cache s !! nn). }
  eapply (pw_mono _ (fun _ s3 => hd s s3)).
  - destruct S1 as [D|[S1 S4]].
    + rewrite D. cbn [push]. eapply pw_mono; [eapply import_hd; [apply Q2|eapply Par_ext; [apply Q2|exact Hp]|done|exact (import_parents _ _ _ (ck_syn _ _ _ _ _ _ _ K1) D (ck_up _ _ _ _ _ _ _ K1))| |exact IH]|].
      * intros up' y s' C' Hp'. eapply pw_mono; [by apply process_post|]. intros [] s'' [H' _]. exact H'.
      * intros e s3 O3. exact (pr_trans _ _ _ O1 O3).
    + eapply pw_mono; [by apply hd_push|]. intros e s3 O3. exact (pr_trans _ _ _ O1 O3).
  - intros e s3 O3. cbv beta in *. eapply pw_mono; [apply hd_cache|]. intros [] s4 O4 P4 Pr4. cbv beta in *. assert (O5 : hd s s4) by exact (pr_trans _ _ _ O3 O4).
    eapply pw_mono; [apply (kids_rule E k _ _ _ s4 (fun _ s' => hd s s')); [apply P4|done|done|]|].
    + intros y l' s' [p Hl] C' Hp' O'. eapply pw_mono; [apply IH; [done|done|]|].
      * eapply head_child; [exact Ht|]. apply (ck_kids _ _ _ _ _ _ _ K1). rewrite Hl. apply elem_of_app. right. constructor.
      * intros [] s'' O''. exact (pr_trans _ _ _ O' O'').
    + intros [] s5 O5'. cbv beta in *. eapply pw_mono; [by apply hd_pop|]. intros [] s6 O6. exact (pr_trans _ _ _ O5' O6).
Qed.

(** PortUniq.v -- C49, C50: two ports, switchPorts or rules never have the same id. *)
From Verif Require Import BuildOps ParserFrame.
From Verif Require Export CompileDoc.
Open Scope string_scope.
Open Scope list_scope.

Definition idTags : list string := ["port"; "switchPort"; "rule"; "compositeRule"].
Definition idTag (t : string) : bool := mem t idTags.
Definition idSyn (x : string * syn) : bool := negb (mem (fst x) idTags) || (match sy_push (snd x) with PuImport | PuRegion => false | _ => true end && negb (sy_genid (snd x))).
Lemma idSyn_all : forallb idSyn syntax = true. Proof. vm_compute. reflexivity. Qed.
Lemma idTag_syn t sy : synOf t = Some sy -> idTag t = true -> sy_push sy <> PuImport /\ sy_push sy <> PuRegion /\ sy_genid sy = false.
Proof.
  intros H G. apply look_some in H. pose proof (forall_elem _ _ _ idSyn_all H) as F. unfold idSyn in F. cbn [fst snd] in F. unfold idTag in G. rewrite G in F. cbn [negb orb] in F. apply andb_true_iff in F as [F1 F2]. apply negb_true_iff in F2.
  split; [|split; [|done]]; intros Hp; by rewrite Hp in F1.
Qed.
Definition uqi (s : pst) : Prop := (forall n e i, p_cache s !! n = Some e -> idTag (el_tag e) = true -> attr e "id" = Some i -> i ∈ p_unique s) /\
  forall n m e e' i, p_cache s !! n = Some e -> p_cache s !! m = Some e' -> idTag (el_tag e) = true -> idTag (el_tag e') = true -> attr e "id" = Some i -> attr e' "id" = Some i -> n = m.
Lemma ident_idt e e' i : ident e' = ident e -> idTag (el_tag e') = true -> attr e' "id" = Some i -> idTag (el_tag e) = true /\ attr e "id" = Some i.
Proof. intros Hi Ht Ha. assert (Ht' : idTag (el_tag e) = true) by (by rewrite <- (ident_tag _ _ Hi)). split; [done|]. rewrite <- (ident_attr _ _ _ Hi); [done|]. intros Hd. rewrite Hd in Ht'. discriminate Ht'. Qed.
Lemma uqi_step X s s' : lf X s s' -> cinv s' -> p_order s' = p_order s -> ordOk s -> p_unique s ⊆ p_unique s' -> uqi s -> uqi s'.
Proof.
  intros L C' Eo O HU [U1 U2].
  assert (B : forall n e' i, p_cache s' !! n = Some e' -> idTag (el_tag e') = true -> attr e' "id" = Some i -> exists e, p_cache s !! n = Some e /\ idTag (el_tag e) = true /\ attr e "id" = Some i).
  { intros n e' i He Ht Ha. destruct (C' _ _ He) as (_ & _ & Hin). rewrite Eo in Hin. destruct (lf_back _ _ _ _ _ L He (O _ Hin)) as (e & He0 & Hi). exists e. split; [done|]. by eapply ident_idt. }
  split.
  - intros n e' i He Ht Ha. destruct (B _ _ _ He Ht Ha) as (e & X1 & X2 & X3). apply HU. by eapply U1.
  - intros n m e e' i He He' Ht Ht' Ha Ha'. destruct (B _ _ _ He Ht Ha) as (e1 & X1 & X2 & X3). destruct (B _ _ _ He' Ht' Ha') as (e2 & Y1 & Y2 & Y3). by eapply U2.
Qed.
Lemma uqi_same s s' : p_cache s' = p_cache s -> p_unique s ⊆ p_unique s' -> uqi s -> uqi s'.
Proof. intros E HU [U1 U2]. unfold uqi. rewrite E. split; [|done]. intros n e i He Ht Ha. apply HU. by eapply U1. Qed.
Lemma import_uqi E go e s : cinv s -> ordOk s -> uqi s ->
  (forall up y s', cinv s' -> Par s' up -> pw (go up y) (fun _ s2 => post s' s2 /\ lfp up s' s2) s') ->
  (forall up y s', cinv s' -> Par s' up -> ordOk s' -> uqi s' -> pw (go up y) (fun _ s2 => uqi s2) s') ->
  pw (pushImport E go e) (fun _ s' => uqi s' /\ ordOk s') s.
Proof.
  intros C O U Hgo Huq. unfold pushImport. p1. p1. p1. p1. p1. p1. p1. p1. cbv zeta. p1. p1. p1. p1.
  match goal with |- pw _ _ ?x => set (s1 := x) end. assert (P1 : post s s1) by (apply quiet_post; [done|by apply quiet_simple|done|done]).
  p1. p1. p1. eapply pw_mono; [apply check_post, P1|]. intros r1 s2 [P2 K2]. p1. p1. p1. eapply pw_mono; [apply check_post, P2|]. intros r2 s3 [P3 K3].
  p1. p1. p1. p1. p1. match goal with |- pw _ _ ?x => set (s4 := x) end.
  assert (P4 : post s3 s4). { apply quiet_post; [apply P3| |done|done]. split; [|done]. split; cbn; [lia|done|]. intros nn. by destruct (p_cache s3 !! nn). }
  assert (Pr : Par s4 (Some (p_next s3, "head"))).
  { intros nn t [= <- <-]. split; [cbn; lia|]. intros e0 He0. cbn in He0. destruct (po_c _ _ P3 _ _ He0) as [Hlt _]. lia. }
  assert (U4 : uqi s4 /\ ordOk s4). { destruct (ck_state _ _ _ _ _ _ _ K2) as [g2 E2]. destruct (ck_state _ _ _ _ _ _ _ K3) as [g3 E3]. unfold s4. rewrite E3, E2. split; [apply (uqi_same s); [done|cbn; set_solver|exact U]|]. intros n' Hn'. cbn in *. specialize (O _ Hn'). lia. }
  eapply (pw_mono _ (fun _ s' => cinv s' /\ Par s' (Some (p_next s3, "head")) /\ uqi s' /\ ordOk s')).
  - apply pw_each_inv; [split; [apply P4|done]|]. intros y s5 Hy (C5 & Pr5 & U5 & O5). eapply pw_mono; [apply pw_conj; [by apply Hgo|by apply Huq]|].
    intros [] s6 [[P6 [L6 _]] U6]. split; [apply P6|]. split; [eapply Par_ext; [apply P6|done]|]. split; [done|]. by eapply ordOk_lf.
  - intros [] s5 (_ & _ & U5 & O5). p1. p1. p1. split; [by apply (uqi_same s5)|]. exact O5.
Qed.
Lemma import_idtag t sy : synOf t = Some sy -> sy_push sy = PuImport -> idTag t <> true.
Proof. intros E Hp Ht. destruct (idTag_syn _ _ E Ht) as (H & _). done. Qed.
Lemma process_uqi E k : forall up x s, cinv s -> Par s up -> ordOk s -> uqi s -> pw (processNode E k up x) (fun _ s' => uqi s') s.
Proof.
  induction k as [|k IH]; intros up x s C Hp O U; [apply pw_nofuel|]. apply process_rule2; [done|done|]. intros sy attrs s1 K1 Hn.
  destruct (checked_fresh _ _ _ _ _ _ _ K1) as (_ & Hn2 & Hc & Ho2 & Hcn2 & _ & _ & Ha2). rewrite Hn in *.
  assert (Q2 : post s (p_set_next (Pos.succ (p_next s)) s1)).
  { destruct (ck_state _ _ _ _ _ _ _ K1) as [g ->]. apply quiet_post; [done| |cbn; set_solver|done]. split; [|done]. split; cbn; [lia|done|]. intros nn. by destruct (p_cache s !! nn). }
  assert (G1 : grows s (p_set_next (Pos.succ (p_next s)) s1)) by (rewrite <- Hn at 1; exact (checked_grows _ _ _ _ _ _ _ K1)).
  set (s2 := p_set_next _ _) in *. set (e0 := newElt _ _ _ _) in *.
  eapply (pw_mono _ (fun e s3 => p_unique s2 ⊆ p_unique s3 /\ el_node e = p_next s /\ el_tag e = x_tag x /\ (sy_push sy = PuImport -> uqi s3))).
  { eapply pw_mono; [apply pw_conj; [apply (grows_push E (processNode E k)); intros up' x' s'; eapply pw_mono; [apply process_ids|]; intros [] s'' (J1 & J2 & _); by split|apply pw_conj; [apply (push_shape E (pushImport E (processNode E k))); intros; apply import_shape|]]|].
    - instantiate (1 := fun _ s3 => sy_push sy = PuImport -> uqi s3). assert (D : sy_push sy = PuImport \/ sy_push sy <> PuImport) by (destruct (sy_push sy); (by left) || by right). destruct D as [D|D]; [|eapply pw_mono; [apply pw_top|]; done].
      rewrite D. cbn [push]. eapply pw_mono; [apply import_uqi|].
      + apply Q2.
      + intros m Hm. rewrite Ho2 in Hm. specialize (O _ Hm). lia.
      + eapply uqi_same; [exact Hc|apply G1|done].
      + intros up' y s' C' Hp'. eapply pw_mono; [apply pw_conj; [by apply process_post|by apply process_lf]|]. intros [] s3 [[P _] L]. done.
      + intros up' y s' C' Hp' O' U'. by apply IH.
      + intros e s3 [U3 _] _. exact U3.
    - intros e s3 [[_ G3] [(T1 & T2 & _) U3]]. done. }
  intros e s3 (G3 & N3 & T3 & U3). cbv beta. eapply (pw_mono _ (fun _ s4 => p_unique s4 = p_unique s3 /\ (sy_push sy = PuImport -> uqi s4))).
  { destruct (sy_cache sy); cbn [pwhen]; [|by p1]. unfold cacheAdd. p1. p1. p1. p1. p1. split; [done|]. intros Hi. destruct (U3 Hi) as [V1 V2]. pose proof (import_idtag _ _ (ck_syn _ _ _ _ _ _ _ K1) Hi) as Hnt. rewrite <- T3 in Hnt. split; cbn.
    - intros m em i. destruct (decide (el_node e = m)) as [<-|Hne]; [rewrite lookup_insert; intros [= <-]; done|rewrite lookup_insert_ne by done; apply V1].
    - intros m m' em em' i. destruct (decide (el_node e = m)) as [<-|Hne]; [rewrite lookup_insert; intros [= <-]; done|rewrite lookup_insert_ne by done]. destruct (decide (el_node e = m')) as [<-|Hne']; [rewrite lookup_insert; intros _ [= <-]; done|rewrite lookup_insert_ne by done; apply V2]. }
  intros [] s4 [G4 U4] P4 Pr4 M4. cbv beta in *.
  assert (O4 : ordOk s4) by (eapply ordOk_lf; [apply M4|done]).
  assert (HU : p_unique s1 ⊆ p_unique s4) by (rewrite G4; exact G3). assert (HU0 : p_unique s ⊆ p_unique s4) by (etransitivity; [apply G1|exact HU]).
  assert (U4' : uqi s4).
  { assert (D : sy_push sy = PuImport \/ sy_push sy <> PuImport) by (destruct (sy_push sy); (by left) || by right). destruct D as [D|D]; [by apply U4|]. clear U4 U3. destruct U as [U1 U2].
    assert (B : forall n e' i, p_cache s4 !! n = Some e' -> idTag (el_tag e') = true -> attr e' "id" = Some i -> (exists e, p_cache s !! n = Some e /\ idTag (el_tag e) = true /\ attr e "id" = Some i /\ i ∈ p_unique s) \/ (n = p_next s /\ i ∉ p_unique s /\ i ∈ p_unique s4)).
    { intros n e' i He Ht Ha. destruct (po_c _ _ P4 _ _ He) as (_ & _ & Hin). rewrite (mi_order _ _ _ _ _ _ _ M4 D) in Hin. apply elem_of_app in Hin as [Hin|Hin].
      - left. destruct (lf_back _ _ _ _ _ (mi_lf _ _ _ _ _ _ _ M4) He (O _ Hin)) as (e1 & He0 & Hi). exists e1. split; [done|]. destruct (ident_idt _ _ _ Hi Ht Ha) as [X1 X2]. split; [done|]. split; [done|]. by eapply U1.
      - right. destruct (sy_cache sy) eqn:Ec; [|by apply elem_of_nil in Hin]. apply elem_of_list_singleton in Hin as ->. destruct (mi_elt _ _ _ _ _ _ _ M4 Ec) as (X1 & X2 & X3). assert (e' = e) as -> by congruence. split; [done|].
        assert (Hx : idTag (x_tag x) = true) by congruence. destruct (idTag_syn _ _ (ck_syn _ _ _ _ _ _ _ K1) Hx) as (Z1 & Z2 & Z3). unfold attr in Ha. rewrite X3 in Ha by done. destruct (checked_id _ _ _ _ _ _ _ K1 Z3 Ha) as [Y1 Y2]. split; [done|]. by apply HU. }
    split.
    - intros n e' i He Ht Ha. destruct (B _ _ _ He Ht Ha) as [(e1 & X1 & X2 & X3 & X4)|(X1 & X2 & X3)]; [by apply HU0|done].
    - intros n m e1 e2 i He He' Ht Ht' Ha Ha'. destruct (B _ _ _ He Ht Ha) as [(f1 & X1 & X2 & X3 & X4)|(X1 & X2 & X3)]; destruct (B _ _ _ He' Ht' Ha') as [(f2 & Y1 & Y2 & Y3 & Y4)|(Y1 & Y2 & Y3)]; [by eapply U2|done|done|congruence]. }
  eapply pw_mono; [apply (kids_rule E k _ _ _ s4 (fun _ s' => cinv s' /\ ordOk s' /\ uqi s')); [apply P4|done| |]|].
  - split; [apply P4|]. done.
  - intros y l' s' _ C' Hp' (_ & O' & U'). eapply pw_mono; [apply pw_conj; [by apply process_post|apply pw_conj; [by apply process_lf|by apply IH]]|]. intros [] s'' [[P'' _] [[L'' _] H'']]. split; [apply P''|]. split; [by eapply ordOk_lf|done].
  - intros [] s5 (C5 & O5 & U5). cbv beta in *. eapply pw_mono; [apply pw_conj; [by apply pop_good|apply pw_conj; [by apply pop_lf|apply pw_conj; [apply kw_pop|apply keep_pop]]]|]. intros [] s6 [[P6 _] [[L6 _] [O6 F6]]]. eapply uqi_step; [exact L6|apply P6|exact O6|exact O5| |exact U5]. by rewrite (fr_unique _ _ F6).
Qed.

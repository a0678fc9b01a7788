(** ParserWhole.v -- the invariant holds while a document is parsed. *)
From Verif Require Import BuildInv BuildOps BuildSpec BuildFacts.
From Verif Require Export ParserCache.
Open Scope string_scope.
Open Scope list_scope.

Definition good (s : pst) : Prop := OddOr (fun s => pinv (p_unique s) None [] s) s.
Record post (s s' : pst) : Prop := mkPost { po_c : cinv s'; po_x : ext s s'; po_g : good s -> good s' }.
Lemma post_refl s : cinv s -> post s s. Proof. intros C. split; [done|apply ext_refl|done]. Qed.
Lemma post_trans a b c : post a b -> post b c -> post a c.
Proof. intros [] []. split; [done|by eapply ext_trans|auto]. Qed.
Lemma quiet_post s s' : cinv s -> quiet s s' -> p_unique s ⊆ p_unique s' -> (p_odd s = true -> p_odd s' = true) -> post s s'.
Proof.
  intros C Q U O. pose proof Q as [F _]. split; [by eapply cfr_cinv| |].
  - split; [apply F| |done]. intros n e' _ He. destruct (cfr_bwd _ _ _ _ F He) as (e & H & T & _). eauto.
  - intros [H|H]; [left; auto|right]. eapply pinv_mono; [exact U|]. by eapply pinv_quiet.
Qed.
Lemma quiet_simple s s' : p_next s' = p_next s -> p_order s' = p_order s -> p_cache s' = p_cache s -> p_graph s' = p_graph s -> p_refer s' = p_refer s -> quiet s s'.
Proof. apply quiet_mod. Qed.
Lemma check_post collect up x s : cinv s -> pw (checkNode collect up x) (fun r s' => post s s' /\ checked collect up x s (fst r) (snd r) s') s.
Proof.
  intros C. eapply pw_mono; [apply checkNode_ok|]. intros [sy attrs] s' K. cbn [fst snd] in *. split; [|done]. destruct (ck_state _ _ _ _ _ _ _ K) as [n ->].
  apply quiet_post; [done|by apply quiet_simple| |done]. cbn. set_solver.
Qed.
Lemma import_post E go e s : cinv s -> (forall up y s', cinv s' -> Par s' up -> pw (go up y) (fun _ s2 => post s' s2) s') -> pw (pushImport E go e) (fun _ s' => post s s') s.
Proof.
  intros C Hgo. unfold pushImport. p1. p1. p1. p1. p1. p1. p1. p1. cbv zeta. p1. p1. p1. p1.
  match goal with |- pw _ _ ?x => set (s1 := x) end. assert (P1 : post s s1) by (apply quiet_post; [done|by apply quiet_simple|done|done]).
  p1. p1. p1. eapply pw_mono; [apply check_post, P1|]. intros r1 s2 [P2 _]. p1. p1. p1. eapply pw_mono; [apply check_post, P2|]. intros r2 s3 [P3 _].
  p1. p1. p1. p1. p1. match goal with |- pw _ _ ?x => set (s4 := x) end.
  assert (P4 : post s3 s4). { apply quiet_post; [apply P3| |done|done]. split; [|done]. split; cbn; [lia|done|]. intros nn. by destruct (p_cache s3 !! nn). }
  assert (Pr : Par s4 (Some (p_next s3, "head"))).
  { intros nn t [= <- <-]. split; [cbn; lia|]. intros e0 He0. cbn in He0. destruct (po_c _ _ P3 _ _ He0) as [Hlt _]. lia. }
  eapply (pw_mono _ (fun _ s' => post s4 s')).
  - apply pw_each_inv; [apply post_refl, P4|]. intros y s5 _ P5. eapply pw_mono; [apply Hgo; [apply P5|eapply Par_ext; [apply P5|exact Pr]]|]. intros [] s6 P6. by eapply post_trans.
  - intros [] s5 P5. p1. p1. p1. match goal with |- post _ ?x => set (s6 := x) end.
    assert (P6 : post s5 s6) by (apply quiet_post; [apply P5|by apply quiet_simple|done|done]). repeat (eapply post_trans; [eassumption|]). by apply post_refl, P6.
Qed.
Lemma gq_pinv U s s' : pinv U None [] s -> cfr s s' -> gg s s' -> pinv U None [] s'.
Proof. intros I F [G R]. eapply pinv_gq; [exact I|]. by split. Qed.
#[local] Instance pushk_eq : EqDecision pushk. Proof. solve_decision. Defined.
Definition pendOf (p : pushk) (e : elt) : option smapT := match p with PuMedia => Some (el_attrs e) | _ => None end.
Lemma push_imp E imp imp' p e : p <> PuImport -> push E imp p e = push E imp' p e. Proof. by destruct p. Qed.
Lemma push_good E go p e up U s : cinv s -> Par s up -> el_up e = option_map fst up -> (p = PuDescParam -> exists n, up = Some (n, "descriptor")) -> U ⊆ p_unique s ->
  (comp p = true -> forall i, attr e "id" = Some i -> i ∉ U /\ i ∈ p_unique s) ->
  (forall up y s', cinv s' -> Par s' up -> pw (go up y) (fun _ s2 => post s' s2) s') ->
  pw (push E (pushImport E go) p e) (fun _ s' => cinv s' /\ ext s s' /\ (OddOr (fun s => pinv U None [] s) s -> OddOr (fun s' => pinv (p_unique s') (pendOf p e) [] s') s')) s.
Proof.
  intros C Hp Hup Hd HU Hi Hgo. destruct (decide (p = PuImport)) as [->|Hni].
  { cbn [push]. eapply pw_mono; [by apply import_post|]. intros e' s' [P1 P2 P3]. split; [done|]. split; [done|]. intros H. apply P3. destruct H as [H|H]; [by left|right; by eapply pinv_mono]. }
  rewrite (push_imp E _ (fun e => pret e) p e Hni). set (imp := fun e : elt => pret e).
  assert (Kf : keep (push E imp p e)) by (apply keep_push; intros e0 s0; apply pw_ret, fr_refl).
  assert (Core : pw (push E imp p e) (fun _ s' => cfr s s' /\ (pinv U None [] s -> OddOr (fun s' => pinv (p_unique s) (pendOf p e) [] s') s')) s).
  { destruct (decide (p = PuDescParam)) as [->|Hnd].
    - cbn [push]. unfold pushDescParam. p1. p1. p1. p1. p1. apply pw_parent. intros n d Hn Hd0. p1. apply pw_eupd. intros d' Hd'. p1.
      assert (el_tag d <> "media") as Ht. { destruct (Hd eq_refl) as [m ->]. rewrite Hup in Hn. injection Hn as <-. destruct (Hp _ _ eq_refl) as [_ H']. by rewrite (H' _ Hd0). }
      destruct (C _ _ Hd0) as (_ & En & _). rewrite En in Hd'. assert (d' = d) as -> by congruence.
      match goal with |- cfr s ?x /\ _ => assert (Q : quiet s x) end.
      { split; [|done]. apply (cfr_upd s _ d (fun x => el_set_attrs (sset a a0 (el_attrs x)) x)); [by rewrite En|]. split; [done|]. split; [done|]. done. }
      split; [apply Q|]. intros I. right. eapply pinv_quiet; [|exact Q]. by eapply pinv_mono.
    - assert (Kc : kc (push E imp p e)) by (apply kc_push; by destruct p).
      destruct (quietPush p) eqn:Eq.
      { eapply pw_mono; [apply (kq_push E imp p e Eq)|]. intros e' s' Q. split; [apply Q|]. intros I. right. replace (pendOf p e) with (@None smapT) by (by destruct p). eapply pinv_quiet; [|exact Q]. by eapply pinv_mono. }
      apply pw_conj; [apply Kc|]. 
      destruct (decide (p = PuArea \/ p = PuProperty)) as [Hap|Hap].
      { assert (Kg : kg (push E imp p e)) by (destruct Hap; subst p; [apply kg_area|apply kg_property]). assert (pendOf p e = None) as -> by (by destruct Hap; subst p).
        assert (D : p_odd s = true \/ p_odd s = false) by (destruct (p_odd s); auto).
        unfold pw. destruct (push E imp p e s) as [e' s'| | |] eqn:Em; try done. intros I. right.
        pose proof (pw_ok _ _ _ _ _ (Kc s) Em) as F. pose proof (pw_ok _ _ _ _ _ (Kg s (pi_g _ _ _ _ I)) Em) as G. eapply gq_pinv; [|exact F|exact G]. by eapply pinv_mono. }
      unfold pw. destruct (push E imp p e s) as [e' s'| | |] eqn:Em; try done. intros I.
      destruct p; try discriminate Eq; try done; try (by destruct Hap; auto); cbn [push pendOf] in *.
      + right. exact (pw_ok _ _ _ _ _ (push_ncl U (p_unique s) e s I HU (Hi eq_refl)) Em).
      + right. exact (pw_ok _ _ _ _ _ (push_context U (p_unique s) e s I HU (Hi eq_refl)) Em).
      + right. exact (pw_ok _ _ _ _ _ (push_switch U (p_unique s) e s I HU (Hi eq_refl)) Em).
      + exact (pw_ok _ _ _ _ _ (push_media E U (p_unique s) e s I HU (Hi eq_refl)) Em). }
  eapply pw_mono; [apply pw_conj; [exact Core|apply Kf]|]. intros e' s' [[F H] K]. cbv beta in *. split; [by eapply cfr_cinv|]. split; [by apply cfr_ext|].
  intros [Ho|I]; [left; by apply (fr_odd _ _ K)|]. destruct (H I) as [H1|H1]; [by left|right]. rewrite (fr_unique _ _ K). exact H1.
Qed.
Lemma pop_good E k p n s : cinv s -> pw (pop E k p n) (fun _ s' => post s s' /\ (p = PoNcl -> resolved s')) s.
Proof.
  intros C. assert (Kf : keep (pop E k p n)) by apply keep_pop.
  assert (H : pw (pop E k p n) (fun _ s' => cfr s s' /\ (p = PoNcl -> resolved s')) s).
  { destruct p; try (eapply pw_mono; [apply kc_pop; discriminate|]; intros [] s' F; split; [exact F|discriminate]).
    cbn [pop]. eapply pw_mono; [by apply popNcl_cache|]. intros [] s' [[F _] R]. done. }
  assert (G : GInv (p_graph s) -> pw (pop E k p n) (fun _ s' => gg s s') s).
  { intros I. destruct (quietPop p) eqn:Eq; [eapply pw_mono; [apply kq_pop; exact Eq|]; intros [] s' Q; by apply gg_quiet|]. destruct p; try discriminate Eq; cbn [pop]; [|by apply kg_popContext|by apply kg_popSwitch].
    unfold popNcl. cbv zeta. p1. p1. p1. eapply (pw_mono _ (fun _ s' => quiet s s')).
    { apply pw_each_inv; [apply quiet_refl|]. intros d s1 Hd Q. destruct (tagged_node _ _ _ C Hd) as (e & He & Ht). eapply pw_mono; [apply quiet_descriptor|].
      - eapply notMedia_cfr; [apply Q|]. intros e' He'. assert (e' = e) as -> by congruence. by rewrite Ht.
      - intros [] s2 Q2. by eapply quiet_trans. }
    intros [] s1 Q1. assert (G1 : gg s s1) by (by apply gg_quiet).
    match goal with |- pw ?m _ _ => assert (K : kg m) end.
    { repeat first [progress intros|apply kg_media|apply kg_switch|apply kg_link|solve [apply kq_kg; kqt]|apply kg_each|apply kg_bind]. }
    eapply pw_mono; [exact (K s1 (gg_inv _ _ G1))|]. intros [] s2 G2. by eapply gg_trans. }
  unfold pw in *. specialize (Kf s). unfold pw in Kf. destruct (pop E k p n s) as [[] s'| | |]; try done. destruct H as [F R]. split; [|done].
  split; [by eapply cfr_cinv|by apply cfr_ext|]. intros [Ho|I]; [left; by apply (fr_odd _ _ Kf)|]. right. rewrite (fr_unique _ _ Kf). eapply gq_pinv; [exact I|exact F|]. apply G, I.
Qed.
Lemma cache_good e s (U : list string) (pend : option smapT) : cinv s -> (el_node e < p_next s)%positive -> p_cache s !! el_node e = None -> (el_tag e = "media" -> pend = Some (el_attrs e)) -> (el_tag e <> "media" -> pend = None) ->
  pw (cacheAdd e) (fun _ s' => cinv s' /\ p_next s' = p_next s /\ p_cache s' = <[el_node e := e]> (p_cache s) /\ p_odd s' = p_odd s /\ p_unique s' = p_unique s /\ (pinv U pend [] s -> pinv U None [] s')) s.
Proof.
  intros C Hlt Hno Hm Hm'. unfold cacheAdd. p1. p1. p1. p1. p1. split; [|split; [done|split; [done|split; [done|split; [done|]]]]].
  - intros n e'. cbn [p_cache p_set_order p_set_cache p_order p_next]. destruct (decide (n = el_node e)) as [->|Hne].
    + rewrite lookup_insert. intros [= <-]. split; [done|]. split; [done|]. apply elem_of_app. right. constructor.
    + rewrite lookup_insert_ne by done. intros He. destruct (C _ _ He) as (A & B & D). split; [done|]. split; [done|]. apply elem_of_app. by left.
  - intros I. eapply pinv_cache; [exact I|done|done|done|done|done|done].
Qed.
(** From the check of an element to its children. *)
Lemma process_mid E go up x s sy attrs s1 : cinv s -> Par s up -> post s s1 -> checked true (option_map snd up) x s sy attrs s1 ->
  (forall up y s', cinv s' -> Par s' up -> pw (go up y) (fun _ s2 => post s' s2) s') ->
  pw (push E (pushImport E go) (sy_push sy) (newElt (x_tag x) (p_next s1) (option_map fst up) attrs))
    (fun e s3 => pw (pwhen (sy_cache sy) (cacheAdd e)) (fun _ s4 => post s s4 /\ Par s4 (Some (p_next s1, x_tag x))) s3) (p_set_next (Pos.succ (p_next s1)) s1).
Proof.
  intros C Hp P1 K1 Hgo.
  set (n := p_next s1). set (s2 := p_set_next (Pos.succ n) s1). cbv beta.
  assert (P2 : post s1 s2). { apply quiet_post; [apply P1| |done|done]. split; [|done]. split; cbn; [lia|done|]. intros m. by destruct (p_cache s1 !! m). }
  set (e := newElt (x_tag x) n (option_map fst up) attrs).
  assert (Hn1 : p_cache s1 !! n = None). { destruct (p_cache s1 !! n) as [e0|] eqn:E0; [|done]. destruct (po_c _ _ P1 _ _ E0) as [Hlt _]. unfold n in Hlt. lia. }
  assert (Hnext : n = p_next s).
  { unfold n. destruct (ck_state _ _ _ _ _ _ _ K1) as [g ->]. done. }
  eapply pw_mono.
  { apply pw_conj; [apply (push_shape E (pushImport E (go)) (sy_push sy) e s2); intros; apply import_shape|].
    apply (push_good E (go) (sy_push sy) e up (p_unique s) s2).
    - apply P2.
    - eapply Par_ext; [apply P2|]. eapply Par_ext; [apply P1|done].
    - done.
    - intros Hd. pose proof (syn_desc _ _ (ck_syn _ _ _ _ _ _ _ K1) Hd) as Hpar. destruct (ck_up _ _ _ _ _ _ _ K1) as [H|(u & Hu & Hin)]; [congruence|]. rewrite Hpar in Hin. apply elem_of_list_singleton in Hin as ->.
      destruct up as [[m t]|]; [|done]. cbn in Hu. injection Hu as ->. by exists m.
    - change (p_unique s2) with (p_unique s1). destruct (ck_state _ _ _ _ _ _ _ K1) as [g ->]. cbn. set_solver.
    - intros Hc i Hi. destruct (syn_comp _ _ (ck_syn _ _ _ _ _ _ _ K1) Hc) as [Hg _]. exact (checked_id _ _ _ _ _ _ _ K1 Hg Hi).
    - exact Hgo. }
  intros e' s3 ((T1 & T2 & T3) & C3 & X3 & G3). cbv beta in *.
  assert (I2 : good s -> OddOr (fun s => pinv (p_unique s) None [] s) s1 /\ OddOr (fun s' => pinv (p_unique s) None [] s') s2).
  { intros G. pose proof (po_g _ _ P1 G) as G1. split; [done|]. destruct G as [G|G]; [left; apply (ex_odd _ _ (po_x _ _ P2)), (ex_odd _ _ (po_x _ _ P1)), G|right].
    eapply (pinv_quiet _ _ _ s); [exact G|]. destruct (ck_state _ _ _ _ _ _ _ K1) as [g Eg]. unfold s2. rewrite Eg. split; [|done]. split; cbn; [|done|].
    - rewrite Hnext. lia.
    - intros m. by destruct (p_cache s !! m). }
  assert (Hn3 : p_cache s3 !! n = None).
  { destruct (p_cache s3 !! n) as [e0|] eqn:E0; [|done]. destruct (ex_tag _ _ X3 n e0 ltac:(cbn; lia) E0) as (e1 & H1 & _). cbn in H1. congruence. }
  assert (Hl3 : (n < p_next s3)%positive) by (pose proof (ex_next _ _ X3) as Hx; cbn in Hx; lia).
  pose proof (syn_media _ _ (ck_syn _ _ _ _ _ _ _ K1)) as Hmed.
  assert (PP : forall s4, post s s4 /\ (n < p_next s4)%positive /\ (forall e0, p_cache s4 !! n = Some e0 -> el_tag e0 = x_tag x) -> post s s4 /\ Par s4 (Some (n, x_tag x))).
  { intros s4 (H1 & H2 & H3). split; [done|]. intros m t [= <- <-]. done. }
  eapply (pw_mono _ (fun _ s4 => post s s4 /\ (n < p_next s4)%positive /\ forall e0, p_cache s4 !! n = Some e0 -> el_tag e0 = x_tag x)); [|intros [] s4 H4; exact (PP s4 H4)].
  { destruct (sy_cache sy) eqn:Ec.
    - cbn [pwhen]. eapply pw_mono; [apply (cache_good e' s3 (p_unique s3) (pendOf (sy_push sy) e) C3)|].
      + by rewrite T2.
      + by rewrite T2.
      + intros Ht. rewrite T1 in Ht. cbn in Ht. pose proof (proj1 Hmed Ht) as Hpm. rewrite T3 by congruence. by rewrite Hpm.
      + intros Ht. rewrite T1 in Ht. cbn in Ht. unfold pendOf. destruct (sy_push sy); try done. exfalso. apply Ht. by apply Hmed.
      + intros [] s4 (C4 & N4 & Ca4 & O4 & U4 & I4). split; [split|].
        * done.
        * split; [rewrite N4, <- Hnext in *; lia| |rewrite O4; intros Ho; apply (ex_odd _ _ X3), (ex_odd _ _ (po_x _ _ P2)), (ex_odd _ _ (po_x _ _ P1)), Ho].
          intros m e4 Hm He. rewrite Ca4, T2, lookup_insert_ne in He by (cbn; lia). destruct (ex_tag _ _ X3 m e4 ltac:(cbn; lia) He) as (e5 & H5 & T5).
          destruct (ex_tag _ _ (po_x _ _ P1) m e5 Hm H5) as (e6 & H6 & T6). exists e6. split; [done|congruence].
        * intros G. destruct (G3 (proj2 (I2 G))) as [Ho|I3]; [left; by rewrite O4|]. right. rewrite U4. auto.
        * split; [by rewrite N4|]. intros e0 He0. rewrite Ca4, T2 in He0. cbn in He0. rewrite lookup_insert in He0. injection He0 as <-. by rewrite T1.
    - cbn [pwhen]. p1. split; [split|].
      + done.
      + eapply ext_trans; [apply P1|]. eapply ext_trans; [apply P2|]. done.
      + intros G. destruct (G3 (proj2 (I2 G))) as [Ho|I3]; [by left|]. right. replace (pendOf (sy_push sy) e) with (@None smapT) in I3; [done|].
        unfold pendOf. destruct (sy_push sy) eqn:Ep; try done. destruct (syn_comp _ _ (ck_syn _ _ _ _ _ _ _ K1)) as [_ Hc]; [by rewrite Ep|]. rewrite (Hc Ep) in Ec. done.
      + split; [done|]. intros e0 He0. congruence. }
Qed.
Lemma process_post E k : forall up x s, cinv s -> Par s up -> pw (processNode E k up x) (fun _ s' => post s s' /\ (x_tag x = "ncl" -> resolved s')) s.
Proof.
  induction k as [|k IH]; intros up x s C Hp; cbn [processNode]; [apply pw_nofuel|].
  p1. eapply pw_mono; [by apply check_post|]. intros [sy attrs] s1 [P1 K1]. cbn [fst snd] in *. p1. p1. cbv beta.
  p1. eapply pw_mono; [apply (process_mid E (processNode E k) up x s sy attrs s1 C Hp P1 K1)|].
  { intros up' y s' C' Hp'. eapply pw_mono; [by apply IH|]. intros [] s'' [H _]. exact H. }
  intros e s3 H3. cbv beta in *. p1. eapply pw_mono; [exact H3|]. intros [] s4 [P4 Pr].
  p1. eapply (pw_mono _ (fun _ s' => post s4 s')).
  - apply pw_each_inv; [apply post_refl, P4|]. intros y s5 _ P5. eapply pw_mono; [apply IH; [apply P5|eapply Par_ext; [apply P5|exact Pr]]|]. intros [] s6 [P6 _]. by eapply post_trans.
  - intros [] s5 P5. eapply pw_mono; [apply pop_good, P5|]. intros [] s6 [P6 R6]. split; [|intros Hx; apply R6; by apply (syn_ncl _ _ (ck_syn _ _ _ _ _ _ _ K1))].
    eapply post_trans; [exact P4|]. by eapply post_trans.
Qed.
(** The steps of processing an element, with what holds meanwhile. *)
Lemma process_rule E k up x s (Q : unit -> pst -> Prop) : cinv s -> Par s up ->
  (forall sy attrs s1, checked true (option_map snd up) x s sy attrs s1 ->
     pw (push E (pushImport E (processNode E k)) (sy_push sy) (newElt (x_tag x) (p_next s1) (option_map fst up) attrs))
       (fun e s3 => pw (pwhen (sy_cache sy) (cacheAdd e)) (fun _ s4 => post s s4 -> Par s4 (Some (p_next s1, x_tag x)) ->
          pw (peach (processNode E k (Some (p_next s1, x_tag x))) (x_kids x)) (fun _ s5 => pw (pop E (S k) (sy_pop sy) (p_next s1)) Q s5) s4) s3)
       (p_set_next (Pos.succ (p_next s1)) s1)) ->
  pw (processNode E (S k) up x) Q s.
Proof.
  intros C Hp H. cbn [processNode]. p1. eapply pw_mono; [by apply check_post|]. intros [sy attrs] s1 [P1 K1]. cbn [fst snd] in *. p1. p1. cbv beta.
  p1. eapply pw_mono; [apply pw_conj; [apply (process_mid E (processNode E k) up x s sy attrs s1 C Hp P1 K1)|exact (H sy attrs s1 K1)]|].
  { intros up' y s' C' Hp'. eapply pw_mono; [by apply process_post|]. intros [] s'' [H' _]. exact H'. }
  intros e s3 [A B]. cbv beta in *. p1. eapply pw_mono; [apply pw_conj; [exact A|exact B]|]. intros [] s4 [[P4 Pr] G]. p1. exact (G P4 Pr).
Qed.
(** Its children, one after the other. *)
Lemma kids_rule E k n t l s (I : list xml -> pst -> Prop) : cinv s -> Par s (Some (n, t)) -> I l s ->
  (forall y l' s', (exists p, l = p ++ y :: l') -> cinv s' -> Par s' (Some (n, t)) -> I (y :: l') s' -> pw (processNode E k (Some (n, t)) y) (fun _ => I l') s') ->
  pw (peach (processNode E k (Some (n, t))) l) (fun _ => I []) s.
Proof.
  intros C Hp HI Hs. apply (pw_each _ l (fun l' s' => (cinv s' /\ Par s' (Some (n, t))) /\ I l' s')); [done| |by intros s' [_ H]].
  intros y l' s' Hl ((C' & Hp') & HI'). eapply pw_mono; [apply pw_conj; [by apply process_post|by apply Hs]|]. intros [] s2 [[P _] H2]. split; [|done]. split; [apply P|]. by eapply Par_ext; [apply P|].
Qed.

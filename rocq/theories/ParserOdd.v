(** ParserOdd.v -- which documents use the settings object in the odd ways of
    Parser.cpp:3914-3935. *)
From Verif Require Export ParserEnd.
Open Scope string_scope.
Open Scope list_scope.

Definition os (s s' : pst) : Prop := p_odd s' = p_odd s /\ p_refer s' = p_refer s.
#[global] Instance pre_os : ParserQuiet.preorder os. Proof. split; [done|]. intros a b c [A B] [C D]. split; congruence. Qed.
Notation ko := (kr os).
Lemma ko_lift {A} (m : MG A) : ko (lift m). Proof. intros s. by apply pw_lift_any. Qed.
Lemma ko_eupd n f : ko (eupd n f). Proof. intros s. by apply pw_eupd. Qed.
Lemma ko_alloc : ko palloc. Proof. intros s. by apply pw_alloc. Qed.
Lemma ko_mod f : (forall s, os s (f s)) -> ko (pmod f). Proof. intros H s. by apply pw_mod. Qed.
Create HintDb kos.
Ltac kot := repeat first
  [ progress intros
  | progress cbv beta
  | solve [eauto with kos nocore]
  | apply ko_alloc | apply ko_eupd | apply ko_lift
  | apply (kr_ret os) | apply (kr_gets os) | apply (kr_fail os) | apply (kr_crash os) | apply (kr_nofuel os) | apply (kr_assert os) | apply (kr_check os)
  | apply (kr_of os) | apply (kr_ofe os) | apply (kr_when os) | apply (kr_cell os) | apply (kr_index os) | apply (kr_parent os) | apply (kr_each os) | apply (kr_map os)
  | apply (kr_bind os)
  | (apply ko_mod; intros; done)
  | match goal with |- kr os (if ?b then _ else _) => destruct b | |- kr os (match ?x with _ => _ end) => destruct x end ].
Lemma ko_peek ok p : ko (peek ok p). Proof. unfold peek. kot. Qed.
Lemma ko_opush o : ko (opush o). Proof. unfold opush. kot. Qed.
Lemma ko_opop : ko opop. Proof. unfold opop. kot. Qed.
Lemma ko_newCell c : ko (newCell c). Proof. unfold newCell. kot. Qed.
Lemma ko_cellAdd p c : ko (cellAdd p c). Proof. unfold cellAdd. kot. Qed.
Lemma ko_full p : ko (full p). Proof. unfold full. kot. Qed.
#[global] Hint Resolve ko_peek ko_opush ko_opop ko_newCell ko_cellAdd ko_full : kos.
Lemma ko_cint z : ko (cint z). Proof. unfold cint. kot. Qed.
#[global] Hint Resolve ko_cint : kos.
Lemma ko_region a b c : ko (regionRect a b c). Proof. unfold regionRect, iadd, isub. cbv zeta. kot. Qed.
Lemma ko_time a b : ko (timeOf a b). Proof. unfold timeOf. kot. Qed.
#[global] Hint Resolve ko_region ko_time : kos.
Lemma ko_component c e : ko (resolveComponent c e). Proof. unfold resolveComponent, pattr. kot. Qed.
#[global] Hint Resolve ko_component : kos.
Lemma ko_interface k c e : ko (resolveInterface k c e).
Proof. revert c e. induction k; intros; cbn [resolveInterface]; unfold pattr, cacheById; kot. Qed.
#[global] Hint Resolve ko_interface : kos.
Lemma ko_readPred k p : ko (readPred k p). Proof. revert p. induction k; intros; cbn [readPred]; kot. Qed.
#[global] Hint Resolve ko_readPred : kos.
Lemma ko_inherited k n acc : ko (inherited k n acc). Proof. revert n acc. induction k; intros; cbn [inherited]; kot. Qed.
#[global] Hint Resolve ko_inherited : kos.
Lemma ko_obtainOne k p : ko (obtainOne k p). Proof. unfold obtainOne, connKids. kot. Qed.
#[global] Hint Resolve ko_obtainOne : kos.
Lemma ko_obtain k p : ko (obtainPredicate k p). Proof. unfold obtainPredicate. kot. Qed.
#[global] Hint Resolve ko_obtain : kos.
Lemma ko_lookupKind a b c : ko (lookupKind a b c). Proof. unfold lookupKind. kot. Qed.
Lemma ko_rulePred k p : ko (rulePred k p). Proof. unfold rulePred. kot. Qed.
Lemma ko_fullId e : ko (fullId e). Proof. unfold fullId. kot. Qed.
#[global] Hint Resolve ko_lookupKind ko_rulePred ko_fullId : kos.
Lemma ko_bindTable k c l acc : ko (bindTable k c l acc). Proof. revert acc. induction l; intros; cbn [bindTable]; kot. Qed.
#[global] Hint Resolve ko_bindTable : kos.
Lemma ko_moveAttr d a : ko (moveAttr d a). Proof. unfold moveAttr. kot. Qed.
#[global] Hint Resolve ko_moveAttr : kos.
Lemma ko_media d : ko (solveMedia d). Proof. unfold solveMedia, pattr, cacheById. kot. Qed.
Lemma ko_switch k d : ko (solveSwitch k d). Proof. unfold solveSwitch, pattr, cacheById, udata. kot. Qed.
Lemma ko_roleAction k c p t g x : ko (roleAction k c p t g x). Proof. unfold roleAction. kot. Qed.
#[global] Hint Resolve ko_media ko_switch ko_roleAction : kos.
Lemma ko_link k d : ko (solveLink k d). Proof. unfold solveLink, pattr, cacheById, udata. cbv zeta. kot. Qed.
Lemma ko_transition E d a : ko (solveTransition E d a). Proof. unfold solveTransition, pattr, cacheById, setAttr. kot. Qed.
#[global] Hint Resolve ko_link ko_transition : kos.
Lemma ko_descriptor E d : ko (solveDescriptor E d). Proof. unfold solveDescriptor, pattr, cacheById, setAttr. kot. Qed.
#[global] Hint Resolve ko_descriptor : kos.
Lemma ko_push E imp p e : p <> PuMedia -> p <> PuImport -> ko (push E imp p e).
Proof.
  intros H H'. destruct p; try done; cbn [push]; unfold pushNcl, pushRegion, pushDescParam, pushConnector, pushCompound, pushSimple, pushStatement, pushAssess, pushRule, pushContext, pushPort, pushSwitch, pushSwitchPort, pushMapping, pushBindRule, pushArea, pushProperty, pushLink, pushLinkParam, pushBind, pushFont, pattr, udata, iadd; cbv zeta; kot.
Qed.
Lemma ko_pop E k p n : ko (pop E k p n).
Proof. destruct p; cbn [pop]; unfold popNcl, popRegion, popConnector, popStatement, popAssess, popContext, popSwitch, popMedia, pattr, udata, cacheById; cbv zeta; kot. Qed.
Lemma ko_cacheAdd e : ko (cacheAdd e). Proof. unfold cacheAdd. kot. Qed.

(** ** The elements below head never touch the map of references. *)
Definition headTags : list string := ["head"; "regionBase"; "region"; "descriptorBase"; "descriptor"; "descriptorParam"; "connectorBase"; "causalConnector"; "connectorParam"; "compoundCondition";
  "simpleCondition"; "compoundAction"; "simpleAction"; "compoundStatement"; "assessmentStatement"; "attributeAssessment"; "valueAssessment"; "ruleBase"; "compositeRule"; "rule";
  "transitionBase"; "transition"; "importBase"; "fontBase"; "font"].
Definition headOk (x : string * syn) : bool :=
  forallb (fun t => negb (mem t headTags) || mem (fst x) headTags) (sy_parents (snd x)) &&
  (negb (mem (fst x) headTags) || match sy_push (snd x) with PuMedia => false | _ => true end) &&
  match sy_push (snd x) with PuImport => forallb (fun t => mem t headTags) (sy_parents (snd x)) && negb (match sy_parents (snd x) with [] => true | _ => false end) | _ => true end.
Lemma headOk_all : forallb headOk syntax = true. Proof. vm_compute. reflexivity. Qed.
Lemma head_child t c : mem t headTags = true -> possibleChild t c = true -> mem c headTags = true.
Proof.
  intros Ht Hc. unfold possibleChild, synOf in Hc. destruct (look c syntax) as [sy|] eqn:E; [|done]. apply look_some in E. apply (forall_elem _ _ _ headOk_all) in E. unfold headOk in E. cbn [fst snd] in E.
  apply andb_true_iff in E as [E _]. apply andb_true_iff in E as [E _]. apply mem_spec in Hc. apply (forall_elem _ _ _ E) in Hc. cbv beta in Hc. by rewrite Ht in Hc.
Qed.
Lemma head_nomedia t sy : synOf t = Some sy -> mem t headTags = true -> sy_push sy <> PuMedia.
Proof.
  intros E Ht Hp. apply look_some in E. apply (forall_elem _ _ _ headOk_all) in E. unfold headOk in E. cbn [fst snd] in E.
  apply andb_true_iff in E as [E _]. apply andb_true_iff in E as [_ E]. by rewrite Ht, Hp in E.
Qed.
Lemma import_parents t sy up : synOf t = Some sy -> sy_push sy = PuImport -> (sy_parents sy = [] \/ exists u, up = Some u /\ u ∈ sy_parents sy) -> exists u, up = Some u /\ mem u headTags = true.
Proof.
  intros E Hp Hu. apply look_some in E. apply (forall_elem _ _ _ headOk_all) in E. unfold headOk in E. cbn [fst snd] in E.
  apply andb_true_iff in E as [_ E]. rewrite Hp in E. apply andb_true_iff in E as [E1 E2]. destruct Hu as [Hu|(u & -> & Hu)]; [by rewrite Hu in E2|]. exists u. split; [done|]. exact (forall_elem _ _ _ E1 Hu).
Qed.
Lemma import_os E go e up s : cinv s -> Par s up -> el_up e = option_map fst up -> (exists u, option_map snd up = Some u /\ mem u headTags = true) ->
  (forall up y s', cinv s' -> Par s' up -> pw (go up y) (fun _ s2 => post s' s2) s') ->
  (forall up y s', cinv s' -> Par s' up -> mem (x_tag y) headTags = true -> pw (go up y) (fun _ s2 => os s' s2) s') ->
  pw (pushImport E go e) (fun _ s' => os s s') s.
Proof.
  intros C Hp Hup (u & Hu & Hut) Hgo Hos. unfold pushImport. p1. apply pw_parent. intros n ue Hn Hue. p1. p1. p1. p1. p1. p1. cbv zeta. p1. p1. p1. p1.
  assert (Ht : mem (el_tag ue) headTags = true). { destruct up as [[m t]|]; [|done]. cbn in Hu, Hup. injection Hu as ->. rewrite Hup in Hn. injection Hn as ->. destruct (Hp _ _ eq_refl) as [_ H']. by rewrite (H' _ Hue). }
  match goal with |- pw _ _ ?x => set (s1 := x) end. assert (P1 : post s s1) by (apply quiet_post; [done|by apply quiet_simple|done|done]).
  p1. p1. p1. eapply pw_mono; [apply check_post, P1|]. intros r1 s2 [P2 K2]. p1. p1. p1. eapply pw_mono; [apply check_post, P2|]. intros r2 s3 [P3 K3].
  p1. p1. p1. p1. p1. match goal with |- pw _ _ ?x => set (s4 := x) end.
  assert (P4 : post s3 s4). { apply quiet_post; [apply P3| |done|done]. split; [|done]. split; cbn; [lia|done|]. intros nn. by destruct (p_cache s3 !! nn). }
  assert (Pr : Par s4 (Some (p_next s3, "head"))).
  { intros nn t [= <- <-]. split; [cbn; lia|]. intros e0 He0. cbn in He0. destruct (po_c _ _ P3 _ _ He0) as [Hlt _]. lia. }
  assert (O4 : os s s4). { destruct (ck_state _ _ _ _ _ _ _ K2) as [g2 ->]. destruct (ck_state _ _ _ _ _ _ _ K3) as [g3 E3]. unfold s4. rewrite E3. by split. }
  eapply (pw_mono _ (fun _ s' => cinv s' /\ Par s' (Some (p_next s3, "head")) /\ os s s')).
  - apply pw_each_inv; [split; [apply P4|done]|]. intros y s5 Hy (C5 & Pr5 & O5). eapply pw_mono; [apply pw_conj; [by apply Hgo|apply Hos; [done|done|]]|].
    + assert (Hk : forall hd t, y ∈ kidsTagged hd t -> x_tag y = t). { intros hd t Hi. unfold kidsTagged in Hi. apply elem_of_list_In, filter_In in Hi as [_ Hi]. by apply String.eqb_eq in Hi. }
      apply elem_of_app in Hy as [Hy|Hy]; [by rewrite (Hk _ _ Hy)|]. destruct (String.eqb (el_tag ue) "descriptorBase"); [|by apply elem_of_nil in Hy]. apply elem_of_app in Hy as [Hy|Hy]; by rewrite (Hk _ _ Hy).
    + intros [] s6 [P6 O6]. split; [apply P6|]. split; [eapply Par_ext; [apply P6|done]|]. exact (pr_trans _ _ _ O5 O6).
  - intros [] s5 (_ & _ & O5). p1. p1. p1. exact O5.
Qed.
Lemma process_head E k : forall up x s, cinv s -> Par s up -> mem (x_tag x) headTags = true -> pw (processNode E k up x) (fun _ s' => os s s') s.
Proof.
  induction k as [|k IH]; intros up x s C Hp Ht; [apply pw_nofuel|]. apply process_rule; [done|done|]. intros sy attrs s1 K1.
  assert (O1 : os s (p_set_next (Pos.succ (p_next s1)) s1)) by (destruct (ck_state _ _ _ _ _ _ _ K1) as [g ->]; done).
  assert (Q2 : post s (p_set_next (Pos.succ (p_next s1)) s1)).
  { destruct (ck_state _ _ _ _ _ _ _ K1) as [g ->]. apply quiet_post; [done| |cbn; set_solver|done]. split; [|done]. split; cbn; [lia|done|]. intros nn. by destruct (p_cache s !! nn). }
  eapply (pw_mono _ (fun _ s3 => os s s3)).
  - assert (D : sy_push sy = PuImport \/ sy_push sy <> PuImport) by (destruct (sy_push sy); auto). destruct D as [D|D].
    + rewrite D. cbn [push]. eapply pw_mono; [eapply import_os; [apply Q2|eapply Par_ext; [apply Q2|exact Hp]|done|exact (import_parents _ _ _ (ck_syn _ _ _ _ _ _ _ K1) D (ck_up _ _ _ _ _ _ _ K1))| |exact IH]|].
      * intros up' y s' C' Hp'. eapply pw_mono; [by apply process_post|]. intros [] s'' [H' _]. exact H'.
      * intros e s3 O3. exact (pr_trans _ _ _ O1 O3).
    + eapply pw_mono; [apply ko_push; [exact (head_nomedia _ _ (ck_syn _ _ _ _ _ _ _ K1) Ht)|done]|]. intros e s3 O3. exact (pr_trans _ _ _ O1 O3).
  - intros e s3 O3. cbv beta in *. eapply pw_mono; [apply (kr_when os), ko_cacheAdd|]. intros [] s4 O4 P4 Pr4. cbv beta in *. assert (O5 : os s s4) by exact (pr_trans _ _ _ O3 O4).
    eapply pw_mono; [apply (kids_rule E k _ _ _ s4 (fun _ s' => os s s')); [apply P4|done|done|]|].
    + intros y l' s' [p Hl] C' Hp' O'. eapply pw_mono; [apply IH; [done|done|]|].
      * eapply head_child; [exact Ht|]. apply (ck_kids _ _ _ _ _ _ _ K1). rewrite Hl. apply elem_of_app. right. constructor.
      * intros [] s'' O''. exact (pr_trans _ _ _ O' O'').
    + intros [] s5 O5'. cbv beta in *. eapply pw_mono; [apply ko_pop|]. intros [] s6 O6. exact (pr_trans _ _ _ O5' O6).
Qed.

(** ** Documents that use the settings object plainly. *)
Definition oinvP (P : list xml) (s : pst) : Prop := p_odd s = false /\ p_alias s = [] /\ forall k m, sget k (p_refer s) = Some m -> k ∈ p_unique s \/ exists z, z ∈ P /\ refersTo z k.
Lemma oinv_os P s s' : oinvP P s -> os s s' -> grows s s' -> oinvP P s'.
Proof. intros (A & B & C) [D E] [F G]. split; [congruence|]. split; [congruence|]. intros k m. rewrite E. intros H. destruct (C _ _ H) as [H1|H1]; [left; by apply G|by right]. Qed.
Lemma oinv_more P P' s : P ⊆ P' -> oinvP P s -> oinvP P' s.
Proof. intros H (A & B & C). split; [done|]. split; [done|]. intros k m Hk. destruct (C _ _ Hk) as [H1|(z & H1 & H2)]; [by left|right; exists z; split; [by apply H|done]]. Qed.
Lemma pfx_nil f v : pfx [] f v = v.
Proof. unfold pfx. destruct (_ || _); reflexivity. Qed.
Lemma import_head t sy : synOf t = Some sy -> sy_push sy = PuImport -> mem t headTags = true.
Proof.
  assert (T : forallb (fun x => match sy_push (snd x) with PuImport => mem (fst x) headTags | _ => true end) syntax = true) by (vm_compute; reflexivity).
  intros E Hp. apply look_some in E. apply (forall_elem _ _ _ T) in E. cbn [fst snd] in E. by rewrite Hp in E.
Qed.
Definition rkeys (U R : list string) (s : pst) : Prop := p_odd s = false /\ forall k m, sget k (p_refer s) = Some m -> k ∈ U \/ k ∈ R.
Lemma rkeys_os U R s s' : rkeys U R s -> os s s' -> rkeys U R s'.
Proof. intros [A B] [C D]. split; [congruence|]. intros k m. rewrite D. apply B. Qed.
Lemma rkeys_add U R U' R' s i m : rkeys U R s -> U ⊆ U' -> R ⊆ R' -> (i ∈ U' \/ i ∈ R') -> pw (referAdd i m) (fun _ s' => rkeys U' R' s') s.
Proof.
  intros [A B] HU HR Hi. unfold referAdd. p1. split; [done|]. cbn [p_refer p_set_refer]. intros k m'. rewrite sget_sins0. destruct (sget k (p_refer s)) eqn:E.
  - intros _. destruct (B _ _ E) as [H|H]; [left; by apply HU|right; by apply HR].
  - destruct (String.eqb i k) eqn:E2; [|done]. apply String.eqb_eq in E2 as <-. done.
Qed.
Ltac kos1 U R := eapply (pw_mono _ (fun _ s' => rkeys U R s')); [match goal with |- pw ?m _ ?s => let K := fresh in assert (K : ko m) by kot; eapply pw_mono; [apply K|]; intros; by eapply rkeys_os end|intros].
Lemma sub_cons (x : string) l : l ⊆ x :: l. Proof. intros y Hy. by constructor. Qed.
Lemma media_odd E e i s U R : attr e "id" = Some i -> i ∉ U -> rkeys U R s ->
  (attr e "refer" = None -> settingsType (attr0 e "type") = true -> i <> "__root__" /\ i ∉ R) ->
  pw (pushMedia E e) (fun _ s' => rkeys (i :: U) (match attr e "refer" with Some r => r :: R | None => R end) s') s.
Proof.
  intros Hi Hn K Hs. unfold pushMedia. p1. p1. assert (a = i) as -> by congruence. cbv zeta. p1.
  eapply (pw_mono _ (fun _ s' => rkeys (i :: U) (match attr e "refer" with Some r => r :: R | None => R end) s')).
  2:{ intros m s' K'. p1. kos1 (i :: U) (match attr e "refer" with Some r => r :: R | None => R end). by p1. }
  destruct (attr e "refer") as [r|].
  - p1. p1. p1. p1. p1. kos1 U R. p1. kos1 U R. p1. eapply (pw_mono _ (fun _ s' => rkeys U (r :: R) s')).
    { match goal with |- pw (match ?y with _ => _ end) _ _ => destruct y end.
      - p1. match goal with K : rkeys U R ?s1 |- rkeys _ _ ?s1 => destruct K as [A B] end. split; [done|]. intros k m Hk. destruct (B _ _ Hk); [by left|right; by constructor].
      - p1. p1. p1. kos1 U R. p1. eapply pw_mono; [eapply (rkeys_add U R); [eassumption|done|by apply sub_cons|right; constructor]|]. intros [] s5 K5. by p1. }
    intros m s5 K5. p1. kos1 U (r :: R). p1. kos1 U (r :: R). p1. eapply pw_mono; [eapply (rkeys_add U (r :: R)); [eassumption|by apply sub_cons|done|left; constructor]|]. intros [] s2 K2. by p1.
  - destruct (settingsType (attr0 e "type")) eqn:Es.
    + destruct (Hs eq_refl eq_refl) as [Hr Hri]. p1. p1. p1. kos1 U R. p1. p1. rewrite (proj2 (String.eqb_neq i "__root__") Hr). cbn [pwhen]. p1. p1.
      p1. destruct (sget i (p_refer _)) as [tmp|] eqn:Et; [match type of Et with sget _ (p_refer ?x) = _ => match goal with K : rkeys U R x |- _ => destruct K as [_ K]; destruct (K _ _ Et); done end end|]. p1. p1. kos1 U R. p1. kos1 U R. p1. kos1 U R.
      p1. eapply pw_mono; [eapply (rkeys_add U R); [eassumption|by apply sub_cons|done|left; constructor]|]. intros [] s2 K2. by p1.
    + match goal with |- pw ?m _ ?s0 => assert (KK : ko m) by kot; eapply pw_mono; [apply KK|] end. intros m s' O. eapply rkeys_os in K; [|exact O]. destruct K as [A B]. split; [done|]. intros k m' Hk. destruct (B _ _ Hk); [left; by constructor|by right].
Qed.
Definition plainAfter (P : list xml) (x : xml) : Prop := forall before y after i, elementsOf x = before ++ y :: after -> settingsElement y -> aget "id" (x_attrs y) = Some i ->
  i <> "__root__" /\ forall z, z ∈ P ++ before -> ~ refersTo z i.
Lemma elements_eq x : elementsOf x = x :: flat_map elementsOf (x_kids x). Proof. by destruct x. Qed.
Lemma plain_kid P x p y l : plainAfter P x -> x_kids x = p ++ y :: l -> plainAfter (P ++ x :: flat_map elementsOf p) y.
Proof.
  intros H E before z after i Hz Hs Hi.
  destruct (H (x :: flat_map elementsOf p ++ before) z (after ++ flat_map elementsOf l) i) as [A B]; [|done|done|].
  - rewrite elements_eq, E, flat_map_app. cbn [flat_map]. rewrite Hz. cbn [app]. by rewrite <- !app_assoc.
  - split; [done|]. intros w Hw. apply B. rewrite <- app_assoc in Hw. exact Hw.
Qed.
Lemma checked_attr up x s sy attrs s' n v : checked true up x s sy attrs s' -> p_alias s = [] -> sy_genid sy = false -> sget n attrs = Some v <-> aget n (x_attrs x) = Some v.
Proof.
  intros C Ha Hg. split; intros H.
  - destruct (ck_get _ _ _ _ _ _ _ C _ _ H) as (f & _ & Hv). destruct (aget n (x_attrs x)) as [w|]; [|destruct Hv; congruence]. rewrite Hv, Ha, pfx_nil. done.
  - destruct (ck_known _ _ _ _ _ _ _ C eq_refl _ _ (aget_in _ _ _ H)) as [f Hf]. destruct (ck_has _ _ _ _ _ _ _ C _ _ Hf ltac:(by eexists)) as [w Hw]. rewrite Hw.
    destruct (ck_get _ _ _ _ _ _ _ C _ _ Hw) as (f' & _ & Hv). rewrite H in Hv. by rewrite Hv, Ha, pfx_nil.
Qed.
Lemma process_plain E k : forall up x s P, cinv s -> Par s up -> oinvP P s -> plainAfter P x -> pw (processNode E k up x) (fun _ s' => oinvP (P ++ elementsOf x) s') s.
Proof.
  induction k as [|k IH]; intros up x s P C Hp Ho Hx; [apply pw_nofuel|].
  assert (Hm : P ⊆ P ++ elementsOf x) by (intros z Hz; apply elem_of_app; by left).
  destruct (mem (x_tag x) headTags) eqn:Eh.
  { eapply pw_mono; [apply pw_conj; [apply process_head; done|apply process_ids]|]. intros [] s' [O (I1 & I2 & _)]. eapply oinv_more; [exact Hm|]. eapply oinv_os; [done|done|by split]. }
  apply process_rule; [done|done|]. intros sy attrs s1 K1.
  assert (O1 : os s (p_set_next (Pos.succ (p_next s1)) s1)) by (destruct (ck_state _ _ _ _ _ _ _ K1) as [g ->]; done).
  assert (G1 : grows s (p_set_next (Pos.succ (p_next s1)) s1)) by exact (checked_grows _ _ _ _ _ _ _ K1).
  assert (Np : sy_push sy <> PuImport) by (intros Hpu; rewrite (import_head _ _ (ck_syn _ _ _ _ _ _ _ K1) Hpu) in Eh; done).
  set (s2 := p_set_next _ _) in *. set (e0 := newElt _ _ _ _).
  eapply (pw_mono _ (fun _ s3 => oinvP (P ++ [x]) s3)).
  { eapply pw_mono; [apply pw_conj; [apply (pw_mono _ (fun _ s3 => p_odd s3 = false /\ forall k m, sget k (p_refer s3) = Some m -> k ∈ p_unique s2 \/ exists z, z ∈ P ++ [x] /\ refersTo z k))|
      apply (grows_push E (processNode E k)); intros up' x' s'; eapply pw_mono; [apply process_ids|]; intros [] s'' (J1 & J2 & _); by split]|].
    2:{ intros e s3 H. exact H. }
    2:{ intros e s3 [[A B] [G3 G4]]. destruct Ho as (_ & Hal & _). destruct G1 as [G1 _]. split; [done|]. split; [congruence|]. intros k' m Hk. destruct (B _ _ Hk) as [H|H]; [left; by apply G4|by right]. }
    destruct Ho as (A & B & D). assert (D' : sy_push sy = PuMedia \/ sy_push sy <> PuMedia) by (destruct (sy_push sy); auto). destruct D' as [D'|D'].
    - rewrite D'. cbn [push]. destruct (syn_comp _ _ (ck_syn _ _ _ _ _ _ _ K1)) as [Hgen _]; [by rewrite D'|].
      destruct (sget "id" attrs) as [i|] eqn:Ei; [|unfold pushMedia; p1; unfold pattr; p1; unfold e0, attr in *; cbn in *; congruence].
      destruct (checked_id _ _ _ _ _ _ _ K1 Hgen Ei) as [Hf Hi2].
      pose (R := omap (fun z => if String.eqb (x_tag z) "media" then aget "refer" (x_attrs z) else None) P).
      assert (HR : forall r, r ∈ R <-> exists z, z ∈ P /\ refersTo z r).
      { intros r. unfold R. rewrite elem_of_list_omap. split.
        - intros (z & Hz & Hr). exists z. split; [done|]. destruct (String.eqb (x_tag z) "media") eqn:Et; [|done]. apply String.eqb_eq in Et. by split.
        - intros (z & Hz & Ht & Hr). exists z. split; [done|]. by rewrite (proj2 (String.eqb_eq _ _) Ht). }
      eapply pw_mono; [apply (media_odd E e0 i s2 (p_unique s) R Ei Hf)|].
      + split; [by rewrite (proj1 O1)|]. intros k' m Hk. rewrite (proj2 O1) in Hk. destruct (D _ _ Hk) as [H|H]; [by left|right; by apply HR].
      + intros Hre Hse. apply (checked_attr _ _ _ _ _ _ _ _ K1 B Hgen) in Ei.
        assert (Hs : settingsElement x).
        { split; [apply (syn_media _ _ (ck_syn _ _ _ _ _ _ _ K1)); done|]. split.
          - destruct (aget "refer" (x_attrs x)) as [r|] eqn:Er; [|done]. apply (checked_attr _ _ _ _ _ _ _ _ K1 B Hgen) in Er. unfold attr in Hre. cbn in Hre. congruence.
          - unfold attr0, attr in Hse. cbn [e0 newElt el_attrs] in Hse. destruct (sget "type" attrs) as [ty|] eqn:Ety; [|done]. cbn in Hse. apply (checked_attr _ _ _ _ _ _ _ _ K1 B Hgen) in Ety. rewrite Ety.
            unfold settingsType in Hse. apply orb_true_iff in Hse as [Hse|Hse]; apply String.eqb_eq in Hse as ->; auto. }
        destruct (Hx [] x (flat_map elementsOf (x_kids x)) i (elements_eq x) Hs Ei) as [N1 N2]. split; [done|]. intros Hr. apply HR in Hr as (z & Hz & Hr). apply (N2 z); [|done]. rewrite app_nil_r. done.
      + intros e s3 [F1 F2]. split; [done|]. intros k' m Hk. destruct (F2 _ _ Hk) as [H|H].
        * left. apply elem_of_cons in H as [->|H]; [done|]. by apply G1.
        * destruct (attr e0 "refer") as [r|] eqn:Er.
          -- apply elem_of_cons in H as [->|H]; [|right; apply HR in H as (z & Hz & Hr); exists z; split; [apply elem_of_app; by left|done]].
             right. exists x. split; [apply elem_of_app; right; constructor|]. split; [by apply (syn_media _ _ (ck_syn _ _ _ _ _ _ _ K1))|]. by apply (checked_attr _ _ _ _ _ _ _ _ K1 B Hgen) in Er.
          -- right. apply HR in H as (z & Hz & Hr). exists z. split; [apply elem_of_app; by left|done].
    - eapply pw_mono; [apply ko_push; done|]. intros e s3 [O3 O4]. destruct O1 as [O1 O2]. split; [congruence|]. intros k' m Hk. rewrite O4, O2 in Hk. destruct (D _ _ Hk) as [H|(z & Hz & Hr)].
      + left. by apply G1.
      + right. exists z. split; [apply elem_of_app; by left|done]. }
  intros e s3 Ho3. cbv beta in *. eapply pw_mono; [apply pw_conj; [apply (kr_when os), ko_cacheAdd|apply keep_when, keep_cacheAdd]|]. intros [] s4 [O4 F4] P4 Pr4. cbv beta in *.
  apply grows_fr in F4. assert (Ho4 : oinvP (P ++ [x]) s4) by (by eapply oinv_os).
  eapply pw_mono; [apply (kids_rule E k _ _ _ s4 (fun l s' => exists p, x_kids x = p ++ l /\ oinvP (P ++ x :: flat_map elementsOf p) s')); [apply P4|done|by exists []|]|].
  - intros y l' s' _ C' Hp' (p & Ep & Ho'). eapply pw_mono; [apply IH; [done|done|exact Ho'|by eapply plain_kid]|].
    intros [] s'' O''. exists (p ++ [y]). split; [by rewrite <- app_assoc|]. rewrite flat_map_app. cbn [flat_map]. rewrite app_nil_r, <- app_assoc in *. exact O''.
  - intros [] s5 (p & Ep & Ho5). cbv beta in *. rewrite app_nil_r in Ep. subst p. rewrite <- elements_eq in Ho5. eapply pw_mono; [apply pw_conj; [apply ko_pop|apply keep_pop]|]. intros [] s6 [O6 F6]. eapply oinv_os; [done|done|by apply grows_fr].
Qed.
Lemma plain_odd E k addr focus z w h x s : parse E k addr focus z w h x = POk tt s -> settingsPlain x -> p_odd s = false.
Proof.
  intros H Hx. apply parse_inv in H.
  assert (G : pw (lift newDocument ;;; processNode E k None x) (fun _ s => p_odd s = false) (initial addr focus z w h)).
  { p1. eapply pw_mono; [apply start_good|]. intros [] s0 (_ & C0 & _ & R0 & _ & O0 & A0). eapply pw_mono; [apply (process_plain E k None x s0 []); [done|intros n t Hn; done| |]|].
    - split; [done|]. split; [done|]. intros k' m Hk. rewrite R0 in Hk. done.
    - exact Hx.
    - intros [] s1 (H1 & _). exact H1. }
  exact (pw_ok _ _ _ _ _ G H).
Qed.

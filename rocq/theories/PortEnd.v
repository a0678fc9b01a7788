(** PortEnd.v -- C49: the ports and switchPorts of a parsed document. *)
From Verif Require Import BuildInv BuildOps BuildSpec BuildFacts Frame ParserFrame ParserEnd LtabBody.
From Verif Require Export PortRoot.
Open Scope string_scope.
Open Scope list_scope.

Definition np (g g' : graph) : Prop := forall o ob', g_obj g' !! o = Some ob' -> exists ob, g_obj g !! o = Some ob /\ ob_ports ob' = ob_ports ob /\ ob_swports ob' = ob_swports ob.
Lemma np_refl g : np g g. Proof. intros o ob H. eauto. Qed.
Lemma np_trans a b c : np a b -> np b c -> np a c.
Proof. intros H1 H2 o ob'' Ho. destruct (H2 _ _ Ho) as (ob' & H' & E1 & E2). destruct (H1 _ _ H') as (ob & H & E3 & E4). exists ob. split; [done|]. split; congruence. Qed.
Lemma nh_np g g' : nh g g' -> np g g'.
Proof. intros [_ H] o ob' Ho. destruct (H _ _ Ho) as (ob & H1 & E). unfold hang in E. injection E as E1 E2 E3. eauto. Qed.
Definition spn (s s' : pst) : Prop := np (p_graph s) (p_graph s').
#[global] Instance pre_spn : ParserQuiet.preorder spn. Proof. split; [intros s; apply np_refl|intros a b c; apply np_trans]. Qed.
Lemma spn_sh {A} (m : P A) : kr sh m -> kr spn m.
Proof. intros H s. eapply pw_mono; [apply H|]. intros a s' N. by apply nh_np. Qed.
Lemma np_addRule g c o p : pwp (addRule c o p) (fun _ g' => np g g') g.
Proof.
  apply wp_oupd. intros ob Ho o' ob'. cbn. destruct (decide (c = o')) as [<-|Hn].
  - rewrite lookup_insert. intros [= <-]. exists ob. done.
  - rewrite lookup_insert_ne by done. eauto.
Qed.
Lemma spn_switch k d : kr spn (solveSwitch k d).
Proof.
  unfold solveSwitch. repeat first [progress intros | progress cbv beta | solve [apply spn_sh, sh_quiet; unfold pattr, cacheById, udata; kqt] | (intros s0; apply pw_lift; eapply wp_mono; [apply np_addRule|]; intros ? ? G; exact G) | apply (kr_bind spn) | apply (kr_each spn) | apply (kr_map spn)
   | match goal with |- kr spn (if ?b then _ else _) => destruct b | |- kr spn (match ?x with _ => _ end) => destruct x end ].
Qed.
Lemma spn_popNcl E k : kr spn (popNcl E k).
Proof.
  unfold popNcl. cbv zeta. apply (kr_bind spn); [apply (kr_bind spn); [apply spn_sh, sh_quiet; kqt|intros l; apply (kr_each spn); intros d; apply spn_sh, sh_descriptor]|intros _].
  apply (kr_bind spn); [apply (kr_bind spn); [apply spn_sh, sh_quiet; kqt|intros l; apply (kr_each spn); intros d; apply spn_sh, sh_media]|intros _].
  apply (kr_bind spn); [apply (kr_bind spn); [apply spn_sh, sh_quiet; kqt|intros l; apply (kr_each spn); intros d; apply spn_switch]|intros _].
  apply (kr_bind spn); [apply (kr_bind spn); [apply spn_sh, sh_quiet; kqt|intros l; apply (kr_each spn); intros d; apply spn_sh, sh_link]|intros _].
  apply spn_sh, sh_quiet. kqt.
Qed.
Lemma start_hg addr focus z w h : pw (lift newDocument) (fun _ s => HG [] [] (p_graph s) /\ p_order s = []) (initial addr focus z w h).
Proof.
  apply pw_lift. eapply (wp_mono _ _ _ (fun _ g' => h0 (emptyGraph addr focus) g')).
  2: { intros [] g' H. split; [|done]. eapply HG_h0; [|exact H]. split; [intros q Hq; by apply elem_of_nil in Hq..|]. intros o ob. cbn. by rewrite lookup_empty. }
  unfold newDocument. w1. eapply wp_mono; [apply h0_newObject|]. intros r g1 N1. cbv beta. w1. w1. w1. eapply wp_mono; [apply nh_addObject|]. intros b g2 N2. cbv beta. w1. w1. w1.
  eapply wp_mono; [apply h0_newObject|]. intros b1 g3 N3. cbv beta. w1. eapply wp_mono; [apply nh_addChild|]. intros [] g4 N4. cbv beta. w1.
  eapply h0_trans; [exact N1|]. eapply h0_trans; [apply nh_h0; exact N2|]. eapply h0_trans; [exact N3|]. apply nh_h0. exact N4.
Qed.
Lemma parsed_hang E k addr focus z w h x s : parse E k addr focus z w h x = POk tt s -> settingsPlain x ->
  exists L L2, Forall2 (compiledPort (p_graph s) x) (portsOf x) L /\ Forall2 (compiledSwitchPort (p_graph s) x) (switchPortsOf x) L2 /\ forall o ob, g_obj (p_graph s) !! o = Some ob -> ob_ports ob = noRepeat [] (mine o L) /\ ob_swports ob = assigns (mine o L2).
Proof.
  intros H Hx. pose proof (plain_odd _ _ _ _ _ _ _ _ _ H Hx) as Ho. apply parse_inv in H.
  assert (G : pw (lift newDocument ;;; processNode E k None x) (fun _ s => p_odd s = true \/ exists L L2, Forall2 (compiledPort (p_graph s) x) (portsOf x) L /\ Forall2 (compiledSwitchPort (p_graph s) x) (switchPortsOf x) L2 /\ forall o ob, g_obj (p_graph s) !! o = Some ob -> ob_ports ob = noRepeat [] (mine o L) /\ ob_swports ob = assigns (mine o L2)) (initial addr focus z w h)).
  { clear. p1. eapply pw_mono; [apply pw_conj; [apply start_good|apply pw_conj; [apply start_lam|apply start_hg]]|]. intros [] s0 [(G0 & C0 & Ca0 & R0 & U0 & O0 & A0) [[L0 S0] (N0 & Or0)]].
    assert (I0 : pinv (p_unique s0) None [] s0) by (destruct G0 as [G0|G0]; [congruence|done]).
    destruct k as [|k]; [done|]. apply root_hang; try done.
    - split; [intros e ev ob He Ht _ _; left; by eapply L0|]. rewrite R0. intros k' m Hk. discriminate Hk.
    - intros s5 R5. destruct (hr_hg _ _ R5) as (L & L2 & HL & F1 & F2). eapply pw_mono; [apply pw_conj; [apply (pop_gg E (S k) PoNcl 1%positive s5 (hr_c _ _ R5)), (hr_i _ _ R5)|apply spn_popNcl]|]. intros [] s6 [[[G6 _] _] N6]. apply gsm_tm in G6.
      exists L, L2. split; [eapply Forall2_impl; [exact F1|]; intros; by eapply compiledPort_tm|]. split; [eapply Forall2_impl; [exact F2|]; intros; by eapply compiledSwitchPort_tm|].
      intros o ob' Hob. destruct (N6 _ _ Hob) as (ob & H1 & -> & ->). destruct (hg_obj _ _ _ HL _ _ H1) as (H2 & H3 & _). done. }
  destruct (pw_ok _ _ _ _ _ G H) as [H1|H1]; [|done]. rewrite Ho in H1. discriminate H1.
Qed.
(** ** Different switchPorts have different ids. *)
Definition idl (x : xml) : list string := match aget "id" (x_attrs x) with Some i => [i] | None => [] end.
Lemma idsOf_eq x : idsOf x = idl x ++ flat_map idsOf (x_kids x). Proof. by destruct x. Qed.
Lemma swp_ids : forall x, flat_map (fun q : xml * xml => idl (snd q)) (switchPortsOf x) ⊆+ flat_map idsOf (x_kids x).
Proof.
  intros x. induction x as [t a l IH] using xml_kids. rewrite switchPortsOf_eq, flat_map_app. cbn [x_kids]. generalize (XElt t a l) as x0. intros x0. clear t a. induction l as [|y l IHl]; [done|].
  assert (H1 := IH y ltac:(left)). assert (H2 : flat_map (fun q => idl (snd q)) (flat_map switchPortsOf l) ++ flat_map (fun q => idl (snd q)) (map (pair x0) (List.filter (tagIs "switchPort") l)) ⊆+ flat_map idsOf l) by (apply IHl; intros z Hz; apply IH; by right).
  clear IH IHl. cbn [flat_map List.filter]. rewrite flat_map_app, (idsOf_eq y). destruct (tagIs "switchPort" y); cbn [map flat_map snd].
  - rewrite <- !app_assoc. revert H1 H2. generalize (flat_map (fun q => idl (snd q)) (switchPortsOf y)) (flat_map (fun q => idl (snd q)) (flat_map switchPortsOf l)) (flat_map (fun q => idl (snd q)) (map (pair x0) (List.filter (tagIs "switchPort") l))) (flat_map idsOf (x_kids y)) (flat_map idsOf l) (idl y). intros A B C K M i H1 H2.
    etransitivity; [|apply submseteq_app; [reflexivity|apply submseteq_app; [exact H1|exact H2]]]. apply Permutation_submseteq. solve_Permutation.
  - rewrite <- !app_assoc. apply submseteq_inserts_l. apply submseteq_app; [exact H1|exact H2].
Qed.
Lemma passign_new {A} k (v : A) l : k ∉ map fst l -> passign k v l = l ++ [(k, v)].
Proof.
  induction l as [|[k' v'] l IH]; intros H; [done|]. cbn [passign]. cbn [map fst] in H. apply not_elem_of_cons in H as [H1 H2]. destruct (String.eqb_spec k' k) as [E|_]; [congruence|]. cbn [app]. by rewrite IH.
Qed.
Lemma assigns_same {A} (l : list (string * A)) : NoDup (map fst l) -> assigns l = l.
Proof.
  induction l as [|q l IH] using rev_ind; intros H; [done|]. rewrite map_app in H. cbn [map] in H. apply NoDup_app in H as (H1 & H2 & _). rewrite assigns_snoc, IH by done. destruct q as [k v]. cbn [fst snd]. apply passign_new. intros Hk. apply (H2 _ Hk). left.
Qed.
Lemma mine_keys {A} o (L : list (oid * (string * A))) : map fst (mine o L) `sublist_of` map (fun q => fst (snd q)) L.
Proof. unfold mine. induction L as [|q L IH]; [constructor|]. cbn [List.filter map]. destruct (bool_decide _); cbn [map]; [by constructor|by constructor]. Qed.
Lemma swp_keys g doc l L : Forall2 (compiledSwitchPort g doc) l L -> map (fun q => fst (snd q)) L = flat_map (fun q : xml * xml => idl (snd q)) l.
Proof. induction 1 as [|p q l L H F IH]; [done|]. cbn [map flat_map]. destruct H as (_ & Hi & _). unfold idl at 1. rewrite Hi, IH. done. Qed.
Lemma NoDup_less {A} (l m : list A) : NoDup m -> l ⊆+ m -> NoDup l.
Proof. intros N H. apply submseteq_Permutation in H as [k H]. rewrite H in N. by apply NoDup_app in N as (N & _). Qed.
Lemma f_C49 E k addr focus z w h x s : parse E k addr focus z w h x = POk tt s -> settingsPlain x -> portsCompiled (p_graph s) x /\ switchPortsCompiled (p_graph s) x.
Proof.
  intros H Hx. destruct (parsed_hang _ _ _ _ _ _ _ _ _ H Hx) as (L & L2 & F1 & F2 & HL). pose proof (f_C44 _ _ _ _ _ _ _ _ _ H) as ND. clear H. split; [exists L; split; [done|]; intros o ob Ho; by apply HL|].
  exists L2. split; [done|]. intros o ob Ho. destruct (HL _ _ Ho) as [_ ->]. apply (assigns_same (mine o L2)). eapply NoDup_less; [|apply sublist_submseteq, mine_keys]. rewrite (swp_keys _ _ _ _ F2).
  eapply NoDup_less; [|apply swp_ids]. rewrite idsOf_eq in ND. by apply NoDup_app in ND as (_ & _ & ND).
Qed.

(** Safe.v -- on calm documents no API call aborts (C34, positive part): the invariant. *)
From Verif Require Export SafeSpec Stop SetProps PredFacts.
Open Scope string_scope.
Open Scope list_scope.
Open Scope m_scope.

Notation swp := (wp False True).
Lemma swp_of {S A} (m : M S A) (Q : A -> S -> Prop) s : swp m (fun _ _ => True) s -> pwp m Q s -> swp m Q s.
Proof. unfold wp. by destruct (m s). Qed.
Lemma swp_and {S A} (m : M S A) (P Q : A -> S -> Prop) s : swp m P s -> pwp m Q s -> swp m (fun a s' => P a s' /\ Q a s') s.
Proof. unfold wp. by destruct (m s). Qed.

Section Safe.
Context (D : doc).

Lemma sgetO o ob (Q : obj -> st -> Prop) s : d_obj D !! o = Some ob -> Q ob s -> swp (getO D o) Q s.
Proof. intros Ho HQ. apply wp_getO; [congruence|]. intros ob' Ho'. by assert (ob' = ob) as -> by congruence. Qed.
Lemma sgetE o ob (Q : evt -> st -> Prop) s : d_evt D !! o = Some ob -> Q ob s -> swp (getE D o) Q s.
Proof. intros Ho HQ. apply wp_getE; [congruence|]. intros ob' Ho'. by assert (ob' = ob) as -> by congruence. Qed.

(** ** Properties and players. *)
Definition okO (o : oid) (x : ostate) : Prop :=
  (forall k v, o_props x !! k = Some v -> okProp D o k v) /\
  (exists cls, choose_player (d_ext D) (default "" (o_props x !! "type")) (default "" (o_props x !! "uri"))
    (default "" (o_props x !! "device")) = CClass cls) /\
  (o = d_settings D -> forall p, o_player x = Some p -> p_eos p = false /\ p_duration p = TIME_NONE).

Lemma okValue_doset x W H c v a : okValue x c v -> exists a', doset_own x W H c v a = DOk a' /\
  (c <> PROP_DURATION -> a_duration a' = a_duration a).
Proof.
  intros Hv. destruct a. destruct c; cbn [okValue] in Hv; cbn [doset_own]; unfold with_color, with_percent;
    try (by (eexists; split; [reflexivity|])).
  all: try (destruct (try_parse_bool v); [|done]; by eexists).
  all: try (destruct (try_parse_list v _ _ _); [|done]; by eexists).
  all: try (destruct (xstrtoint v); [|done]; by eexists).
  all: try (destruct Hv as [-> | ->]; cbn [is_empty orb]; [by eexists|]; rewrite orb_true_r; by eexists).
  destruct Hv as [-> |[t Ht]]; [by eexists|]. destruct (String.eqb _ _); [by eexists|]. rewrite Ht. by eexists.
Qed.
Lemma geom_ok o k v : k ∈ ["left"; "top"; "width"; "height"; "right"; "bottom"] -> okAssign D o k v.
Proof.
  intros Hk ob _ _. unfold okProp.
  repeat (apply elem_of_cons in Hk as [-> |Hk]; [split; [split; [exact I|by intros _]|done]|]). by apply elem_of_nil in Hk.
Qed.
Lemma okO_insert o k v x : okO o x -> okProp D o k v -> k <> "type" -> k <> "uri" -> k <> "device" ->
  okO o (os_set_props (<[k := v]> (o_props x)) x).
Proof.
  intros (H1 & H2 & H3) Hv N1 N2 N3. split; [|split]; cbn; [| |done].
  - intros k' v' Hk. destruct (decide (k = k')) as [->|Hne].
    + rewrite lookup_insert in Hk. injection Hk as ->. done.
    + rewrite lookup_insert_ne in Hk by done. eauto.
  - by rewrite !lookup_insert_ne by done.
Qed.
Lemma okO_player o f x : (forall p, p_eos (f p) = p_eos p /\ p_duration (f p) = p_duration p) -> okO o x -> okO o (os_set_player (f <$> o_player x) x).
Proof.
  intros Hf (H1 & H2 & H3). split; [done|]. split; [done|]. cbn. intros E p Hp.
  destruct (o_player x) as [p0|] eqn:E0; [|done]. cbn in Hp. injection Hp as <-. destruct (Hf p0) as [-> ->]. by apply H3.
Qed.

Lemma set_safe n : forall o ob, d_obj D !! o = Some ob -> is_media (ob_kind ob) = true ->
  (forall name v s, okO o (ostOf s o) -> okAssign D o name v ->
     swp (mediaSet D n o name v 0) (fun _ s' => okO o (ostOf s' o)) s) /\
  (forall name v s, okO o (ostOf s o) -> okProp D o name v -> is_Some (o_player (ostOf s o)) ->
     swp (playerSet D n o name v) (fun _ s' => okO o (ostOf s' o)) s).
Proof.
  intros o ob Ho Hm. induction n as [|n [IH1 IH2]]; [split; intros; exact I|]. split; intros name v s HO Hv.
  - destruct (Hv ob Ho Hm) as (Hp & N1 & N2 & N3).
    cbn [mediaSet]. w1. eapply sgetO; [done|]. cbv beta. w1. eapply (wp_mono _ _ _ (fun _ s' => okO o (ostOf s' o))); [w1; [by w1|done]|].
    intros [] s1 H1. cbv beta. w1. w1; [done|]. w1. w1. w1. unfold objSetProp. w1.
    set (s2 := upd_ob _ _ s1).
    assert (H2 : okO o (ostOf s2 o)).
    { subst s2. sts. rewrite decide_True by done. by apply okO_insert. }
    clearbody s2. w1. w1. destruct (o_player (ostOf s2 o)) as [p|] eqn:Epl; [|by w1].
    change (0 <? 0)%N with false. cbv iota. apply IH2; [done|done|by eexists].
  - intros Hpl. cbn [playerSet]. w1. w1. destruct (o_player (ostOf s o)) as [p|] eqn:Epl; [|by destruct Hpl].
    w1. eapply (wp_mono _ _ _ (fun _ s' => okO o (ostOf s' o))).
    2:{ intros [] s1 H1. cbv beta. unfold updPlayer. w1. sts. rewrite decide_True by done. by apply (okO_player o (fun p => p_set_props _ p)). }
    destruct (pset_value p name v) as [[code v']|] eqn:Ec; [|by w1].
    assert (Hcv : code = fst (getPlayerProperty name) /\ v' = if is_empty v then snd (getPlayerProperty name) else v).
    { unfold pset_value in Ec. destruct (getPlayerProperty name). destruct (_ && _)%bool; [done|]. by injection Ec as <- <-. }
    destruct Hcv as [-> ->]. destruct Hv as [Hv1 Hv2].
    destruct (okValue_doset (d_ext D) (s_w s) (s_h s) _ _ (attrs_of p) Hv1) as (a' & -> & Hdur).
    w1. unfold updPlayer. w1.
    match goal with |- wp _ _ _ _ ?x => assert (H0 : okO o (ostOf x o)) end.
    { sts. rewrite decide_True by done. destruct HO as (H1 & H2 & H3). split; [done|]. split; [done|].
      intros Es p0. cbn. rewrite Epl. cbn. intros [= <-]. cbn. destruct (H3 Es p Epl) as [H4 H5]. split; [done|].
      rewrite Hdur by auto. done. }
    apply wp_foreach_inv with (I := fun s' => okO o (ostOf s' o)); [done| |done].
    intros [k x] s' Hin Hs'. cbn [fst snd]. apply IH1; [done|]. apply geom_ok.
    destruct (doset_media_names _ _ _ _ _ Hin) as [[_ Hk]|(_ & [-> | ->] & _)]; [|set_solver..].
    set_solver.
Qed.
Lemma mset_safe o ob name v s : d_obj D !! o = Some ob -> is_media (ob_kind ob) = true -> okO o (ostOf s o) -> okAssign D o name v ->
  swp (mediaSetProperty D o name v 0) (fun _ s' => okO o (ostOf s' o) /\ pframe o s s') s.
Proof. intros. apply swp_and; [by eapply set_safe|]. apply mediaSetProperty_pframe. Qed.
Lemma pset_safe o ob name v s : d_obj D !! o = Some ob -> is_media (ob_kind ob) = true -> okO o (ostOf s o) -> okProp D o name v ->
  is_Some (o_player (ostOf s o)) ->
  swp (playerSetProperty D o name v) (fun _ s' => okO o (ostOf s' o) /\ pframe o s s') s.
Proof. intros. apply swp_and; [by eapply set_safe|]. apply playerSetProperty_pframe. Qed.

Context (CD : calmDoc D).
Lemma doset_duration x W H v a a' : doset_own x W H PROP_DURATION v a = DOk a' -> v = "indefinite" -> a_duration a' = TIME_NONE.
Proof. destruct a. intros E ->. cbn in E. by injection E as <-. Qed.
Lemma reset_yellow W H : exists a, reset_attrs (d_ext D) W H blank_attrs = DOk a /\ a_duration a = TIME_NONE.
Proof.
  pose proof (cd_yellow D CD) as Hy. unfold reset_attrs.
  assert (HG : forall l a, (forall k c i d, (k, (c, i, d)) ∈ l -> okValue (d_ext D) c d /\ (c = PROP_DURATION -> d = "indefinite")) ->
    exists a', reset_attrs_go (d_ext D) W H l a = DOk a' /\
      (a_duration a = TIME_NONE \/ (exists k d, (k, (PROP_DURATION, true, d)) ∈ l) -> a_duration a' = TIME_NONE)).
  { induction l as [|[k [[c i] d]] l IH]; intros a Hl; cbn.
    { eexists. split; [done|]. intros [?|(? & ? & ?%elem_of_nil)]; done. }
    assert (Hl' : forall k c i d, (k, (c, i, d)) ∈ l -> okValue (d_ext D) c d /\ (c = PROP_DURATION -> d = "indefinite")).
    { intros. eapply Hl. right. eassumption. }
    destruct (Hl k c i d) as [Hc1 Hc2]; [left|]. destruct i.
    - destruct (okValue_doset (d_ext D) W H c d a Hc1) as (a1 & E1 & Hd1). rewrite E1.
      destruct (IH a1 Hl') as (a2 & E2 & Hd2). exists a2. split; [done|]. intros HH. apply Hd2.
      destruct (decide (c = PROP_DURATION)) as [->|Hne].
      + left. eapply doset_duration; [exact E1|auto].
      + destruct HH as [HH|(k' & d' & [HH|HH]%elem_of_cons)]; [left; rewrite Hd1 by done; done| |right; eauto].
        injection HH as -> <- ->. done.
    - destruct (IH a Hl') as (a2 & E2 & Hd2). exists a2. split; [done|]. intros HH. apply Hd2.
      destruct HH as [HH|(k' & d' & [HH|HH]%elem_of_cons)]; [by left| |right; eauto]. by injection HH. }
  destruct (HG player_property_map blank_attrs) as (a & Ha & Hd).
  - intros k c i d Hin. unfold player_property_map in Hin.
    repeat (apply elem_of_cons in Hin as [Hin|Hin]; [injection Hin as -> -> -> ->; split; [cbn; auto; discriminate|done]|]). by apply elem_of_nil in Hin.
  - exists a. split; [done|]. apply Hd. right. exists "duration", "indefinite". unfold player_property_map.
    apply elem_of_list_In. cbn. tauto.
Qed.

Lemma choose_again t u d : choose_player (d_ext D) (effective_mime t u) u d = choose_player (d_ext D) t u d.
Proof.
  assert (E : effective_mime (effective_mime t u) u = effective_mime t u).
  { unfold effective_mime at 1. assert (H : is_empty (effective_mime t u) = false).
    { unfold effective_mime. destruct (is_empty (if (is_empty t && negb (is_empty u))%bool then default "" (getMimeForURI u) else t)) eqn:E; done. }
    rewrite H. cbn [andb]. by rewrite H. }
  assert (U : usesPlayerRemote (effective_mime t u) u d = usesPlayerRemote t u d).
  { unfold usesPlayerRemote. f_equal. unfold effective_mime.
    destruct (is_empty t) eqn:Et; cbn [andb].
    - destruct (is_empty u) eqn:Eu; cbn [negb].
      + rewrite Et. cbn [is_empty]. assert (u = "") as -> by (by destruct u). done.
      + destruct (is_empty (default "" (getMimeForURI u))) eqn:Em.
        * cbn [is_empty]. assert (default "" (getMimeForURI u) = "") as -> by (by destruct (default "" (getMimeForURI u))). done.
        * by rewrite Em.
    - rewrite Et. by rewrite Et. }
  unfold choose_player. by rewrite E, U.
Qed.
Lemma create_safe o ob s : d_obj D !! o = Some ob -> is_media (ob_kind ob) = true -> okO o (ostOf s o) -> o_player (ostOf s o) = None ->
  swp (createPlayer D o) (fun _ s' => okO o (ostOf s' o) /\ cframe o s s') s.
Proof.
  intros Ho Hm HO Hp. apply swp_and; [|apply createPlayer_cframe]. pose proof HO as (HP & [cls Hc] & HS).
  unfold createPlayer. w1. w1. w1. w1; [rewrite Hp in H; by rewrite bool_decide_true in H|]. cbv zeta.
  set (u := default "" (o_props (ostOf s o) !! "uri")) in *. set (t := default "" (o_props (ostOf s o) !! "type")) in *.
  set (d := default "" (o_props (ostOf s o) !! "device")) in *. rewrite Hc.
  destruct (reset_yellow (s_w s) (s_h s)) as (a & -> & Ha).
  w1. unfold objSetProp. w1. w1. w1. w1. w1. w1. w1. w1.
  match goal with |- wp _ _ _ _ ?x => assert (H0 : okO o (ostOf x o) /\ is_Some (o_player (ostOf x o))) end.
  { sts. repeat (rewrite decide_True by done). cbn. split; [|by eexists]. split; [|split]; cbn.
    - intros k v. destruct (decide (k = "type")) as [->|N1]; [rewrite lookup_insert; intros _; split; [exact I|done]|].
      rewrite lookup_insert_ne by done. destruct (decide (k = "uri")) as [->|N2]; [rewrite lookup_insert; intros _; split; [exact I|done]|].
      rewrite lookup_insert_ne by done. apply HP.
    - exists cls. rewrite lookup_insert. rewrite (lookup_insert_ne _ "type" "uri") by done. rewrite lookup_insert.
      rewrite !lookup_insert_ne by done. cbn. fold d. by rewrite choose_again.
    - intros _ p [= <-]. cbn. by rewrite Ha. }
  match type of H0 with okO _ (ostOf ?x _) /\ _ => set (s1 := x) in * end. clearbody s1. w1. w1.
  apply wp_foreach_inv with (I := fun s' => okO o (ostOf s' o) /\ is_Some (o_player (ostOf s' o))); [done| |].
  - intros k s' _ [H1 H2]. w1. w1. destruct (o_props (ostOf s' o) !! k) as [v|] eqn:Ek; [|by w1].
    eapply wp_mono; [eapply pset_safe; try done; by apply H1|]. intros [] s2 [H3 H4]. split; [done|]. by apply (pf_player _ _ _ H4).
  - intros s' [(H1 & H2 & H3) [p Hp']]. unfold updPlayer. w1. sts. rewrite decide_True by done. split; [done|]. split; [done|]. cbn. rewrite Hp'. cbn.
    intros Es p0 [= <-]. cbn. split; [done|]. by apply H3.
Qed.
End Safe.

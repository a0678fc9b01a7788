(** StartMedia.v -- what starting a media does (C28, C30, C35). *)
From Coq Require Import Sorting.Sorted.
From Verif Require Import Frame SetProps NumFacts PlayerFacts PredSpec PredFacts StartFacts Trans StrFacts StartSpec Steps Wf.
Open Scope m_scope.
Open Scope string_scope.
Open Scope list_scope.
Notation valueOf := PlayerSpec.valueOf.

(** ** The keys, in order. *)
Lemma lex_trans a b c : lex a b -> lex b c -> lex a c.
Proof.
  intros Hab. revert c. induction Hab as [x b|x y a b Hxy|x a b Hab IH]; intros c Hbc.
  - inversion Hbc; subst; constructor.
  - inversion Hbc; subst; apply lex_lt; lia.
  - inversion Hbc; subst; [by apply lex_lt|apply lex_eq; auto].
Qed.
Lemma lex_total a b : a = b \/ lex a b \/ lex b a.
Proof.
  destruct (str_le a b) eqn:E; [apply str_le_lex in E; tauto|].
  right. right. apply compare_lex. unfold str_le, String.leb in E. rewrite String.compare_antisym.
  destruct (String.compare a b); done.
Qed.
Lemma insert_str_in x l k : k ∈ insert_str x l <-> k = x \/ k ∈ l.
Proof.
  induction l as [|y l IH]; cbn [insert_str]; [set_solver|]. destruct (str_le x y); [set_solver|].
  rewrite !elem_of_cons, IH. tauto.
Qed.
Lemma insert_str_sorted x l : StronglySorted lex l -> x ∉ l -> StronglySorted lex (insert_str x l).
Proof.
  induction l as [|y l IH]; intros Hs Hx; cbn [insert_str]; [by repeat constructor|].
  apply not_elem_of_cons in Hx as [Hxy Hx]. pose proof (StronglySorted_inv Hs) as [Hl Hy].
  destruct (str_le x y) eqn:E.
  - apply str_le_lex in E as [->|E]; [done|]. constructor; [done|]. constructor; [done|].
    eapply List.Forall_impl; [|exact Hy]. intros z. by apply lex_trans.
  - constructor; [by apply IH|]. apply List.Forall_forall. intros z Hz. apply elem_of_list_In, insert_str_in in Hz as [->|Hz].
    + destruct (lex_total x y) as [->|[Hl'|Hl']]; [done| |done].
      exfalso. assert (str_le x y = true) by (apply str_le_lex; auto). congruence.
    + rewrite List.Forall_forall in Hy. by apply Hy, elem_of_list_In.
Qed.
Lemma prop_keys_in m k : k ∈ prop_keys m <-> m !! k <> None \/ k ∈ geometry_keys.
Proof.
  unfold prop_keys. transitivity (k ∈ remove_dups (map fst (map_to_list m) ++ geometry_keys)).
  - generalize (remove_dups (map fst (map_to_list m) ++ geometry_keys)) as l. induction l as [|x l IH]; cbn [foldr]; [done|].
    rewrite insert_str_in, elem_of_cons, IH. done.
  - rewrite elem_of_remove_dups, elem_of_app, elem_of_list_fmap. split; intros [Hk|Hk]; auto.
    + destruct Hk as ([k' v] & -> & Hin). apply elem_of_map_to_list in Hin. cbn. left. congruence.
    + destruct (m !! k) as [v|] eqn:E; [|done]. left. exists (k, v). split; [done|]. by apply elem_of_map_to_list.
Qed.
Lemma prop_keys_sorted m : StronglySorted lex (prop_keys m).
Proof.
  unfold prop_keys. pose proof (NoDup_remove_dups (map fst (map_to_list m) ++ geometry_keys)) as HN.
  revert HN. generalize (remove_dups (map fst (map_to_list m) ++ geometry_keys)) as l.
  assert (Hin : forall l k, k ∈ foldr insert_str [] l <-> k ∈ l).
  { intros l k. induction l as [|x l IH]; cbn [foldr]; [done|]. by rewrite insert_str_in, elem_of_cons, IH. }
  induction l as [|x l IH]; intros HN; cbn [foldr]; [constructor|].
  inversion HN as [|? ? Hx HN']; subst. apply insert_str_sorted; [by apply IH|]. by rewrite Hin.
Qed.

Section Start.
Context (D : doc).
Notation X := (d_ext D).

Lemma reset_fresh W H a a' : (0 <= W <= 2147483647)%Z -> (0 <= H <= 2147483647)%Z ->
  reset_attrs X W H a = DOk a' -> a' = freshAttrs W H.
Proof.
  intros HW HH. destruct a. unfold reset_attrs, player_property_map. cbn [reset_attrs_go].
  assert (PW : parse_percent (x_odd X) "100%" W 0 G_MAXINT = W) by (apply (hundred D); done).
  assert (PH : parse_percent (x_odd X) "100%" H 0 G_MAXINT = H) by (apply (hundred D); done).
  assert (P0 : forall b, parse_percent (x_odd X) "0" b 0 G_MAXINT = 0%Z) by (intros b; apply (StartFacts.zero D b)).
  assert (PT : parse_pixel (x_odd X) "0%" = 0%Z) by (vm_compute; reflexivity).
  unfold doset_own, with_color, with_percent. cbn [is_empty orb].
  change (try_parse_bool "false") with (Some false). change (try_parse_bool "true") with (Some true).
  change (xstrtoint "4") with (Some 4%Z). change (xstrtoint "0") with (Some 0%Z).
  change (String.eqb "indefinite" "indefinite") with true. rewrite PT, PW, PH, !P0. cbv beta iota.
  repeat (destruct (x_color X _); [cbv beta iota|discriminate]). intros [= <-]. reflexivity.
Qed.

(** The table a new player is given: the media's, with "uri" entered even if empty
    and "type" the effective one. *)
Definition given (T : table) : table := fun j =>
  if String.eqb j "type" then Some (effective_mime (default "" (T "type")) (default "" (T "uri")))
  else if String.eqb j "uri" then Some (default "" (T "uri")) else T j.

Definition running (p : player) : Prop := p_state p = POccurring /\ p_time p = 0%N /\ p_eos p = false.

Lemma class_set n :
  (forall o k v d s c, pwp (mediaSet D n o k v d) (fun _ s' => (p_class <$> o_player (ostOf s o)) = c -> (p_class <$> o_player (ostOf s' o)) = c) s) /\
  (forall o k v s c, pwp (playerSet D n o k v) (fun _ s' => (p_class <$> o_player (ostOf s o)) = c -> (p_class <$> o_player (ostOf s' o)) = c) s).
Proof.
  induction n as [|n [IH1 IH2]]; [split; intros; exact I|]. split; intros o k v.
  - intros d s c. cbn [mediaSet]. w1. apply wp_getO; [done|]. intros ob Ho. w1.
    eapply (wp_mono _ _ _ (fun _ s' => ostOf s' o = ostOf s o)). { w1; [by w1|done]. }
    intros [] s1 F1; cbv beta in F1 |- *. rewrite <- F1. w1. w1. w1. w1. w1. unfold objSetProp. w1.
    set (s2 := upd_ob _ _ s1).
    assert (E2 : o_player (ostOf s2 o) = o_player (ostOf s1 o)) by (unfold s2; sts; by rewrite decide_True).
    rewrite <- E2. clearbody s2. w1. w1. destruct (o_player (ostOf s2 o)) as [p|] eqn:Ep; [|w1; by rewrite Ep]. w1.
    + unfold animSchedule. repeat (w1; try (by rewrite Ep); try done).
    + eapply wp_mono; [apply (IH2 _ _ _ _ c)|]. intros [] s3 F3; cbv beta in F3. by rewrite Ep in F3.
  - intros s c. cbn [playerSet]. w1. w1. destruct (o_player (ostOf s o)) as [p|] eqn:Ep; [|exact I]. w1.
    eapply (wp_mono _ _ _ (fun _ s' => p_class <$> o_player (ostOf s' o) = Some (p_class p))).
    { destruct (pset_value p k v) as [[code v']|]; [|w1; by rewrite Ep]. destruct (doset_own _ _ _ _ _ _) as [a| |]; try exact I.
      w1. unfold updPlayer. w1.
      apply wp_foreach_inv with (I := fun s' => p_class <$> o_player (ostOf s' o) = Some (p_class p)); [|..|done].
      - sts. rewrite decide_True by done. cbn. rewrite Ep. by destruct p, a.
      - intros [k' v''] s' Hin Hs'. cbn [fst snd]. eapply wp_mono; [apply (IH1 _ _ _ _ _ (Some (p_class p)))|]. intros [] s'' F. by apply F. }
    intros [] s1 F1; cbv beta in F1 |- *. unfold updPlayer. w1. cbn. intros <-. sts. rewrite decide_True by done. cbn.
    rewrite <- F1. by destruct (o_player (ostOf s1 o)).
Qed.
Lemma create_ok o s : screen s -> pwp (createPlayer D o) (fun _ s' =>
  exists cls p, choose_player X (propOf s o "type") (propOf s o "uri") (propOf s o "device") = CClass cls /\
    o_player (ostOf s' o) = Some p /\ p_class p = cls /\ running p /\
    (forall j, lk s' o j = spreadTable (given (lk s o)) j) /\ agrees X (s_w s) (s_h s) (lk s' o) (attrs_of p)) s.
Proof.
  intros [HW HH]. unfold createPlayer. w1. w1. w1. w1.
  match goal with Hb : bool_decide _ = true |- _ => apply bool_decide_eq_true in Hb as HP end.
  destruct (choose_player _ _ _ _) as [cls|] eqn:Ec; [|exact I].
  destruct (reset_attrs _ _ _ _) as [a| |] eqn:Er; try exact I. apply reset_fresh in Er; [|done..]. subst a.
  w1. unfold objSetProp. w1. w1. w1. w1. w1. w1. w1. w1. w1.
  match goal with |- wp _ _ _ _ ?x => set (s1 := x) in * end.
  assert (T1 : forall j, lk s1 o j = given (lk s o) j).
  { intros j. unfold lk, s1, given, lk. sts. repeat (rewrite decide_True by done; cbn).
    destruct (String.eqb_spec j "type") as [->|Hj]; [by rewrite lookup_insert|]. rewrite lookup_insert_ne by done.
    destruct (String.eqb_spec j "uri") as [->|Hj']; [by rewrite lookup_insert|]. by rewrite lookup_insert_ne. }
  assert (P1 : presents s1 o (freshAttrs (s_w s) (s_h s))).
  { exists (new_player cls (freshAttrs (s_w s) (s_h s))). split; [|done]. unfold s1. sts. by repeat (rewrite decide_True by done; cbn). }
  assert (C1 : p_class <$> o_player (ostOf s1 o) = Some cls).
  { unfold s1. sts. by repeat (rewrite decide_True by done; cbn). }
  assert (D1 : dims s s1) by done. clearbody s1. w1.
  set (ks := prop_keys (o_props (ostOf s1 o))).
  assert (Hks : forall k, lk s1 o k <> None -> k ∈ ks) by (intros k Hk; apply prop_keys_in; by left).
  assert (Hgk : forall k, k ∈ geometry_keys -> k ∈ ks) by (intros k Hk; apply prop_keys_in; by right).
  pose proof (prop_keys_sorted (o_props (ostOf s1 o))) as Hso. change (StronglySorted lex ks) in Hso. clearbody ks.
  destruct D1 as [D1 D2].
  assert (Loop : forall l s2 b, presents s2 o b -> s_w s2 = s_w s -> s_h s2 = s_h s -> p_class <$> o_player (ostOf s2 o) = Some cls ->
    pwp (foreach (fun k => do s0 <- get; match o_props (ostOf s0 o) !! k with Some v => playerSetProperty D o k v | None => ret tt end) l)
      (fun _ s3 => exists b', presents s3 o b' /\ p_class <$> o_player (ostOf s3 o) = Some cls /\ psteps D (s_w s) (s_h s) l (lk s2 o) b (lk s3 o) b') s2).
  { clear -HW. induction l as [|k l IH]; intros s2 b Pb W2 H2 C2; cbn [foreach].
    { w1. exists b. split; [done|]. split; [done|]. by apply ps_nil. }
    w1. w1. w1. destruct (o_props (ostOf s2 o) !! k) as [v|] eqn:Ek.
    - eapply wp_mono; [apply wp_conj; [apply playerT|apply (proj2 (class_set _) o k v s2 (Some cls))]|].
      intros [] s3 [H3 C3]. cbv beta in H3, C3. destruct (H3 b Pb) as (b1 & Pb1 & St & [W3 H3'] & _).
      eapply wp_mono; [apply (IH s3 b1 Pb1); [congruence|congruence|auto]|].
      intros [] s4 (b' & Pb' & C4 & Ss). exists b'. split; [done|]. split; [done|]. rewrite W2, H2 in St. eapply ps_step; eauto.
    - w1. eapply wp_mono; [apply (IH s2 b Pb W2 H2 C2)|]. intros [] s4 (b' & Pb' & C4 & Ss). exists b'. split; [done|]. split; [done|].
      by apply ps_skip. }
  eapply wp_mono; [apply (Loop ks s1 _ P1 D1 D2 C1)|]. intros [] s2 (b' & (p & Hp & Hb) & C2 & Ss). cbv beta. unfold updPlayer. w1.
  exists cls, (p_set_eos false (p_set_time 0%N (p_set_state POccurring p))).
  match goal with |- context [ostOf ?z o] => set (s3 := z) end.
  assert (E3 : o_player (ostOf s3 o) = Some (p_set_eos false (p_set_time 0%N (p_set_state POccurring p))) /\ forall j, lk s3 o j = lk s2 o j).
  { unfold lk, s3. sts. repeat (rewrite decide_True by done; cbn). by rewrite Hp. }
  destruct E3 as [E3 T3]. clearbody s3. split; [reflexivity|]. split; [done|]. split; [rewrite Hp in C2; injection C2 as <-; by destruct p|].
  split; [by destruct p|]. split.
  - intros j. rewrite T3. rewrite (final_table D (s_w s) (s_h s) ks _ _ _ _ Hso Ss Hks). unfold spreadTable, spread. by rewrite !T1.
  - assert (attrs_of (p_set_eos false (p_set_time 0%N (p_set_state POccurring p))) = b') as -> by (by destruct p).
    pose proof (agrees_all D (s_w s) (s_h s) ks _ _ _ HW HH Hso Ss Hks Hgk) as HA.
    destruct HA. constructor; unfold inForce in *; rewrite ?T3; assumption.
Qed.

(** ** The choice of a player. *)
Lemma find_last_spec c x a b : find_last_char c x = Some (a, b) <->
  x = (a ++ String c b)%string /\ ~ In c (list_ascii_of_string b).
Proof.
  unfold find_last_char. destruct (find_char c (srev x)) as [[i y]|] eqn:E.
  - apply find_char_spec in E as [E1 E2]. assert (x = (srev y ++ String c (srev i))%string) as ->.
    { rewrite <- (srev_srev x), E1, srev_app, srev_cons, StrFacts.sapp_assoc. reflexivity. }
    assert (Hi : ~ In c (list_ascii_of_string (srev i))).
    { intros Hin. apply E2. change (In c (ParseSpec.chars (srev i))) in Hin. rewrite srev_chars in Hin. by apply in_rev in Hin. }
    split.
    + intros [= <- <-]. done.
    + intros [H1 H2].
      assert (find_char c (srev (srev y ++ String c (srev i))) = Some (srev b, srev a)) as G.
      { rewrite H1. apply find_char_spec. split; [rewrite srev_app, srev_cons, StrFacts.sapp_assoc; reflexivity|].
        intros Hin. apply H2. change (In c (ParseSpec.chars (srev b))) in Hin. rewrite srev_chars in Hin. by apply in_rev in Hin. }
      rewrite srev_app, srev_cons, StrFacts.sapp_assoc, !srev_srev in G.
      assert (find_char c (i ++ String c y) = Some (i, y)) as G2 by (by apply find_char_spec).
      change (find_char c (i ++ String c y) = Some (srev b, srev a)) in G. rewrite G2 in G. injection G as -> ->. by rewrite !srev_srev.
  - split; [done|]. intros [H1 H2]. assert (find_char c (srev x) = Some (srev b, srev a)) as G; [|congruence].
    rewrite H1. apply find_char_spec. split; [rewrite srev_app, srev_cons, StrFacts.sapp_assoc; reflexivity|].
    intros Hin. apply H2. change (In c (ParseSpec.chars (srev b))) in Hin. rewrite srev_chars in Hin. by apply in_rev in Hin.
Qed.
Lemma types_same : forallb (fun e => existsb (fun k => String.eqb (fst e) (fst k) && String.eqb (snd e) (snd k))%bool knownTypes) mime_table = true /\
  forallb (fun e => match Player.assoc (fst e) mime_table with Some m => String.eqb m (snd e) | None => false end) knownTypes = true.
Proof. split; vm_compute; reflexivity. Qed.
Lemma mime_lookup e m : Player.assoc e mime_table = Some m <-> In (e, m) knownTypes.
Proof.
  destruct types_same as [T1 T2]. split.
  - intros Ha. apply assoc_in, elem_of_list_In in Ha. pose proof (proj1 (List.forallb_forall _ _) T1 _ Ha) as Hx.
    apply existsb_exists in Hx as ([e' m'] & Hin & Hb). cbn [fst snd] in Hb. apply andb_prop in Hb as [H1 H2].
    apply String.eqb_eq in H1, H2. by subst.
  - intros Hin. pose proof (proj1 (List.forallb_forall _ _) T2 _ Hin) as Hx. cbn [fst snd] in Hx.
    destruct (Player.assoc e mime_table); [|done]. apply String.eqb_eq in Hx. by subst.
Qed.
Lemma uri_mime uri m : getMimeForURI uri = Some m <-> knownMime uri m.
Proof.
  unfold getMimeForURI, knownMime, extension. split.
  - destruct (find_last_char "." uri) as [[a e]|] eqn:E; [|done]. destruct e as [|c e]; [done|]. cbn [is_empty].
    intros Ha. apply find_last_spec in E as [-> Hd]. exists (String c e). split; [|by apply mime_lookup]. repeat split; [done|done|eauto].
  - intros (e & (H1 & H2 & base & ->) & Hin). assert (find_last_char "." (base ++ "." ++ e) = Some (base, e)) as -> by (by apply find_last_spec).
    destruct e; [done|]. by apply mime_lookup.
Qed.
Lemma known_nonempty uri m : knownMime uri m -> m <> "".
Proof.
  intros (e & _ & Hin). assert (G : forallb (fun k => negb (String.eqb (snd k) "")) knownTypes = true) by (vm_compute; reflexivity).
  pose proof (proj1 (List.forallb_forall _ _) G _ Hin) as Hx. cbn in Hx. by destruct (String.eqb_spec m "").
Qed.
Lemma known_fun uri m m' : knownMime uri m -> knownMime uri m' -> m = m'.
Proof. rewrite <- !uri_mime. congruence. Qed.
Lemma effective_mimeOf type uri : mimeOf type uri (effective_mime type uri).
Proof.
  unfold effective_mime. destruct type as [|c type]; [|by apply mime_given]. cbn [is_empty andb].
  destruct uri as [|c uri]; cbn [is_empty negb].
  - apply mime_timer; [done|]. intros (m & Hm). apply uri_mime in Hm. discriminate.
  - destruct (getMimeForURI (String c uri)) as [m|] eqn:E; cbn [default].
    + apply uri_mime in E. pose proof (known_nonempty _ _ E). destruct m; [done|]. by apply mime_known.
    + apply mime_timer; [done|]. intros (m & Hm). apply uri_mime in Hm. congruence.
Qed.
Lemma mimeOf_fun type uri m m' : mimeOf type uri m -> mimeOf type uri m' -> m = m'.
Proof.
  intros [] []; try congruence; try (exfalso; eauto; fail). by eapply known_fun.
Qed.
Lemma mime_unique type uri : exists m, mimeOf type uri m /\ forall m', mimeOf type uri m' -> m' = m.
Proof. exists (effective_mime type uri). split; [apply effective_mimeOf|]. intros m' Hm. exact (mimeOf_fun _ _ _ _ Hm (effective_mimeOf type uri)). Qed.
Lemma prefix_cstr p s : ~ In "000"%char (list_ascii_of_string p) -> String.prefix p (cstr s) = true <-> begins p s.
Proof.
  revert s. induction p as [|c p IH]; intros s Hp.
  - split; [intros _; by exists s|]. intros _. by destruct (cstr s).
  - cbn in Hp. assert (c <> "000"%char) by tauto. destruct s as [|d s]; cbn [cstr].
    + split; [done|]. intros [t Ht]. discriminate.
    + destruct (Ascii.eqb_spec d "000"%char) as [->|Hd].
      * split; [done|]. intros [t Ht]. rewrite sapp_cons in Ht. congruence.
      * cbn [String.prefix]. destruct (ascii_dec c d) as [->|Hcd].
        { rewrite IH by tauto. unfold begins. split; intros [t Ht]; exists t; rewrite ?sapp_cons in *; congruence. }
        { split; [done|]. intros [t Ht]. rewrite sapp_cons in Ht. congruence. }
Qed.
Lemma has_prefix p s : ~ In "000"%char (list_ascii_of_string p) -> cstr p = p -> xstrhasprefix s p = true <-> begins p s.
Proof. intros Hp E. unfold xstrhasprefix. rewrite E. by apply prefix_cstr. Qed.
Lemma begins_ch p q s : begins p s -> begins q s -> forallb (fun ab => Ascii.eqb (fst ab) (snd ab)) (combine (list_ascii_of_string p) (list_ascii_of_string q)) = true.
Proof.
  revert q s. induction p as [|c p IH]; intros q s [t Ht] [u Hu]; [done|]. destruct q as [|d q]; [done|].
  rewrite sapp_cons in Ht, Hu. cbn. assert (c = d) as -> by congruence. rewrite Ascii.eqb_refl. cbn.
  destruct s as [|e s]; [discriminate|]. apply (IH q s); [exists t|exists u]; congruence.
Qed.
Lemma begins_self s : begins s s.
Proof. exists "". symmetry. induction s as [|c s IH]; [done|]. rewrite sapp_cons. by rewrite IH. Qed.
Lemma remote_ok type uri device : usesPlayerRemote type uri device = true <-> remoteAsked type uri device.
Proof.
  unfold usesPlayerRemote, remoteAsked. rewrite orb_true_iff.
  assert (G1 : negb (is_empty device) = true <-> device <> "") by (by destruct device).
  assert (G2 : String.eqb (if is_empty type then default "" (getMimeForURI uri) else type) MIME_NCL360 = true <-> mimeOf type uri "application/x-ncl360").
  { rewrite String.eqb_eq. change MIME_NCL360 with "application/x-ncl360". destruct type as [|c type]; cbn [is_empty].
    - destruct (getMimeForURI uri) as [m|] eqn:E; cbn [default].
      + apply uri_mime in E. split; [intros <-; by apply mime_known|]. inversion 1; subst. by eapply known_fun.
      + split; [done|]. inversion 1; subst; try done. match goal with K : knownMime _ _ |- _ => apply uri_mime in K; congruence end.
    - split; [intros <-; by apply mime_given|]. by inversion 1. }
  rewrite G1, G2. tauto.
Qed.
Ltac pfx := match goal with
  | E : xstrhasprefix _ ?p = true |- _ => apply has_prefix in E; [|vm_compute; intuition discriminate|reflexivity]
  | E : xstrhasprefix ?m ?p = false |- _ =>
      assert (~ begins p m) by (intros HB; apply (has_prefix p m) in HB; [congruence|vm_compute; intuition discriminate|reflexivity]); clear E
  end.
Ltac ex := exfalso; match goal with
  | EM : forall x y : string, ?m = x -> ?m = y -> _, H1 : ?m = ?x, H2 : ?m = ?y |- _ => discriminate (EM x y H1 H2)
  | EB : forall x p : string, ?m = x -> begins p ?m -> _, H1 : ?m = ?x, H2 : begins ?p ?m |- _ => discriminate (EB x p H1 H2)
  | EP : forall p q s : string, begins p s -> begins q s -> _, H1 : begins ?p ?m, H2 : begins ?q ?m |- _ => discriminate (EP p q m H1 H2)
  end.
Lemma choose_suits type uri device c :
  choose_player X type uri device = CClass c <->
  suits (x_cef X) (remoteAsked type uri device) uri (effective_mime type uri) c.
Proof.
  unfold choose_player. set (m := effective_mime type uri).
  destruct (usesPlayerRemote type uri device) eqn:ER; [apply remote_ok in ER|assert (~ remoteAsked type uri device) as ER' by (rewrite <- remote_ok; congruence); clear ER; rename ER' into ER].
  all: assert (EM : forall x y, m = x -> m = y -> String.eqb x y = true) by (intros x y -> ->; apply String.eqb_refl).
  all: assert (EB : forall x p, m = x -> begins p m -> forallb (fun ab => Ascii.eqb (fst ab) (snd ab)) (combine (list_ascii_of_string x) (list_ascii_of_string p)) = true)
     by (intros x p -> HB; eapply begins_ch; [apply begins_self|exact HB]).
  all: pose proof (begins_ch) as EP.
  all: destruct (String.eqb_spec m "application/x-ginga-ncl") as [E1|E1];
    [|destruct (xstrhasprefix m "audio") eqn:E2; [|destruct (xstrhasprefix m "video") eqn:E3; [|
      destruct (String.eqb_spec m "application/x-ginga-siggen") as [E4|E4]; [|destruct (xstrhasprefix m "image") eqn:E5; [|
      destruct (String.eqb_spec m "text/plain") as [E6|E6]; [|]]]]]]; cbn [orb].
  all: repeat pfx.
  all: clearbody m.
  all: try (assert (NK : ~ (exists k, plainKind m k)) by (intros [[] Hk]; cbn [plainKind] in Hk; tauto)).
  all: match goal with |- (if _ then _ else _) = _ <-> _ => idtac | _ => split; [intros [=]; subst c; cbn [suits plainKind]; auto; fail|destruct c; cbn [suits plainKind]; intros;
     repeat match goal with
       | K : _ /\ _ |- _ => destruct K
       | K : _ \/ _ |- _ => destruct K end; try reflexivity; exfalso; try contradiction; try congruence; try ex;
     try (match goal with K : ~ (exists k, plainKind _ k) |- _ => apply K; first [exists PVideo; cbn; tauto|exists PSigGen; exact E4|exists PImage; assumption|exists PText; assumption] end)] end.
  assert (ES : xstrhasprefix m "image/svg" = false).
  { destruct (xstrhasprefix m "image/svg") eqn:E; [|reflexivity]. pfx. exfalso.
    match goal with K : ~ begins "image" m |- _ => apply K end. destruct E as [t ->]. exists ("/svg" ++ t)%string; reflexivity. }
  rewrite ES.
  assert (NP : forall k, ~ plainKind m k) by (intros k Hk; apply NK; by exists k).
  destruct (x_cef X && xstrhasprefix m "text/html") eqn:EH.
  { apply andb_prop in EH as [EC EH]. pfx. split.
    - intros [=]; subst c. cbn [suits]. auto.
    - destruct c; cbn [suits]; intros K; try (by apply NP in K); try (exfalso; tauto); try reflexivity;
        destruct K as [_ K]; try ex; destruct K as [K|K]; [ex|exfalso; tauto]. }
  assert (EH' : ~ (x_cef X = true /\ begins "text/html" m)).
  { intros [HC HB]. rewrite HC in EH. cbn [andb] in EH. apply has_prefix in HB; [congruence|vm_compute; intuition discriminate|reflexivity]. }
  destruct (String.eqb_spec m "application/x-ginga-NCLua") as [EL|EL].
  { split.
    - intros [=]; subst c. cbn [suits]. auto.
    - destruct c; cbn [suits]; intros K; try (by apply NP in K); try (exfalso; tauto); try reflexivity.
      destruct K as [_ [K|K]]; [ex|]. exfalso. tauto. }
  destruct (String.eqb_spec m "application/x-ginga-timer") as [ET|ET]; cbn [negb andb].
  { split.
    - intros [=]; subst c. cbn [suits]. auto.
    - destruct c; cbn [suits]; intros K; try (by apply NP in K); try (exfalso; tauto); reflexivity. }
  destruct uri as [|a uri]; cbn [is_empty negb].
  { split.
    - intros [=]; subst c. cbn [suits]. split; [exact ER|right]. repeat (split; [first [reflexivity|assumption]|]). assumption.
    - destruct c; cbn [suits]; intros K; try (by apply NP in K); try (exfalso; tauto); reflexivity. }
  split; [discriminate|].
  destruct c; cbn [suits]; intros K; try (by apply NP in K); try (exfalso; tauto).
  destruct K as [_ [K|[K _]]]; [contradiction|discriminate].
Qed.

(** ** Starting a media. *)
Lemma doStart_next o s : pwp (doStart D o) (fun _ s' =>
  s_next s' = if String.eqb (propOf s' o "focusIndex") "" then s_next s else Some "") s.
Proof.
  unfold doStart. w1. w1. w1. apply wp_addAwake; [done|done|].
  intros s' E1 E2 E3 E4 E5 E6 E7. w1. w1.
  destruct (String.eqb_spec (propOf s' o "focusIndex") "") as [E|E].
  - rewrite E. cbn [is_empty negb whenm]. w1. rewrite E, String.eqb_refl. exact E4.
  - destruct (propOf s' o "focusIndex") as [|c f] eqn:Ef; [done|]. cbn [is_empty negb]. unfold whenm, scheduleFocus. w1.
    assert (propOf (set_next (Some "") s') o "focusIndex" = propOf s' o "focusIndex") as -> by reflexivity. rewrite Ef. reflexivity.
Qed.
Lemma schedule_ok o l s : timesFit D -> o_time (ostOf s o) = 0%N ->
  pwp (foreach (fun e' => do ev' <- getE D e';
                   if (negb (isLambda ev') && bool_decide (ev_type ev' = PRESENTATION)
                       && negb (hasLabel ev'))%bool
                   then addDelayed o e' START "" (ev_begin ev') ;;
                        addDelayed o e' STOP "" (ev_end ev')
                   else ret tt) l)
    (fun _ s' => s_ev s' = s_ev s /\ s_next s' = s_next s /\ (forall o', o' <> o -> ostOf s' o' = ostOf s o') /\
       ostOf s' o = os_set_delayed (o_delayed (ostOf s o) ++ anchorSchedule D l) (ostOf s o)) s.
Proof.
  intros TF. revert s. induction l as [|e l IH]; intros s Ht; cbn [foreach anchorSchedule].
  { w1. split; [done|]. split; [done|]. split; [done|]. rewrite app_nil_r. by destruct (ostOf s o). }
  w1. w1. wgetE ev He. rewrite He. pose proof (TF _ _ He) as [TB TE].
  assert (G : (negb (isLambda ev) && bool_decide (ev_type ev = PRESENTATION) && negb (hasLabel ev))%bool = timed ev).
  { unfold isLambda, timed, hasLabel. destruct (ev_type ev); cbn; rewrite ?andb_true_r, ?andb_false_r; try done. by destruct (ev_label ev). }
  rewrite G. destruct (timed ev).
  - unfold addDelayed. w1. w1. w1.
    assert (T0 : forall x, (x <= TIME_NONE)%N -> tadd 0 x = x).
    { intros x Hx. unfold tadd. apply N.mod_small. unfold TIME_NONE, W64 in *. lia. }
    match goal with |- wp _ _ _ _ ?z => set (s1 := z) end.
    assert (E1 : s_ev s1 = s_ev s /\ s_next s1 = s_next s /\ (forall o', o' <> o -> ostOf s1 o' = ostOf s o') /\
      ostOf s1 o = os_set_delayed (o_delayed (ostOf s o) ++ [(mkAct e START None "" "" "", ev_begin ev); (mkAct e STOP None "" "" "", ev_end ev)]) (ostOf s o)).
    { unfold s1, sched. split; [done|]. split; [done|]. split.
      - intros o' Ho. sts. by rewrite !decide_False.
      - sts. repeat (rewrite decide_True by done; cbn). rewrite Ht, !T0 by done. destruct (ostOf s o); cbn. by rewrite <- app_assoc. }
    destruct E1 as (F1 & F2 & F3 & F4). clearbody s1. eapply wp_mono; [apply IH; by rewrite F4|].
    intros [] s2 (G1 & G2 & G3 & G4). split; [congruence|]. split; [congruence|]. split; [intros o' Ho; by rewrite G3, F3|].
    rewrite G4, F4. destruct (ostOf s o); cbn. by rewrite <- app_assoc.
  - w1. cbn [app]. by apply IH.
Qed.

Ltac byrun E b s' := pattern b, s'; refine (wp_ok True True _ _ _ _ b s' E); clear E b s'.

(** ** Upwards. *)
Context (rank : oid -> nat) (WF : wf_at D rank).
Lemma lam_obj o ob : d_obj D !! o = Some ob -> exists ev, d_evt D !! ob_lambda ob = Some ev /\ ev_obj ev = o /\ isLambda ev = true /\ ev_type ev = PRESENTATION.
Proof.
  intros Ho. pose proof (wf_o _ _ WF _ _ Ho) as Wo. destruct (wo_lambda _ _ _ _ Wo) as (ev & He & Hl & Hin).
  destruct (wo_events _ _ _ _ Wo _ Hin) as (ev' & He' & Heo). assert (ev' = ev) as -> by congruence. exists ev. split; [done|]. split; [done|].
  split; [done|]. unfold isLambda in Hl. apply andb_prop in Hl as [Hl _]. by apply bool_decide_eq_true in Hl.
Qed.
Lemma lam_inj o ob o' ob' : d_obj D !! o = Some ob -> d_obj D !! o' = Some ob' -> ob_lambda ob = ob_lambda ob' -> o = o'.
Proof.
  intros H1 H2 E. destruct (lam_obj _ _ H1) as (ev & He & Ho & _). destruct (lam_obj _ _ H2) as (ev' & He' & Ho' & _). congruence.
Qed.
Lemma above_rank s o p : sleepsAbove D s o p -> rank o < rank p.
Proof.
  intros (ob & pb & Ho & Hp & _). destruct (wo_parent _ _ _ _ (wf_o _ _ WF _ _ Ho) _ Hp) as (pb' & _ & _ & _ & Hr). done.
Qed.
Lemma wakes_rank s o p : wakes D s o p -> rank o < rank p.
Proof. induction 1 as [o p Ha|o p q Ha _ IH]; apply above_rank in Ha; lia. Qed.
Lemma wakes_ctx s o p : wakes D s o p -> exists pb, d_obj D !! p = Some pb /\ ob_kind pb = KContext /\ evState s (ob_lambda pb) = SLEEPING.
Proof. induction 1 as [o p Ha|o p q Ha _ IH]; [|done]. destruct Ha as (ob & pb & _ & _ & H1 & H2 & H3). eauto. Qed.
Lemma wakes_keep s1 s2 p q : (forall r rb, rank p < rank r -> d_obj D !! r = Some rb -> evState s2 (ob_lambda rb) = evState s1 (ob_lambda rb)) ->
  wakes D s1 p q -> wakes D s2 p q.
Proof.
  intros HE Hw. induction Hw as [o p Ha|o p q Ha Hw IH].
  - apply wakes_one. pose proof (above_rank _ _ _ Ha). destruct Ha as (ob & pb & H1 & H2 & H3 & H4 & H5). exists ob, pb. by rewrite (HE _ pb) by done.
  - pose proof (above_rank _ _ _ Ha). eapply wakes_more.
    + destruct Ha as (ob & pb & H1 & H2 & H3 & H4 & H5). exists ob, pb. by rewrite (HE _ pb) by done.
    + apply IH. intros r rb Hr. apply HE. lia.
Qed.
Lemma wakes_inv s o p q : sleepsAbove D s o p -> wakes D s o q -> q = p \/ wakes D s p q.
Proof.
  intros (ob & pb & H1 & H2 & H3 & H4 & H5) Hw. inversion Hw as [? ? (ob' & pb' & K1 & K2 & _)|? p' ? (ob' & pb' & K1 & K2 & _) K]; subst.
  - left. congruence.
  - assert (p' = p) as -> by congruence. by right.
Qed.

Definition still (x : ostate) : ostate := os_set_awake 0 (os_set_time 0 x).
Record raised (s s' : st) (o : oid) : Prop := mkRaised {
  ra_on : forall p pb, wakes D s o p -> d_obj D !! p = Some pb -> evState s' (ob_lambda pb) = OCCURRING /\ o_time (ostOf s' p) = 0%N;
  ra_ev : forall e, notAwoken D s o e -> estOf s' e = estOf s e;
  ra_time : forall o', ~ wakes D s o o' -> o_time (ostOf s' o') = o_time (ostOf s o');
  ra_ob : forall o', still (ostOf s' o') = still (ostOf s o');
  ra_w : s_w s' = s_w s; ra_h : s_h s' = s_h s;
  ra_either : s_next s' = s_next s \/ s_next s' = Some "";
  ra_focus : (exists p, wakes D s o p /\ propOf s p "focusIndex" <> "") -> s_next s' = Some "";
  ra_nofocus : ~ (exists p, wakes D s o p /\ propOf s p "focusIndex" <> "") -> s_next s' = s_next s
}.
Lemma raised_none s o : (forall p, ~ wakes D s o p) -> raised s s o.
Proof. intros HN. split; try done; try (intros p pb Hw; by apply HN in Hw); [by left|]. intros (p & Hw & _). by apply HN in Hw. Qed.
Lemma still_props x y : still x = still y -> o_props x = o_props y /\ o_player x = o_player y /\ o_delayed x = o_delayed y.
Proof. destruct x, y. unfold still. cbn. by intros [=]; subst. Qed.
Lemma doStart_all o s : pwp (doStart D o) (fun _ s' => s_ev s' = s_ev s /\ s_w s' = s_w s /\ s_h s' = s_h s /\
   (forall o', still (ostOf s' o') = still (ostOf s o')) /\ o_time (ostOf s' o) = 0%N /\
   (forall o', o' <> o -> o_time (ostOf s' o') = o_time (ostOf s o')) /\
   s_next s' = if String.eqb (propOf s o "focusIndex") "" then s_next s else Some "") s.
Proof.
  eapply wp_mono; [apply wp_conj; [apply doStart_next|apply (wp_doStart D True True o (fun _ s' =>
     s_ev s' = s_ev s /\ s_w s' = s_w s /\ s_h s' = s_h s /\ forall o', ostOf s' o' =
        os_set_time (if decide (o = o') then 0%N else o_time (ostOf s o'))
        (os_set_awake (o_awake (ostOf s o') + awk D o 1 o')%Z (ostOf s o'))))]|].
  { done. } { done. } { intros; by repeat split. }
  intros [] s3 [N3 (V3 & W3 & H3 & O3)]. split; [done|]. split; [done|]. split; [done|].
  split; [intros o'; rewrite O3; by destruct (ostOf s o')|]. split; [rewrite O3, decide_True by done; by destruct (ostOf s o)|].
  split; [intros o' Hne; rewrite O3, decide_False by done; by destruct (ostOf s o')|].
  rewrite N3. unfold propOf. rewrite O3. by destruct (ostOf s o).
Qed.
Lemma evState_est s s' e : estOf s' e = estOf s e -> evState s' e = evState s e.
Proof. unfold evState. by intros ->. Qed.

Lemma climb n : forall o s, pwp (startParent D (tr D n) o) (fun _ s' => raised s s' o) s.
Proof.
  induction n as [|n IH]; intros o s.
  all: unfold startParent; w1; apply wp_getO; [done|]; intros ob Ho.
  all: assert (NP : (forall p pb, ob_parent ob = Some p -> d_obj D !! p = Some pb -> ob_kind pb = KContext -> evState s (ob_lambda pb) <> SLEEPING) -> raised s s o)
    by (intros HN; apply raised_none; intros p Hw; inversion Hw as [? ? (ob' & pb' & K1 & K2 & K3 & K4 & K5)|? p' ? (ob' & pb' & K1 & K2 & K3 & K4 & K5) K]; subst;
        assert (ob' = ob) as -> by congruence; by eapply HN).
  all: destruct (ob_parent ob) as [p|] eqn:Ep; [|w1; by apply NP].
  all: unfold isContext; w1; w1; apply wp_getO; [done|]; intros pb Hpb; w1.
  all: case_bool_decide as Hc; [|w1; apply NP; intros p' pb' [= <-] Hpb'; congruence].
  all: w1; unfold isSleeping, objState; w1; w1; apply wp_getO; [done|]; intros pb' Hpb'; assert (pb' = pb) as -> by congruence; clear Hpb'; w1; w1.
  all: case_bool_decide as Hsl; [|w1; apply NP; intros p' pb' [= <-] Hpb'; congruence].
  all: w1; apply wp_getO; [done|]; intros pb' Hpb'; assert (pb' = pb) as -> by congruence; clear Hpb'.
  { unfold setParam. repeat w1. }
  unfold setParam. w1. w1. w1. rewrite tr_S. unfold tr_body.
  destruct (lam_obj _ _ Hpb) as (ev & He & Heo & Hl & Ht).
  set (s0 := upd_ev _ _ s).
  assert (SA : sleepsAbove D s o p) by (exists ob, pb; done).
  w1. apply wp_getE; [done|]. intros ev' He'. assert (ev' = ev) as -> by congruence. clear He'. w1. w1.
  assert (E0 : evState s0 (ob_lambda pb) = SLEEPING) by (unfold s0; sts; exact Hsl).
  rewrite E0. cbn [legal negb]. w1. unfold before. w1. rewrite Heo. apply wp_getO; [done|]. intros pb' Hpb'. assert (pb' = pb) as -> by congruence. clear Hpb'.
  rewrite Hc. unfold ctx_before. rewrite Ht, Hl. cbv beta iota. w1. w1. w1. cbn [negb]. w1. w1. w1. w1. w1.
  match goal with |- wp _ _ _ _ ?z => set (s1 := z) end.
  unfold after. w1. apply wp_getO; [done|]. intros pb' Hpb'. assert (pb' = pb) as -> by congruence. clear Hpb'.
  rewrite Hc. unfold ctx_after. rewrite Ht, Hl. cbv beta iota. w1. w1. w1.
  assert (S1 : s_next s1 = s_next s /\ s_w s1 = s_w s /\ s_h s1 = s_h s /\ (forall o', ostOf s1 o' = ostOf s o') /\ evState s1 (ob_lambda pb) = OCCURRING /\
     e_params (estOf s1 (ob_lambda pb)) !! "fromport" = Some "true" /\ (forall e, e <> ob_lambda pb -> estOf s1 e = estOf s e)).
  { unfold s1, s0. split; [done|]. split; [done|]. split; [done|]. split; [done|]. cbn [target].
    split; [sts; by rewrite decide_True|]. split; [sts; repeat (rewrite decide_True by done); cbn; by rewrite lookup_insert|].
    intros e Hne. sts. by rewrite !decide_False. }
  destruct S1 as (N1 & W1 & H1 & O1 & V1 & F1 & X1). clearbody s1. clear s0 E0.
  eapply wp_mono; [apply doStart_all|]. intros [] s2 (V2 & W2 & H2 & O2 & T2 & T2' & N2). cbv beta. w1.
  eapply wp_mono; [apply IH|]. intros [] s3 R3. cbv beta. unfold getParam. w1. w1.
  assert (K1 : forall r rb, rank p < rank r -> d_obj D !! r = Some rb -> evState s2 (ob_lambda rb) = evState s (ob_lambda rb)).
  { intros r rb Hr Hrb. rewrite (evState_sev s1 s2) by done. apply evState_est, X1. intros E. assert (r = p) by (by eapply lam_inj). subst r. lia. }
  assert (K2 : forall q, wakes D s2 p q <-> wakes D s p q).
  { intros q. split; apply wakes_keep; intros r rb Hr Hrb; [symmetry|]; by apply (K1 r rb). }
  assert (K3 : estOf s3 (ob_lambda pb) = estOf s2 (ob_lambda pb)).
  { apply (ra_ev _ _ _ R3). intros q qb Hq Hqb E. assert (p = q) by (by eapply lam_inj). subst q. apply wakes_rank in Hq. lia. }
  assert (K4 : forall e, estOf s2 e = estOf s1 e) by (intros e; unfold estOf; by rewrite V2).
  assert (K5 : e_params (estOf s3 (ob_lambda pb)) !! "fromport" = Some "true") by (by rewrite K3, K4).
  rewrite K5. change (is_empty (default "" (Some "true"))) with false. cbv beta iota. repeat w1.
  assert (PP : forall q, propOf s2 q "focusIndex" = propOf s q "focusIndex").
  { intros q. unfold propOf. destruct (still_props _ _ (O2 q)) as [-> _]. by rewrite O1. }
  destruct R3 as [R1 R2 R3 R4 R5 R6 R9 R7 R8]. split.
  - intros q qb Hq Hqb. destruct (wakes_inv _ _ _ _ SA Hq) as [-> |Hq'].
    + assert (qb = pb) as -> by congruence. split.
      * rewrite (evState_est _ _ _ K3), (evState_est _ _ _ (K4 _)). exact V1.
      * rewrite R3; [done|]. intros Hw. apply wakes_rank in Hw. lia.
    + apply R1; [by apply K2|done].
  - intros e Hne. rewrite R2, K4; [apply X1|].
    + apply (Hne p pb); [by apply wakes_one|done].
    + intros q qb Hq Hqb. apply (Hne q qb); [|done]. eapply wakes_more; [done|]. by apply K2.
  - intros o' Hn. rewrite R3, T2', O1; [done| |].
    + intros ->. apply Hn. by apply wakes_one.
    + intros Hw. apply Hn. eapply wakes_more; [done|]. by apply K2.
  - intros o'. by rewrite R4, O2, O1.
  - congruence.
  - congruence.
  - destruct (String.eqb (propOf s1 p "focusIndex") ""); destruct R9 as [R9|R9]; rewrite R9; rewrite ?N2; rewrite ?N1; auto.
  - intros (q & Hq & Hf). destruct (wakes_inv _ _ _ _ SA Hq) as [-> |Hq'].
    + assert (Hn : s_next s2 = Some "").
      { rewrite N2. destruct (String.eqb_spec (propOf s1 p "focusIndex") "") as [E|E]; [|done]. exfalso. apply Hf. unfold propOf in *. by rewrite O1 in E. }
      destruct R9 as [R9|R9]; congruence.
    + apply R7. exists q. split; [by apply K2|]. by rewrite PP.
  - intros Hnf. rewrite R8.
    + rewrite N2. destruct (String.eqb_spec (propOf s1 p "focusIndex") "") as [E|E]; [done|]. exfalso. apply Hnf. exists p.
      split; [by apply wakes_one|]. unfold propOf in *. by rewrite O1 in E.
    + intros (q & Hq & Hf). apply Hnf. exists q. split; [eapply wakes_more; [done|by apply K2]|]. by rewrite <- PP.
Qed.

(** ** Starting a media. *)
Lemma start_media n s b s' : timesFit D -> screen s ->
  forall o ob, d_obj D !! o = Some ob -> (ob_kind ob = KMedia \/ ob_kind ob = KSettings) -> evState s (ob_lambda ob) = SLEEPING ->
  tr D n (ob_lambda ob) START s = Ok b s' -> b = true /\ mediaStarted D s s' o ob.
Proof.
  intros TF HS o ob Ho Hk Hs E. byrun E b s'.
  destruct (lam_obj _ _ Ho) as (ev & He & Heo & Hl & Et).
  destruct n as [|n]; [exact I|]. rewrite tr_S. unfold tr_body. w1. apply wp_getE; [done|]. intros ev' He'.
  assert (ev' = ev) as -> by congruence. clear He'. w1. w1. rewrite Hs. cbn [legal negb]. w1.
  unfold before. w1. rewrite Heo. apply wp_getO; [done|]. intros ob' Ho'. assert (ob' = ob) as -> by congruence. clear Ho'.
  set (Q1 := fun (b1 : bool) s1 => b1 = true /\ exists s0, raised s s0 o /\ cframe o s0 s1 /\
    exists cls p, choose_player X (propOf s o "type") (propOf s o "uri") (propOf s o "device") = CClass cls /\
    o_player (ostOf s1 o) = Some p /\ p_class p = cls /\ running p /\
    (forall j, lk s1 o j = spreadTable (given (lk s o)) j) /\ agrees X (s_w s) (s_h s) (lk s1 o) (attrs_of p)).
  assert (NA : notAwoken D s o (ob_lambda ob)).
  { intros p pb Hw Hpb El. assert (o = p) by (by eapply lam_inj). subst p. apply wakes_rank in Hw. lia. }
  eapply (wp_mono _ _ _ Q1).
  { assert (G : pwp (media_before D (tr D n) (fun a => loop D n [a]) o (ob_lambda ob) ev START) Q1 s).
    2:{ destruct Hk as [-> | ->]; exact G. }
    unfold media_before. rewrite Et. w1. eapply wp_mono; [apply climb|]. intros [] s0 R0. cbv beta. w1. w1.
    assert (Es : evState s0 (ob_lambda ob) = SLEEPING) by (rewrite (evState_est s s0); [done|]; by apply (ra_ev _ _ _ R0)).
    rewrite Es, Hl. w1.
    assert (PP : o_props (ostOf s0 o) = o_props (ostOf s o)) by (apply still_props, (ra_ob _ _ _ R0)).
    assert (HS0 : screen s0) by (unfold screen; by rewrite (ra_w _ _ _ R0), (ra_h _ _ _ R0)).
    eapply wp_mono; [apply wp_conj; [apply createPlayer_cframe|by apply create_ok]|]. intros [] s1 [F G]. cbv beta in F, G. w1.
    split; [done|]. exists s0. split; [done|]. split; [done|]. destruct G as (cls & p & G1 & G2 & G3 & G4 & G5 & G6).
    rewrite (ra_w _ _ _ R0), (ra_h _ _ _ R0) in G6. exists cls, p. split; [unfold propOf in *; by rewrite PP in G1|]. split; [done|]. split; [done|]. split; [done|].
    split; [|done]. intros j. rewrite G5. unfold lk. by rewrite PP. }
  intros b1 s1 (-> & s0 & R0 & CF & cls & p & Hc & Hpl & Hcl & Hr & HT & HA). cbv beta. cbn [negb]. w1. w1. w1. w1. w1.
  match goal with |- wp _ _ _ _ ?z => set (s2 := z) end.
  assert (S2 : s_next s2 = s_next s1 /\ (forall o', ostOf s2 o' = ostOf s1 o') /\ evState s2 (ob_lambda ob) = OCCURRING /\ forall e', e' <> ob_lambda ob -> evState s2 e' = evState s1 e').
  { unfold s2. split; [done|]. split; [done|]. cbn [target]. split; [sts; by rewrite decide_True|]. intros e' Hne. sts. by rewrite decide_False. }
  destruct S2 as (N2 & O2 & V2 & W2). clearbody s2.
  unfold after. w1. apply wp_getO; [done|]. intros ob' Ho'. assert (ob' = ob) as -> by congruence. clear Ho'.
  assert (G : pwp (media_after D o (ob_lambda ob) ev START) (fun b3 s3 => b3 = true /\ mediaStarted D s s3 o ob) s2).
  2:{ eapply (wp_mono _ _ _ (fun b3 s3 => b3 = true /\ mediaStarted D s s3 o ob)).
      - destruct Hk as [-> | ->]; exact G.
      - intros b3 s3 [-> H3]. cbv beta. w1. done. }
  unfold media_after. w1. w1. rewrite Et, Hl. cbv beta iota. w1. w1. w1.
  eapply wp_mono; [apply doStart_all|]. intros [] s3 (V3 & W3 & H3 & O3 & T3 & T3' & N3). cbv beta. w1. apply wp_getO; [done|]. intros ob' Ho'. assert (ob' = ob) as -> by congruence. w1.
  eapply wp_mono; [by apply schedule_ok|].
  intros [] s4 (V4 & N4 & O4 & P4). cbv beta. w1. split; [done|].
  destruct CF as [C1 C2 C3 C4 C5 C6 C7 C8 C9 C10 C11 C12 C13]. destruct R0 as [R1 R2 R3 R4 R5 R6 R9 R7 R8].
  destruct (still_props _ _ (O3 o)) as (Q31 & Q32 & Q33). destruct (still_props _ _ (R4 o)) as (Q01 & Q02 & Q03).
  rewrite O2 in Q31, Q32, Q33.
  assert (Pr : o_props (ostOf s4 o) = o_props (ostOf s1 o)) by (rewrite P4; cbn; by rewrite Q31).
  assert (Pf : propOf s2 o "focusIndex" = propOf s4 o "focusIndex") by (unfold propOf; by rewrite Pr, O2).
  assert (VV : forall e', evState s4 e' = evState s2 e').
  { intros e'. rewrite (evState_sev s3 s4) by done. by rewrite (evState_sev s2 s3). }
  assert (VW : forall e', e' <> ob_lambda ob -> evState s4 e' = evState s0 e').
  { intros e' Hne. rewrite VV, W2 by done. by apply evState_sev. }
  assert (Above : forall q, wakes D s o q -> q <> o) by (intros q Hw ->; apply wakes_rank in Hw; lia).
  split; [split|..].
  - by rewrite VV.
  - rewrite P4. exact T3.
  - intros q qb Hw Hq. destruct (R1 q qb Hw Hq) as [G1 G2]. pose proof (Above _ Hw) as Hne. split.
    + rewrite VW; [done|]. intros El. apply Hne. by eapply lam_inj.
    + rewrite O4, T3', O2, C6 by done. exact G2.
  - intros e' Hne Hna. rewrite VW by done. by apply evState_est, R2.
  - intros o' Hne Hw. rewrite O4, T3', O2, C6 by done. by apply R3.
  - intros o' Hne. rewrite O4 by done. destruct (still_props _ _ (O3 o')) as (-> & -> & ->). rewrite O2, C6 by done. by apply still_props.
  - rewrite N4, N3, Pf, N2, C3. unfold focusable. split.
    + intros Hf. destruct (String.eqb_spec (propOf s4 o "focusIndex") "") as [E|E]; [|done]. destruct Hf as [Hf|Hf]; [contradiction|]. by apply R7.
    + intros Hf. destruct (String.eqb_spec (propOf s4 o "focusIndex") "") as [E|E]; [|tauto]. apply R8. tauto.
  - rewrite P4. cbn. by rewrite Q33, C8, Q03.
  - exists p, (effective_mime (propOf s o "type") (propOf s o "uri")).
    split; [rewrite P4; cbn; by rewrite Q32|]. split; [done|].
    split; [apply effective_mimeOf|]. split; [apply choose_suits; by subst cls|].
    assert (TT : forall k, tableOf s4 o k = lk s1 o k) by (intros k; unfold tableOf, lk; by rewrite Pr).
    split; [intros k; by rewrite TT, HT|]. destruct HA. constructor; unfold inForce in *; rewrite ?TT; assumption.
Qed.

(** ** Starting a context. *)
Lemma ports_ok o l s : o_time (ostOf s o) = 0%N ->
  pwp (foreach (fun p => do pe <- getE D p; whenm (bool_decide (ev_type pe = PRESENTATION)) (addDelayed o p START "" 0)) l)
    (fun _ s' => s_ev s' = s_ev s /\ s_next s' = s_next s /\ (forall o', o' <> o -> ostOf s' o' = ostOf s o') /\
       ostOf s' o = os_set_delayed (o_delayed (ostOf s o) ++ portSchedule D l) (ostOf s o)) s.
Proof.
  revert s. induction l as [|e l IH]; intros s Ht; cbn [foreach portSchedule].
  { w1. split; [done|]. split; [done|]. split; [done|]. rewrite app_nil_r. by destruct (ostOf s o). }
  w1. w1. wgetE ev He. rewrite He.
  case_bool_decide as Hp; unfold whenm.
  - rewrite Hp. unfold addDelayed. w1.
    match goal with |- wp _ _ _ _ ?z => set (s1 := z) end.
    assert (E1 : s_ev s1 = s_ev s /\ s_next s1 = s_next s /\ (forall o', o' <> o -> ostOf s1 o' = ostOf s o') /\
      ostOf s1 o = os_set_delayed (o_delayed (ostOf s o) ++ [(mkAct e START None "" "" "", 0%N)]) (ostOf s o)).
    { unfold s1, sched. split; [done|]. split; [done|]. split.
      - intros o' Ho. sts. by rewrite !decide_False.
      - sts. repeat (rewrite decide_True by done; cbn). by rewrite Ht. }
    destruct E1 as (F1 & F2 & F3 & F4). clearbody s1. eapply wp_mono; [apply IH; by rewrite F4|].
    intros [] s2 (G1 & G2 & G3 & G4). split; [congruence|]. split; [congruence|]. split; [intros o' Ho; by rewrite G3, F3|].
    rewrite G4, F4. destruct (ostOf s o); cbn. by rewrite <- app_assoc.
  - w1. assert (match ev_type ev with PRESENTATION => [(mkAct e START None "" "" "", 0%N)] | _ => [] end = []) as -> by (by destruct (ev_type ev)).
    cbn [app]. by apply IH.
Qed.
Lemma start_context n s b s' o ob : d_obj D !! o = Some ob -> ob_kind ob = KContext -> evState s (ob_lambda ob) = SLEEPING ->
  tr D n (ob_lambda ob) START s = Ok b s' -> b = true /\ contextStarted D s s' o ob.
Proof.
  intros Ho Hk Hs E. byrun E b s'.
  destruct (lam_obj _ _ Ho) as (ev & He & Heo & Hl & Et).
  destruct n as [|n]; [exact I|]. rewrite tr_S. unfold tr_body. w1. apply wp_getE; [done|]. intros ev' He'.
  assert (ev' = ev) as -> by congruence. clear He'. w1. w1. rewrite Hs. cbn [legal negb]. w1.
  unfold before. w1. rewrite Heo. apply wp_getO; [done|]. intros ob' Ho'. assert (ob' = ob) as -> by congruence. clear Ho'.
  rewrite Hk. unfold ctx_before. rewrite Et, Hl. cbv beta iota. w1. w1. w1. cbn [negb]. w1. w1. w1. w1. w1.
  match goal with |- wp _ _ _ _ ?z => set (s1 := z) end.
  unfold after. w1. apply wp_getO; [done|]. intros ob' Ho'. assert (ob' = ob) as -> by congruence. clear Ho'.
  rewrite Hk. unfold ctx_after. rewrite Et, Hl. cbv beta iota. w1. w1. w1.
  assert (S1 : s_next s1 = s_next s /\ s_w s1 = s_w s /\ s_h s1 = s_h s /\ (forall o', ostOf s1 o' = ostOf s o') /\ evState s1 (ob_lambda ob) = OCCURRING /\
     e_params (estOf s1 (ob_lambda ob)) = e_params (estOf s (ob_lambda ob)) /\ (forall e, e <> ob_lambda ob -> estOf s1 e = estOf s e)).
  { unfold s1. split; [done|]. split; [done|]. split; [done|]. split; [done|]. cbn [target].
    split; [sts; by rewrite decide_True|]. split; [sts; by repeat (rewrite decide_True by done)|].
    intros e Hne. sts. by rewrite !decide_False. }
  destruct S1 as (N1 & W1 & H1 & O1 & V1 & F1 & X1). clearbody s1.
  eapply wp_mono; [apply doStart_all|]. intros [] s2 (V2 & W2 & H2 & O2 & T2 & T2' & N2). cbv beta. w1.
  eapply wp_mono; [apply climb|]. intros [] s3 R3. cbv beta. unfold getParam. w1. w1.
  assert (K1 : forall r rb, rank o < rank r -> d_obj D !! r = Some rb -> evState s2 (ob_lambda rb) = evState s (ob_lambda rb)).
  { intros r rb Hr Hrb. rewrite (evState_sev s1 s2) by done. apply evState_est, X1. intros E. assert (r = o) by (by eapply lam_inj). subst r. lia. }
  assert (K2 : forall q, wakes D s2 o q <-> wakes D s o q).
  { intros q. split; apply wakes_keep; intros r rb Hr Hrb; [symmetry|]; by apply (K1 r rb). }
  assert (NA : notAwoken D s2 o (ob_lambda ob)).
  { intros p pb Hw Hpb El. assert (o = p) by (by eapply lam_inj). subst p. apply wakes_rank in Hw. lia. }
  assert (K3 : estOf s3 (ob_lambda ob) = estOf s2 (ob_lambda ob)) by (by apply (ra_ev _ _ _ R3)).
  assert (K4 : forall e, estOf s2 e = estOf s1 e) by (intros e; unfold estOf; by rewrite V2).
  assert (K5 : e_params (estOf s3 (ob_lambda ob)) = e_params (estOf s (ob_lambda ob))) by (by rewrite K3, K4).
  rewrite K5. destruct R3 as [R1 R2 R3 R4 R5 R6 R9 R7 R8].
  assert (T3 : o_time (ostOf s3 o) = 0%N) by (rewrite R3; [done|]; intros Hw; apply wakes_rank in Hw; lia).
  assert (PP : forall q, o_props (ostOf s3 q) = o_props (ostOf s q) /\ o_player (ostOf s3 q) = o_player (ostOf s q) /\ o_delayed (ostOf s3 q) = o_delayed (ostOf s q)).
  { intros q. destruct (still_props _ _ (R4 q)) as (-> & -> & ->). destruct (still_props _ _ (O2 q)) as (-> & -> & ->). by rewrite O1. }
  assert (PF : forall z q, o_props z = o_props (ostOf s q) -> default "" (o_props z !! "focusIndex") = propOf s q "focusIndex") by (intros z q Ez; unfold propOf; by rewrite Ez).
  assert (Above : forall q, wakes D s o q -> q <> o) by (intros q Hw ->; apply wakes_rank in Hw; lia).
  (* what does not depend on the ports *)
  assert (Common : forall s4, s_next s4 = s_next s3 -> (forall e, evState s4 e = evState s3 e) -> (forall o', o' <> o -> ostOf s4 o' = ostOf s3 o') ->
     o_time (ostOf s4 o) = 0%N -> o_props (ostOf s4 o) = o_props (ostOf s o) -> started D s s4 o ob).
  { intros s4 N4 V4 O4 T4 P4. split.
    - rewrite V4, (evState_est _ _ _ K3), (evState_est _ _ _ (K4 _)). exact V1.
    - exact T4.
    - intros q qb Hw Hq. destruct (R1 q qb (proj2 (K2 _) Hw) Hq) as [G1 G2]. split; [by rewrite V4|]. rewrite O4; [done|by apply Above].
    - intros e Hne Hna. rewrite V4. rewrite (evState_est s2 s3); [|apply R2; intros q qb Hq; apply Hna; by apply K2].
      rewrite (evState_est _ _ _ (K4 _)). by apply evState_est, X1.
    - intros o' Hne Hw. rewrite O4 by done. rewrite R3 by (by rewrite K2). rewrite T2', O1 by done. done.
    - intros o' Hne. rewrite O4 by done. apply PP.
    - rewrite N4. assert (Pf : propOf s4 o "focusIndex" = propOf s1 o "focusIndex") by (unfold propOf; by rewrite P4, O1).
      assert (Pg : forall q, propOf s2 q "focusIndex" = propOf s q "focusIndex").
      { intros q. unfold propOf. destruct (still_props _ _ (O2 q)) as [-> _]. by rewrite O1. }
      unfold focusable. rewrite Pf. split.
      + intros [Hf|(q & Hq & Hf)].
        * assert (Hn : s_next s2 = Some "") by (rewrite N2; by destruct (String.eqb_spec (propOf s1 o "focusIndex") "")). destruct R9 as [R9|R9]; congruence.
        * apply R7. exists q. split; [by apply K2|]. by rewrite Pg.
      + intros Hf. rewrite R8; [rewrite N2; destruct (String.eqb_spec (propOf s1 o "focusIndex") ""); [done|tauto]|].
        intros (q & Hq & Hq'). apply Hf. right. exists q. split; [by apply K2|]. by rewrite <- Pg. }
  set (fp := default "" (e_params (estOf s (ob_lambda ob)) !! "fromport")).
  destruct fp as [|c fp'] eqn:Efp; cbn [is_empty].
  - w1. w1. apply wp_getO; [done|]. intros ob' Ho'. assert (ob' = ob) as -> by congruence. w1.
    eapply wp_mono; [by apply ports_ok|]. intros [] s4 (V4 & N4 & O4 & P4). cbv beta. unfold setParam. repeat w1. split; [done|].
    set (s5 := upd_ev _ _ s4).
    assert (V5 : forall e, evState s5 e = evState s3 e).
    { intros e. rewrite <- (evState_sev s3 s4) by done. unfold s5. by sts. }
    assert (O5 : forall o', ostOf s5 o' = ostOf s4 o') by done.
    split.
    + apply Common; [done|done|intros; by rewrite O5, O4|rewrite O5, P4; exact T3|rewrite O5, P4; apply PP].
    + intros _. rewrite O5, P4. cbn. destruct (PP o) as (_ & _ & ->). done.
    + intros Hx. exfalso. apply Hx. unfold fp in Efp. exact Efp.
    + rewrite O5, P4. apply PP.
  - w1. w1. w1. split; [done|]. split.
    + apply Common; try done. apply PP.
    + intros Hx. exfalso. apply Hx. unfold startedFromWithin. unfold fp in Efp. rewrite Efp. discriminate.
    + intros _. apply PP.
    + apply PP.
Qed.
End Start.

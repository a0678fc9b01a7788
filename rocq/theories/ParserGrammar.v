(** ParserGrammar.v -- accepted documents are grammatical and their ids unique (C43, C44). *)
From Verif Require Export ParserCheck.
Open Scope string_scope.
Open Scope list_scope.

(** ** The tables of the parser against the grammar, by computation. *)
Definition tagOk (p : string * syn) : bool :=
  let '(tag, sy) := p in
  match look tag attributes, look tag content with
  | Some (req, opt, names), Some inside =>
    forallb (fun n => existsb (fun a => String.eqb (fst a) n && af_required (snd a) && negb (String.eqb n "id" && sy_genid sy)) (sy_attrs sy)) req &&
    forallb (fun a => mem (fst a) req || mem (fst a) opt) (sy_attrs sy) &&
    forallb (fun n => existsb (fun a => String.eqb (fst a) n && af_nonempty (snd a) && af_name (snd a)) (sy_attrs sy)) names &&
    forallb (fun c => negb (possibleChild tag c) || mem c inside) (map fst syntax) &&
    forallb (fun a => negb (String.eqb (fst a) "id") || af_unique (snd a) && af_id (snd a)) (sy_attrs sy) &&
    (negb (match sy_parents sy with nil => true | _ => false end) || String.eqb tag "ncl")
  | _, _ => false
  end.
Lemma tables_ok : forallb tagOk syntax = true.
Proof. vm_compute. reflexivity. Qed.
Lemma exists_elem {A} (f : A -> bool) l : existsb f l = true -> exists x, x ∈ l /\ f x = true.
Proof. rewrite existsb_exists. intros (x & H & E). exists x. split; [by apply elem_of_list_In|done]. Qed.
Lemma forall_elem {A} (f : A -> bool) l x : forallb f l = true -> x ∈ l -> f x = true.
Proof. rewrite forallb_forall. intros H Hx. apply H. by apply elem_of_list_In. Qed.
Lemma grammar_ok tag sy : synOf tag = Some sy -> exists req opt names inside,
  (tag, (req, opt, names)) ∈ attributes /\ (tag, inside) ∈ content /\
  (forall n, n ∈ req -> exists f, (n, f) ∈ sy_attrs sy /\ af_required f = true /\ ~ (n = "id" /\ sy_genid sy = true)) /\
  (forall n f, (n, f) ∈ sy_attrs sy -> n ∈ req \/ n ∈ opt) /\
  (forall n, n ∈ names -> exists f, (n, f) ∈ sy_attrs sy /\ af_nonempty f = true /\ af_name f = true) /\
  (forall c, possibleChild tag c = true -> c ∈ inside) /\
  (forall f, ("id", f) ∈ sy_attrs sy -> af_unique f = true /\ af_id f = true) /\
  (sy_parents sy = [] -> tag = "ncl").
Proof.
  intros H. pose proof tables_ok as T. apply look_some in H. apply (forall_elem _ _ _ T) in H. unfold tagOk in H.
  destruct (look tag attributes) as [[[req opt] names]|] eqn:Ea; [|done]. destruct (look tag content) as [inside|] eqn:Ec; [|done].
  rewrite !andb_true_iff in H. destruct H as (((((H1 & H2) & H3) & H4) & H5) & H6). exists req, opt, names, inside.
  split; [by apply look_some|]. split; [by apply look_some|]. split; [|split; [|split; [|split; [|split]]]].
  - intros n Hn. apply (forall_elem _ _ _ H1) in Hn. apply exists_elem in Hn as ([n' f] & Hi & Hf). cbn [fst snd] in Hf. rewrite !andb_true_iff in Hf. destruct Hf as ((E & Hr) & Hg).
    apply String.eqb_eq in E as ->. exists f. split; [done|]. split; [done|]. intros [-> Hs]. rewrite Hs in Hg. done.
  - intros n f Hi. apply (forall_elem _ _ _ H2) in Hi. cbn [fst] in Hi. apply orb_true_iff in Hi as [Hi|Hi]; apply mem_spec in Hi; auto.
  - intros n Hn. apply (forall_elem _ _ _ H3) in Hn. apply exists_elem in Hn as ([n' f] & Hi & Hf). cbn [fst snd] in Hf. rewrite !andb_true_iff in Hf. destruct Hf as ((E & Hr) & Hg).
    apply String.eqb_eq in E as ->. by exists f.
  - intros c Hc. assert (Hi : c ∈ map fst syntax).
    { unfold possibleChild, synOf in Hc. destruct (look c syntax) as [sc|] eqn:El; [|done]. apply look_some in El. apply elem_of_list_fmap. by exists (c, sc). }
    apply (forall_elem _ _ _ H4) in Hi. rewrite Hc in Hi. cbn [negb orb] in Hi. by apply mem_spec.
  - intros f Hi. apply (forall_elem _ _ _ H5) in Hi. cbn [fst snd] in Hi. rewrite String.eqb_refl in Hi. cbn [negb orb] in Hi. by apply andb_true_iff.
  - intros Hp. rewrite Hp in H6. cbn [negb orb] in H6. by apply String.eqb_eq.
Qed.
Lemma nameChar_ok c : nameChar c = true -> c ∈ list_ascii_of_string nameChars.
Proof.
  assert (H : forallb (fun c => negb (nameChar c) || existsb (Ascii.eqb c) (list_ascii_of_string nameChars)) (map ascii_of_nat (seq 0 256)) = true) by (vm_compute; reflexivity).
  intros Hc. assert (Hi : c ∈ map ascii_of_nat (seq 0 256)).
  { apply elem_of_list_fmap. exists (nat_of_ascii c). split; [by rewrite ascii_nat_embedding|]. apply elem_of_seq. pose proof (nat_ascii_bounded c). lia. }
  apply (forall_elem _ _ _ H) in Hi. rewrite Hc in Hi. cbn [negb orb] in Hi. apply exists_elem in Hi as (x & Hx & E). apply Ascii.eqb_eq in E as ->. done.
Qed.
Lemma validName_ok v : validName v = true -> forall c, c ∈ list_ascii_of_string (cstr v) -> c ∈ list_ascii_of_string nameChars.
Proof.
  unfold validName. generalize (cstr v). intros w. induction w as [|a w IH]; cbn [forallStr list_ascii_of_string]; intros H c Hc; [by apply elem_of_nil in Hc|].
  apply andb_true_iff in H as [H1 H2]. apply elem_of_cons in Hc as [->|Hc]; [by apply nameChar_ok|by apply IH].
Qed.
Lemma aget_in n l v : aget n l = Some v -> (n, v) ∈ l.
Proof.
  induction l as [|[k w] l IH]; cbn [aget]; [done|]. destruct (String.eqb k n) eqn:E; [|by intros H; constructor; apply IH].
  intros [= ->]. apply String.eqb_eq in E as ->. constructor.
Qed.

(** ** C43. *)
Lemma checked_valid up x s sy attrs s' : checked true up x s sy attrs s' -> Forall Valid (x_kids x) -> Valid x.
Proof.
  intros [K1 K2 K3 K4 K5 _ _ _ _ _] Hk. destruct x as [tag given kids]. cbn [x_tag x_attrs x_kids] in *.
  destruct (grammar_ok _ _ K1) as (req & opt & names & inside & G1 & G2 & G3 & G4 & G5 & G6 & _ & _).
  apply (V tag given kids req opt names inside); try done.
  - intros n Hn. destruct (G3 _ Hn) as (f & Hi & Hr & Hg). apply (proj1 (List.Forall_forall _ _)) with (x := (n, f)) in K3; [|by apply elem_of_list_In].
    unfold attrOk in K3. cbn [fst snd] in K3. destruct (aget n given); [by eexists|]. destruct K3 as [K3|K3]; [done|congruence].
  - intros n v Hi. destruct (K4 eq_refl _ _ Hi) as [f Hf]. by apply (G4 _ f).
  - intros n v Hn Hv. destruct (G5 _ Hn) as (f & Hi & H1 & H2). apply (proj1 (List.Forall_forall _ _)) with (x := (n, f)) in K3; [|by apply elem_of_list_In].
    unfold attrOk in K3. cbn [fst snd] in K3. rewrite Hv in K3. destruct K3 as [K3 K3']. split; [by apply K3|]. by apply validName_ok, K3'.
  - intros k Hi. apply G6. by apply K5.
Qed.
Lemma process_valid E k : forall up x s, pw (processNode E k up x) (fun _ _ => Valid x) s.
Proof.
  induction k as [|k IH]; intros up x s; cbn [processNode]; [done|].
  apply pw_bind. eapply pw_mono; [apply checkNode_ok|]. intros [sy attrs] s1 Hc. cbn [fst snd] in Hc. cbv beta iota. p1. p1. p1.
  eapply (pw_mono _ (fun _ _ => True)); [unfold pw; by destruct (push _ _ _ _ _)|]. intros e s2 _. cbv beta. p1.
  eapply (pw_mono _ (fun _ _ => True)); [unfold pw; by destruct (pwhen _ _ _)|]. intros [] s3 _. cbv beta. p1.
  eapply (pw_mono _ (fun _ _ => Forall Valid (x_kids x))).
  { apply (pw_each _ (x_kids x) (fun l _ => forall y, y ∈ x_kids x -> y ∈ l \/ Valid y)).
    - intros y Hy. by left.
    - intros y l' s' _ Hi. eapply pw_mono; [apply IH|]. intros [] s4 Hv z Hz. destruct (Hi z Hz) as [H|H]; [|by right]. apply elem_of_cons in H as [->|H]; [by right|by left].
    - intros s' Hi. apply List.Forall_forall. intros y Hy. apply elem_of_list_In in Hy. destruct (Hi y Hy) as [H|H]; [by apply elem_of_nil in H|done]. }
  intros [] s4 Hk. cbv beta. unfold pw. destruct (pop _ _ _ _ _); try done. by eapply checked_valid.
Qed.
Lemma process_root E k x s : pw (processNode E k None x) (fun _ _ => x_tag x = "ncl") s.
Proof.
  destruct k as [|k]; cbn [processNode]; [done|]. apply pw_bind. eapply pw_mono; [apply checkNode_ok|]. intros [sy attrs] s1 Hc. cbn [fst snd] in Hc. cbv beta iota.
  assert (Ht : x_tag x = "ncl").
  { destruct Hc as [K1 K2 _ _ _ _ _ _ _ _]. destruct K2 as [K2|(u & Hu & _)]; [|done]. by destruct (grammar_ok _ _ K1) as (? & ? & ? & ? & _ & _ & _ & _ & _ & _ & _ & ->). }
  unfold pw. by destruct (_ : pres unit).
Qed.
Lemma parse_inv E k addr focus z w h x s : parse E k addr focus z w h x = POk tt s ->
  (lift newDocument ;;; processNode E k None x) (initial addr focus z w h) = POk tt s.
Proof. unfold parse. destruct (negb _); [done|]. destruct ((_ ;;; _) _) as [[]| [] | |]; done. Qed.
Lemma f_C43 E k addr focus z w h x s : parse E k addr focus z w h x = POk tt s -> x_tag x = "ncl" /\ Valid x.
Proof.
  intros H. apply parse_inv in H. assert (G : pw (lift newDocument ;;; processNode E k None x) (fun _ _ => x_tag x = "ncl" /\ Valid x) (initial addr focus z w h)); [|exact (pw_ok _ _ _ _ _ G H)].
  apply pw_bind, pw_lift_any. intros [] g. apply pw_conj; [apply process_root|apply process_valid].
Qed.

(** ** C44. *)
Definition idsIn (x : xml) (s s' : pst) : Prop :=
  p_alias s' = p_alias s /\ p_unique s ⊆ p_unique s' /\ NoDup (idsOf x) /\
  (forall i, i ∈ idsOf x -> (aliasCombine (p_alias s) ++ i)%string ∉ p_unique s /\ (aliasCombine (p_alias s) ++ i)%string ∈ p_unique s').
Definition grows (s s' : pst) : Prop := p_alias s' = p_alias s /\ p_unique s ⊆ p_unique s'.
Lemma grows_fr s s' : fr s s' -> grows s s'.
Proof. intros [H1 H2 _]. split; [done|]. by rewrite H2. Qed.
Lemma grows_trans s1 s2 s3 : grows s1 s2 -> grows s2 s3 -> grows s1 s3.
Proof. intros [H1 H2] [H3 H4]. split; [congruence|]. set_solver. Qed.
Lemma checked_grows c up x s sy attrs s' : checked c up x s sy attrs s' -> grows s s'.
Proof. intros H. destruct (ck_state _ _ _ _ _ _ _ H) as [n ->]. split; [done|]. cbn. set_solver. Qed.
Lemma grows_import E go e s : (forall up x s, pw (go up x) (fun _ s' => grows s s') s) -> pw (pushImport E go e) (fun _ s' => grows s s') s.
Proof.
  intros Hg. unfold pushImport. do 8 p1. cbv zeta. p1. p1. p1. p1. set (s1 := p_set_alias _ _). do 3 p1. 
  eapply pw_mono; [apply checkNode_ok|]. intros r s2 F2. apply checked_grows in F2. cbv beta. p1. p1. p1. eapply pw_mono; [apply checkNode_ok|]. intros r2 s3 F3. apply checked_grows in F3. cbv beta.
  do 5 p1. eapply (pw_mono _ (fun _ s' => grows s1 s')).
  { apply pw_each_inv; [by eapply grows_trans; [apply F2|apply F3]|]. intros y s' _ Hs. eapply pw_mono; [apply Hg|]. intros [] s4 F4. by eapply grows_trans. }
  intros [] s4 [F4 F5]. cbv beta. p1. p1. p1. split; [|done]. cbn. rewrite F4. unfold s1. cbn. by rewrite removelast_last.
Qed.
Lemma push_noimport E imp p e : p <> PuImport -> push E imp p e = push E (fun e => pret e) p e.
Proof. by destruct p. Qed.
Lemma grows_push E go p e s : (forall up x s, pw (go up x) (fun _ s' => grows s s') s) -> pw (push E (pushImport E go) p e) (fun _ s' => grows s s') s.
Proof.
  intros Hg. assert (D : p = PuImport \/ p <> PuImport) by (destruct p; auto). destruct D as [->|Hp]; [by apply grows_import|].
  rewrite push_noimport by done. eapply pw_mono; [apply keep_push; intros; apply keep_ret|]. intros a s' H. by apply grows_fr.
Qed.
Lemma keep_cacheAdd e : keep (cacheAdd e).
Proof. unfold cacheAdd. kp. Qed.
Lemma process_ids E k : forall up x s, pw (processNode E k up x) (fun _ s' => idsIn x s s') s.
Proof.
  induction k as [|k IH]; intros up x s; cbn [processNode]; [done|].
  apply pw_bind. eapply pw_mono; [apply checkNode_ok|]. intros [sy attrs] s1 Hc. cbn [fst snd] in Hc. cbv beta iota. p1. p1. p1. set (s1' := p_set_next _ _).
  assert (G1 : grows s s1) by (by eapply checked_grows).
  assert (Hown : forall i, aget "id" (x_attrs x) = Some i -> (aliasCombine (p_alias s) ++ i)%string ∉ p_unique s /\ (aliasCombine (p_alias s) ++ i)%string ∈ p_unique s1).
  { destruct Hc as [K1 _ _ K4 _ _ K7 [n K8] _ _]. intros i Hi. destruct (K4 eq_refl _ _ (aget_in _ _ _ Hi)) as [f Hf].
    destruct (grammar_ok _ _ K1) as (? & ? & ? & ? & _ & _ & _ & _ & _ & _ & Hu & _). destruct (Hu _ Hf) as [Hu1 Hu2].
    assert (Hin : (aliasCombine (p_alias s) ++ i)%string ∈ omap (uval (p_alias s) (x_attrs x)) (sy_attrs sy)).
    { apply elem_of_list_omap. exists ("id", f). split; [done|]. unfold uval, pfx. cbn [fst snd]. rewrite Hu1, Hi, Hu2. done. }
    split; [by apply K7|]. rewrite K8. cbn [chk p_unique p_set_unique p_set_genid]. apply elem_of_app. left. apply elem_of_list_In, in_rev. rewrite rev_involutive. by apply elem_of_list_In. }
  eapply pw_mono; [apply grows_push|]. { intros up' x' s'. eapply pw_mono; [apply IH|]. intros [] s'' (H1 & H2 & _). by split. }
  intros e s2 G2. cbv beta. p1. eapply (pw_mono _ (fun _ s' => grows s2 s')).
  { eapply pw_mono; [apply keep_when, keep_cacheAdd|]. intros [] s' H. by apply grows_fr. }
  intros [] s3 G3. cbv beta. p1. assert (G : grows s1 s3) by (eapply grows_trans; [|apply G3]; apply G2). clear G2 G3.
  eapply (pw_mono _ (fun _ s4 => grows s3 s4 /\ NoDup (flat_map idsOf (x_kids x)) /\
    (forall i, i ∈ flat_map idsOf (x_kids x) -> (aliasCombine (p_alias s) ++ i)%string ∉ p_unique s3 /\ (aliasCombine (p_alias s) ++ i)%string ∈ p_unique s4))).
  { apply (pw_each _ (x_kids x) (fun l s4 => grows s3 s4 /\ exists p, x_kids x = p ++ l /\ NoDup (flat_map idsOf p) /\
      (forall i, i ∈ flat_map idsOf p -> (aliasCombine (p_alias s) ++ i)%string ∉ p_unique s3 /\ (aliasCombine (p_alias s) ++ i)%string ∈ p_unique s4))).
    - split; [by split|]. exists []. split; [done|]. split; [constructor|]. intros i Hi. by apply elem_of_nil in Hi.
    - intros y l' s4 _ (G4 & p & Ep & Hn & Hp). eapply pw_mono; [apply IH|]. intros [] s5 (A5 & U5 & N5 & I5).
      assert (Ea : p_alias s4 = p_alias s) by (destruct G1 as [G1 _], G as [G _], G4 as [G4 _]; congruence). rewrite Ea in I5.
      split; [by eapply grows_trans; [|split]|]. exists (p ++ [y]). split; [by rewrite <- app_assoc|]. rewrite flat_map_app. cbn [flat_map]. rewrite app_nil_r. split.
      + apply NoDup_app. split; [done|]. split; [|done]. intros i Hi Hi2. by apply (proj1 (I5 i Hi2)), Hp.
      + intros i Hi. apply elem_of_app in Hi as [Hi|Hi].
        * split; [by apply Hp|]. apply U5, Hp, Hi.
        * destruct (I5 i Hi) as [H1 H2]. split; [|done]. destruct G4 as [_ G4]. intros H3. by apply H1, G4.
    - intros s4 (G4 & p & Ep & Hn & Hp). rewrite app_nil_r in Ep. subst p. done. }
  intros [] s4 (G4 & Hn & Hp). cbv beta. eapply pw_mono; [apply keep_pop|]. intros [] s5 F5. apply grows_fr in F5.
  assert (G5 : grows s3 s5) by (by eapply grows_trans). assert (G6 : grows s s5) by (eapply grows_trans; [exact G1|]; by eapply grows_trans).
  destruct G6 as [G6 G7]. split; [done|]. split; [done|]. destruct x as [tag given kids]. cbn [idsOf x_kids x_attrs] in *. destruct G as [_ G], F5 as [_ F5], G5 as [_ G5]. split.
  - destruct (aget "id" given) as [i|] eqn:Ei; cbn [app]; [|done]. apply stdpp.list.NoDup_cons. split; [|done]. intros Hi. destruct (Hp i Hi) as [H1 _]. apply H1, G. by apply Hown.
  - intros i Hi. apply elem_of_app in Hi as [Hi|Hi].
    + destruct (aget "id" given) as [j|] eqn:Ei; [|by apply elem_of_nil in Hi]. apply elem_of_list_singleton in Hi as ->. destruct (Hown j eq_refl) as [H1 H2]. split; [done|]. by apply G5, G.
    + destruct (Hp i Hi) as [H1 H2]. split; [|by apply F5]. intros H3. apply H1, G. by apply G1.
Qed.
Lemma f_C44 E k addr focus z w h x s : parse E k addr focus z w h x = POk tt s -> NoDup (idsOf x).
Proof.
  intros H. apply parse_inv in H. assert (G : pw (lift newDocument ;;; processNode E k None x) (fun _ _ => NoDup (idsOf x)) (initial addr focus z w h)); [|exact (pw_ok _ _ _ _ _ G H)].
  apply pw_bind, pw_lift_any. intros [] g. eapply pw_mono; [apply process_ids|]. by intros [] s' (_ & _ & ? & _).
Qed.

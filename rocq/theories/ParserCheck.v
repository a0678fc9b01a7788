(** ParserCheck.v -- what the syntax check of a node establishes; C43 and C44. *)
From Verif Require Export ParserWp ParserFrame ParserSpec.
Open Scope string_scope.
Open Scope list_scope.

Lemma mem_spec n l : mem n l = true <-> n ∈ l.
Proof.
  unfold mem. rewrite existsb_exists. split.
  - intros (x & H & E). apply String.eqb_eq in E as ->. by apply elem_of_list_In.
  - intros H. exists n. split; [by apply elem_of_list_In|apply String.eqb_refl].
Qed.
Lemma look_some {A} n (l : list (string * A)) v : look n l = Some v -> (n, v) ∈ l.
Proof.
  unfold look. destruct (List.find _ l) as [[k x]|] eqn:E; [|done]. apply find_some in E as [H1 H2]. cbn in H2. apply String.eqb_eq in H2 as ->.
  intros [= <-]. by apply elem_of_list_In.
Qed.
Lemma look_none {A} n (l : list (string * A)) : look n l = None <-> forall v, (n, v) ∉ l.
Proof.
  unfold look. destruct (List.find _ l) as [[k x]|] eqn:E.
  - split; [done|]. intros H. apply find_some in E as [H1 H2]. cbn in H2. apply String.eqb_eq in H2 as ->. exfalso. apply (H x). by apply elem_of_list_In.
  - split; [|done]. intros _ v H. apply elem_of_list_In in H. apply (find_none _ _ E) in H. cbn in H. by rewrite String.eqb_refl in H.
Qed.
Lemma look_cons {A} n k (v : A) l : look n ((k, v) :: l) = if String.eqb k n then Some v else look n l.
Proof. unfold look. cbn. by destruct (String.eqb k n). Qed.
Lemma sget_sset {A} k k' (v : A) l : sget k (sset k' v l) = if String.eqb k' k then Some v else sget k l.
Proof.
  unfold sget. induction l as [|[k2 v2] l IH]; cbn [sset]; [by rewrite look_cons|].
  destruct (String.eqb k' k2) eqn:E1.
  - apply String.eqb_eq in E1 as ->. rewrite !look_cons. by destruct (String.eqb k2 k).
  - destruct (str_lt k' k2); rewrite !look_cons; [done|]. rewrite IH. destruct (String.eqb k2 k) eqn:E2; [|done].
    apply String.eqb_eq in E2. apply String.eqb_neq in E1. destruct (String.eqb k' k) eqn:E3; [|done]. apply String.eqb_eq in E3. congruence.
Qed.

(** The value collected for an attribute, and the unique ones. *)
Definition pfx (al : list (string * string)) (f : aflags) (v : string) : string := if af_id f || af_idref f then (aliasCombine al ++ v)%string else v.
Definition uval (al : list (string * string)) (given : list (string * string)) (a : string * aflags) : option string :=
  if af_unique (snd a) then option_map (pfx al (snd a)) (aget (fst a) given) else None.
Definition attrOk (sy : syn) (given : list (string * string)) (a : string * aflags) : Prop :=
  match aget (fst a) given with
  | None => (fst a = "id" /\ sy_genid sy = true) \/ af_required (snd a) = false
  | Some v => (af_nonempty (snd a) = true -> v <> "") /\ (af_name (snd a) = true -> validName v = true)
  end.
Definition chk (s : pst) (n : N) (U : list string) : pst := p_set_genid n (p_set_unique U s).

Lemma checkAttr_ok collect sy given a s : pw (checkAttr collect sy given a) (fun r s' =>
  attrOk sy given a /\ exists n, s' = chk s n (match uval (p_alias s) given a with Some v => v :: p_unique s | None => p_unique s end) /\
  (forall v, uval (p_alias s) given a = Some v -> v ∉ p_unique s) /\
  match r with
  | Some (k, v) => k = fst a /\ match aget (fst a) given with Some w => v = pfx (p_alias s) (snd a) w | None => k = "id" /\ sy_genid sy = true /\ collect = true end
  | None => aget (fst a) given = None end) s.
Proof.
  destruct a as [n f]. unfold checkAttr, attrOk, uval. cbn [fst snd]. destruct (aget n given) as [v|] eqn:Ea.
  - do 6 p1. cbv zeta. p1. fold (pfx (p_alias s) f v). p1.
    + unfold uniqueAdd. do 5 p1. p1. split.
      { split; intros Hf; [|destruct (af_name f); [done|done]]. intros ->. rewrite Hf in H. done. }
      exists (p_genid s). rewrite H1. cbn. split; [by destruct s|]. split; [|done]. intros w [= <-]. intros Hm. apply mem_spec in Hm. by rewrite Hm in H2.
    + p1. split.
      { split; intros Hf; [|destruct (af_name f); [done|done]]. intros ->. rewrite Hf in H. done. }
      exists (p_genid s). rewrite H1. split; [by destruct s|]. done.
  - destruct (String.eqb n "id" && sy_genid sy) eqn:Eg.
    + apply andb_true_iff in Eg as [En Eg]. apply String.eqb_eq in En as ->. destruct collect.
      * unfold genId. p1. p1. p1. p1. p1. p1. p1. p1. p1. p1. p1. split; [by left|]. exists (p_genid s + 1)%N.
        replace (if af_unique f then option_map (pfx (p_alias s) f) None else None) with (@None string) by (by destruct (af_unique f)).
        split; [by destruct s|]. done.
      * p1. split; [by left|]. exists (p_genid s). replace (if af_unique f then option_map (pfx (p_alias s) f) None else None) with (@None string) by (by destruct (af_unique f)).
        split; [by destruct s|]. done.
    + p1. p1. p1. split; [right; by destruct (af_required f)|]. exists (p_genid s).
      replace (if af_unique f then option_map (pfx (p_alias s) f) None else None) with (@None string) by (by destruct (af_unique f)). split; [by destruct s|]. done.
Qed.
Lemma checkAttrs_ok collect sy given l : forall acc s, pw (checkAttrs collect sy given l acc) (fun r s' =>
  Forall (attrOk sy given) l /\ exists n, s' = chk s n (rev (omap (uval (p_alias s) given) l) ++ p_unique s) /\
  NoDup (omap (uval (p_alias s) given) l) /\ (forall v, v ∈ omap (uval (p_alias s) given) l -> v ∉ p_unique s) /\
  (forall k v, sget k r = Some v -> sget k acc = Some v \/ exists f, (k, f) ∈ l /\
     match aget k given with Some w => v = pfx (p_alias s) f w | None => k = "id" /\ sy_genid sy = true end) /\
  (forall k, is_Some (sget k acc) -> is_Some (sget k r)) /\
  (forall k f, (k, f) ∈ l -> is_Some (aget k given) -> is_Some (sget k r))) s.
Proof.
  induction l as [|a l IH]; intros acc s; cbn [checkAttrs].
  - p1. split; [constructor|]. exists (p_genid s). split; [by destruct s|]. split; [apply NoDup_nil_2|]. split; [intros v Hv; by apply elem_of_nil in Hv|].
    split; [by left|]. split; [done|]. intros k f Hk. by apply elem_of_nil in Hk.
  - p1. eapply pw_mono; [apply checkAttr_ok|]. intros x s1 (Ha & n & -> & Hu & Hx). cbv beta.
    eapply pw_mono; [apply IH|]. intros r s2 (Hl & n2 & -> & Hn & Hd & Hr & Hm & Hi). cbn [p_alias chk p_set_genid p_set_unique p_unique] in *.
    split; [by constructor|]. exists n2. destruct (uval (p_alias s) given a) as [u|] eqn:Eu; cbn [omap list_omap]; rewrite ?Eu.
    + assert (Hnu : u ∉ omap (uval (p_alias s) given) l) by (intros Hi2; apply (Hd _ Hi2); constructor).
      split; [unfold chk; cbn; by rewrite <- app_assoc|]. split; [by apply stdpp.list.NoDup_cons|]. split.
      { intros v Hv. apply elem_of_cons in Hv as [->|Hv]; [by apply Hu|]. intros Hv2. apply (Hd _ Hv). by constructor. }
      split; [|split].
      * intros k v Hk. destruct (Hr _ _ Hk) as [H|(f & H1 & H2)]; [|right; exists f; split; [by constructor|done]].
        destruct x as [[k' v']|]; [|by left]. rewrite sget_sset in H. destruct (String.eqb k' k) eqn:E; [|by left]. apply String.eqb_eq in E as ->. injection H as ->.
        destruct Hx as [-> Hx]. right. exists (snd a). split; [rewrite <- surjective_pairing; constructor|]. destruct (aget (fst a) given); [done|]. destruct Hx as (? & ? & ?). done.
      * intros k Hk. apply Hm. destruct x as [[k' v']|]; [|done]. rewrite sget_sset. by destruct (String.eqb k' k).
      * intros k f Hk Hg. apply elem_of_cons in Hk as [Hk|Hk]; [|by apply (Hi k f)]. subst a. cbn [fst snd] in *. apply Hm. destruct x as [[k' v']|].
        -- destruct Hx as [-> _]. rewrite sget_sset, String.eqb_refl. by eexists.
        -- rewrite Hx in Hg. by destruct Hg.
    + split; [done|]. split; [done|]. split; [done|]. split; [|split].
      * intros k v Hk. destruct (Hr _ _ Hk) as [H|(f & H1 & H2)]; [|right; exists f; split; [by constructor|done]].
        destruct x as [[k' v']|]; [|by left]. rewrite sget_sset in H. destruct (String.eqb k' k) eqn:E; [|by left]. apply String.eqb_eq in E as ->. injection H as ->.
        destruct Hx as [-> Hx]. right. exists (snd a). split; [rewrite <- surjective_pairing; constructor|]. destruct (aget (fst a) given); [done|]. destruct Hx as (? & ? & ?). done.
      * intros k Hk. apply Hm. destruct x as [[k' v']|]; [|done]. rewrite sget_sset. by destruct (String.eqb k' k).
      * intros k f Hk Hg. apply elem_of_cons in Hk as [Hk|Hk]; [|by apply (Hi k f)]. subst a. cbn [fst snd] in *. apply Hm. destruct x as [[k' v']|].
        -- destruct Hx as [-> _]. rewrite sget_sset, String.eqb_refl. by eexists.
        -- rewrite Hx in Hg. by destruct Hg.
Qed.
Record checked (collect : bool) (up : option string) (x : xml) (s : pst) (sy : syn) (attrs : smapT) (s' : pst) : Prop := mkChecked {
  ck_syn : synOf (x_tag x) = Some sy;
  ck_up : sy_parents sy = [] \/ exists u, up = Some u /\ u ∈ sy_parents sy;
  ck_attrs : Forall (attrOk sy (x_attrs x)) (sy_attrs sy);
  ck_known : collect = true -> forall n v, (n, v) ∈ x_attrs x -> exists f, (n, f) ∈ sy_attrs sy;
  ck_kids : forall c, c ∈ x_kids x -> possibleChild (x_tag x) (x_tag c) = true;
  ck_nodup : NoDup (omap (uval (p_alias s) (x_attrs x)) (sy_attrs sy));
  ck_fresh : forall v, v ∈ omap (uval (p_alias s) (x_attrs x)) (sy_attrs sy) -> v ∉ p_unique s;
  ck_state : exists n, s' = chk s n (rev (omap (uval (p_alias s) (x_attrs x)) (sy_attrs sy)) ++ p_unique s);
  ck_get : forall k v, sget k attrs = Some v -> exists f, (k, f) ∈ sy_attrs sy /\
     match aget k (x_attrs x) with Some w => v = pfx (p_alias s) f w | None => k = "id" /\ sy_genid sy = true end;
  ck_has : forall k f, (k, f) ∈ sy_attrs sy -> is_Some (aget k (x_attrs x)) -> is_Some (sget k attrs)
}.
Lemma checkNode_ok collect up x s : pw (checkNode collect up x) (fun r s' => checked collect up x s (fst r) (snd r) s') s.
Proof.
  unfold checkNode. p1. p1. p1. rename a into sy, H into Hsy. eapply (pw_mono _ (fun _ s' => s' = s /\ (sy_parents sy = [] \/ exists u, up = Some u /\ u ∈ sy_parents sy))).
  { destruct (sy_parents sy) as [|p0 ps] eqn:Ep; [p1; split; [done|by left]|]. p1. p1. p1. split; [done|]. right. exists a. rewrite <- Ep in *. split; [done|]. by apply mem_spec. }
  intros [] s' [-> Hup]. cbv beta. p1. eapply pw_mono; [apply checkAttrs_ok|]. intros attrs s1 (H1 & n & -> & H2 & H3 & H4 & _ & H5). cbv beta. p1.
  eapply (pw_mono _ (fun _ s' => s' = chk s n (rev (omap (uval (p_alias s) (x_attrs x)) (sy_attrs sy)) ++ p_unique s) /\ (collect = true -> forall n v, (n, v) ∈ x_attrs x -> is_Some (sget n attrs)))).
  { p1; [|by split; [|congruence]]. apply (pw_each _ (x_attrs x) (fun l s' => s' = chk s n (rev (omap (uval (p_alias s) (x_attrs x)) (sy_attrs sy)) ++ p_unique s) /\ (forall n v, (n, v) ∈ x_attrs x -> (n, v) ∈ l \/ is_Some (sget n attrs)))).
    - split; [done|]. intros k v Hk. by left.
    - intros [k v] l' s' [p Hp] [-> Hl]. p1. split; [done|]. intros k2 v2 Hk. destruct (Hl _ _ Hk) as [Hi|Hi]; [|by right]. apply elem_of_cons in Hi as [Hi|Hi]; [|by left].
      injection Hi as -> ->. right. cbn [fst] in *. destruct (sget k attrs); [by eexists|done].
    - intros s' [-> Hl]. split; [done|]. intros _ k v Hk. destruct (Hl _ _ Hk) as [Hi|Hi]; [by apply elem_of_nil in Hi|done]. }
  intros [] s' [-> Hkn]. cbv beta. p1.
  eapply (pw_mono _ (fun _ s' => s' = chk s n (rev (omap (uval (p_alias s) (x_attrs x)) (sy_attrs sy)) ++ p_unique s) /\ forall c, c ∈ x_kids x -> possibleChild (x_tag x) (x_tag c) = true)).
  { apply (pw_each _ (x_kids x) (fun l s' => s' = chk s n (rev (omap (uval (p_alias s) (x_attrs x)) (sy_attrs sy)) ++ p_unique s) /\ (forall c, c ∈ x_kids x -> c ∈ l \/ possibleChild (x_tag x) (x_tag c) = true))).
    - split; [done|]. intros c Hc. by left.
    - intros c l' s' [p Hp] [-> Hl]. p1. split; [done|]. intros c2 Hk. destruct (Hl _ Hk) as [Hi|Hi]; [|by right]. apply elem_of_cons in Hi as [->|Hi]; [by right|by left].
    - intros s' [-> Hl]. split; [done|]. intros c Hc. destruct (Hl _ Hc) as [Hi|Hi]; [by apply elem_of_nil in Hi|done]. }
  intros [] s' [-> Hk]. cbv beta. p1. cbn [fst snd]. split; try done.
  - intros Hc k v Hv. destruct (Hkn Hc _ _ Hv) as [w Hw]. destruct (H4 _ _ Hw) as [H|(f & H & _)]; [done|by exists f].
  - by exists n.
  - intros k v Hw. destruct (H4 _ _ Hw) as [H|H]; [done|]. done.
Qed.

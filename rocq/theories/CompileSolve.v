(** CompileSolve.v -- C42: what one link becomes. *)
From Verif Require Import BuildInv BuildOps BuildSpec BuildFacts Frame ParserFrame ParserEnd.
From Verif Require Export CompileAct.
Open Scope string_scope.
Open Scope list_scope.

(** ** Roles. *)
(** A role of the connector and what is known of it. *)
Definition rolesAre (b : positive) (s : pst) (cm : nid) (q : list xml * xml) (rl : crole) : Prop := roleIs (snd q) rl /\ rg b s (Some cm) q rl.
Lemma roleAt_spec b s cm lab : forall R rs i0, Forall2 (rolesAre b s cm) R rs ->
  match roleAt rs lab i0 with
  | Some (i, rl) => exists q, List.find (fun q => String.eqb (attrOf "role" (snd q)) lab) R = Some q /\ rolesAre b s cm q rl /\ (i0 <= i)%nat /\ nth_error R (i - i0)%nat = Some q
  | None => List.find (fun q => String.eqb (attrOf "role" (snd q)) lab) R = None
  end.
Proof.
  intros R rs i0 F. revert i0. induction F as [|r c R rs Hr F IH]; intros i0; cbn [roleAt List.find]; [done|]. destruct Hr as [[Er Hr'] Hg]. rewrite Er.
  destruct (String.eqb_spec lab (attrOf "role" (snd r))) as [->|Hne].
  - rewrite String.eqb_refl. exists r. split; [done|]. split; [by split|]. split; [lia|]. by rewrite Nat.sub_diag.
  - destruct (String.eqb_spec (attrOf "role" (snd r)) lab) as [E|_]; [by destruct Hne|]. specialize (IH (S i0)). destruct (roleAt rs lab (S i0)) as [[i rl]|]; [|done]. destruct IH as (r' & H1 & H2 & H3 & H4). exists r'. split; [done|]. split; [done|]. split; [lia|].
    replace (i - i0)%nat with (S (i - S i0)) by lia. done.
Qed.
Lemma role_spec s cm cx rs b e : Forall2 (rolesAre 1 s cm) (rolesIn cx) rs -> bindIs b e ->
  match roleAt rs (attr0 e "role") 0 with
  | Some (i, rl) => exists q, roleIn cx b = Some q /\ rolesAre 1 s cm q rl /\ nth_error (rolesIn cx) i = Some q
  | None => roleFor cx b = None
  end.
Proof.
  intros F Hb. rewrite (bind_role _ _ Hb). pose proof (roleAt_spec 1 s cm (attrOf "role" b) _ _ 0%nat F) as H. unfold roleFor, roleIn. destruct (roleAt rs (attrOf "role" b) 0) as [[i rl]|]; [|by rewrite H]. destruct H as (r & H1 & H2 & _ & H4). exists r. rewrite Nat.sub_0_r in H4. done.
Qed.
Lemma rolesAre_intro b s cm L rs : Forall2 roleIs (map snd L) rs -> Forall2 (rg b s (Some cm)) L rs -> Forall2 (rolesAre b s cm) L rs.
Proof. intros H1 H2. induction H2 as [|q r L rs Hq H2 IH]; inversion H1; subst; constructor; [by split|by apply IH]. Qed.
Lemma roleFor_none cx b : roleFor cx b = None <-> List.find (fun r => String.eqb (attrOf "role" r) (attrOf "role" b)) (rolesOf cx) = None.
Proof. unfold roleFor, roleIn. rewrite <- rolesIn_roles. induction (rolesIn cx) as [|q l IH]; [done|]. cbn [List.find map]. destruct (String.eqb _ _); done. Qed.
Definition hasRole (cx b : xml) : bool := match roleFor cx b with Some _ => true | None => false end.
Definition boundOf (rs : list crole) (bs : list elt) : list (nat * (crole * elt)) := omap (fun b => match roleAt rs (attr0 b "role") 0 with Some (i, r) => Some (i, (r, b)) | None => None end) bs.
Definition freeOf (rs : list crole) (bs : list elt) : list elt := List.filter (fun b => match roleAt rs (attr0 b "role") 0 with Some _ => false | None => true end) bs.
Definition boundAs (s : pst) (cm : nid) (cx : xml) (b : xml) (z : nat * (crole * elt)) : Prop := exists q, roleIn cx b = Some q /\ rolesAre 1 s cm q (fst (snd z)) /\ bindIs b (snd (snd z)) /\ nth_error (rolesIn cx) (fst z) = Some q.
Lemma boundOf_spec s cm cx rs B bs : Forall2 (rolesAre 1 s cm) (rolesIn cx) rs -> Forall2 bindIs B bs -> Forall2 (boundAs s cm cx) (List.filter (hasRole cx) B) (boundOf rs bs).
Proof.
  intros F H. induction H as [|b e B bs Hb H IH]; cbn; [constructor|]. pose proof (role_spec _ _ _ _ _ _ F Hb) as S. unfold hasRole at 1. destruct (roleAt rs (attr0 e "role") 0) as [[i rl]|].
  - destruct S as (r & S1 & S2 & S3). unfold roleFor at 1. rewrite S1. constructor; [|exact IH]. by exists r.
  - rewrite S. exact IH.
Qed.
Lemma freeOf_spec s cm cx rs B bs : Forall2 (rolesAre 1 s cm) (rolesIn cx) rs -> Forall2 bindIs B bs -> Forall2 bindIs (List.filter (fun b => negb (hasRole cx b)) B) (freeOf rs bs).
Proof.
  intros F H. induction H as [|b e B bs Hb H IH]; cbn; [constructor|]. pose proof (role_spec _ _ _ _ _ _ F Hb) as S. unfold hasRole at 1. destruct (roleAt rs (attr0 e "role") 0) as [[i rl]|].
  - destruct S as (r & S1 & _). unfold roleFor at 1. rewrite S1. exact IH.
  - rewrite S. constructor; [done|exact IH].
Qed.
Lemma test_spec ts T B bs (p : bool -> bool) : (forall r, r ∈ ts <-> r ∈ T) -> Forall2 bindIs B bs -> Forall2 bindIs (List.filter (fun b => p (mem (attrOf "role" b) T)) B) (List.filter (fun b => p (mem (attr0 b "role") ts)) bs).
Proof.
  intros E H. induction H as [|b e B bs Hb H IH]; cbn; [constructor|]. rewrite (bind_role _ _ Hb). replace (mem (attrOf "role" b) ts) with (mem (attrOf "role" b) T); [destruct (p _); [by constructor|done]|].
  specialize (E (attrOf "role" b)). destruct (mem (attrOf "role" b) T) eqn:E1, (mem (attrOf "role" b) ts) eqn:E2; try done.
  - apply mem_spec in E1. apply E in E1. apply mem_spec in E1. congruence.
  - apply mem_spec in E2. apply E in E2. apply mem_spec in E2. congruence.
Qed.
Lemma hasRole_free cx b : hasRole cx b = false <-> attrOf "role" b ∉ map (attrOf "role") (rolesOf cx).
Proof.
  assert (X : hasRole cx b = match List.find (fun r => String.eqb (attrOf "role" r) (attrOf "role" b)) (rolesOf cx) with Some _ => true | None => false end).
  { unfold hasRole. pose proof (roleFor_none cx b) as Hn. destruct (roleFor cx b); destruct (List.find _ _); try done; exfalso; [by specialize (proj2 Hn eq_refl)|by specialize (proj1 Hn eq_refl)]. }
  rewrite X. destruct (List.find _ (rolesOf cx)) as [r|] eqn:E.
  - apply find_some in E as [E1 E2]. apply String.eqb_eq in E2. split; [done|]. intros H. destruct H. rewrite <- E2. apply elem_of_list_In, in_map. done.
  - split; [|done]. intros _ H. apply elem_of_list_In, in_map_iff in H as (r & E1 & E2). pose proof (find_none _ _ E r E2) as H. cbv beta in H. apply String.eqb_neq in H. done.
Qed.
Lemma filter_and {A} (p q : A -> bool) l : List.filter p (List.filter q l) = List.filter (fun a => q a && p a) l.
Proof. induction l as [|a l IH]; cbn; [done|]. destruct (q a); cbn; [|done]. destruct (p a); by rewrite IH. Qed.
Lemma lastBind_in l m b : lastBind l m = Some b -> b ∈ l /\ attrOf "role" b = m.
Proof.
  unfold lastBind. intros H. destruct (List.filter (fun b0 : xml => (attrOf "role" b0 =? m)%string) l) as [|b0 l0] eqn:E; [done|]. destruct (exists_last (l := b0 :: l0) ltac:(done)) as (l2 & a & El). rewrite El, last_snoc in H. injection H as ->.
  assert (Hin : In b (List.filter (fun b0 : xml => (attrOf "role" b0 =? m)%string) l)) by (rewrite E, El; apply in_or_app; right; by left). apply filter_In in Hin as [H1 H2]. split; [by apply elem_of_list_In|by apply String.eqb_eq].
Qed.
Lemma lastBind_filter (p : xml -> bool) l m : (forall b, b ∈ l -> attrOf "role" b = m -> p b = true) -> lastBind (List.filter p l) m = lastBind l m.
Proof.
  intros H. induction l as [|b l IH]; [done|]. rewrite lastBind_cons, <- IH by (intros b' Hb'; apply H; by right). cbn [List.filter]. destruct (p b) eqn:Ep; [by rewrite lastBind_cons|].
  destruct (lastBind (List.filter p l) m); [done|]. destruct (String.eqb_spec (attrOf "role" b) m) as [Hm|]; [|done]. rewrite H in Ep; [done|by left|done].
Qed.
(** ** One link. *)
Definition linked (c : oid) (lk : list action * list action) (g g' : graph) : Prop := forall o ob', g_obj g' !! o = Some ob' ->
  exists ob, g_obj g !! o = Some ob /\ ob_links ob' = ob_links ob ++ (if bool_decide (c = o) then [lk] else []).
Lemma linked_addLink g0 g c a b : nl g0 g -> pwp (addLink c a b) (fun _ g' => linked c (a, b) g0 g' /\ is_Some (g_obj g' !! c)) g.
Proof.
  intros N. unfold addLink. w1. w1. w1. w1. apply wp_oupd. intros ob Ho. split; [|cbn; rewrite lookup_insert; eauto]. intros o ob'. cbn. destruct (decide (c = o)) as [<-|Hne].
  - rewrite lookup_insert. intros [= <-]. destruct (N _ _ Ho) as (ob0 & Hz & E0). exists ob0. split; [done|]. cbn. by rewrite bool_decide_true, E0.
  - rewrite lookup_insert_ne by done. intros Hx. destruct (N _ _ Hx) as (ob0 & Hz & E0). exists ob0. split; [done|]. by rewrite bool_decide_false, app_nil_r by done.
Qed.
Lemma filter_bool {A B} (l : list (bool * A)) (f : B -> bool) (P : B -> A -> Prop) L : Forall2 (fun b ca => fst ca = f b /\ P b (snd ca)) L l -> 
  Forall2 P (List.filter f L) (map snd (List.filter fst l)) /\ Forall2 P (List.filter (fun b => negb (f b)) L) (map snd (List.filter (fun z => negb (fst z)) l)).
Proof.
  intros F. induction F as [|b [ca a] L l [H1 H2] F [IH1 IH2]]; cbn; [split; constructor|]. cbn in H1, H2. rewrite H1. destruct (f b); cbn; (split; [|done]) || (split; [done|]); by constructor.
Qed.
Lemma solve_links x k d y c s : live x s -> linkAt 1 s y c d -> pw (solveLink k d) (fun _ s' => mv s s' /\ exists lk, linked c lk (p_graph s) (p_graph s') /\ is_Some (g_obj (p_graph s') !! c)) s.
Proof.
  intros L (e & bl & l & He & _ & Ht & Hk & Hbl & HB & Hl & Hp & Hc). apply pw_conj; [apply km_link, L|].
  unfold solveLink. p1. apply pw_index. intros e' He'. assert (e' = e) as -> by congruence. p1. apply pw_attr. intros ci Hci. unfold cacheById. p1. p1. p1. p1. p1. p1. p1. p1. p1. p1. p1. p1. p1. p1.
  match goal with Hz : el_ctx e = Some ?z |- _ => assert (z = c) as -> by congruence end. cbv zeta. p1.
  eapply (pw_mono _ (fun _ s' => sl s s')); [apply sl_quiet; kqt|]. intros bs s1 N1. cbv beta zeta. p1. p1. p1. p1. p1.
  eapply (pw_mono _ (fun _ s' => sl s s')); [eapply pw_mono; [apply (sl_quiet _ ltac:(kqt))|]; intros t s2 N2; exact (pr_trans _ _ _ N1 N2)|]. intros tm s2 N2. cbv beta. p1.
  eapply (pw_mono _ (fun _ s' => sl s s')); [eapply pw_mono; [apply (sl_quiet _ ltac:(kqt))|]; intros t s3 N3; exact (pr_trans _ _ _ N2 N3)|]. intros gh s3 N3. cbv beta. p1.
  eapply (pw_mono _ (fun _ s' => sl s s')).
  { eapply pw_mono; [apply (kr_map sl); intros z; apply (kr_bind sl); [apply sl_roleAction|intros ?; apply (kr_ret sl)]|]. intros t s4 N4. exact (pr_trans _ _ _ N3 N4). }
  intros acts s4 N4. cbv beta. apply pw_lift. eapply wp_mono; [by apply linked_addLink|]. intros [] g' Hz. eexists. exact Hz.
Qed.

(** LtabPure.v -- ParserLua: the parts that only read the document. *)
From Verif Require Export LtabWp.
From Verif Require Import StrFacts BuildInv BuildOps BuildSpec BuildFacts Frame.
Open Scope string_scope.
Open Scope list_scope.

Lemma getEvent_holds g o t n : built g -> pwp (getEvent o t n) (fun r g' => g' = g /\ is_Some (g_obj g !! o) /\ match r with Some e => holds g o e t n | None => forall e, ~ holds g o e t n end) g.
Proof.
  intros B. destruct (g_obj g !! o) as [ob|] eqn:Ho.
  - destruct (f_C22_get g B o ob t n Ho) as (r & E & H). unfold wp. rewrite E. split; [done|]. split; [by eexists|done].
  - unfold getEvent, gobj, wp, bind, ofoption, crashm. by rewrite Ho.
Qed.
Lemma childById g c i : pwp (getChildById c i) (fun r g' => g' = g /\ match r with Some o => child g c i o | None => True end) g.
Proof.
  unfold getChildById. w1. apply wp_gobj. intros cb Hc. w1. split; [done|]. pose proof (find_elem (idIs g i) (ob_children cb)) as H. destruct (List.find _ _) as [o|]; [|done].
  destruct H as [H1 H2]. exists cb. split; [done|]. split; [done|]. by apply idIs_spec.
Qed.
Lemma eventOf_named g c s i t n pos : built g -> names s i t n -> pwp (eventOf c i t n pos) (fun r g' => g' = g /\ eventNamed g c s r) g.
Proof.
  intros B N. unfold eventOf. w1. eapply wp_mono; [apply childById|]. intros [o|] g1 [-> H]; cbv beta; [|w1].
  eapply wp_mono; [by apply getEvent_holds|]. intros r g1 (-> & _ & Hr). split; [done|]. exists i, t, n, o. done.
Qed.
Lemma named_ok g c s : built g -> free NUL s -> pwp (getEventString c s) (fun r g' => g' = g /\ eventNamed g c s r) g.
Proof.
  intros B F. unfold getEventString. destruct (names_split s F) as [(i & n & E & N)|[(E & i & n & E2 & N)|(E & E2 & N)]].
  - rewrite E. by apply eventOf_named.
  - rewrite E, E2. by apply eventOf_named.
  - rewrite E, E2. destruct (match find_char "<" s with Some x => x | None => (s, s) end) as [i n]. destruct N as [->|[Hn N]]; [apply wp_crash; exact I|].
    destruct (String.eqb_spec n ""); [done|]. by apply eventOf_named.
Qed.
Lemma free_textAt l n s : textAt l n s -> free NUL s.
Proof. intros (v & _ & H). by eapply text_free. Qed.
Lemma caseeq_word s w : free NUL s -> cstr w = w -> xstrcaseeq s w = true <-> sameWord s w.
Proof. intros F E. rewrite caseeq_iff, E, (cstr_free s F). done. Qed.
Lemma caseeq_noword s w : free NUL s -> cstr w = w -> xstrcaseeq s w = false <-> ~ sameWord s w.
Proof. intros F E. rewrite caseeq_no, E, (cstr_free s F). done. Qed.
Lemma caseeq_sword s w : free NUL s -> cstr w = w -> xstrcaseeq w s = true <-> sameWord s w.
Proof. intros F E. rewrite caseeq_iff, E, (cstr_free s F). split; apply sameWord_sym. Qed.
Lemma caseeq_snoword s w : free NUL s -> cstr w = w -> xstrcaseeq w s = false <-> ~ sameWord s w.
Proof. intros F E. rewrite <- caseeq_sword by done. destruct (xstrcaseeq w s); split; congruence. Qed.
Lemma transition_ok g w : free NUL w -> pwp (ltransition w) (fun t g' => g' = g /\ isTransition w t) g.
Proof.
  intros F. unfold ltransition, transitionOf. destruct (xstrcaseeq w "set") eqn:E0.
  { apply caseeq_word in E0; [|done..]. cbn. apply wp_ret. split; [done|]. constructor. by right. }
  repeat (match goal with |- context [xstrcaseeq w ?u] => destruct (xstrcaseeq w u) eqn:?E; [apply caseeq_word in E; [|done..]; apply wp_ret; split; [done|]; constructor; auto; fail|clear E] end).
  apply wp_crash. exact I.
Qed.
Lemma lwp_if {A} (b : bool) (m1 m2 : LM A) Q g : (b = true -> lwp m1 Q g) -> (b = false -> lwp m2 Q g) -> lwp (if b then m1 else m2) Q g.
Proof. destruct b; auto. Qed.
Lemma pred_ok g k : forall v, lwp (lpredicate k v) (fun p g' => g' = g /\ exists x, v = Some x /\ says x p) g.
Proof.
  induction k as [|k IH]; intros v; cbn [lpredicate]; [l1|]. l1. l1. subst v.
  assert (X : lwp (dl s <- checkstring (item l 1);
      if xstrcaseeq s "not" then dl p <- lpredicate k (item l 2); lok (PNeg [p])
      else if xstrcaseeq s "and" then dl p <- lpredicate k (item l 3); dl q <- lpredicate k (item l 2); lok (PAnd [p; q])
      else if xstrcaseeq s "or" then dl p <- lpredicate k (item l 3); dl q <- lpredicate k (item l 2); lok (POr [p; q])
      else
        dl op <- checkstring (item l 2);
        dl rhs <- checkstring (item l 3);
        match testOf op with Some t => lok (PAtom s t rhs) | None => crashm (CAssert "ParserLua.cpp:720") end)
     (fun p g' => g' = g /\ exists x, Some (VTab l) = Some x /\ says x p) g).
  { l1. l1. pose proof (free_textAt _ _ _ H) as F. apply lwp_if; intros E0.
    { apply caseeq_word in E0; [|done..]. l1. eapply lwp_mono; [apply IH|]. intros p g' (-> & x & Hx & Hp). l1. split; [done|]. eexists. split; [done|]. by eapply sy_not. }
    apply caseeq_noword in E0; [|done..]. apply lwp_if; intros E1.
    { apply caseeq_word in E1; [|done..]. l1. eapply lwp_mono; [apply IH|]. intros p g' (-> & x & Hx & Hp). l1. eapply lwp_mono; [apply IH|]. intros q g' (-> & y & Hy & Hq).
      l1. split; [done|]. eexists. split; [done|]. by eapply sy_and. }
    apply caseeq_noword in E1; [|done..]. apply lwp_if; intros E2.
    { apply caseeq_word in E2; [|done..]. l1. eapply lwp_mono; [apply IH|]. intros p g' (-> & x & Hx & Hp). l1. eapply lwp_mono; [apply IH|]. intros q g' (-> & y & Hy & Hq).
      l1. split; [done|]. eexists. split; [done|]. by eapply sy_or. }
    apply caseeq_noword in E2; [|done..]. l1. l1. l1. l1. destruct (testOf s0) as [t|] eqn:Et; [|l1]. l1. split; [done|]. eexists. split; [done|].
    eapply sy_atom; eauto. apply testOf_is; [by eapply free_textAt|done]. }
  destruct (item l 1) as [[[]| | | |]|] eqn:E; try exact X.
  - l1. split; [done|]. eexists. split; [done|]. by constructor.
  - l1. split; [done|]. eexists. split; [done|]. by constructor.
Qed.
Lemma condition_ok g c x : built g -> lwp (lcondition c (snd x)) (fun a g' => g' = g /\ conditionAs g c x a) g.
Proof.
  intros B. unfold lcondition. l1. l1. l1. l1. l1. apply lwp_lift. eapply wp_mono; [apply transition_ok; by eapply free_textAt|]. intros t g1 [-> Ht]. cbv beta.
  l1. l1. l1. apply lwp_lift. eapply wp_mono; [apply named_ok; [done|by eapply free_textAt]|]. intros r g1 [-> Hr]. cbv beta.
  destruct (item l 3) as [v|] eqn:E.
  - l1. eapply lwp_mono; [apply pred_ok|]. intros q g1 (-> & x0 & [= <-] & Hq). l1. split; [done|]. eexists _, _, _, _, _. split; [done|]. split; [done|]. split; [done|]. split; [by eexists _, _|]. rewrite E. split; [by eexists|done].
  - l1. split; [done|]. eexists _, _, _, _, _. split; [done|]. split; [done|]. split; [done|]. split; [by eexists _, _|]. rewrite E. split; done.
Qed.
Lemma action_ok g c x : built g -> lwp (laction c (snd x)) (fun a g' => g' = g /\ actionAs g c x a) g.
Proof.
  intros B. unfold laction. l1. l1. l1. l1. l1. apply lwp_lift. eapply wp_mono; [apply transition_ok; by eapply free_textAt|]. intros t g1 [-> Ht]. cbv beta.
  l1. l1. l1. apply lwp_lift. eapply wp_mono; [apply named_ok; [done|by eapply free_textAt]|]. intros r g1 [-> Hr]. cbv beta. l1. l1.
  destruct (item l 4) as [v|] eqn:E.
  - l1. apply lwp_checktable. intros ps [= ->]. cbv beta. l1. l1. l1. l1. l1. split; [done|]. eexists _, _, _, _, _, _, _. split; [done|]. split; [done|]. split; [done|]. split; [by eexists _, _|].
    split; [done|]. rewrite E. split; [by eexists|done].
  - l1. split; [done|]. eexists _, _, _, _, _, _, _. split; [done|]. split; [done|]. split; [done|]. split; [by eexists _, _|]. split; [done|]. rewrite E. split; done.
Qed.
Lemma transField_ok l n d (Q : string -> graph -> Prop) g : (forall s, textOr (field l n) d s -> Q s g) -> lwp (transField l n d) Q g.
Proof. intros H. unfold transField. destruct (field l n) as [v|]; [|by l1; apply H]. l1. by apply H. Qed.
Lemma transText_ok g v : lwp (ltransText v) (fun s g' => g' = g /\ exists l, v = VTab l /\ transText l s) g.
Proof.
  unfold ltransText. destruct v; try l1. destruct (field l "type") as [ty|] eqn:E; [|l1]. l1. l1.
  do 10 (l1; apply transField_ok; intros ? ?). l1. split; [done|]. exists l. split; [done|]. eexists _, _, _, _, _, _, _, _, _, _, _. split; [by eexists|].
  do 10 (split; [eassumption|]). reflexivity.
Qed.
Lemma src_ok E s : uriOf E s (lsrc E s).
Proof.
  unfold uriOf, lsrc. destruct (String.eqb_spec s ""); cbn [orb]; [left; auto|]. destruct (le_isuri E s) eqn:H1; cbn [orb]; [left; auto|]. destruct (le_isabs E s) eqn:H2; cbn [orb]; [left; auto|]. right. auto.
Qed.
Lemma property_ok E g x : lwp (lproperty E x) (fun p g' => g' = g /\ propertyAs E x p) g.
Proof.
  unfold lproperty. destruct (fst x) as [n| |k|] eqn:K; try l1; [l1|l1|].
  { l1. }
  { l1. }
  pose proof (cstr_is_free k) as F. apply lwp_if; intros E0.
  { apply caseeq_sword in E0; [|done..]. l1. l1. l1. split; [done|]. exists k. split; [done|]. left. split; [done|]. split; [done|]. exists s. split; [done|]. apply src_ok. }
  apply caseeq_snoword in E0; [|done..]. apply lwp_if; intros E1.
  { l1. eapply lwp_mono; [apply transText_ok|]. intros s g' (-> & l & Hl & Hs). l1. split; [done|]. exists k. split; [done|]. right. left. split; [|split; [done|by exists l]].
    apply orb_true_iff in E1 as [E1|E1]; (apply caseeq_sword in E1; [|done..]); [by left|by right]. }
  apply orb_false_iff in E1 as [E1 E2]. apply caseeq_snoword in E1, E2; try done. l1. l1. l1. split; [done|]. exists k. split; [done|]. right. right. split; [done|]. split; [intros [?|?]; done|]. done.
Qed.
Lemma time_ok v d (Q : N -> graph -> Prop) g : (forall t, timeAs v d t -> Q t g) -> lwp (ltime v d) Q g.
Proof.
  intros H. unfold timeAs in H. unfold ltime. destruct (v ≫= text) as [s|]; [|l1; by apply H]. destruct (try_parse_time s) eqn:E; try l1. by apply H.
Qed.
Lemma area_ok g x : lwp (larea (snd x)) (fun a g' => g' = g /\ areaAs x a) g.
Proof.
  unfold larea. l1. l1. l1. apply time_ok. intros b Hb. l1. apply time_ok. intros e He. destruct (item l 1 ≫= text) as [n|] eqn:E; [|l1]. l1. split; [done|].
  exists l. split; [done|]. split; [by apply textAt_bind|]. done.
Qed.

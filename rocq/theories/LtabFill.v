(** LtabFill.v -- ParserLua: media, and hanging objects in the tree. *)
From Verif Require Export LtabMake.
From Verif Require Import StrFacts BuildInv BuildOps BuildSpec BuildFacts Frame.
Open Scope string_scope.
Open Scope list_scope.

(** ** Creating. *)
Lemma newObject_eq g k i : k <> KSettings -> newObject k i g = Ok (g_next g) (plusObject g k i).
Proof. intros H. destruct k; done. Qed.
Lemma plus_kept g k i x : GInv g -> is_Some (g_obj g !! x) -> kept g (plusObject g k i) x.
Proof.
  intros I [ob H]. pose proof (gi_obj _ I _ _ H) as L. split; [cbn; rewrite lookup_insert_ne by (intros Eq; rewrite Eq in L; lia); done|]. split; [done|].
  intros e ev He. cbn. destruct (decide (e = Pos.succ (g_next g))) as [->|Hne]; [|by rewrite lookup_insert_ne by done].
  rewrite lookup_insert. split; [intros [= <-]; cbn in He; subst x; lia|]. intros X. apply (gi_evt _ I) in X. lia.
Qed.
Lemma plus_contents g k i : built g -> contents (plusObject g k i) (g_next g) [] [].
Proof.
  intros B. destruct (built_inv _ B) as [I _]. split.
  - intros n v. change (g_props (plusObject g k i)) with (g_props g). generalize (eq_refl : (g_next g : oid) = g_next g). generalize (g_next g : oid) at 1 3. intros o Eo. destruct (g_props g !! o) as [m|] eqn:E.
    { destruct (built_props g B o) as [ob O]; [by eexists|]. apply (gi_obj _ I) in O. lia. }
    assert (X : g_props g !!! o = ∅) by (transitivity (default ∅ (g_props g !! o)); [reflexivity|by rewrite E]). rewrite X, lookup_empty. split; [done|]. intros (l1 & l2 & H & _). by destruct l1.
  - intros d. split.
    + intros (e & H1 & H2). cbn in H1. destruct (decide (e = Pos.succ (g_next g))) as [->|Hne]; [rewrite lookup_insert in H1; injection H1 as <-; constructor|].
      rewrite lookup_insert_ne in H1 by done. destruct (gi_e _ I _ _ H1) as (ob & O & _). rewrite H2 in O. apply (gi_obj _ I) in O. lia.
    + intros H. inversion H as [|n v Hn|j b e Hi (l1 & l2 & Hl & _)]; subst; [|by apply elem_of_nil in Hn|by destruct l1].
      exists (Pos.succ (g_next g)). split; [cbn; apply lookup_insert|done].
Qed.

(** ** Filling. *)
(** Adding an event to [o]: either it is there, or this is the only change. *)
Record extended (g g' : graph) (o : oid) (ev : evt) : Prop := mkExt {
  ex_obj : exists ob evs, g_obj g !! o = Some ob /\ g_obj g' = <[o := ob_set_events evs ob]> (g_obj g);
  ex_evt : exists x, g_evt g !! x = None /\ g_evt g' = <[x := ev]> (g_evt g);
  ex_props : g_props g' = g_props g; ex_objs : g_objs g' = g_objs g; ex_root : g_root g' = g_root g; ex_set : g_settings g' = g_settings g }.
Lemma addEvent_cases g o t i b e l : built g -> is_Some (g_obj g !! o) -> pwp (addEvent o t i b e l) (fun _ g' =>
  ((exists x d, g_evt g !! x = Some d /\ ev_obj d = o /\ ev_type d = t /\ ev_id d = i) /\ g' = g) \/
  ((forall x d, g_evt g !! x = Some d -> ev_obj d = o -> ev_type d = t -> ev_id d <> i) /\ extended g g' o (mkEvt t o i b e l))) g.
Proof.
  intros B [ob Ho]. destruct (built_inv _ B) as [I _]. unfold addEvent. w1. eapply wp_mono; [by apply getEvent_holds|]. intros [x|] g1 (-> & _ & H); cbv beta.
  - w1. left. split; [|done]. destruct H as (ob' & ev & _ & _ & H3 & H4 & H5 & H6). by exists x, ev.
  - w1. unfold galloc. unfold wp at 1. cbv beta. w1. w1. w1. w1. apply wp_oupd. cbn. intros ob' Ho'. assert (ob' = ob) as -> by congruence. right. split.
    + intros x d Hd Hobj Ht Hi. destruct (gi_e _ I _ _ Hd) as (ob' & O & M). rewrite Hobj in O. assert (ob' = ob) as -> by congruence. apply (H x). by exists ob, d.
    + split; try done; cbn.
      * by eexists _, _.
      * exists (g_next g). split; [|done]. destruct (g_evt g !! g_next g) as [d|] eqn:E; [|done]. apply (gi_evt _ I) in E. lia.
Qed.
Lemma extended_kept g g' o ev x : extended g g' o ev -> ev_obj ev = o -> x <> o -> kept g g' x.
Proof.
  intros [(ob & evs & O1 & O2) (e & E1 & E2) P _ _ _] Ho Hne. split; [rewrite O2; by rewrite lookup_insert_ne by done|]. split; [by rewrite P|].
  intros y d Hd. rewrite E2. destruct (decide (y = e)) as [->|Hy]; [|by rewrite lookup_insert_ne by done]. rewrite lookup_insert, E1. split; [intros [= <-]; congruence|done].
Qed.
Lemma extended_events g g' o ev d : extended g g' o ev -> ev_obj ev = o -> (exists e, g_evt g' !! e = Some d /\ ev_obj d = o) <-> (exists e, g_evt g !! e = Some d /\ ev_obj d = o) \/ d = ev.
Proof.
  intros [_ (x & E1 & E2) _ _ _ _] Ho. rewrite E2. split.
  - intros (e & H1 & H2). destruct (decide (e = x)) as [->|Hne]; [rewrite lookup_insert in H1; injection H1 as <-; by right|]. rewrite lookup_insert_ne in H1 by done. left. by exists e.
  - intros [(e & H1 & H2)| ->]; [|exists x; split; [apply lookup_insert|done]]. exists e. split; [|done]. rewrite lookup_insert_ne; [done|congruence].
Qed.
Record making (k : kind) (i : string) (ps : list (string * string)) (areas : list (string * (N * N))) (g0 : graph) (o : oid) (g : graph) : Prop := mkMk {
  mk_built : built g;
  mk_obj : exists lam evs, g_obj g !! o = Some (mkObj k i None [] lam evs [] [] [] [] []);
  mk_new : g_obj g0 !! o = None;
  mk_old : forall x, is_Some (g_obj g0 !! x) -> kept g0 g x;
  mk_cont : contents g o ps areas;
  mk_objs : g_objs g = g_objs g0; mk_root : g_root g = g_root g0; mk_set : g_settings g = g_settings g0 }.
Lemma make_new g k i : built g -> k <> KSettings -> pwp (newObject k i) (fun o g' => making k i [] [] g o g') g.
Proof.
  intros B Hk. destruct (built_inv _ B) as [I _]. unfold wp. rewrite newObject_eq by done. split; try done.
  - eapply kb_new; [exact B|]. by apply newObject_eq.
  - eexists _, _. cbn. apply lookup_insert.
  - by apply fresh_obj.
  - intros x Hx. by apply plus_kept.
  - by apply plus_contents.
Qed.
Lemma lastFor_snoc {A} (ps : list (string * A)) n v n' v' : lastFor (ps ++ [(n, v)]) n' v' <-> (n' = n /\ v' = v) \/ (n' <> n /\ lastFor ps n' v').
Proof.
  unfold lastFor. split.
  - intros (l1 & l2 & E & H). destruct l2 as [|[a b] l2 _] using rev_ind.
    + apply app_inj_tail in E as [-> [= <- <-]]. by left.
    + rewrite app_comm_cons, app_assoc in E. apply app_inj_tail in E as [-> [= -> ->]]. right. rewrite map_app in H. split; [intros ->; apply H, elem_of_app; right; left|].
      exists l1, l2. split; [done|]. intros X. apply H, elem_of_app. by left.
  - intros [[-> ->]|[Hne (l1 & l2 & -> & H)]]; [exists ps, []; split; [done|apply not_elem_of_nil]|]. exists l1, (l2 ++ [(n, v)]). split; [by rewrite <- app_assoc|].
    rewrite map_app. intros [X|X]%elem_of_app; [done|]. by apply elem_of_list_singleton in X.
Qed.
Lemma firstFor_snoc {A} (l : list (string * A)) n v n' v' : firstFor (l ++ [(n, v)]) n' v' <-> firstFor l n' v' \/ (n ∉ map fst l /\ n' = n /\ v' = v).
Proof.
  unfold firstFor. split.
  - intros (l1 & l2 & E & H). destruct l2 as [|[a b] l2 _] using rev_ind.
    + apply app_inj_tail in E as [-> [= <- <-]]. by right.
    + rewrite app_comm_cons, app_assoc in E. apply app_inj_tail in E as [-> _]. left. by exists l1, l2.
  - intros [(l1 & l2 & -> & H)|(H & -> & ->)]; [exists l1, (l2 ++ [(n, v)]); split; [by rewrite <- app_assoc|done]|]. exists l, []. done.
Qed.
Lemma firstFor_mem {A} (l : list (string * A)) n : n ∈ map fst l -> exists v, firstFor l n v.
Proof.
  induction l as [|[a b] l IH]; cbn [map fst]; intros H; [by apply elem_of_nil in H|]. destruct (decide (n = a)) as [->|Hne]; [exists b, [], l; split; [done|apply not_elem_of_nil]|].
  apply elem_of_cons in H as [H|H]; [done|]. destruct (IH H) as (v & l1 & l2 & -> & X). exists v, ((a, b) :: l1), l2. split; [done|]. cbn. by apply not_elem_of_cons.
Qed.
Lemma firstFor_in {A} (l : list (string * A)) n v : firstFor l n v -> n ∈ map fst l.
Proof. intros (l1 & l2 & -> & _). rewrite map_app. apply elem_of_app. right. left. Qed.

(** Adding the event of a property, then its value. *)
Lemma addAttr_ok k i ps areas g0 o g n : making k i ps areas g0 o g -> pwp (addAttributionEvent o n) (fun _ g' =>
  built g' /\ (exists lam evs, g_obj g' !! o = Some (mkObj k i None [] lam evs [] [] [] [] [])) /\ (forall x, is_Some (g_obj g0 !! x) -> kept g0 g' x) /\
  g_props g' = g_props g /\ (forall d v, (exists e, g_evt g' !! e = Some d /\ ev_obj d = o) <-> eventAs o (ps ++ [(n, v)]) areas d) /\ g_objs g' = g_objs g0 /\ g_root g' = g_root g0 /\ g_settings g' = g_settings g0) g.
Proof.
  intros [B (lam & evs & Ho) N K [C1 C2] E1 E2 E3]. apply pwp_intro. intros [] g' H. assert (B' : built g') by (exact (b_op g (BAttribution o n) g' B H)).
  pose proof (addEvent_cases g o ATTRIBUTION n 0 TIME_NONE "" B ltac:(by eexists)) as X. apply (wp_ok _ _ _ _ _ X) in H. split; [done|].
  destruct H as [[(x & d & D1 & D2 & D3 & D4) ->]|[Hno X']].
  - split; [by eexists _, _|]. split; [done|]. split; [done|]. split; [|done]. intros d' v. rewrite C2.
    assert (Y : exists w, (n, w) ∈ ps) by (assert (Y : eventAs o ps areas d) by (apply C2; by exists x); destruct Y; cbn in *; try discriminate; subst; eauto).
    split; intros Hd; inversion Hd as [|m w Hm|j b e Hj Hf]; subst; try (constructor; done); try (by econstructor; eauto).
    + eapply ea_property. apply elem_of_app. left. exact Hm.
    + apply elem_of_app in Hm as [Hm|Hm]; [eapply ea_property; exact Hm|]. apply elem_of_list_singleton in Hm as [= -> ->]. destruct Y as (w & Hw). eapply ea_property; exact Hw.
  - destruct (ex_obj _ _ _ _ X') as (ob & evs' & O1 & O2). rewrite Ho in O1. injection O1 as <-. split; [eexists lam, evs'; rewrite O2; apply lookup_insert|].
    split. { intros x Hx. eapply kept_trans; [by apply K|]. eapply extended_kept; [exact X'|done|]. intros ->. rewrite N in Hx. by destruct Hx. }
    split; [apply X'|]. split; [|rewrite (ex_objs _ _ _ _ X'), (ex_root _ _ _ _ X'), (ex_set _ _ _ _ X'); done].
    intros d v. rewrite (extended_events g g' o _ d X' eq_refl), C2. split.
    + intros [Hd| ->]; [|eapply ea_property; apply elem_of_app; right; left]. inversion Hd as [|m w Hm|j b e Hj Hf]; subst; try (by constructor). eapply ea_property. apply elem_of_app. left. exact Hm.
    + intros Hd. inversion Hd as [|m w Hm|j b e Hj Hf]; subst; try (left; by constructor). apply elem_of_app in Hm as [Hm|Hm]; [left; eapply ea_property; exact Hm|]. apply elem_of_list_singleton in Hm as [= -> ->]. by right.
Qed.
Lemma setProp_ok k i ps areas g0 o g n v : k <> KSettings -> making k i ps areas g0 o g -> pwp (addAttributionEvent o n ;; gsetProperty o n v) (fun _ g' => making k i (ps ++ [(n, v)]) areas g0 o g') g.
Proof.
  intros Hk M. w1. eapply wp_mono; [by eapply addAttr_ok|]. intros [] g1 (B1 & (lam & evs & O1) & K1 & P1 & C1 & E1 & E2 & E3). cbv beta.
  apply pwp_intro. intros [] g2 H. assert (B2 : built g2) by (exact (b_op g1 (BProperty o n v) g2 B1 H)).
  unfold gsetProperty, gobj, ofoption, bind, ret in H. rewrite O1 in H. cbn in H. rewrite (bool_decide_false (k = KSettings)) in H by done. cbn in H. injection H as <-. split; try done.
  - by eexists _, _.
  - apply (mk_new _ _ _ _ _ _ _ M).
  - intros x Hx. eapply kept_trans; [by apply K1|]. split; [done|]. split; [|done]. cbn. rewrite lookup_total_insert_ne; [done|].
    intros <-. rewrite (mk_new _ _ _ _ _ _ _ M) in Hx. by destruct Hx.
  - split; [|intros d; apply C1]. intros m w. cbn. rewrite lookup_total_insert. rewrite lastFor_snoc. rewrite P1. destruct (decide (m = n)) as [->|Hne].
    + rewrite lookup_insert. split; [intros [= <-]; by left|intros [[_ ->]|[? _]]; done].
    + rewrite lookup_insert_ne by done. rewrite (proj1 (mk_cont _ _ _ _ _ _ _ M)). split; [by right|intros [[? _]|[_ ?]]; done].
Qed.
Lemma addArea_ok k i ps areas g0 o g n b e : making k i ps areas g0 o g -> pwp (addPresentationEvent o n b e) (fun _ g' => making k i ps (areas ++ [(n, (b, e))]) g0 o g') g.
Proof.
  intros [B (lam & evs & Ho) N K [C1 C2] E1 E2 E3]. apply pwp_intro. intros [] g' H. assert (B' : built g') by (exact (b_op g (BPresentation o n b e) g' B H)).
  pose proof (addEvent_cases g o PRESENTATION n b e "" B ltac:(by eexists)) as X. apply (wp_ok _ _ _ _ _ X) in H.
  destruct H as [[(x & d & D1 & D2 & D3 & D4) ->]|[Hno X']].
  - split; try done; [by eexists _, _|]. split; [done|]. intros d'. rewrite C2.
    assert (Y : n = "@lambda" \/ n ∈ map fst areas) by (assert (Y : eventAs o ps areas d) by (apply C2; by exists x); destruct Y; cbn in *; try discriminate; subst; [by left|right; by eapply firstFor_in]).
    split; intros Hd; inversion Hd as [|m w Hm|j b0 e0 Hj Hf]; subst; try (constructor; done); try (by econstructor; eauto).
    + constructor; [done|]. apply firstFor_snoc. by left.
    + constructor; [done|]. apply firstFor_snoc in Hf as [Hf|(Hn & -> & _)]; [done|]. by destruct Y.
  - destruct (ex_obj _ _ _ _ X') as (ob & evs' & O1 & O2). rewrite Ho in O1. injection O1 as <-.
    assert (Hn : n ∉ map fst areas /\ n <> "@lambda").
    { split.
      - intros Hin. destruct (decide (n = "@lambda")) as [->|Hl]; [|destruct (firstFor_mem _ _ Hin) as ([b' e'] & Hf)].
        + destruct (proj2 (C2 _) (ea_lambda o ps areas)) as (y & Y1 & Y2). by apply (Hno _ _ Y1).
        + destruct (proj2 (C2 _) (ea_area o ps areas n b' e' Hl Hf)) as (y & Y1 & Y2). by apply (Hno _ _ Y1).
      - intros ->. destruct (proj2 (C2 _) (ea_lambda o ps areas)) as (y & Y1 & Y2). by apply (Hno _ _ Y1). }
    split; try done; [eexists lam, evs'; rewrite O2; apply lookup_insert| | |rewrite (ex_objs _ _ _ _ X'); done|rewrite (ex_root _ _ _ _ X'); done|rewrite (ex_set _ _ _ _ X'); done].
    + intros x Hx. eapply kept_trans; [by apply K|]. eapply extended_kept; [exact X'|done|]. intros ->. rewrite N in Hx. by destruct Hx.
    + split; [by rewrite (ex_props _ _ _ _ X')|]. intros d. rewrite (extended_events g g' o _ d X' eq_refl), C2. split.
      * intros [Hd| ->]; [|constructor; [apply Hn|]; apply firstFor_snoc; right; split; [apply Hn|done]]. inversion Hd as [|m w Hm|j b0 e0 Hj Hf]; subst; try (by econstructor; eauto). constructor; [done|]. apply firstFor_snoc. by left.
      * intros Hd. inversion Hd as [|m w Hm|j b0 e0 Hj Hf]; subst; [left; by constructor|left; eapply ea_property; eassumption|]. apply firstFor_snoc in Hf as [Hf|(_ & -> & [= -> ->])]; [left; by constructor|by right].
Qed.

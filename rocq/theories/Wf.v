(** Wf.v -- well-formed documents: the shape of the object graph that
    lib/Parser.cpp, lib/Document.cpp, lib/Composition.cpp, lib/Object.cpp and
    lib/Switch.cpp/lib/Context.cpp build (see Builder.v), and a boolean check. *)
From Verif Require Export Engine.
Open Scope string_scope.
Open Scope list_scope.

Definition valid_evt (D : doc) (e : eid) : Prop := is_Some (d_evt D !! e).
Definition valid_obj (D : doc) (o : oid) : Prop := is_Some (d_obj D !! o).

Record wf_obj (D : doc) (rank : oid -> nat) (o : oid) (ob : obj) : Prop := mkWfObj {
  (* Object.cpp:146-160 initEvent: the lambda event always exists *)
  wo_lambda : exists ev, d_evt D !! ob_lambda ob = Some ev /\ isLambda ev = true
                         /\ ob_lambda ob ∈ ob_events ob;
  wo_events : forall e, e ∈ ob_events ob -> exists ev, d_evt D !! e = Some ev /\ ev_obj ev = o;
  (* Composition::addChild, Composition.cpp:62-70: parent and child agree *)
  wo_parent : forall p, ob_parent ob = Some p ->
      exists pb, d_obj D !! p = Some pb /\ o ∈ ob_children pb /\
                 (ob_kind pb = KContext \/ ob_kind pb = KSwitch) /\ rank o < rank p;
  wo_children : forall c, c ∈ ob_children ob ->
      exists cb, d_obj D !! c = Some cb /\ ob_parent cb = Some o;
  wo_nodup : NoDup (ob_children ob);
  wo_ports : forall e, e ∈ ob_ports ob -> valid_evt D e;
  wo_conds : forall cs acts c, (cs, acts) ∈ ob_links ob -> c ∈ cs -> valid_evt D (ac_evt c);
  wo_acts : forall cs acts a, (cs, acts) ∈ ob_links ob -> a ∈ acts -> valid_evt D (ac_evt a);
  wo_rules : forall c p, (c, p) ∈ ob_rules ob -> c ∈ ob_children ob;
  wo_swports : forall name l, (name, l) ∈ ob_swports ob ->
      (forall e, e ∈ l -> valid_evt D e) /\
      exists e ev, e ∈ ob_events ob /\ d_evt D !! e = Some ev /\
                   ev_type ev = PRESENTATION /\ ev_id ev = name;
  wo_aliases : forall i c, (i, Some c) ∈ ob_aliases ob -> valid_obj D c
}.

Record wf_at (D : doc) (rank : oid -> nat) : Prop := mkWf {
  wf_o : forall o ob, d_obj D !! o = Some ob -> wf_obj D rank o ob;
  wf_e : forall e ev, d_evt D !! e = Some ev ->
      exists ob, d_obj D !! ev_obj ev = Some ob /\ e ∈ ob_events ob /\
                 (isLambda ev = true -> e = ob_lambda ob);
  wf_objs : forall o, o ∈ d_objs D <-> valid_obj D o;
  wf_objs_nodup : NoDup (d_objs D);
  wf_medias : forall o, o ∈ d_medias D <-> exists ob, d_obj D !! o = Some ob /\ is_media (ob_kind ob) = true;
  wf_medias_nodup : NoDup (d_medias D);
  wf_root : exists rb, d_obj D !! d_root D = Some rb /\ ob_kind rb = KContext /\ ob_parent rb = None;
  wf_settings : exists sb, d_obj D !! d_settings D = Some sb /\ ob_kind sb = KSettings /\
                           ob_parent sb = Some (d_root D);
  wf_kset : forall o ob, d_obj D !! o = Some ob -> ob_kind ob = KSettings -> o = d_settings D
}.
Definition wf_doc (D : doc) : Prop := exists rank, wf_at D rank.

(** ** A boolean check, for concrete documents. *)
Definition all_in {A} (l : list A) (f : A -> bool) : bool := forallb f l.
Definition elemb (x : positive) (l : list positive) : bool := existsb (Pos.eqb x) l.
Fixpoint nodupb (l : list positive) : bool :=
  match l with [] => true | x :: l => negb (elemb x l) && nodupb l end.
Definition has {A} (o : option A) (f : A -> bool) : bool :=
  match o with Some a => f a | None => false end.
Definition issome {A} (o : option A) : bool := has o (fun _ => true).

Definition wfb_obj (D : doc) (rank : oid -> nat) (o : oid) (ob : obj) : bool :=
  has (d_evt D !! ob_lambda ob) isLambda && elemb (ob_lambda ob) (ob_events ob)
  && all_in (ob_events ob) (fun e => has (d_evt D !! e) (fun ev => Pos.eqb (ev_obj ev) o))
  && match ob_parent ob with
     | None => true
     | Some p => has (d_obj D !! p) (fun pb => elemb o (ob_children pb)
                    && match ob_kind pb with KContext | KSwitch => true | _ => false end)
                 && (rank o <? rank p)%nat
     end
  && all_in (ob_children ob) (fun c => has (d_obj D !! c)
        (fun cb => match ob_parent cb with Some p => Pos.eqb p o | None => false end))
  && nodupb (ob_children ob)
  && all_in (ob_ports ob) (fun e => issome (d_evt D !! e))
  && all_in (ob_links ob) (fun l => all_in (fst l ++ snd l) (fun a => issome (d_evt D !! ac_evt a)))
  && all_in (ob_rules ob) (fun r => elemb (fst r) (ob_children ob))
  && all_in (ob_swports ob) (fun sp =>
        all_in (snd sp) (fun e => issome (d_evt D !! e)) &&
        existsb (fun e => has (d_evt D !! e) (fun ev =>
           match ev_type ev with PRESENTATION => String.eqb (ev_id ev) (fst sp) | _ => false end))
           (ob_events ob))
  && (match ob_kind ob with
      | KSwitch => all_in (ob_events ob) (fun e => has (d_evt D !! e)
           (fun ev => isLambda ev || issome (assoc (ev_id ev) (ob_swports ob))))
      | _ => true end)
  && all_in (ob_aliases ob) (fun a => match snd a with Some c => issome (d_obj D !! c) | None => true end).

Definition wfb_evt (D : doc) (e : eid) (ev : evt) : bool :=
  has (d_obj D !! ev_obj ev) (fun ob => elemb e (ob_events ob)
     && (negb (isLambda ev) || Pos.eqb e (ob_lambda ob))).

Definition wfb (D : doc) (rank : oid -> nat) : bool :=
  all_in (map_to_list (d_obj D)) (fun x => wfb_obj D rank (fst x) (snd x)
     && elemb (fst x) (d_objs D)
     && (negb (is_media (ob_kind (snd x))) || elemb (fst x) (d_medias D))
     && match ob_kind (snd x) with KSettings => Pos.eqb (fst x) (d_settings D) | _ => true end)
  && all_in (map_to_list (d_evt D)) (fun x => wfb_evt D (fst x) (snd x))
  && all_in (d_objs D) (fun o => issome (d_obj D !! o)) && nodupb (d_objs D)
  && all_in (d_medias D) (fun o => has (d_obj D !! o) (fun ob => is_media (ob_kind ob)))
  && nodupb (d_medias D)
  && has (d_obj D !! d_root D) (fun rb => match ob_kind rb, ob_parent rb with KContext, None => true | _, _ => false end)
  && has (d_obj D !! d_settings D) (fun sb => match ob_kind sb, ob_parent sb with
        | KSettings, Some p => Pos.eqb p (d_root D) | _, _ => false end).

Lemma elemb_spec x l : elemb x l = true <-> x ∈ l.
Proof.
  unfold elemb. rewrite existsb_exists. split.
  - intros (y & Hy & He). apply Pos.eqb_eq in He. subst. apply elem_of_list_In. exact Hy.
  - intros H. exists x. split; [apply elem_of_list_In; exact H | apply Pos.eqb_refl].
Qed.
Lemma nodupb_spec l : nodupb l = true -> NoDup l.
Proof.
  induction l as [|x l IH]; cbn; intros H; [constructor|].
  apply andb_prop in H as [H1 H2]. constructor; [|auto].
  rewrite <- elemb_spec. intros Hc. rewrite Hc in H1. discriminate.
Qed.
Lemma all_in_spec {A} (l : list A) f : all_in l f = true -> forall x, x ∈ l -> f x = true.
Proof. unfold all_in. rewrite forallb_forall. intros H x Hx. apply H, elem_of_list_In, Hx. Qed.
Lemma has_spec {A} (o : option A) f : has o f = true -> exists a, o = Some a /\ f a = true.
Proof. destruct o; cbn; [eauto | discriminate]. Qed.
Lemma issome_spec {A} (o : option A) : issome o = true -> is_Some o.
Proof. destruct o; cbn; [eauto | discriminate]. Qed.

Local Ltac spl := repeat match goal with
  | H : (_ && _)%bool = true |- _ => apply andb_prop in H as [? ?]
  | H : has _ _ = true |- _ => apply has_spec in H as (? & ? & ?)
  | H : elemb _ _ = true |- _ => apply elemb_spec in H
  | H : nodupb _ = true |- _ => apply nodupb_spec in H
  | H : Pos.eqb _ _ = true |- _ => apply Pos.eqb_eq in H
  | H : String.eqb _ _ = true |- _ => apply String.eqb_eq in H
  end.

Lemma wfb_obj_sound D rank o ob : wfb_obj D rank o ob = true -> wf_obj D rank o ob.
Proof.
  unfold wfb_obj. intros H. spl. split.
  - eexists. split; [eassumption|]. split; assumption.
  - intros e He. specialize (all_in_spec _ _ H9 _ He); cbn beta iota zeta delta [fst snd]. intros. spl. eauto.
  - intros p Hp. rewrite Hp in H8. spl. exists x0. split; [done|]. split; [done|].
    split; [|apply Nat.ltb_lt; assumption].
    destruct (ob_kind x0); auto; discriminate.
  - intros c Hc. specialize (all_in_spec _ _ H7 _ Hc); cbn beta iota zeta delta [fst snd]. intros. spl. exists x0.
    split; [done|]. destruct (ob_parent x0); [|discriminate]. spl. by subst.
  - done.
  - intros e He. apply issome_spec, (all_in_spec _ _ H5 _ He).
  - intros cs acts c Hl Hc. specialize (all_in_spec _ _ H4 _ Hl); cbn beta iota zeta delta [fst snd]. intros Hx.
    apply issome_spec, (all_in_spec _ _ Hx c). set_solver.
  - intros cs acts c Hl Hc. specialize (all_in_spec _ _ H4 _ Hl); cbn beta iota zeta delta [fst snd]. intros Hx.
    apply issome_spec, (all_in_spec _ _ Hx c). set_solver.
  - intros c p Hc. specialize (all_in_spec _ _ H3 _ Hc); cbn beta iota zeta delta [fst snd]. intros. by spl.
  - intros name l Hl. specialize (all_in_spec _ _ H2 _ Hl); cbn beta iota zeta delta [fst snd]. intros. spl. split.
    + intros e He. apply issome_spec, (all_in_spec _ _ H12 _ He).
    + apply existsb_exists in H13 as (e & He & H13). spl. exists e, x0.
      rewrite elem_of_list_In. split; [done|]. split; [done|].
      destruct (ev_type x0); try discriminate. spl. auto.
  - intros i c Hc. specialize (all_in_spec _ _ H0 _ Hc); cbn beta iota zeta delta [fst snd]. intros. by apply issome_spec.
Qed.

Lemma wfb_sound D rank : wfb D rank = true -> wf_doc D.
Proof.
  unfold wfb. intros H. spl. exists rank.
  assert (Hobj : forall o ob, d_obj D !! o = Some ob -> _) by
    (intros o ob Ho; exact (all_in_spec _ _ H (o, ob) ltac:(by apply elem_of_map_to_list))).
  cbn in Hobj. split.
  - intros o ob Ho. specialize (Hobj _ _ Ho). spl. by apply wfb_obj_sound.
  - intros e ev He.
    specialize (all_in_spec _ _ H6 (e, ev) ltac:(by apply elem_of_map_to_list)). cbn.
    unfold wfb_evt. intros. spl. exists x1. split; [done|]. split; [done|].
    intros Hl. rewrite Hl in H11. cbn in H11. by spl.
  - intros o. split.
    + intros Ho. apply issome_spec, (all_in_spec _ _ H5 _ Ho).
    + intros [ob Ho]. specialize (Hobj _ _ Ho). by spl.
  - done.
  - intros o. split.
    + intros Ho. specialize (all_in_spec _ _ H3 _ Ho); cbn beta iota zeta delta [fst snd]. intros. spl. eauto.
    + intros (ob & Ho & Hm). specialize (Hobj _ _ Ho). spl. rewrite Hm in *. cbn in *. by spl.
  - done.
  - exists x0. split; [done|]. destruct (ob_kind x0), (ob_parent x0); try discriminate. auto.
  - exists x. split; [done|]. destruct (ob_kind x), (ob_parent x); try discriminate. spl. by subst.
  - intros o ob Ho Hk. specialize (Hobj _ _ Ho). rewrite Hk in Hobj. by spl.
Qed.

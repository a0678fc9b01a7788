(** SafeCheck.v -- a checker for the documents of SafeSpec.v: [calmb] and [calmInitb]
    decide, by computation, a sufficient condition for [calmDoc] and [calmInit].  It is
    used to show that documents read by the parser are among them. *)
From Verif Require Import SafeSpec FactsParsed Parser ParserGrammar Builder.
Open Scope string_scope.
Open Scope list_scope.

Definition someb {A} (o : option A) : bool := match o with Some _ => true | None => false end.
Definition timeb (v : string) : bool := match try_parse_time v with TOk _ => true | _ => false end.
Definition okValueb (x : ext) (c : pcode) (v : string) : bool :=
  match c with
  | PROP_DEBUG | PROP_VISIBLE => someb (try_parse_bool v)
  | PROP_BOUNDS => someb (try_parse_list v "," 4 4)
  | PROP_LOCATION | PROP_SIZE => someb (try_parse_list v "," 2 2)
  | PROP_FOCUS_BORDER_COLOR | PROP_SEL_BORDER_COLOR | PROP_BACKGROUND => is_empty v || x_color x v
  | PROP_FOCUS_BORDER_WIDTH | PROP_Z_INDEX | PROP_Z_ORDER => someb (xstrtoint v)
  | PROP_DURATION => String.eqb v "indefinite" || timeb v
  | _ => true
  end.
Definition durationb (c : pcode) : bool := match c with PROP_DURATION => true | _ => false end.
Definition okPropb (D : doc) (o : oid) (name v : string) : bool :=
  okValueb (d_ext D) (fst (getPlayerProperty name)) (if is_empty v then snd (getPlayerProperty name) else v) &&
  negb (bool_decide (o = d_settings D) && durationb (fst (getPlayerProperty name))).
Definition mediaAt (D : doc) (o : oid) : bool := match d_obj D !! o with Some ob => is_media (ob_kind ob) | None => false end.
Definition okAssignb (D : doc) (o : oid) (name v : string) : bool :=
  negb (mediaAt D o) || (okPropb D o name v && negb (String.eqb name "type") && negb (String.eqb name "uri") && negb (String.eqb name "device")).
Definition anyValueb (c : pcode) : bool :=
  match c with
  | PROP_DEBUG | PROP_VISIBLE | PROP_BOUNDS | PROP_LOCATION | PROP_SIZE | PROP_FOCUS_BORDER_COLOR | PROP_SEL_BORDER_COLOR
  | PROP_BACKGROUND | PROP_FOCUS_BORDER_WIDTH | PROP_Z_INDEX | PROP_Z_ORDER | PROP_DURATION => false
  | _ => true
  end.
Definition okAnyb (D : doc) (o : oid) (name : string) : bool :=
  negb (mediaAt D o) || (anyValueb (fst (getPlayerProperty name)) && negb (String.eqb name "type") && negb (String.eqb name "uri") && negb (String.eqb name "device")).
Definition literalb (v : string) : bool := match v with String c _ => negb (Ascii.eqb c "$") | _ => true end.
Definition zerob (v : string) : bool := match try_parse_time v with TOk t => (t =? 0)%N | _ => false end.
Definition oneOf (t : trans) (l : list trans) : bool := existsb (fun u => bool_decide (t = u)) l.
Definition calmActb (D : doc) (a : action) : bool :=
  match d_evt D !! ac_evt a with
  | None => false
  | Some ev =>
    match d_obj D !! ev_obj ev with
    | None => false
    | Some ob =>
      literalb (ac_delay a) && timeb (ac_delay a) &&
      match ev_type ev with
      | PRESENTATION =>
        if isLambda ev then oneOf (ac_tr a) [START; STOP; ABORT] && negb (bool_decide (ev_obj ev = d_root D)) && negb (bool_decide (ev_obj ev = d_settings D))
        else is_media (ob_kind ob) && oneOf (ac_tr a) [STOP; ABORT]
      | ATTRIBUTION =>
        oneOf (ac_tr a) [STOP] ||
        (oneOf (ac_tr a) [START] && literalb (ac_dur a) && zerob (ac_dur a) &&
          ((literalb (ac_value a) && okAssignb D (ev_obj ev) (ev_id ev) (ac_value a)) || okAnyb D (ev_obj ev) (ev_id ev)))
      | _ => false
      end
    end
  end.
Fixpoint negFreeb (p : npred) : bool :=
  match p with
  | PNeg _ => false
  | PAnd cs | POr cs => (fix all (cs : list npred) : bool := match cs with [] => true | c :: cs => negFreeb c && all cs end) cs
  | _ => true
  end.
Definition condb (D : doc) (c : action) : bool :=
  negb (oneOf (ac_tr c) [PAUSE; RESUME]) && match ac_pred c with Some p => negFreeb p | None => true end &&
  match d_obj D !! d_root D with Some rb => negb (bool_decide (ac_evt c = ob_lambda rb) && oneOf (ac_tr c) [STOP]) | None => true end.
Definition portb (D : doc) (e : eid) : bool :=
  match d_evt D !! e with
  | Some ev => negb (bool_decide (ev_type ev = PRESENTATION)) ||
      (isLambda ev && negb (bool_decide (ev_obj ev = d_root D)) && negb (bool_decide (ev_obj ev = d_settings D)))
  | None => true
  end.
Definition calmObjb (D : doc) (x : oid * obj) : bool :=
  let '(o, ob) := x in
  negb (bool_decide (ob_kind ob = KSwitch)) &&
  (bool_decide (o = d_root D) || someb (ob_parent ob)) &&
  forallb (fun l => forallb (condb D) (fst l) && forallb (calmActb D) (snd l)) (ob_links ob) &&
  forallb (portb D) (ob_ports ob).
Definition focusb (D : doc) (e : eid) : bool :=
  match d_evt D !! e with
  | Some ev => bool_decide (ev_type ev = ATTRIBUTION) && String.eqb (ev_id ev) "service.currentFocus"
  | None => false
  end.
Definition aliasb (D : doc) (x : string * option oid) : bool :=
  match snd x with
  | None => true
  | Some c => match d_obj D !! c with
    | None => true
    | Some cb => forallb (fun l => forallb (fun x => match d_evt D !! ac_evt x with Some ev => negb (bool_decide (ev_obj ev = d_settings D)) | None => true end) (fst l)) (ob_links cb)
    end
  end.
Definition calmb (D : doc) : bool :=
  x_color (d_ext D) "yellow" &&
  forallb (calmObjb D) (map_to_list (d_obj D)) &&
  match d_obj D !! d_settings D with
  | Some sb => existsb (focusb D) (ob_events sb) && forallb (aliasb D) (ob_aliases sb)
  | None => false
  end.
Definition classb (r : cres) : bool := match r with CClass _ => true | _ => false end.
Definition initObjb (D : doc) (s : st) (x : oid * obj) : bool :=
  let '(o, ob) := x in
  negb (is_media (ob_kind ob)) ||
  (forallb (fun kv => okPropb D o (fst kv) (snd kv)) (map_to_list (o_props (ostOf s o))) &&
   classb (choose_player (d_ext D) (default "" (readProp s o "type")) (default "" (readProp s o "uri")) (default "" (readProp s o "device")))).
Definition calmInitb (D : doc) (s : st) : bool := forallb (initObjb D s) (map_to_list (d_obj D)).

(** *** Soundness. *)
Lemma someb_ok {A} (o : option A) : someb o = true -> o <> None.
Proof. by destruct o. Qed.
Lemma timeb_ok v : timeb v = true -> exists t, try_parse_time v = TOk t.
Proof. unfold timeb. destruct (try_parse_time v); try done. by eexists. Qed.
Lemma zerob_ok v : zerob v = true -> try_parse_time v = TOk 0%N.
Proof. unfold zerob. destruct (try_parse_time v); try done. intros H. apply N.eqb_eq in H. by subst. Qed.
Lemma literalb_ok v : literalb v = true -> literal v.
Proof. intros H r ->. cbn in H. discriminate H. Qed.
Lemma oneOf_ok t l : oneOf t l = true -> t ∈ l.
Proof.
  unfold oneOf. intros H. apply List.existsb_exists in H as (u & Hu & E). apply bool_decide_eq_true in E as ->. by apply elem_of_list_In.
Qed.
Lemma okValueb_ok x c v : okValueb x c v = true -> okValue x c v.
Proof.
  destruct c; cbn [okValueb okValue]; try done; intros H; try (by apply someb_ok).
  all: try (apply orb_true_iff in H as [H|H]; [left; destruct v; [done|discriminate H]|by right]).
  apply orb_true_iff in H as [H|H]; [left; by apply String.eqb_eq|right; by apply timeb_ok].
Qed.
Lemma okPropb_ok D o n v : okPropb D o n v = true -> okProp D o n v.
Proof.
  unfold okPropb. intros H. apply andb_true_iff in H as [H1 H2]. split; [by apply okValueb_ok|].
  intros -> E. rewrite E in H2. rewrite bool_decide_true in H2 by done. discriminate H2.
Qed.
Lemma okAssignb_ok D o n v : okAssignb D o n v = true -> okAssign D o n v.
Proof.
  unfold okAssignb, mediaAt. intros H ob Ho Hm. rewrite Ho, Hm in H. cbn [negb orb] in H.
  apply andb_true_iff in H as [H H4]. apply andb_true_iff in H as [H H3]. apply andb_true_iff in H as [H1 H2].
  split; [by apply okPropb_ok|]. split_and!; by apply String.eqb_neq, negb_true_iff.
Qed.
Lemma okAnyb_ok D o n : okAnyb D o n = true -> forall v, okAssign D o n v.
Proof.
  unfold okAnyb, mediaAt. intros H v ob Ho Hm. rewrite Ho, Hm in H. cbn [negb orb] in H.
  apply andb_true_iff in H as [H H4]. apply andb_true_iff in H as [H H3]. apply andb_true_iff in H as [H1 H2].
  split; [|split_and!; by apply String.eqb_neq, negb_true_iff].
  unfold okProp. generalize (if is_empty v then snd (getPlayerProperty n) else v). intros w.
  destruct (fst (getPlayerProperty n)); try discriminate H1; split; try done; intros; discriminate.
Qed.
Lemma negb_bd (P : Prop) `{Decision P} : negb (bool_decide P) = true -> ~ P.
Proof. intros H1. apply negb_true_iff in H1. by apply bool_decide_eq_false_1 in H1. Qed.
Ltac nb := match goal with H : negb (bool_decide ?P) = true |- ~ ?P => exact (negb_bd P H) | H : negb (bool_decide ?P) = true |- _ => exact (negb_bd P H) end.
Lemma calmActb_ok D a : calmActb D a = true -> calmAct D a.
Proof.
  unfold calmActb, calmAct. destruct (d_evt D !! ac_evt a) as [ev|] eqn:Ee; [|done]. destruct (d_obj D !! ev_obj ev) as [ob|] eqn:Eo; [|done].
  intros H. apply andb_true_iff in H as [H H3]. apply andb_true_iff in H as [H1 H2]. exists ev, ob. split; [done|]. split; [done|].
  split; [by apply literalb_ok|]. split; [by apply timeb_ok|]. destruct (ev_type ev); try discriminate H3.
  - apply orb_true_iff in H3 as [H3|H3]; [left; apply oneOf_ok in H3; by apply elem_of_list_singleton in H3|].
    apply andb_true_iff in H3 as [H3 H6]. apply andb_true_iff in H3 as [H3 H5]. apply andb_true_iff in H3 as [H3 H4].
    right. split; [apply oneOf_ok in H3; by apply elem_of_list_singleton in H3|]. split; [by apply literalb_ok|]. split; [by apply zerob_ok|].
    apply orb_true_iff in H6 as [H6|H6]; [left|right; intros w; by apply okAnyb_ok].
    apply andb_true_iff in H6 as [H6 H7]. split; [by apply literalb_ok|by apply okAssignb_ok].
  - destruct (isLambda ev).
    + apply andb_true_iff in H3 as [H3 H5]. apply andb_true_iff in H3 as [H3 H4]. left. split; [done|]. split.
      * apply oneOf_ok in H3. repeat (apply elem_of_cons in H3 as [H3|H3]; [auto|]). by apply elem_of_nil in H3.
      * split; nb.
    + apply andb_true_iff in H3 as [H3 H4]. right. split; [done|]. split; [done|]. apply oneOf_ok in H4.
      repeat (apply elem_of_cons in H4 as [H4|H4]; [auto|]). by apply elem_of_nil in H4.
Qed.
Lemma negFreeb_ok p : negFreeb p = true -> negFree p.
Proof.
  induction p as [| | |cs IH|cs IH|cs IH] using pred_ind'; cbn; try done.
  all: induction cs as [|c cs IHc]; [done|]; intros H; apply andb_true_iff in H as [A B]; inversion IH; subst; split; [auto|exact (IHc ltac:(assumption) B)].
Qed.

Section doc.
Context (D : doc).
Lemma condb_ok c : condb D c = true -> (ac_tr c <> PAUSE /\ ac_tr c <> RESUME) /\ (forall p, ac_pred c = Some p -> negFree p) /\
  (forall rb, d_obj D !! d_root D = Some rb -> ac_evt c = ob_lambda rb -> ac_tr c <> STOP).
Proof.
  unfold condb. intros H. apply andb_true_iff in H as [H H3]. apply andb_true_iff in H as [H1 H2]. split; [|split].
  - split; intros E; rewrite E in H1; discriminate H1.
  - intros p Hp. rewrite Hp in H2. by apply negFreeb_ok.
  - intros rb Hrb E1 E2. rewrite Hrb, E2 in H3. rewrite bool_decide_true in H3 by done. discriminate H3.
Qed.
Lemma calmb_ok : calmb D = true -> calmDoc D.
Proof.
  unfold calmb. intros H. apply andb_true_iff in H as [H Hs]. apply andb_true_iff in H as [Hy Ha].
  assert (HO : forall o ob, d_obj D !! o = Some ob -> ob_kind ob <> KSwitch /\ (o <> d_root D -> ob_parent ob <> None) /\
    (forall cs acts, (cs, acts) ∈ ob_links ob -> (forall c, c ∈ cs -> condb D c = true) /\ (forall a, a ∈ acts -> calmAct D a)) /\
    (forall e, e ∈ ob_ports ob -> portb D e = true)).
  { intros o ob Ho. apply elem_of_map_to_list in Ho. apply (forall_elem _ _ _ Ha) in Ho. unfold calmObjb in Ho. cbv beta iota in Ho.
    apply andb_true_iff in Ho as [H H4]. apply andb_true_iff in H as [H H3]. apply andb_true_iff in H as [H1 H2]. split; [nb|]. split; [|split].
    - intros Hne. rewrite bool_decide_false in H2 by done. by apply someb_ok.
    - intros cs acts Hl. apply (forall_elem _ _ _ H3) in Hl. cbn [fst snd] in Hl. apply andb_true_iff in Hl as [A B]. split; intros c Hc.
      + exact (forall_elem _ _ _ A Hc).
      + apply calmActb_ok. exact (forall_elem _ _ _ B Hc).
    - intros e He. exact (forall_elem _ _ _ H4 He). }
  destruct (d_obj D !! d_settings D) as [sb|] eqn:Es; [|discriminate Hs]. apply andb_true_iff in Hs as [Hf Hal].
  constructor.
  - intros o ob Ho. apply (HO o ob Ho).
  - intros o ob cs acts c Ho Hl Hc. destruct (HO o ob Ho) as (_ & _ & L & _). destruct (L _ _ Hl) as [A _]. by apply condb_ok, A.
  - intros o ob Ho. apply (HO o ob Ho).
  - done.
  - intros o ob cs acts c Ho Hl Hc. destruct (HO o ob Ho) as (_ & _ & L & _). destruct (L _ _ Hl) as [A _]. by apply condb_ok, A.
  - intros o ob cs acts a Ho Hl Hc. destruct (HO o ob Ho) as (_ & _ & L & _). destruct (L _ _ Hl) as [_ A]. by apply A.
  - intros o ob e ev Ho He Hev Ht. destruct (HO o ob Ho) as (_ & _ & _ & P). specialize (P e He). unfold portb in P. rewrite Hev in P.
    rewrite bool_decide_true in P by done. cbn [negb orb] in P. apply andb_true_iff in P as [P P3]. apply andb_true_iff in P as [P1 P2].
    split; [done|]. split; nb.
  - apply List.existsb_exists in Hf as (e & He & Hf). apply elem_of_list_In in He. unfold focusb in Hf. destruct (d_evt D !! e) as [ev|] eqn:Ee; [|discriminate Hf].
    apply andb_true_iff in Hf as [F1 F2]. exists sb, e, ev. split; [done|]. split; [done|]. split; [done|].
    split; [by apply bool_decide_eq_true in F1|by apply String.eqb_eq].
  - intros sb' i c cb cs acts x ev E Hin Hcb Hl Hx Hev. rewrite Es in E. injection E as <-. apply (forall_elem _ _ _ Hal) in Hin.
    unfold aliasb in Hin. cbn [snd] in Hin. rewrite Hcb in Hin. apply (forall_elem _ _ _ Hin) in Hl. cbn [fst] in Hl. apply (forall_elem _ _ _ Hl) in Hx.
    cbv beta in Hx. rewrite Hev in Hx. nb.
Qed.
Lemma calmInitb_ok s : calmInitb D s = true -> calmInit D s.
Proof.
  intros H o ob Ho Hm. apply elem_of_map_to_list in Ho. apply (forall_elem _ _ _ H) in Ho. unfold initObjb in Ho. cbv beta iota in Ho.
  rewrite Hm in Ho. cbn [negb orb] in Ho. apply andb_true_iff in Ho as [H1 H2]. split.
  - intros k v Hv. unfold readProp in Hv. apply elem_of_map_to_list in Hv. apply (forall_elem _ _ _ H1) in Hv. by apply okPropb_ok.
  - destruct (choose_player _ _ _ _) as [c|]; [by exists c|discriminate H2].
Qed.
End doc.

(** A document read by the parser: accepted by the checker whatever the size of the window
    and the focus, its file is one the theorem is about. *)
Definition calmParse (E : penv) (k : nat) (addr : positive -> positive) (X : Player.ext) (x : xml) : Prop := forall fo w h s,
  parse E k addr fo 0 w h x = POk tt s ->
  rulesOwn (p_graph s) /\ calmb (docOf (p_graph s) X) = true /\ calmInitb (docOf (p_graph s) X) (stOf (p_graph s) w h) = true.
Lemma f_calm_file E k addr X x : settingsPlain x -> calmParse E k addr X x -> calmFile (fileOf E k addr X x).
Proof.
  intros Hx Hc w h fo D s H. unfold fileOf in H. destruct (parse E k addr fo 0 w h x) as [[] s1| | |] eqn:Ep; try discriminate H.
  destruct (Hc _ _ _ _ Ep) as (R & A & B).
  assert (HD : D = docOf (p_graph s1) X /\ s = stOf (p_graph s1) w h). { clear -H. split; congruence. }
  destruct HD as [-> ->]. destruct (f_C41_plain _ _ _ _ _ _ _ _ _ X w h Ep Hx R) as [W I].
  split; [exact W|]. split; [exact I|]. split; [by apply calmb_ok|by apply calmInitb_ok].
Qed.

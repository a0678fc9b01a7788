(** SetProps.v -- what assigning a property does to the properties of a media. *)
From Verif Require Export Frame.
Open Scope string_scope.
Open Scope list_scope.

(** Assigning [name] on a media with a live player also assigns [k]. *)
Definition spreads (name k : string) : Prop :=
  (name = "bounds" /\ k ∈ ["left"; "top"; "width"; "height"]) \/
  (name = "location" /\ k ∈ ["left"; "top"]) \/
  (name = "size" /\ k ∈ ["width"; "height"]).

Definition depthOf (c : pcode) : nat :=
  match c with PROP_BOUNDS | PROP_LOCATION | PROP_SIZE => 2 | PROP_WIDTH | PROP_HEIGHT => 1 | _ => 0 end.

#[global] Instance pcode_eq_dec : EqDecision pcode. Proof. solve_decision. Defined.

Lemma assoc_in {A} k (l : list (string * A)) v : assoc k l = Some v -> (k, v) ∈ l.
Proof.
  induction l as [|[k' v'] l IH]; cbn; [done|]. destruct (String.eqb_spec k k') as [->|].
  - intros [= ->]. left.
  - intros H. right. auto.
Qed.
(** The code of a name is the code of an entry of the table, possibly through an alias. *)
Lemma getPlayerProperty_entry name c d : getPlayerProperty name = (c, d) -> c <> PROP_UNKNOWN ->
  exists i, (name, (c, i, d)) ∈ player_property_map \/
    exists n', (name, n') ∈ player_property_aliases /\ (n', (c, i, d)) ∈ player_property_map.
Proof.
  unfold getPlayerProperty. destruct (assoc name player_property_map) as [[[c' i] d']|] eqn:E.
  - intros [= <- <-] _. exists i. left. by apply assoc_in.
  - destruct (assoc name player_property_aliases) as [n'|] eqn:E2; [|intros [= <- <-]; done].
    destruct (assoc n' player_property_map) as [[[c' i] d']|] eqn:E3; [|intros [= <- <-]; done].
    intros [= <- <-] _. exists i. right. exists n'. split; by apply assoc_in.
Qed.
Lemma code_name name c d : getPlayerProperty name = (c, d) ->
  (c = PROP_BOUNDS -> name = "bounds") /\ (c = PROP_LOCATION -> name = "location") /\
  (c = PROP_SIZE -> name = "size").
Proof.
  intros H. assert (HH : c <> PROP_UNKNOWN -> forall i, (name, (c, i, d)) ∈ player_property_map \/
    (exists n', (name, n') ∈ player_property_aliases /\ (n', (c, i, d)) ∈ player_property_map) ->
    (c = PROP_BOUNDS -> name = "bounds") /\ (c = PROP_LOCATION -> name = "location") /\ (c = PROP_SIZE -> name = "size")).
  { intros Hn i [Hin|(n' & Ha & Hin)].
    - unfold player_property_map in Hin. repeat (apply elem_of_cons in Hin as [[= -> -> -> ->]|Hin]; [by repeat split|]).
      by apply elem_of_nil in Hin.
    - unfold player_property_map in Hin. unfold player_property_aliases in Ha.
      repeat (apply elem_of_cons in Ha as [[= -> ->]|Ha]; [
        repeat (apply elem_of_cons in Hin as [Hin|Hin]; [first [discriminate Hin|injection Hin as -> -> ->; by repeat split]|]); by apply elem_of_nil in Hin|]).
      by apply elem_of_nil in Ha. }
  destruct (decide (c = PROP_UNKNOWN)) as [->|Hn]; [by repeat split|].
  destruct (getPlayerProperty_entry _ _ _ H Hn) as (i & Hi). eauto.
Qed.

Lemma code_depth name c d : getPlayerProperty name = (c, d) -> name = "right" \/ name = "bottom" -> depthOf c = 0.
Proof. intros E [-> | ->]; cbv in E; injection E as <- <-; done. Qed.
Lemma code_depth1 name c d : getPlayerProperty name = (c, d) ->
  name ∈ ["left"; "top"; "width"; "height"] -> depthOf c <= 1.
Proof.
  intros E H. repeat (apply elem_of_cons in H as [-> | H]; [cbv in E; injection E as <- <-; cbn; lia|]).
  by apply elem_of_nil in H.
Qed.
Lemma pset_code p name v c v' : pset_value p name v = Some (c, v') -> exists d, getPlayerProperty name = (c, d).
Proof.
  unfold pset_value. destruct (getPlayerProperty name) as [c' d]. destruct (_ && _)%bool; [done|].
  intros [= <- _]. eauto.
Qed.
Lemma doset_media_names c v f k x : (k, x) ∈ doset_media c v f ->
  (depthOf c = 2 /\ k ∈ ["left"; "top"; "width"; "height"]) \/
  (depthOf c = 1 /\ (k = "right" \/ k = "bottom") /\ x = f k /\ x <> "").
Proof.
  destruct c; cbn [doset_media depthOf]; intros H; try (by apply elem_of_nil in H).
  1-3: left; split; [done|]; destruct (try_parse_list _ _ _ _); [|by apply elem_of_nil in H];
    apply elem_of_list_In, in_combine_l in H; rewrite elem_of_list_In; cbn in *; tauto.
  1-2: right; split; [done|]; destruct (is_empty (f _)) eqn:E; [by apply elem_of_nil in H|];
    apply elem_of_list_singleton in H; injection H as -> ->; split; [tauto|]; split; [done|];
    intros E2; rewrite E2 in E; done.
Qed.
Lemma doset_media_spreads name c d v f k x : getPlayerProperty name = (c, d) -> (k, x) ∈ doset_media c v f ->
  depthOf c = 2 -> spreads name k.
Proof.
  intros Hc H Hd. destruct (code_name _ _ _ Hc) as (H1 & H2 & H3). unfold spreads.
  destruct c; try done; cbn [doset_media] in H; destruct (try_parse_list _ _ _ _); try (by apply elem_of_nil in H);
    apply elem_of_list_In, in_combine_l, elem_of_list_In in H; tauto.
Qed.
Lemma default_nonempty (m : gmap string string) k : default "" (m !! k) <> "" -> m !! k = Some (default "" (m !! k)).
Proof. by destruct (m !! k). Qed.

Section SetProps.
Context (D : doc).
Definition lk (s : st) (o : oid) (k : string) : option string := o_props (ostOf s o) !! k.

Lemma set_props n :
  (forall o name v d s, pwp (mediaSet D n o name v d) (fun _ s' =>
     (~ spreads name name -> lk s' o name = Some v) /\ forall k, k <> name -> ~ spreads name k -> lk s' o k = lk s o k) s) /\
  (forall o name v s, pwp (playerSet D n o name v) (fun _ s' =>
     forall k, ~ spreads name k -> lk s' o k = lk s o k) s).
Proof.
  induction n as [|n [IH1 IH2]]; [split; intros; exact I|]. split; intros o name v.
  - intros d s. cbn [mediaSet]. w1. apply wp_getO; [done|]. intros ob Ho. w1.
    eapply (wp_mono _ _ _ (fun _ s' => forall k, lk s' o k = lk s o k)).
    { w1; [by w1|done]. }
    intros [] s1 F1; cbv beta in F1 |- *. w1. w1. w1. w1. w1. unfold objSetProp. w1.
    set (s2 := upd_ob _ _ s1).
    assert (E2 : forall k, lk s2 o k = if decide (k = name) then Some v else lk s o k).
    { intros k. rewrite <- F1. unfold lk, s2. sts. rewrite decide_True by done. cbn.
      destruct (decide (k = name)) as [->|]; [by rewrite lookup_insert|by rewrite lookup_insert_ne]. }
    clearbody s2. w1. w1.
    assert (HQ : (~ spreads name name -> lk s2 o name = Some v) /\ forall k, k <> name -> ~ spreads name k -> lk s2 o k = lk s o k).
    { split; intros; rewrite E2; [by rewrite decide_True|by rewrite decide_False]. }
    destruct (o_player (ostOf s2 o)) as [p|]; [|by w1].
    w1.
    + unfold animSchedule. repeat (w1; try done).
    + eapply wp_mono; [apply IH2|]. intros [] s3 F3; cbv beta in F3. split.
      * intros Hs. rewrite F3 by done. by apply HQ.
      * intros k Hk Hs. rewrite F3 by done. by apply HQ.
  - intros s. cbn [playerSet]. w1. w1.
    destruct (o_player (ostOf s o)) as [p|]; [|exact I].
    w1. eapply (wp_mono _ _ _ (fun _ s' => forall k, ~ spreads name k -> lk s' o k = lk s o k)).
    { destruct (pset_value p name v) as [[code v']|] eqn:Ec; [|by w1].
      apply pset_code in Ec as [d Ec].
      destruct (doset_own _ _ _ _ _ _); try exact I.
      w1. unfold updPlayer. w1.
      match goal with |- wp _ _ _ _ ?x => assert (E0 : forall k, lk x o k = lk s o k) by (intros k; unfold lk; sts; by rewrite decide_True) end.
      apply wp_foreach_inv with (I := fun s' => forall k, ~ spreads name k -> lk s' o k = lk s o k); [by auto| |done].
      intros [k x] s' Hin Hs'. cbn [fst snd]. eapply wp_mono; [apply IH1|].
      intros [] s2 [F1 F2]. cbv beta in F1, F2. intros k' Hk'.
      destruct (doset_media_names _ _ _ _ _ Hin) as [[Hd Hk]|(Hd & Hk & -> & Hx)].
      + pose proof (doset_media_spreads _ _ _ _ _ _ _ Ec Hin Hd) as Hsp.
        destruct (decide (k' = k)) as [->|Hne]; [done|]. rewrite F2; [by apply Hs'|done|].
        intros [[-> _]|[[-> _]|[-> _]]]; by (repeat (apply elem_of_cons in Hk as [?|Hk]; [done|]); apply elem_of_nil in Hk).
      + assert (Hnk : ~ spreads k k').
        { intros [[-> _]|[[-> _]|[-> _]]]; by destruct Hk. }
        destruct (decide (k' = k)) as [->|Hne].
        * rewrite F1 by done. unfold propOf in Hx |- *. symmetry. apply default_nonempty. exact Hx.
        * rewrite F2 by done. by apply Hs'. }
    intros [] s1 F1; cbv beta in F1 |- *. unfold updPlayer. w1. intros k Hk. rewrite <- F1 by done.
    unfold lk. sts. by rewrite decide_True.
Qed.

(** The nesting depth of assignments is bounded: they never run out of fuel. *)
Lemma set_fuel n :
  (forall o name v d s c df, getPlayerProperty name = (c, df) -> 2 * depthOf c + 2 <= n ->
     wp True False (mediaSet D n o name v d) (fun _ _ => True) s) /\ (forall o name v s c df, getPlayerProperty name = (c, df) -> 2 * depthOf c + 1 <= n ->
     wp True False (playerSet D n o name v) (fun _ _ => True) s).
Proof.
  induction n as [|n [IH1 IH2]]; [split; intros; lia|]. split; intros o name v.
  - intros d s c df Hc Hn. cbn [mediaSet]. w1. apply wp_getO; [done|]. intros ob Ho. w1.
    apply (wp_mono _ _ _ (fun _ _ => True)); [repeat (w1; try done)|].
    intros [] s1 _. cbv beta. w1. w1. w1. w1. w1. unfold objSetProp. w1. w1. w1.
    destruct (o_player _); [|by w1]. w1.
    + unfold animSchedule. repeat (w1; try done).
    + eapply IH2; [exact Hc|]. lia.
  - intros s c df Hc Hn. cbn [playerSet]. w1. w1. destruct (o_player (ostOf s o)) as [p|]; [|exact I].
    w1. apply (wp_mono _ _ _ (fun _ _ => True)).
    + destruct (pset_value p name v) as [[code v']|] eqn:Ec; [|by w1].
      apply pset_code in Ec as [d Ec]. rewrite Hc in Ec. injection Ec as <- <-.
      destruct (doset_own _ _ _ _ _ _); try exact I. w1. unfold updPlayer. w1.
      apply wp_foreach_inv with (I := fun _ => True); [done| |done].
      intros [k x] s' Hin _. cbn [fst snd].
      destruct (getPlayerProperty k) as [ck dk] eqn:Ek.
      eapply IH1; [exact Ek|].
      destruct (doset_media_names _ _ _ _ _ Hin) as [[Hd Hk]|(Hd & Hk & _)].
      * pose proof (code_depth1 _ _ _ Ek Hk). lia.
      * rewrite (code_depth _ _ _ Ek Hk). lia.
    + intros [] s1 _. cbv beta. unfold updPlayer. by w1.
Qed.
Lemma mediaSet_fuel o name v d s : mediaSetProperty D o name v d s <> NoFuel.
Proof.
  destruct (getPlayerProperty name) as [c df] eqn:E.
  pose proof (proj1 (set_fuel SETPROP_DEPTH) o name v d s c df E) as H. unfold wp, mediaSetProperty in *.
  intros Hf. rewrite Hf in H. apply H. unfold SETPROP_DEPTH. destruct c; cbn; lia.
Qed.
Lemma playerSet_fuel o name v s : playerSetProperty D o name v s <> NoFuel.
Proof.
  destruct (getPlayerProperty name) as [c df] eqn:E.
  pose proof (proj2 (set_fuel SETPROP_DEPTH) o name v s c df E) as H. unfold wp, playerSetProperty in *.
  intros Hf. rewrite Hf in H. apply H. unfold SETPROP_DEPTH. destruct c; cbn; lia.
Qed.

Lemma not_spreads_self name : ~ spreads name name.
Proof.
  intros [[-> H]|[[-> H]|[-> H]]]; repeat (apply elem_of_cons in H as [H|H]; [done|]); by apply elem_of_nil in H.
Qed.
Lemma setProperty_props o name v d s : pwp (setProperty D o name v d) (fun _ s' =>
  lk s' o name = Some v /\ (forall k, k <> name -> ~ spreads name k -> lk s' o k = lk s o k) /\ pframe o s s') s.
Proof.
  apply (wp_mono _ _ _ (fun _ s' => (lk s' o name = Some v /\ (forall k, k <> name -> ~ spreads name k -> lk s' o k = lk s o k)) /\ pframe o s s')); [|tauto].
  apply wp_conj; [|apply setProperty_pframe].
  unfold setProperty. w1. apply wp_getO; [done|]. intros ob Ho. w1.
  - eapply wp_mono; [apply set_props|]. intros [] s' [H1 H2]. split; [apply H1, not_spreads_self|done].
  - w1. w1. unfold objSetProp. w1. unfold lk. sts. rewrite decide_True by done. cbn. split.
    + by rewrite lookup_insert.
    + intros k Hk _. by rewrite lookup_insert_ne.
Qed.

(** The focus variable only changes with property service.currentFocus of the settings. *)
Definition focusProp (o : oid) (name : string) : bool :=
  match d_obj D !! o with
  | Some ob => (bool_decide (ob_kind ob = KSettings) && String.eqb name "service.currentFocus")%bool
  | None => false
  end.
Lemma set_focus_eff n :
  (forall o name v d s, pwp (mediaSet D n o name v d) (fun _ s' => s_focus s' = if focusProp o name then v else s_focus s) s) /\
  (forall o name v s, pwp (playerSet D n o name v) (fun _ s' => s_focus s' = s_focus s) s).
Proof.
  induction n as [|n [IH1 IH2]]; [split; intros; exact I|]. split; intros o name v.
  - intros d s. cbn [mediaSet]. w1. apply wp_getO; [done|]. intros ob Ho. w1.
    eapply (wp_mono _ _ _ (fun _ s' => s_focus s' = if focusProp o name then v else s_focus s)).
    { unfold focusProp. rewrite Ho. unfold whenm. destruct (_ && _)%bool; by w1. }
    intros [] s1 F1; cbv beta in F1 |- *. w1. w1. w1. w1. w1. unfold objSetProp. w1.
    set (s2 := upd_ob _ _ s1).
    assert (E2 : s_focus s2 = s_focus s1) by done. clearbody s2. w1. w1.
    destruct (o_player (ostOf s2 o)) as [p|]; [|w1; by rewrite E2].
    w1.
    + unfold animSchedule. repeat (w1; try (by rewrite E2); try done).
    + eapply wp_mono; [apply IH2|]. intros [] s3 F3; cbv beta in F3. by rewrite F3, E2.
  - intros s. cbn [playerSet]. w1. w1.
    destruct (o_player (ostOf s o)) as [p|]; [|exact I].
    w1. eapply (wp_mono _ _ _ (fun _ s' => s_focus s' = s_focus s)).
    { destruct (pset_value p name v) as [[code v']|] eqn:Ec; [|by w1].
      destruct (doset_own _ _ _ _ _ _); try exact I.
      w1. unfold updPlayer. w1.
      apply wp_foreach_inv with (I := fun s' => s_focus s' = s_focus s); [done| |done].
      intros [k x] s' Hin Hs'. cbn [fst snd]. eapply wp_mono; [apply IH1|].
      intros [] s2 F1. cbv beta in F1. rewrite F1.
      assert (focusProp o k = false) as ->; [|done]. unfold focusProp. destruct (d_obj D !! o); [|done].
      apply andb_false_iff. right.
      destruct (doset_media_names _ _ _ _ _ Hin) as [[_ Hk]|(_ & Hk & _)].
      - repeat (apply elem_of_cons in Hk as [-> |Hk]; [done|]); by apply elem_of_nil in Hk.
      - by destruct Hk as [-> | ->]. }
    intros [] s1 F1; cbv beta in F1 |- *. unfold updPlayer. by w1.
Qed.
Lemma setProperty_focus o name v d s : pwp (setProperty D o name v d) (fun _ s' => focusProp o name = true -> s_focus s' = v) s.
Proof.
  unfold setProperty. w1. apply wp_getO; [done|]. intros ob Ho. w1.
  - eapply wp_mono; [apply set_focus_eff|]. cbv beta. intros [] s' H1 H2. by rewrite H1, H2.
  - w1. w1. unfold objSetProp. w1. unfold focusProp. rewrite Ho. intros H'. apply andb_prop in H' as [H' _].
    apply bool_decide_eq_true in H'. rewrite H' in *. done.
Qed.
End SetProps.

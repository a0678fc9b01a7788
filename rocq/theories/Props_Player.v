(** Props_Player.v -- properties C28, C30 and C35: player properties, choice of the
    player, starting a media.  Vocabulary: PlayerSpec.v, StartSpec.v. *)
From Verif Require Import FactsPlayer StartSpec PlayerFacts Witness.
Open Scope string_scope.
Open Scope list_scope.

(** C28.  Setting property [name] of a media that is being presented to [v]: the
    property reads back as [v], on the media and on the player; no other property
    but the components of a composite one changes; and what the player presents
    changes as [showsProp] says -- aliases, defaults for the empty value, percentages
    and the re-application of "right" and "bottom" included. *)
Theorem C28_set : forall D o name v s s' a ob,
  d_obj D !! o = Some ob -> is_media (ob_kind ob) = true -> presents s o a ->
  setProperty D o name v 0%N s = Ok tt s' ->
  propOf s' o name = v /\
  (forall k, k <> name -> k ∉ components name -> propOf s' o k = propOf s o k) /\
  exists p' , o_player (ostOf s' o) = Some p' /\ p_props p' !! name = Some v /\
     showsProp (d_ext D) (s_w s) (s_h s) (rightOf s o) (bottomOf s o) name v a (attrs_of p').
Proof. exact f_C28. Qed.
Print Assumptions C28_set.
(** Resetting a player (what stopping it does): whatever it presented, it then
    presents the defaults. *)
Theorem C28_reset : forall D W H a b, (0 <= W <= 2147483647)%Z -> (0 <= H <= 2147483647)%Z ->
  reset_attrs (d_ext D) W H a = DOk b -> agrees (d_ext D) W H (fun _ => None) b.
Proof. exact f_C28_stop. Qed.
Print Assumptions C28_reset.
(** C35.  Starting a sleeping media: see [started] and [mediaStarted]. *)
Theorem C35_start : forall D, wf_doc D -> timesFit D ->
  forall o ob s n b s', d_obj D !! o = Some ob -> is_media (ob_kind ob) = true ->
  screen s -> evState s (ob_lambda ob) = SLEEPING ->
  tr D n (ob_lambda ob) START s = Ok b s' -> b = true /\ mediaStarted D s s' o ob.
Proof. exact f_C35. Qed.
Print Assumptions C35_start.
(** C36.  Starting a sleeping context: see [started] and [contextStarted]. *)
Theorem C36_start_context_partial : forall D, wf_doc D ->
  forall o ob s n b s', d_obj D !! o = Some ob -> ob_kind ob = KContext ->
  evState s (ob_lambda ob) = SLEEPING ->
  tr D n (ob_lambda ob) START s = Ok b s' -> b = true /\ contextStarted D s s' o ob.
Proof. exact f_C36. Qed.
Print Assumptions C36_start_context_partial.
(** A context that was once started from one of its components: started again, as a
    whole, it occurs but none of its ports will start. *)
Theorem C36_refuted : exists D s o ob s' p pe, wf_doc D /\ reach D s /\ d_obj D !! o = Some ob /\ ob_kind ob = KContext /\
  evState s (ob_lambda ob) = SLEEPING /\ tr D 60 (ob_lambda ob) START s = Ok true s' /\
  ob_ports ob = [p] /\ d_evt D !! p = Some pe /\ ev_type pe = PRESENTATION /\ o_delayed (ostOf s' o) = [].
Proof. exact f_C36_refuted. Qed.
Print Assumptions C36_refuted.

(** C30.  The class of the player created is the one that suits the mime type. *)
Theorem C30_choice : forall X type uri device m c, mimeOf type uri m ->
  (choose_player X type uri device = CClass c <-> suits (x_cef X) (remoteAsked type uri device) uri m c).
Proof. exact f_C30. Qed.
Print Assumptions C30_choice.
(** There always is exactly one mime type in force. *)
Theorem C30_mime : forall type uri, exists m, mimeOf type uri m /\ forall m', mimeOf type uri m' -> m' = m.
Proof. exact StartMedia.mime_unique. Qed.
Print Assumptions C30_mime.
(** A media of a known extension, without type or device, that starts is presented by
    a player for its mime class ... *)
Theorem C30_extensions_partial : forall X base e m, In (e, m) knownTypes ->
  forall c, plainKind m c -> choose_player X "" (base ++ "." ++ e) "" = CClass c.
Proof. exact f_C30_ext. Qed.
Print Assumptions C30_extensions_partial.
(** ... but some known extensions have no player at all (starting such a media ends
    the process), and no media is ever presented by the SVG player. *)
Theorem C30_refuted : (exists e m, In (e, m) knownTypes /\ forall X base, exists c, choose_player X "" (base ++ "." ++ e) "" = CAbort c) /\
  (forall X type uri device, choose_player X type uri device <> CClass PSvg).
Proof. exact f_C30_refuted. Qed.
Print Assumptions C30_refuted.

(** ** Hypotheses met. *)
Lemma demo_times : timesFit demo.
Proof.
  assert (G : forallb (fun x => (ev_begin (snd x) <=? TIME_NONE)%N && (ev_end (snd x) <=? TIME_NONE)%N)%bool (map_to_list (d_evt demo)) = true)
    by (vm_compute; reflexivity).
  intros e ev He. apply elem_of_map_to_list, elem_of_list_In in He. pose proof (proj1 (List.forallb_forall _ _) G _ He) as Hx.
  cbn [snd] in Hx. apply andb_prop in Hx as [H1 H2]. apply N.leb_le in H1, H2. split; assumption.
Qed.
(** Media a of [demo], started while nothing occurs: it has an anchor from 1 s to
    3 s, a focus index and a property; the root context is awoken. *)
Example C35_nonvacuous : exists s' ob, reach demo demo0 /\ d_obj demo !! 3%positive = Some ob /\ screen demo0 /\ 
  wakes demo demo0 3 1 /\ evState demo0 (ob_lambda ob) = SLEEPING /\ tr demo 60 (ob_lambda ob) START demo0 = Ok true s' /\
  evState s' 101 = OCCURRING /\
  o_delayed (ostOf s' 3) = [(act 130 START, sec 1); (act 130 STOP, sec 3)] /\ s_next s' = Some "" /\
  (a_w <$> (attrs_of <$> o_player (ostOf s' 3))) = Some 800%Z.
Proof.
  assert (E : run_is (tr demo 60 103 START demo0) (fun b s' => b && stb s' 101 OCCURRING && bool_decide (o_delayed (ostOf s' 3) = [(act 130 START, sec 1); (act 130 STOP, sec 3)])
      && bool_decide (s_next s' = Some "") && bool_decide ((a_w <$> (attrs_of <$> o_player (ostOf s' 3))) = Some 800%Z))%bool = true) by (vm_compute; reflexivity).
  apply run_is_ok in E as (b & s' & E & Hs'). unfold stb in Hs'. splitb Hs'. rewrite Hs' in E. exists s'. eexists. split; [apply r_init; exact demo_init|].
  split; [vm_compute; reflexivity|]. cbn [ob_lambda].
  split; [split; vm_compute; split; discriminate|].
  split. { apply wakes_one. do 2 eexists. do 4 (split; [vm_compute; reflexivity|]). vm_compute. reflexivity. }
  split; [vm_compute; reflexivity|]. split; [exact E|]. split; [hyp|]. split; [hyp|]. split; hyp.
Qed.
(** Context c of [demo]: its port is scheduled. *)
Example C36_nonvacuous : exists s' ob, reach demo demo0 /\ d_obj demo !! 5%positive = Some ob /\ ob_kind ob = KContext /\
  ~ startedFromWithin demo0 ob /\
  evState demo0 (ob_lambda ob) = SLEEPING /\ tr demo 60 (ob_lambda ob) START demo0 = Ok true s' /\
  evState s' 101 = OCCURRING /\ o_delayed (ostOf s' 5) = [(act 106 START, 0%N)] /\ o_delayed (ostOf s' 1) = [].
Proof.
  assert (E : run_is (tr demo 60 105 START demo0) (fun b s' => b && stb s' 101 OCCURRING && bool_decide (o_delayed (ostOf s' 5) = [(act 106 START, 0%N)])
      && bool_decide (o_delayed (ostOf s' 1) = []))%bool = true) by (vm_compute; reflexivity).
  apply run_is_ok in E as (b & s' & E & Hs'). unfold stb in Hs'. splitb Hs'. rewrite Hs' in E. exists s'. eexists. split; [apply r_init; exact demo_init|].
  split; [vm_compute; reflexivity|]. cbn [ob_lambda ob_kind]. split; [reflexivity|].
  split; [intros Hx; apply Hx; vm_compute; reflexivity|].
  split; [vm_compute; reflexivity|]. split; [exact E|]. split; [hyp|]. split; hyp.
Qed.
(** Setting "width" on a presented media that has a "right": the position follows. *)
Definition right0 : st := init [(3, [("right", "10%")])]%positive [].
Example C28_nonvacuous : exists s s', reach demo s /\
  (attrs_of <$> o_player (ostOf s 3)) <> None /\ setProperty demo 3 "width" "50%" 0 s = Ok tt s' /\
  (a_x <$> (attrs_of <$> o_player (ostOf s 3))) = Some (-80)%Z /\ (a_x <$> (attrs_of <$> o_player (ostOf s' 3))) = Some 320%Z.
Proof.
  destruct (check_reach demo right0 [CAct (act 101 START); CAct (act 103 START)] (fun s => bool_decide ((a_x <$> (attrs_of <$> o_player (ostOf s 3))) = Some (-80)%Z) &&
    run_is (setProperty demo 3 "width" "50%" 0 s) (fun _ s' => bool_decide ((a_x <$> (attrs_of <$> o_player (ostOf s' 3))) = Some 320%Z)))%bool) as (s & Hr & Hs);
    [apply init_init|vm_compute; reflexivity|].
  splitb Hs. match goal with HH : run_is _ _ = true |- _ => apply run_is_ok in HH as ([] & s' & E & Hs') end.
  splitb Hs'. exists s, s'. split; [exact Hr|]. split; [|split; [exact E|split; hyp]].
  destruct (o_player (ostOf s 3)); [discriminate|discriminate Hs].
Qed.
Example C30_nonvacuous : mimeOf "" "clip.final.mp4" "video/mp4" /\ choose_player noext "" "clip.final.mp4" "" = CClass PVideo /\
  In ("mp4", "video/mp4") knownTypes /\ plainKind "video/mp4" PVideo.
Proof.
  split; [|split; [vm_compute; reflexivity|split; [vm_compute; tauto|right; exists "/mp4"; reflexivity]]].
  apply mime_known; [reflexivity|]. exists "mp4". split; [|vm_compute; tauto].
  split; [discriminate|]. split; [vm_compute; intuition discriminate|]. exists "clip.final". reflexivity.
Qed.

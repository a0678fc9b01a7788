(** Props_Links.v -- properties C08, C09, C10: links.  Vocabulary: LinkSpec.v. *)
From Verif Require Import FactsLinks.
Open Scope string_scope.
Open Scope list_scope.

(** C08.  Evaluating an action is a cascade of actions rooted at it, in which every
    other action is the immediate action of a link that fired because of the
    (successful) action above it, or its echo on a switch port; besides carrying out
    these actions, only delayed actions of links that fired are put in queues. *)
Theorem C08_link_soundness : forall D n a s k s', evalAction D n a s = Ok k s' ->
  exists t, Cascade D s [t] s' /\ root t = a /\ forall x, within x t -> sound D x.
Proof. exact f_C08. Qed.
Print Assumptions C08_link_soundness.

(** C09.  In this cascade, below every successful action, every action of every
    link that it satisfies is present, or queued with its delay. *)
Theorem C09_link_completeness : forall D n a s k s', evalAction D n a s = Ok k s' ->
  exists t, Cascade D s [t] s' /\ root t = a /\ forall x, within x t -> sound D x /\ complete D x.
Proof. exact f_C09. Qed.
Print Assumptions C09_link_completeness.

(** C10.  The immediate actions of a link are carried out one after the other in
    document order, each with its whole cascade ([Cascade] runs them in sequence).
    Partial: the delayed actions of a link are not in document order, see below. *)
Theorem C10_run_to_completion_partial : forall D n a s k s', evalAction D n a s = Ok k s' ->
  exists t, Cascade D s [t] s' /\ root t = a /\ forall x, within x t -> sound D x /\ complete D x /\ ordered D x.
Proof. exact f_cascade. Qed.
Print Assumptions C10_run_to_completion_partial.
(** A link with two actions x, y of equal delay: y is carried out before x. *)
Theorem C10_refuted : exists D s c cb conds x y h1 h2 h3, wf_doc D /\ reach D s /\ d_obj D !! c = Some cb /\
  ob_links cb = [(conds, [x; y])] /\ ac_delay x = ac_delay y /\
  ac_evt x <> ac_evt y /\ ac_tr x = START /\ ac_tr y = START /\
  s_log s = h3 ++ OTrans (ac_evt x) START :: h2 ++ OTrans (ac_evt y) START :: h1 /\
  (forall e, e ∈ h3 ++ h2 ++ h1 -> e <> OTrans (ac_evt x) START /\ e <> OTrans (ac_evt y) START).
Proof. exact f_C10_refuted. Qed.
Print Assumptions C10_refuted.

(** A start of media a of [demo] that satisfies a link with an immediate and a
    delayed action: two successful actions, and one action queued. *)
Example C08_nonvacuous : exists s s' f, reach demo s /\ evalAction demo 60 (act 103 START) s = Ok 2 s' /\
  satisfied demo s (act 103 START) f /\ f_acts f = [act 104 START; actd 104 STOP "5s"] /\
  immediate demo s (act 104 START) = true /\ immediate demo s (actd 104 STOP "5s") = false /\
  evState s 104 = SLEEPING /\ evState s' 104 = OCCURRING /\
  (mkAct 104 STOP None "" "" "", sec 5) ∈ o_delayed (ostOf s' 1).
Proof.
  destruct (check_reach demo demo0 play (fun s =>
    stb s 101 OCCURRING && stb s 104 SLEEPING && o_links_on (ostOf s 1) && immediate demo s (act 104 START)
    && bool_decide (immediate demo s (actd 104 STOP "5s") = false)
    && run_is (evalAction demo 60 (act 103 START) s) (fun k s' => (k =? 2)%nat && stb s' 104 OCCURRING
         && bool_decide ((mkAct 104 STOP None "" "" "", sec 5) ∈ o_delayed (ostOf s' 1))))%bool) as (s & Hr & Hs);
    [apply demo_init|vm_compute; reflexivity|].
  unfold stb in Hs. splitb Hs.
  match goal with HH : run_is _ _ = true |- _ => apply run_is_ok in HH as (k & s' & E & Hs') end.
  splitb Hs'. rewrite Hs' in E.
  exists s, s', (mkFiring 1 [cond 103 START] [act 104 START; actd 104 STOP "5s"] (cond 103 START)).
  split; [exact Hr|]. split; [exact E|]. split; [split|]; cbn [f_ctx f_conds f_acts f_cond].
  { eapply ls_parent; try reflexivity. change (evState s 101 = OCCURRING). hyp. }
  { split; [hyp|]. split; [eexists; split; [reflexivity|left]|]. split; [left|]. split; [reflexivity|]. split; [reflexivity|exact I]. }
  split; [reflexivity|]. split; [hyp|]. split; [hyp|]. split; [hyp|]. split; hyp.
Qed.

(** C39.  In the cascade of an action, every successful action on a component of a switch
    is repeated on exactly the ports of the switch that are mapped to the component,
    before links are looked at; no other action is repeated. *)
Theorem C39_switch_ports_partial : forall D n a s k s', evalAction D n a s = Ok k s' ->
  exists t, Cascade D s [t] s' /\ root t = a /\ forall x, within x t -> sound D x /\ complete D x /\ ordered D x /\ echoed D x.
Proof. exact f_C39. Qed.
Print Assumptions C39_switch_ports_partial.
(** What is missing, and false: a port is meant to repeat what happens to the interface
    it is mapped to.  It repeats what happens to any event of that component.  Here the
    port is mapped to the whole content (event 104) of a media; the end of an anchor
    (131) of that media ends the port (140), and with it the whole media. *)
Theorem C39_stop_refuted : exists s s', wf_doc (w_echo 140) /\ reach (w_echo 140) s /\
  ob_swports <$> d_obj (w_echo 140) !! 3%positive = Some [("port", [104%positive])] /\
  evalAction (w_echo 140) 60 (act 131 STOP) s = Ok 1 s' /\
  (evState s 104 = OCCURRING /\ evState s 131 = OCCURRING /\ evState s 140 = OCCURRING) /\
  (evState s' 104 = SLEEPING /\ evState s' 131 = SLEEPING /\ evState s' 140 = SLEEPING).
Proof. exact f_C39_stop_refuted. Qed.
Print Assumptions C39_stop_refuted.
(** Started as a whole, the same switch aborts the player when the anchor begins. *)
Theorem C39_crash_refuted : exists s, wf_doc (w_echo 103) /\ reach (w_echo 103) s /\
  evState s 101 = OCCURRING /\ evState s 103 = OCCURRING /\ evState s 104 = OCCURRING /\
  sendTick (w_echo 103) 60 4 (sec 1) s = Crash (CAssert "Switch.cpp:97").
Proof. exact f_C39_crash_refuted. Qed.
Print Assumptions C39_crash_refuted.
(** The stop of media f of [demo], component of a switch, is repeated on one port. *)
Example C39_nonvacuous : exists ev ob pb, d_evt demo !! 109%positive = Some ev /\ d_obj demo !! ev_obj ev = Some ob /\
  ob_parent ob = Some 7%positive /\ d_obj demo !! 7%positive = Some pb /\ ob_kind pb = KSwitch /\ ob_parent pb <> None /\
  repeatedOn demo (ev_obj ev) (ob_swports pb) = ["port"] /\
  exists s s' k, reach demo s /\ evalAction demo 60 (act 109 STOP) s = Ok k s' /\
    evState s 140 = OCCURRING /\ evState s 109 = OCCURRING /\ evState s' 109 = SLEEPING /\ evState s' 140 = SLEEPING.
Proof.
  do 3 eexists. split; [vm_compute; reflexivity|]. split; [vm_compute; reflexivity|]. split; [reflexivity|]. split; [vm_compute; reflexivity|].
  split; [reflexivity|]. split; [discriminate|]. split; [vm_compute; reflexivity|].
  destruct (check_reach demo demo0 (play ++ [CAct (act 140 START)]) (fun s => stb s 140 OCCURRING && stb s 109 OCCURRING &&
    run_is (evalAction demo 60 (act 109 STOP) s) (fun k s' => stb s' 109 SLEEPING && stb s' 140 SLEEPING))%bool) as (s & Hr & Hs);
    [apply demo_init|vm_compute; reflexivity|].
  unfold stb in Hs. splitb Hs. match goal with HH : run_is _ _ = true |- _ => apply run_is_ok in HH as (k & s' & E & Hs') end.
  unfold stb in Hs'. splitb Hs'. exists s, s', k. split; [exact Hr|]. split; [exact E|]. split; [hyp|]. split; [hyp|]. split; hyp.
Qed.

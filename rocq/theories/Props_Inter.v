(** Props_Inter.v -- properties C14-C17: switches, set actions, focus and keys.
    Vocabulary: InterSpec.v. *)
From Verif Require Import FactsInter.
Open Scope string_scope.
Open Scope list_scope.

(** C14.  Starting event [e] of switch [o]: if it succeeds, the first rule that
    applies names component [c], an eligible interface [e'] of [c] is started, and no
    event outside [c] changes; if it fails nothing changes, and it fails only if no
    rule applies or if starting the chosen interface fails. *)
Theorem C14_switch_selection : forall D, wf_doc D -> forall s, reach D s ->
  forall n o ob e ev b s', d_obj D !! o = Some ob -> ob_kind ob = KSwitch ->
  d_evt D !! e = Some ev -> ev_obj ev = o -> evState s e <> OCCURRING ->
  tr D n e START s = Ok b s' ->
  (b = true -> exists c e', firstRule D s ob ev c /\ eligible D ob ev c e' /\
     evState s e' <> OCCURRING /\ evState s' e' = OCCURRING /\ o_selected (ostOf s' o) = Some c /\
     forall e2 ev2, d_evt D !! e2 = Some ev2 -> e2 <> e -> ~ inside D c (ev_obj ev2) -> evState s' e2 = evState s e2) /\
  (b = false -> s' = s /\ forall c, firstRule D s ob ev c ->
     exists e' n', eligible D ob ev c e' /\ tr D n' e' START s = Ok false s).
Proof. exact f_C14. Qed.
Print Assumptions C14_switch_selection.
(** The switch of [demo], by its port: the rule of e does not hold, that of f does. *)
Example C14_nonvacuous : exists s s', reach demo s /\ evState s 140 = SLEEPING /\ tr demo 60 140 START s = Ok true s' /\
  evState s' 109 = OCCURRING /\ evState s' 108 = SLEEPING /\ o_selected (ostOf s' 7) = Some 9%positive.
Proof.
  destruct (check_reach demo demo0 play (fun s => stb s 140 SLEEPING &&
    run_is (tr demo 60 140 START s) (fun b s' => b && stb s' 109 OCCURRING && stb s' 108 SLEEPING
      && bool_decide (o_selected (ostOf s' 7) = Some 9%positive)))%bool) as (s & Hr & Hs);
    [apply demo_init|vm_compute; reflexivity|].
  unfold stb in Hs. splitb Hs. match goal with HH : run_is _ _ = true |- _ => apply run_is_ok in HH as (b & s' & E & Hs') end.
  splitb Hs'. rewrite Hs' in E. exists s, s'. split; [exact Hr|]. split; [hyp|]. split; [exact E|]. split; [hyp|]. split; hyp.
Qed.

(** C15.  In the cascade of actions that evaluating [a] gives rise to (C08), every set
    action on a property that is not being set succeeds, and every set action that
    succeeds has the effect [setDone].  Partial: bounds, location and size also change
    the coordinates, and an action on a property that is being set is lost; see below. *)
Theorem C15_attribution_partial : forall D, wf_doc D -> forall n a s k s', evalAction D n a s = Ok k s' ->
  exists t, Cascade D s [t] s' /\ root t = a /\ forall x, within x t ->
    match x with Node a ok s0 s1 _ _ _ _ => forall ev, d_evt D !! ac_evt a = Some ev -> ev_type ev = ATTRIBUTION -> ac_tr a = START ->
      (evState s0 (ac_evt a) <> OCCURRING -> ok = true) /\ (ok = true -> setDone D a ev s0 s1) end.
Proof. exact f_C15. Qed.
Print Assumptions C15_attribution_partial.
(** Setting bounds (one successful action, no link involved) changes left. *)
Theorem C15_refuted_bounds : exists D s a ev s', wf_doc D /\ reach D s /\ d_evt D !! ac_evt a = Some ev /\
  ev_type ev = ATTRIBUTION /\ ac_tr a = START /\ 
  evalAction D 60 a s = Ok 1 s' /\ ev_id ev <> "left" /\
  readProp s (ev_obj ev) "left" = Some "10%" /\ readProp s' (ev_obj ev) "left" = Some "1%".
Proof. exact f_C15_refuted_bounds. Qed.
Print Assumptions C15_refuted_bounds.
(** Set x to 9, then to 7, between two ticks: x is 9. *)
Theorem C15_refuted_successive : exists D s a b k s1 k' s2, wf_doc D /\ reach D s /\
  ac_evt a = ac_evt b /\ ac_tr a = START /\ ac_tr b = START /\
  (exists ev, d_evt D !! ac_evt a = Some ev /\ ev_type ev = ATTRIBUTION /\ ev_obj ev = 3%positive /\ ev_id ev = "x") /\
  ac_value a = "9" /\ ac_value b = "7" /\
  evalAction D 60 a s = Ok k s1 /\ evalAction D 60 b s1 = Ok k' s2 /\ readProp s2 3 "x" = Some "9".
Proof. exact f_C15_refuted_successive. Qed.
Print Assumptions C15_refuted_successive.
Example C15_nonvacuous : exists s s', reach demo s /\ evState s 131 = SLEEPING /\ readProp s 3 "x" = Some "0" /\
  evalAction demo 60 (setv 131 "$b.focusIndex") s = Ok 1 s' /\ readProp s' 3 "x" = Some "1".
Proof.
  destruct (check_reach demo demo0 (play ++ [CAct (act 103 START)]) (fun s => stb s 131 SLEEPING && bool_decide (readProp s 3 "x" = Some "0") &&
    run_is (evalAction demo 60 (setv 131 "$b.focusIndex") s) (fun k s' => (k =? 1)%nat && bool_decide (readProp s' 3 "x" = Some "1")))%bool)
    as (s & Hr & Hs); [apply demo_init|vm_compute; reflexivity|].
  unfold stb in Hs. splitb Hs. match goal with HH : run_is _ _ = true |- _ => apply run_is_ok in HH as (b & s' & E & Hs') end.
  splitb Hs'. rewrite Hs' in E. exists s, s'. split; [exact Hr|]. split; [hyp|]. split; [hyp|]. split; [exact E|]. hyp.
Qed.

(** C16.  A tick of the settings object when a focus update without target is
    pending: a set action on the focus property, whose value is the smallest focus
    index of the occurring media, and which succeeds unless the property is just
    being set; then the focus is that value ([valueOf]: it may be a reference). *)
Theorem C16_focus_selection : forall D, wf_doc D -> forall n d s s',
  s_next s = Some "" -> sendTick D n (d_settings D) d s = Ok tt s' ->
  exists e v t s1, focusEvent D e /\ smallestFocus D s v /\ Cascade D s [t] s1 /\ root t = mkAct e START None v "" "" /\
    match t with Node a ok s0 s2 _ _ _ _ =>
      (evState s0 (ac_evt a) <> OCCURRING -> ok = true) /\ (ok = true -> s_focus s2 = valueOf (evalPropertyRef D s0) v) end /\
    mediaTick D n (d_settings D) d (set_next None s1) = Ok tt s'.
Proof. exact f_C16. Qed.
Print Assumptions C16_focus_selection.
Example C16_nonvacuous : exists s s', reach demo s /\ s_next s = Some "" /\ focusable demo s "2" /\ focusable demo s "1" /\
  sendTick demo 60 (d_settings demo) 1 s = Ok tt s' /\ s_focus s' = "1".
Proof.
  destruct (check_reach demo demo0 (play ++ [CAct (act 103 START)]) (fun s => bool_decide (s_next s = Some "") && stb s 103 OCCURRING && stb s 104 OCCURRING &&
    bool_decide (readProp s 3 "focusIndex" = Some "2") && bool_decide (readProp s 4 "focusIndex" = Some "1") &&
    run_is (sendTick demo 60 (d_settings demo) 1 s) (fun k s' => bool_decide (s_focus s' = "1")))%bool)
    as (s & Hr & Hs); [apply demo_init|vm_compute; reflexivity|].
  unfold stb in Hs. splitb Hs. match goal with HH : run_is _ _ = true |- _ => apply run_is_ok in HH as ([] & s' & E & Hs') end.
  splitb Hs'. exists s, s'. split; [exact Hr|]. split; [hyp|].
  split; [split; [discriminate|]; exists 3%positive; eexists; split; [reflexivity|]; split; [reflexivity|]; split; [change (evState s 103 = OCCURRING)|]; hyp|].
  split; [split; [discriminate|]; exists 4%positive; eexists; split; [reflexivity|]; split; [reflexivity|]; split; [change (evState s 104 = OCCURRING)|]; hyp|].
  split; [exact E|]. hyp.
Qed.

(** C17.  A key sent to an active media starts (stops) exactly its selection events
    that wait for it, in the order of the events; before that, a cursor key pressed on the
    focused media asks for the focus to move.  C16, second part: keys change the
    focus only through [navigates], which needs the focus. *)
Theorem C17_key_dispatch : forall D, wf_doc D -> forall s, reach D s -> forall n o ob key press s', d_obj D !! o = Some ob ->
  is_media (ob_kind ob) = true -> evState s (ob_lambda ob) <> SLEEPING -> sendKey D n o key press s = Ok tt s' ->
  exists s1 es, (forall e, e ∈ es <-> e ∈ ob_events ob /\ waitsFor D s o key e) /\ sublist es (ob_events ob) /\
    evaluated D n (map (fun e => mkAct e (if press then START else STOP) None "" "" "") es) s1 s' /\
    ((s1 = log (OKey o key press) s /\ forall i, ~ navigates s o key press i) \/
     exists i, navigates s o key press i /\ s1 = set_next (Some i) (log (OKey o key press) s)).
Proof. exact f_C17. Qed.
Print Assumptions C17_key_dispatch.
(** Sleeping media, contexts and switches ignore keys ([OKey] records the call). *)
Theorem C17_ignored_keys : forall D, wf_doc D -> forall n o ob key press s, d_obj D !! o = Some ob ->
  is_media (ob_kind ob) = false \/ evState s (ob_lambda ob) = SLEEPING ->
  sendKey D n o key press s = Ok tt (log (OKey o key press) s).
Proof. exact f_C17_ignored. Qed.
Print Assumptions C17_ignored_keys.
Example C17_nonvacuous : exists s s', reach demo s /\ evState s 103 = OCCURRING /\ evState s 132 = SLEEPING /\
  waitsFor demo s 3 "RED" 132 /\ sendKey demo 60 3 "RED" true s = Ok tt s' /\ evState s' 132 = OCCURRING.
Proof.
  destruct (check_reach demo demo0 (play ++ [CAct (act 103 START)]) (fun s => stb s 103 OCCURRING && stb s 132 SLEEPING &&
    bool_decide (e_params (estOf s 132) !! "key" = Some "RED") &&
    run_is (sendKey demo 60 3 "RED" true s) (fun k s' => stb s' 132 OCCURRING))%bool)
    as (s & Hr & Hs); [apply demo_init|vm_compute; reflexivity|].
  unfold stb in Hs. splitb Hs. match goal with HH : run_is _ _ = true |- _ => apply run_is_ok in HH as ([] & s' & E & Hs') end.
  splitb Hs'. exists s, s'. split; [exact Hr|]. split; [hyp|]. split; [hyp|]. split; [|split; [exact E|hyp]].
  exists (sel 3 "RED"). split; [reflexivity|]. split; [reflexivity|].
  match goal with HH : e_params _ !! _ = _ |- _ => rewrite HH end. reflexivity.
Qed.

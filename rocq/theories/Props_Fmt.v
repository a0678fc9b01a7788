(** Props_Fmt.v -- properties C18, C19, C20: the formatter.  [fstart], [fstop],
    [fkey], [ftick] model the API calls; [freach]: reachable formatter states
    (FReach.v); [ticksOf], [keysOf]: Spec.v. *)
From Verif Require Import FactsFmt.
Open Scope string_scope.
Open Scope list_scope.

(** C18.  Starting: refused without effect while playing; when stopped, it succeeds
    exactly if the file parses, and then plays the parsed document. *)
Theorem C18_start : forall n F f b f', freach f -> goodFile F -> fstart n F f = Ok b f' ->
  (f_playing f = true -> b = false /\ f' = f) /\
  (f_playing f = false ->
   match F (f_w f) (f_h f) (f_focus f) with
   | None => b = false /\ f' = f
   | Some (D, s) => b = true /\ f_playing f' = true /\ exists s' sb, f_doc f' = Some (D, s') /\
       d_obj D !! d_settings D = Some sb /\ evState s' (ob_lambda sb) = OCCURRING
   end).
Proof. exact f_C18_start. Qed.
Print Assumptions C18_start.
(** Stopping reports success exactly when playing; the document is gone. *)
Theorem C18_stop : forall n f b f', freach f -> fstop n f = Ok b f' ->
  b = f_playing f /\ f_playing f' = false /\ f_doc f' = None /\ (b = false -> f' = f).
Proof. exact f_C18_stop. Qed.
Print Assumptions C18_stop.
(** Everything is refused, without effect, while stopped. *)
Theorem C18_refused_when_stopped : forall n f, f_playing f = false ->
  fstop n f = Ok false f /\ (forall d, ftick n d f = Ok false f) /\ (forall k p, fkey n k p f = Ok false f).
Proof. exact f_C18_stopped. Qed.
Print Assumptions C18_refused_when_stopped.
(** There is a document exactly while playing, so a stopped formatter can always be
    started again (the check at Formatter.cpp:124 never fails). *)
Theorem C18_document_iff_playing : forall f, freach f -> (f_playing f = true <-> f_doc f <> None).
Proof. exact f_C18_doc. Qed.
Print Assumptions C18_document_iff_playing.

(** A run: start, tick, key, stop, start again. *)
Definition demoFile : file := fun w h fo => Some (demo, set_focus fo demo0).
Lemma demoFile_good : goodFile demoFile.
Proof. intros w h fo D s [= <- <-]. split; [exact demo_wf|]. destruct demo_init. split; assumption. Qed.
Definition f0 : fmt := mkF false None false "" 800 600.
Definition frun_is {A} (r : outcome fmt A) (g : A -> fmt -> bool) : bool :=
  match r with Ok a f => g a f | _ => false end.
Lemma frun_is_ok {A} (r : outcome fmt A) g : frun_is r g = true -> exists a f, r = Ok a f /\ g a f = true.
Proof. destruct r; cbn; [eauto|done|done]. Qed.
Example C18_nonvacuous : exists f1 f2 f3 f4, fstart 60 demoFile f0 = Ok true f1 /\ freach f1 /\ f_playing f1 = true /\
  ftick 60 7 f1 = Ok true f2 /\ fstop 60 f2 = Ok true f3 /\ fstart 60 demoFile f3 = Ok true f4 /\ f_playing f4 = true.
Proof.
  destruct (frun_is_ok (fstart 60 demoFile f0) (fun b f1 => b && f_playing f1 &&
    frun_is (ftick 60 7 f1) (fun b f2 => b && frun_is (fstop 60 f2) (fun b f3 => b &&
      frun_is (fstart 60 demoFile f3) (fun b f4 => b && f_playing f4))))%bool) as (b1 & f1 & E1 & H1);
    [vm_compute; reflexivity|].
  apply andb_prop in H1 as [H1 H1']. apply andb_prop in H1 as [H1 Hp].
  apply frun_is_ok in H1' as (b2 & f2 & E2 & H2). apply andb_prop in H2 as [H2 H2'].
  apply frun_is_ok in H2' as (b3 & f3 & E3 & H3). apply andb_prop in H3 as [H3 H3'].
  apply frun_is_ok in H3' as (b4 & f4 & E4 & H4). apply andb_prop in H4 as [H4 H4'].
  rewrite H1 in E1. rewrite H2 in E2. rewrite H3 in E3. rewrite H4 in E4. exists f1, f2, f3, f4.
  split; [exact E1|]. split; [exact (fr_start 60 demoFile true f0 f1 (fr_init "" 800 600) demoFile_good E1)|].
  split; [exact Hp|]. split; [exact E2|]. split; [exact E3|]. split; [exact E4|exact H4'].
Qed.

(** C19.  The root context sleeps: the next tick or key is refused and stops the formatter. *)
Theorem C19_end_of_presentation : forall n f D s rb,
  freach f -> f_doc f = Some (D, s) -> d_obj D !! d_root D = Some rb -> evState s (ob_lambda rb) = SLEEPING ->
  (forall d b f', ftick n d f = Ok b f' -> b = false /\ f_playing f' = false /\ f_doc f' = None) /\
  (forall k p b f', fkey n k p f = Ok b f' -> b = false /\ f_playing f' = false /\ f_doc f' = None).
Proof. exact f_C19_end. Qed.
Print Assumptions C19_end_of_presentation.
(** Otherwise a tick is accepted and delivered once to every object occurring when it
    arrives, and to no other object. *)
Theorem C19_tick_delivery : forall n d f b f' D s rb,
  freach f -> f_doc f = Some (D, s) -> d_obj D !! d_root D = Some rb -> evState s (ob_lambda rb) <> SLEEPING ->
  ftick n d f = Ok b f' ->
  b = true /\ f_playing f' = true /\ exists s', f_doc f' = Some (D, s') /\
  forall o ob, d_obj D !! o = Some ob ->
    ticksOf o (s_log s') = (if decide (evState s (ob_lambda ob) = OCCURRING) then [d] else []) ++ ticksOf o (s_log s).
Proof. exact f_C19_tick. Qed.
Print Assumptions C19_tick_delivery.
(** Likewise a key, to every object that does not sleep. *)
Theorem C19_key_delivery : forall n k p f b f' D s rb,
  freach f -> f_doc f = Some (D, s) -> d_obj D !! d_root D = Some rb -> evState s (ob_lambda rb) <> SLEEPING ->
  fkey n k p f = Ok b f' ->
  b = true /\ f_playing f' = true /\ exists s', f_doc f' = Some (D, s') /\
  forall o ob, d_obj D !! o = Some ob ->
    keysOf o (s_log s') = (if decide (evState s (ob_lambda ob) = SLEEPING) then [] else [(k, p)]) ++ keysOf o (s_log s).
Proof. exact f_C19_key. Qed.
Print Assumptions C19_key_delivery.
Definition docb (f : fmt) (g : doc -> st -> bool) : bool := match f_doc f with Some (D, s) => g D s | None => false end.
Lemma docb_ok f g : docb f g = true -> exists D s, f_doc f = Some (D, s) /\ g D s = true.
Proof. unfold docb. destruct (f_doc f) as [[D s]|]; [eauto|done]. Qed.
Example C19_nonvacuous : exists f1 f2 D s, freach f1 /\ ftick 60 7 f1 = Ok true f2 /\
  f_doc f2 = Some (D, s) /\ ticksOf 3 (s_log s) = [7%N; 5%N] /\ ticksOf 8 (s_log s) = [].
Proof.
  destruct (frun_is_ok (bind (fstart 60 demoFile) (fun _ => bind (ftick 60 1) (fun _ => ftick 60 5)) f0) (fun _ f1 =>
    frun_is (ftick 60 7 f1) (fun b f2 => b && docb f2 (fun D s => bool_decide (ticksOf 3 (s_log s) = [7%N; 5%N]) && bool_decide (ticksOf 8 (s_log s) = []))))%bool)
    as (b1 & f1 & E1 & H1); [vm_compute; reflexivity|].
  apply frun_is_ok in H1 as (b2 & f2 & E2 & H2). apply andb_prop in H2 as [H2 H2'].
  apply docb_ok in H2' as (D & s & Hd & Hs). splitb Hs. rewrite H2 in E2. exists f1, f2, D, s.
  split; [|split; [exact E2|split; [exact Hd|split; assumption]]].
  unfold bind in E1. destruct (fstart 60 demoFile f0) as [b0 fa| |] eqn:Ea; [|discriminate|discriminate].
  destruct (ftick 60 1 fa) as [bb fb| |] eqn:Eb; [|discriminate|discriminate].
  eapply (fr_tick 60 5); [|exact E1]. eapply (fr_tick 60 1); [|exact Eb].
  exact (fr_start 60 demoFile b0 f0 fa (fr_init "" 800 600) demoFile_good Ea).
Qed.

(** C20.  [redraw_order]: the media in the order in which they are painted; [getZ]:
    the (zIndex, zOrder) of a media. *)
Theorem C20_painting_order : forall D s,
  redraw_order D s ≡ₚ d_medias D /\
  StronglySorted (fun a b => below (getZ D s a) (getZ D s b)) (redraw_order D s).
Proof. exact f_C20. Qed.
Print Assumptions C20_painting_order.
Theorem C20_every_media_once : forall D s, wf_doc D -> NoDup (redraw_order D s) /\
  forall o, o ∈ redraw_order D s <-> exists ob, d_obj D !! o = Some ob /\ is_media (ob_kind ob) = true.
Proof. exact f_C20_once. Qed.
Print Assumptions C20_every_media_once.
Theorem C20_layer : forall D, wf_doc D -> forall s, reach D s -> forall o ob, d_obj D !! o = Some ob ->
  is_media (ob_kind ob) = true ->
  getZ D s o = match o_player (ostOf s o) with Some p => (p_zindex p, p_zorder p) | None => (0, 0)%Z end.
Proof. exact f_C20_layer. Qed.
Print Assumptions C20_layer.
Definition zdemo : doc := mk
  [ (1, ctx "root" None 101 [101] [2;3;4;5] [103;104;105] []);
    (2, leaf KSettings "settings" 1 102 [102;120]);
    (3, leaf KMedia "a" 1 103 [103]); (4, leaf KMedia "b" 1 104 [104]); (5, leaf KMedia "c" 1 105 [105]) ]%positive
  [ (101, lam 1); (102, lam 2); (103, lam 3); (104, lam 4); (105, lam 5);
    (120, attr 2 "service.currentFocus") ]%positive.
Example C20_nonvacuous : wf_doc zdemo /\ exists s, reach zdemo s /\ redraw_order zdemo s = [2; 5; 4; 3]%positive
  /\ getZ zdemo s 3 = (2, 0)%Z /\ getZ zdemo s 5 = (0, 1)%Z.
Proof.
  split; [apply (wfb_sound zdemo depth); vm_compute; reflexivity|].
  destruct (check_reach zdemo (init [(3, [("zIndex", "2")]); (4, [("zIndex", "1")]); (5, [("zOrder", "1")])]%positive [])
     (play ++ [CTick 1 1])
     (fun s => bool_decide (redraw_order zdemo s = [2; 5; 4; 3]%positive) && bool_decide (getZ zdemo s 3 = (2, 0)%Z)
        && bool_decide (getZ zdemo s 5 = (0, 1)%Z))%bool) as (s & Hr & Hs); [apply init_init|vm_compute; reflexivity|].
  splitb Hs. exists s. repeat (split; [assumption|]). assumption.
Qed.

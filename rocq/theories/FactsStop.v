(** FactsStop.v -- proofs of the theorems of Props_Stop.v. *)
From Verif Require Export Up FactsInter.
Open Scope string_scope.
Open Scope list_scope.

(** ** C05 *)
Lemma f_C05_stage : forall D, wf_doc D -> forall s n o ob t b s', t = STOP \/ t = ABORT ->
  d_obj D !! o = Some ob -> activeObj D s o -> tr D n (ob_lambda ob) t s = Ok b s' ->
  forall x, below D s o x -> activeObj D s x -> asleep D s' x.
Proof.
  intros D [rank WF] s n o ob t b s' Ht Ho Ha E x Hx Hax.
  destruct (wp_ok _ _ _ _ _ (R_stop D rank WF n t o ob s Ht Ho) _ _ E) as [HR Hs].
  destruct (HR o) as [Hsm|[_ H]]; [|by apply H].
  exfalso. apply (asleep_inactive D rank WF s' o); [by apply Hs|]. destruct Ha as (ob' & Ho' & Ha). exists ob'. split; [done|].
  by rewrite (same_lam D rank WF _ _ _ _ Hsm Ho').
Qed.
Lemma f_C05_total : forall D, wf_doc D -> forall s o ob t, reach D s -> t = STOP \/ t = ABORT -> d_obj D !! o = Some ob ->
  exists N, forall n, N <= n -> exists b s', tr D n (ob_lambda ob) t s = Ok b s'.
Proof.
  intros D [rank WF] s o ob t Hr Ht Ho. exists (S (rank o)). intros n Hn.
  pose proof (stop_total D rank WF n t o ob s Ht Ho Hn (J_reach D rank WF s Hr)) as H. unfold wp in H.
  destruct (tr D n (ob_lambda ob) t s); [eauto|done|done].
Qed.
Lemma f_C05 : forall D, wf_doc D -> noSwitch D -> noHoldLinks D -> forall s, reach D s ->
  forall n o ob t b s', d_obj D !! o = Some ob -> ob_kind ob = KContext -> activeObj D s o ->
  t = STOP \/ t = ABORT -> tr D n (ob_lambda ob) t s = Ok b s' ->
  forall x xb, inside D o x -> d_obj D !! x = Some xb ->
    evState s' (ob_lambda xb) = SLEEPING /\
    (is_media (ob_kind xb) = true -> o_player (ostOf s' x) = None /\ o_time (ostOf s' x) = TIME_NONE) /\
    (activeObj D s x -> asleep D s' x).
Proof.
  intros D [rank WF] NS NH s Hr n o ob t b s' Ho Hk Ha Ht E x xb Hin Hx.
  assert (Hr' : reach D s') by (eapply r_tr; [exact Hr|by eapply (valid_lambda D rank WF o)|exact E]).
  assert (HU : Up D s) by (by eapply reach_up).
  destruct (wp_ok _ _ _ _ _ (R_stop D rank WF n t o ob s Ht Ho) _ _ E) as [HR Hs].
  assert (Hact : activeObj D s x -> asleep D s' x).
  { intros Hax. apply (f_C05_stage D (ex_intro _ rank WF) s n o ob t b s'); try done. by eapply (inside_below D rank WF NS). }
  assert (Hsl : evState s' (ob_lambda xb) = SLEEPING).
  { destruct (decide (evState s (ob_lambda xb) = SLEEPING)) as [Es|Es].
    - destruct (HR x) as [Hsm|[(xb' & Hx' & He & _) _]].
      + by rewrite (same_lam D rank WF _ _ _ _ Hsm Hx).
      + assert (xb' = xb) as -> by congruence. apply He. by eapply lam_ev.
    - destruct Hact as (xb' & Hx' & He & _); [by exists xb|]. assert (xb' = xb) as -> by congruence. apply He. by eapply lam_ev. }
  split; [done|]. split; [|done]. intros Hm. split.
  - destruct (o_player (ostOf s' x)) eqn:Ep; [|done]. exfalso.
    apply (proj1 (f_C02 D (ex_intro _ rank WF) s' Hr' x xb Hx Hm)); [|done]. by rewrite Ep.
  - pose proof (f_C03_media D (ex_intro _ rank WF) s' Hr' x xb Hx Hm) as H. destruct (sinceStart _ _ _); [|apply H].
    by destruct H.
Qed.


(** Refutation: a switch started through a switchPort goes on when its context is stopped. *)
Lemma run_reach D s l f : init_ok D s -> check D s l f = true -> exists s', reach D s' /\ f s' = true.
Proof. apply check_reach. Qed.
Lemma f_C05_refuted : exists D s s' o ob x xb, wf_doc D /\ reach D s /\ d_obj D !! o = Some ob /\ ob_kind ob = KContext /\
  evState s (ob_lambda ob) = OCCURRING /\ tr D 60 (ob_lambda ob) STOP s = Ok true s' /\
  inside D o x /\ d_obj D !! x = Some xb /\ is_media (ob_kind xb) = true /\
  evState s' (ob_lambda xb) = OCCURRING /\ o_player (ostOf s' x) <> None.
Proof.
  destruct (check_reach demo demo0 (play ++ [CAct (act 140 START)]) (fun s => stb s 101 OCCURRING &&
     run_is (tr demo 60 101 STOP s) (fun b s' => b && stb s' 109 OCCURRING && issome (o_player (ostOf s' 9))))%bool)
    as (s & Hr & Hs); [apply demo_init|vm_compute; reflexivity|].
  unfold stb in Hs. splitb Hs. match goal with HH : run_is _ _ = true |- _ => apply run_is_ok in HH as (b & s' & E & Hs') end.
  splitb Hs'. rewrite Hs' in E. match goal with HH : issome _ = true |- _ => apply issome_spec in HH as Hsome end.
  exists demo, s, s', 1%positive. eexists. exists 9%positive. eexists.
  split; [apply demo_wf|]. split; [exact Hr|]. split; [reflexivity|]. split; [reflexivity|]. split; [exact Hs|]. split; [exact E|].
  split; [eapply in_nested; [reflexivity|reflexivity|]; eapply in_nested; [reflexivity|reflexivity|]; apply in_self|].
  split; [reflexivity|]. split; [reflexivity|]. split; [match goal with HH : evState s' _ = OCCURRING |- _ => exact HH end|]. intros Hn. rewrite Hn in Hsome. destruct Hsome as [? Hsome]. discriminate.
Qed.

(** ** C06 *)
Lemma f_C06 : forall D, wf_doc D -> noSwitch D -> noHoldLinks D -> forall s n o ob t b s', 
  d_obj D !! o = Some ob -> t = PAUSE \/ t = RESUME -> tr D n (ob_lambda ob) t s = Ok b s' ->
  (b = true <-> evState s (ob_lambda ob) = heldFrom t) /\
  (forall e, movesWith D s (heldFrom t) o e -> evState s' e = target t) /\
  (forall e, ~ movesWith D s (heldFrom t) o e -> evState s' e = evState s e).
Proof.
  intros D [rank WF] NS NH s n o ob t b s' Ho Ht E.
  destruct (wp_ok _ _ _ _ _ (hold_tr D rank WF NS NH t Ht n o ob s Ho) _ _ E) as ([HK HR] & HC & Hst).
  split; [split; [|intros H; by apply Hst]|split].
  - intros ->. destruct (lambda_evt D rank WF _ _ Ho) as (ev & He & _).
    destruct (tr_ok D rank WF n _ ev t s true s' He E) as [_ H]. destruct (H eq_refl) as [H1 _]. by apply legal_hold.
  - intros e (x & Hx & Hp & Es). 
    assert (Eo : evState s (ob_lambda ob) = srcOf t) by (eapply held_state; [by eapply held_root|done]).
    destruct (Hst Eo) as [_ Eo']. destruct (HR _ _ Ho) as [Heq|Hf]; [|by apply (Hf x)].
    exfalso. apply (src_dst t Ht). congruence.
  - intros e Hn. destruct (decide (evState s' e = evState s e)) as [|Hd]; [done|]. exfalso. apply Hn.
    destruct (HC e Hd) as (y & Hy & Hp). exists y. split; [done|]. split; [done|]. destruct (HK e) as [?|[? _]]; [done|done].
Qed.
Lemma f_C06_round : forall D, wf_doc D -> noSwitch D -> noHoldLinks D -> forall s n1 n2 o ob b1 s1 b2 s2,
  d_obj D !! o = Some ob -> evState s (ob_lambda ob) = OCCURRING ->
  tr D n1 (ob_lambda ob) PAUSE s = Ok b1 s1 -> tr D n2 (ob_lambda ob) RESUME s1 = Ok b2 s2 ->
  b1 = true /\ b2 = true /\
  (forall e, movesWith D s OCCURRING o e -> evState s1 e = PAUSED /\ evState s2 e = OCCURRING) /\
  (forall e, evState s e <> PAUSED -> evState s2 e = evState s e).
Proof.
  intros D HW NS NH s n1 n2 o ob b1 s1 b2 s2 Ho Eo E1 E2.
  destruct (f_C06 D HW NS NH s n1 o ob PAUSE b1 s1 Ho (or_introl eq_refl) E1) as (B1 & M1 & U1).
  destruct (f_C06 D HW NS NH s1 n2 o ob RESUME b2 s2 Ho (or_intror eq_refl) E2) as (B2 & M2 & U2). cbn [heldFrom target] in *.
  assert (Hh : forall x, held D s OCCURRING o x -> held D s1 PAUSED o x).
  { intros x Hx. assert (Hl : forall y yb, held D s OCCURRING o y -> d_obj D !! y = Some yb -> evState s1 (ob_lambda yb) = PAUSED).
    { intros y yb Hy Hyb. apply M1. exists y. split; [done|]. split; [by apply presOf_lam|]. by eapply held_state. }
    induction Hx as [ab Hab Es|p pb c cb Hp IH Hpb Hk Hc Hcb Es].
    - econstructor; [done|]. eapply Hl; [|done]. by econstructor.
    - eapply hd_child; eauto. eapply Hl; [|done]. by eapply hd_child. }
  assert (HM : forall e, movesWith D s OCCURRING o e -> evState s1 e = PAUSED /\ evState s2 e = OCCURRING).
  { intros e He. pose proof (M1 e He) as H1. split; [done|]. apply M2. destruct He as (x & Hx & Hp & Es). exists x. auto. }
  assert (B1' : b1 = true) by (by apply B1). assert (Hlo : movesWith D s OCCURRING o (ob_lambda ob)).
  { exists o. split; [by econstructor|]. split; [by apply presOf_lam|done]. }
  split; [done|]. split; [apply B2; by apply HM|]. split; [done|]. intros e He.
  destruct (decide (evState s1 e = evState s e)) as [Es|Es].
  - rewrite <- Es. apply U2. intros (x & Hx & Hp & Ep). congruence.
  - assert (Hmv : ~ ~ movesWith D s OCCURRING o e) by (intros Hn; apply Es; by apply U1).
    assert (evState s e = OCCURRING) as Ho1.
    { destruct (decide (evState s e = OCCURRING)) as [|Hno]; [done|]. exfalso. apply Hmv. intros (x & _ & _ & ?). done. }
    destruct (decide (evState s2 e = OCCURRING)) as [|Hno]; [congruence|]. exfalso. apply Hmv. intros Hm. apply Hno. by apply HM.
Qed.
(** Refutations. *)
Lemma f_C06_refuted_switch : exists D s s1 s2 o ob x xb, wf_doc D /\ reach D s /\ d_obj D !! o = Some ob /\ ob_kind ob = KSwitch /\
  o_selected (ostOf s o) = Some x /\ d_obj D !! x = Some xb /\ evState s (ob_lambda ob) = OCCURRING /\ evState s (ob_lambda xb) = OCCURRING /\
  tr D 60 (ob_lambda ob) PAUSE s = Ok true s1 /\ tr D 60 (ob_lambda ob) RESUME s1 = Ok true s2 /\
  evState s2 (ob_lambda ob) = OCCURRING /\ evState s2 (ob_lambda xb) = PAUSED.
Proof.
  destruct (check_reach demo demo0 (play ++ [CAct (act 107 START)]) (fun s => bool_decide (o_selected (ostOf s 7) = Some 9%positive) &&
     stb s 107 OCCURRING && stb s 109 OCCURRING &&
     run_is (tr demo 60 107 PAUSE s) (fun b s1 => b && run_is (tr demo 60 107 RESUME s1) (fun b s2 => b && stb s2 107 OCCURRING && stb s2 109 PAUSED)))%bool)
    as (s & Hr & Hs); [apply demo_init|vm_compute; reflexivity|].
  unfold stb in Hs. splitb Hs. match goal with HH : run_is _ _ = true |- _ => apply run_is_ok in HH as (b & s1 & E & Hs') end.
  splitb Hs'. rewrite Hs' in E. match goal with HH : run_is _ _ = true |- _ => apply run_is_ok in HH as (b2 & s2 & E2 & Hz) end.
  splitb Hz. rewrite Hz in E2.
  exists demo, s, s1, s2, 7%positive. eexists. exists 9%positive. eexists.
  split; [apply demo_wf|]. split; [exact Hr|]. split; [reflexivity|]. split; [reflexivity|]. split; [exact Hs|]. split; [reflexivity|].
  split; [change (evState s 107 = OCCURRING); hyp|]. split; [change (evState s 109 = OCCURRING); hyp|]. split; [exact E|]. split; [exact E2|].
  split; [change (evState s2 107 = OCCURRING); hyp|change (evState s2 109 = PAUSED); hyp].
Qed.
(** A media that occurs inside a paused context stays occurring when an outer context is paused. *)
Definition w_nested : doc := mk
  [ (1, ctx "root" None 101 [101] [2;3] [103] []);
    (2, leaf KSettings "settings" 1 102 [102;120]);
    (3, ctx "c" (Some 1) 103 [103] [4] [104] []);
    (4, ctx "d" (Some 3) 104 [104] [5] [105] []);
    (5, leaf KMedia "m" 4 105 [105;130]) ]%positive
  [ (101, lam 1); (102, lam 2); (103, lam 3); (104, lam 4); (105, lam 5); (120, attr 2 "service.currentFocus"); (130, area 5 "begin" 0 NON) ]%positive.
Lemma w_nested_wf : wf_doc w_nested.
Proof. apply (wfb_sound w_nested depth). vm_compute. reflexivity. Qed.
Lemma noSwitchb D : all_in (map_to_list (d_obj D)) (fun x => bool_decide (ob_kind (snd x) <> KSwitch)) = true -> noSwitch D.
Proof.
  intros H o ob Ho. apply elem_of_map_to_list in Ho. apply (all_in_spec _ _ H) in Ho. by apply bool_decide_eq_true in Ho.
Qed.
Lemma noHoldLinksb D : all_in (map_to_list (d_obj D)) (fun x => all_in (ob_links (snd x)) (fun l => all_in (fst l) 
   (fun c => bool_decide (ac_tr c <> PAUSE) && bool_decide (ac_tr c <> RESUME))))%bool = true -> noHoldLinks D.
Proof.
  intros H o ob cs acts c Ho Hl Hc. apply elem_of_map_to_list in Ho. apply (all_in_spec _ _ H) in Ho.
  apply (all_in_spec _ _ Ho) in Hl. apply (all_in_spec _ _ Hl) in Hc. apply andb_prop in Hc as [H1 H2].
  by apply bool_decide_eq_true in H1, H2.
Qed.
Lemma w_nested_quiet : noSwitch w_nested /\ noHoldLinks w_nested.
Proof. split; [apply noSwitchb|apply noHoldLinksb]; vm_compute; reflexivity. Qed.
Definition nested_play : list call := play ++ [CAct (act 105 START); CTick 5 0].
Lemma f_C06_refuted_nested : exists D s s1 o ob x xb, wf_doc D /\ noSwitch D /\ noHoldLinks D /\ reach D s /\ d_obj D !! o = Some ob /\
  inside D o x /\ d_obj D !! x = Some xb /\ is_media (ob_kind xb) = true /\ evState s (ob_lambda xb) = OCCURRING /\
  tr D 60 (ob_lambda ob) PAUSE s = Ok true s1 /\ evState s1 (ob_lambda xb) = OCCURRING.
Proof.
  destruct (check_reach w_nested (init [] []) (nested_play ++ [CAct (act 104 PAUSE); CAct (act 105 RESUME)]) (fun s => 
     stb s 105 OCCURRING && run_is (tr w_nested 60 103 PAUSE s) (fun b s1 => b && stb s1 105 OCCURRING))%bool)
    as (s & Hr & Hs); [apply init_init|vm_compute; reflexivity|].
  unfold stb in Hs. splitb Hs. match goal with HH : run_is _ _ = true |- _ => apply run_is_ok in HH as (b & s1 & E & Hs') end.
  splitb Hs'. rewrite Hs' in E.
  exists w_nested, s, s1, 3%positive. eexists. exists 5%positive. eexists.
  split; [apply w_nested_wf|]. split; [apply w_nested_quiet|]. split; [apply w_nested_quiet|]. split; [exact Hr|].
  split; [reflexivity|]. 
  split; [eapply in_nested; [reflexivity|reflexivity|]; eapply in_nested; [reflexivity|reflexivity|]; apply in_self|].
  split; [reflexivity|]. split; [reflexivity|]. split; [change (evState s 105 = OCCURRING); hyp|]. split; [exact E|].
  change (evState s1 105 = OCCURRING); hyp.
Qed.

(** FactsFmt.v -- facts about the formatter: deliveries of ticks and keys, painting. *)
From Coq Require Export Sorted.
From Verif Require Export FReach Witness FactsPres.
Open Scope string_scope.
Open Scope list_scope.

Section Deliver.
Context (D : doc) (rank : oid -> nat) (WF : wf_at D rank).

(** Nothing but a tick of [o] delivers a tick to [o], nothing but a key press delivers a key. *)
Lemma ticksOf_mstep o s s' : mstep D s s' -> ticksOf o (s_log s') = ticksOf o (s_log s).
Proof.
  intros Hm. assert (Hb : bstep D s s') by by constructor.
  apply (bstep_qstep D) in Hb.
  assert (Hd : forall new h, Forall dull new -> ticksOf o (new ++ h) = ticksOf o h).
  { induction 1 as [|x l Hx _ IH]; cbn; [done|]. by destruct x. }
  destruct Hb; match goal with H : s_log _ = _ |- _ => rewrite H end; cbn [ticksOf]; rewrite ?Hd by done; cbn [ticksOf]; done.
Qed.
Lemma keysOf_mstep o s s' : mstep D s s' -> keysOf o (s_log s') = keysOf o (s_log s).
Proof.
  intros Hm. destruct Hm; try done.
  - destruct (doStart_ok _ _ _ _ _ H H3) as (_ & -> & _). done.
  - pose proof (createPlayer_ok _ _ _ _ H3) as F. destruct F.
    destruct (doStart_ok _ _ _ _ _ H H4) as (_ & -> & _). cbn. by rewrite cf_log.
  - destruct (doStop_ok _ _ _ _ _ H H5) as (-> & _). done.
  - destruct (mediaDoStop_ok _ _ _ (commit _ t s) _ H H4 H5) as (-> & _). done.
Qed.

Definition deliv (o : oid) (T : list N) (K : list (string * bool)) (s : st) : Prop :=
  SelInv D s /\ QInv D s /\ ticksOf o (s_log s) = T /\ keysOf o (s_log s) = K.
Lemma deliv_mstep o T K s s' : deliv o T K s -> mstep D s s' -> deliv o T K s'.
Proof.
  intros (H1 & H2 & H3 & H4) Hm. split; [|split; [|split]].
  - eapply SelInv_step; [exact H1|by constructor].
  - eapply QInv_step; [exact H2|by constructor].
  - by rewrite (ticksOf_mstep o s s').
  - by rewrite (keysOf_mstep o s s').
Qed.
Lemma deliv_eval n a o T K s : valid_evt D (ac_evt a) -> deliv o T K s ->
  pwp (evalAction D n a) (fun _ s' => deliv o T K s') s.
Proof.
  intros Ha Hs. unfold evalAction.
  pose proof (tr_loop_inv D rank WF (deliv o T K)) as HH.
  refine (proj2 (HH _ _ _ n) [a] _ s Hs).
  - by intros ? [? _].
  - by intros ? (_ & ? & _).
  - intros. by eapply deliv_mstep.
  - intros x ->%elem_of_list_singleton. done.
Qed.
Lemma deliv_run n o1 ob1 l o T K s : d_obj D !! o1 = Some ob1 -> valid_acts D l -> deliv o T K s ->
  pwp (run_triggered D n o1 l) (fun _ s' => deliv o T K s') s.
Proof.
  intros Ho1. revert s. induction l as [|a l IH]; intros s Hv Hs; cbn [run_triggered]; [by w1|].
  w1. w1. w1. eapply wp_mono; [apply deliv_eval; [apply Hv; left|]|].
  - exact Hs.
  - intros k s1 Hs1. cbv beta. w1. eapply (pwp_isOccurring D); [done|]. cbv beta. w1; [|by w1].
    apply IH; [|done]. intros x Hx. apply Hv. by right.
Qed.
Definition tk (o1 : oid) (d : N) (o : oid) (T : list N) : list N := if decide (o1 = o) then d :: T else T.
Lemma deliv_objTick n o1 d o T K s : deliv o T K s ->
  pwp (objTick D n o1 d) (fun _ s' => deliv o (tk o1 d o T) K s') s.
Proof.
  intros (H1 & H2 & H3 & H4). unfold objTick. w1. w1.
  assert (Hl : deliv o (tk o1 d o T) K (log (OTick o1 d) s)).
  { split; [exact H1|]. split; [exact H2|]. split; [|exact H4]. cbn. unfold tk. by rewrite H3. }
  revert Hl. generalize (log (OTick o1 d) s) (tk o1 d o T). clear s T H1 H2 H3 H4. intros s T Hs.
  w1. destruct (d_obj D !! o1) as [ob1|] eqn:Ho1.
  2:{ unfold isOccurring, objState. w1. w1. apply wp_getO; [done|]. intros ob' Ho'. congruence. }
  eapply (pwp_isOccurring D); [exact Ho1|]. cbv beta. w1; [|by w1]. w1. w1. w1. w1. w1. w1. w1. w1. w1. w1. w1.
  eapply wp_mono.
  - eapply deliv_run; [exact Ho1| |].
    + apply due_valid. intros a x Hin. sts_in Hin. rewrite decide_True in Hin by done.
      cbn in Hin. destruct Hs as (_ & HQ & _). exact (HQ o1 ob1 a x Ho1 Hin).
    + destruct Hs as (H1 & H2 & H3). split; [|split; [|exact H3]].
      * eapply SelInv_sel; [|exact H1]. intros o'. sts. destruct (decide (o1 = o')) as [<-|]; [|done].
        by rewrite ?decide_True by done.
      * intros o' ob' a x Ho' Hin. sts_in Hin. destruct (decide (o1 = o')) as [<-|]; [|by eapply (H2 o')].
        cbn in Hin. rewrite ?decide_True in Hin by done. cbn in Hin.
        apply elem_of_list_fmap in Hin as ([a' x'] & E & Hin). apply (H2 o1 ob' a' x' Ho') in Hin.
        destruct (_ <=? _)%N; by injection E as -> ->.
  - intros fin s1 Hs1. cbv beta. w1; [|by w1]. w1. destruct Hs1 as (I1 & I2 & I3).
    split; [|split; [|exact I3]].
    + eapply SelInv_step; [exact I1|]. by eapply as_purge.
    + eapply QInv_step; [exact I2|]. by eapply as_purge.
Qed.
Lemma deliv_updPlayer o1 ob1 f o T K s : d_obj D !! o1 = Some ob1 -> deliv o T K s ->
  pwp (updPlayer o1 f) (fun _ s' => deliv o T K s') s.
Proof. intros Ho1 Hs. unfold updPlayer. w1. eapply deliv_mstep; [exact Hs|]. by eapply ms_player. Qed.
Lemma deliv_mediaTick n o1 ob1 d o T K s : d_obj D !! o1 = Some ob1 -> deliv o T K s ->
  pwp (mediaTick D n o1 d) (fun _ s' => deliv o (tk o1 d o T) K s') s.
Proof.
  intros Ho1 Hs. unfold mediaTick. w1. eapply wp_mono; [by apply deliv_objTick|].
  intros [] s1 Hs1. cbv beta. w1. w1. destruct (o_player (ostOf s1 o1)); [|by w1]. w1.
  eapply wp_mono; [by eapply deliv_updPlayer|]. intros [] s2 Hs2. cbv beta. w1; [|by w1].
  w1. wgetO ob' Ho'. w1. eapply wp_mono; [apply deliv_eval; [|exact Hs2]|].
  - by eapply valid_lambda.
  - intros k s3 Hs3. by w1.
Qed.
Lemma deliv_sendTick n o1 d o T K s : deliv o T K s ->
  pwp (sendTick D n o1 d) (fun _ s' => deliv o (tk o1 d o T) K s') s.
Proof.
  intros Hs. unfold sendTick. w1. wgetO ob1 Ho1. destruct (ob_kind ob1).
  - unfold ctxTick. w1. eapply wp_mono; [by apply deliv_objTick|]. intros [] s1 Hs1. cbv beta.
    w1. w1. w1. wgetO ob' Ho'. assert (ob' = ob1) as -> by congruence. cbv zeta.
    assert (HE : forall T s, deliv o T K s ->
       pwp (evalAction D n (mkA (ob_lambda ob1) STOP "") ;; ret tt) (fun _ s' => deliv o T K s') s).
    { intros T' s2 Hs2. w1. eapply wp_mono; [apply deliv_eval; [|exact Hs2]|].
      - by eapply valid_lambda.
      - intros k s3 Hs3. by w1. }
    w1.
    + w1. destruct (wf_settings _ _ WF) as (sb & Hsb & _). eapply (pwp_isOccurring D); [done|]. cbv beta.
      w1. by apply HE.
    + w1; [by apply HE|by w1].
  - by apply deliv_objTick.
  - by eapply deliv_mediaTick.
  - unfold settingsTick. w1. w1. w1. eapply (wp_mono _ _ _ (fun _ s' => deliv o T K s')).
    { destruct (s_next s); [|by w1]. w1. eapply (wp_mono _ _ _ (fun _ s' => deliv o T K s')).
      - unfold updateCurrentFocus. w1. w1. cbv zeta. w1. wgetO sb Hsb. w1. w1.
        w1. eapply wp_mono; [apply deliv_eval; [|exact Hs]|].
        + by eapply find_event_valid.
        + intros k s1 Hs1. by w1.
      - intros [] s1 Hs1. cbv beta. w1. eapply deliv_mstep; [exact Hs1|]. apply ms_next. }
    intros [] s1 Hs1. by eapply deliv_mediaTick.
Qed.
Lemma deliv_sendKey n o1 k p o T K s : deliv o T K s ->
  pwp (sendKey D n o1 k p) (fun _ s' => deliv o T (if decide (o1 = o) then (k, p) :: K else K) s') s.
Proof.
  intros (H1 & H2 & H3 & H4). unfold sendKey. w1. w1.
  assert (Hl : deliv o T (if decide (o1 = o) then (k, p) :: K else K) (log (OKey o1 k p) s)).
  { split; [exact H1|]. split; [exact H2|]. split; [exact H3|]. cbn. by rewrite H4. }
  revert Hl. generalize (log (OKey o1 k p) s) (if decide (o1 = o) then (k, p) :: K else K).
  clear s K H1 H2 H3 H4. intros s K Hs. w1. wgetO ob Ho. w1; [|by w1]. unfold mediaKey. w1.
  eapply (pwp_isSleeping D); [done|]. cbv beta. w1; [by w1|]. w1. w1. destruct (o_player (ostOf s o1)) as [pl|]; [|by w1].
  w1. eapply (wp_mono _ _ _ (fun _ s' => deliv o T K s')).
  { w1; [|by w1]. cbv zeta. w1; [by w1|]. unfold scheduleFocus. w1. eapply deliv_mstep; [exact Hs|]. apply ms_next. }
  intros [] s1 Hs1. cbv beta. w1. wgetO ob' Ho'. assert (ob' = ob) as -> by congruence.
  apply wp_foreach_inv with (I := deliv o T K); [done| |done]. intros e s2 He Hs2. w1.
  eapply wp_mono; [apply deliv_eval; [|exact Hs2]|].
  - rewrite elem_of_list_In, filter_In, <- elem_of_list_In in He. destruct He as [He _].
    destruct (wo_events _ _ _ _ (wf_o _ _ WF _ _ Ho) _ He) as (ev & ? & _). by eexists.
  - intros n' s3 Hs3. by w1.
Qed.

Lemma deliv_reach s : reach D s -> forall o, deliv o (ticksOf o (s_log s)) (keysOf o (s_log s)) s.
Proof.
  intros Hr o. pose proof Hr as Hr1. split; [|split; [|done]].
  - revert Hr1. apply (reach_ind D rank WF (SelInv D)).
    + intros s1 Hin o1 ob c Ho Hc. by rewrite (in_selected _ _ Hin) in Hc.
    + intros. by eapply SelInv_step.
  - revert Hr1. apply (reach_ind D rank WF (QInv D)).
    + intros s1 Hin o1 ob a x Ho Hc. rewrite (in_delayed _ _ Hin) in Hc. by apply elem_of_nil in Hc.
    + intros. by eapply QInv_step.
Qed.
End Deliver.

Lemma deliver_all {A} (f : oid -> ME unit) (g : oid -> A -> A) (I : A -> st -> Prop) l o s x :
  (forall o1 x s, I x s -> pwp (f o1) (fun _ s' => I (if decide (o1 = o) then g o x else x) s') s) ->
  NoDup l -> I x s -> pwp (foreach f l) (fun _ s' => I (if decide (o ∈ l) then g o x else x) s') s.
Proof.
  intros Hf. revert x s. induction l as [|y l IH]; intros x s Hnd Hs; cbn [foreach]; [by w1|].
  apply stdpp.list.NoDup_cons in Hnd as [Hy Hnd]. w1. eapply wp_mono; [by apply Hf|]. intros [] s1 Hs1. cbv beta in Hs1.
  destruct (decide (y = o)) as [->|Hne].
  - eapply wp_mono; [by apply IH|]. intros [] s2 Hs2. cbv beta in Hs2.
    rewrite decide_False in Hs2 by done. rewrite decide_True by left. done.
  - eapply wp_mono; [by apply IH|]. intros [] s2 Hs2. cbv beta in Hs2.
    destruct (decide (o ∈ l)).
    + rewrite decide_True by (by right). done.
    + rewrite decide_False; [done|]. set_solver.
Qed.

Lemma elem_filter {A} (f : A -> bool) l x : x ∈ List.filter f l <-> x ∈ l /\ f x = true.
Proof. rewrite !elem_of_list_In. apply filter_In. Qed.
Lemma NoDup_lfilter {A} (f : A -> bool) (l : list A) : NoDup l -> NoDup (List.filter f l).
Proof.
  induction 1 as [|x l Hx _ IH]; cbn; [constructor|]. destruct (f x); [|done]. constructor; [|done].
  rewrite elem_filter. tauto.
Qed.

(** *** C18 *)
Lemma f_C18_start : forall n F f b f', freach f -> goodFile F -> fstart n F f = Ok b f' ->
  (f_playing f = true -> b = false /\ f' = f) /\
  (f_playing f = false ->
   match F (f_w f) (f_h f) (f_focus f) with
   | None => b = false /\ f' = f
   | Some (D, s) => b = true /\ f_playing f' = true /\ exists s' sb, f_doc f' = Some (D, s') /\
       d_obj D !! d_settings D = Some sb /\ evState s' (ob_lambda sb) = OCCURRING
   end).
Proof.
  intros n F f b f' Hr HF E. exact (proj2 (wp_ok _ _ _ _ _ (FInv_start n F f (freach_inv f Hr) HF) _ _ E)).
Qed.
Lemma f_C18_stop : forall n f b f', freach f -> fstop n f = Ok b f' ->
  b = f_playing f /\ f_playing f' = false /\ f_doc f' = None /\ (b = false -> f' = f).
Proof.
  intros n f b f' Hr E. destruct (wp_ok _ _ _ _ _ (FInv_stop n f (freach_inv f Hr)) _ _ E) as (? & _ & ?). done.
Qed.
Lemma f_C18_stopped : forall n f, f_playing f = false ->
  fstop n f = Ok false f /\ (forall d, ftick n d f = Ok false f) /\ (forall k p, fkey n k p f = Ok false f).
Proof.
  intros n f Hp. split; [|split]; intros; unfold fstop, ftick, fkey, bind, get; by rewrite Hp.
Qed.
Lemma f_C18_doc : forall f, freach f -> (f_playing f = true <-> f_doc f <> None).
Proof.
  intros f [_ H]%freach_inv. destruct (f_doc f) as [[D s]|]; [|by rewrite H]. destruct H as [-> _]. done.
Qed.

(** *** C19 *)
Lemma f_C19_end : forall n f D s rb, freach f -> f_doc f = Some (D, s) -> d_obj D !! d_root D = Some rb ->
  evState s (ob_lambda rb) = SLEEPING ->
  (forall d b f', ftick n d f = Ok b f' -> b = false /\ f_playing f' = false /\ f_doc f' = None) /\
  (forall k p b f', fkey n k p f = Ok b f' -> b = false /\ f_playing f' = false /\ f_doc f' = None).
Proof.
  intros n f D s rb Hr%freach_inv Hd Hrb Hsl.
  assert (Hp : f_playing f = true) by (destruct Hr as [_ Hx]; rewrite Hd in Hx; tauto).
  split.
  - intros d b f'. revert b f'. cut (pwp (ftick n d) (fun b f' => b = false /\ f_playing f' = false /\ f_doc f' = None) f).
    { intros H b f'. exact (wp_ok _ _ _ _ _ H b f'). }
    unfold ftick. w1. w1. rewrite Hp. cbn [negb]. w1. eapply wp_mono; [by apply FInv_check|].
    intros [] f1 (_ & D' & s' & rb' & Hd' & Hrb' & Hs1 & _). simplify_eq. destruct (Hs1 Hsl) as [H1 H2]. cbv beta.
    w1. w1. rewrite H1. cbn [negb]. by w1.
  - intros k p b f'. revert b f'. cut (pwp (fkey n k p) (fun b f' => b = false /\ f_playing f' = false /\ f_doc f' = None) f).
    { intros H b f'. exact (wp_ok _ _ _ _ _ H b f'). }
    unfold fkey. w1. w1. rewrite Hp. cbn [negb]. w1. eapply wp_mono; [by apply FInv_check|].
    intros [] f1 (_ & D' & s' & rb' & Hd' & Hrb' & Hs1 & _). simplify_eq. destruct (Hs1 Hsl) as [H1 H2]. cbv beta.
    w1. w1. rewrite H1. cbn [negb]. by w1.
Qed.
Lemma f_C19_tick : forall n d f b f' D s rb, freach f -> f_doc f = Some (D, s) -> d_obj D !! d_root D = Some rb ->
  evState s (ob_lambda rb) <> SLEEPING -> ftick n d f = Ok b f' ->
  b = true /\ f_playing f' = true /\ exists s', f_doc f' = Some (D, s') /\
  forall o ob, d_obj D !! o = Some ob ->
    ticksOf o (s_log s') = (if decide (evState s (ob_lambda ob) = OCCURRING) then [d] else []) ++ ticksOf o (s_log s).
Proof.
  intros n d f b f' D s rb Hr%freach_inv Hd Hrb Hsl. revert b f'.
  assert (Hp : f_playing f = true) by (destruct Hr as [_ Hx]; rewrite Hd in Hx; tauto).
  set (Q := fun (b : bool) f' => b = true /\ f_playing f' = true /\ exists s', f_doc f' = Some (D, s') /\
  forall o ob, d_obj D !! o = Some ob ->
    ticksOf o (s_log s') = (if decide (evState s (ob_lambda ob) = OCCURRING) then [d] else []) ++ ticksOf o (s_log s)).
  cut (pwp (ftick n d) Q f). { intros H b f'. exact (wp_ok _ _ _ _ _ H b f'). }
  unfold ftick. w1. w1. rewrite Hp. cbn [negb]. w1. eapply wp_mono; [by apply FInv_check|].
  intros [] f1 (_ & D' & s' & rb' & Hd' & Hrb' & _ & Hs1). simplify_eq. rewrite (Hs1 Hsl). cbv beta. clear f1 Hs1.
  w1. w1. cbn [f_set_focus f_playing]. rewrite Hp. cbn [negb]. w1. eapply onDoc_pwp; [exact Hd|].
  w1. w1. apply pwp_intro. intros [] s2 E. cbv beta. w1. split; [done|]. split; [done|].
  exists s2. split; [done|]. intros o ob Ho. destruct Hr as [_ Hr]. rewrite Hd in Hr. destruct Hr as (_ & [rank WF] & Hreach).
  pose proof (deliver_all (fun o1 => sendTick D n o1 d) (fun o T => d :: T)
     (fun T s => deliv D o T (keysOf o (s_log s)) s)) as HA.
  assert (HK : forall o1 T K s, deliv D o T K s -> pwp (sendTick D n o1 d)
     (fun _ s' => deliv D o (if decide (o1 = o) then d :: T else T) (keysOf o (s_log s')) s') s).
  { intros. eapply wp_mono; [by eapply (deliv_sendTick D rank WF)|]. intros [] s3 (A1 & A2 & A3 & A4). by split. }
  eapply wp_ok in E; [|apply (HA _ o s (ticksOf o (s_log s)))].
  - destruct E as (_ & _ & E & _). rewrite E. clear E HA HK.
    destruct (decide (evState s (ob_lambda ob) = OCCURRING)) as [Hoc|Hoc].
    + rewrite decide_True; [done|]. apply elem_filter. split; [apply (wf_objs _ _ WF); by eexists|].
      rewrite Ho. by apply bool_decide_eq_true.
    + rewrite decide_False; [done|]. rewrite elem_filter, Ho, bool_decide_eq_true. tauto.
  - intros. by eapply HK.
  - apply NoDup_lfilter. exact (wf_objs_nodup _ _ WF).
  - by apply (deliv_reach D rank WF).
Qed.
Lemma f_C19_key : forall n k p f b f' D s rb, freach f -> f_doc f = Some (D, s) -> d_obj D !! d_root D = Some rb ->
  evState s (ob_lambda rb) <> SLEEPING -> fkey n k p f = Ok b f' ->
  b = true /\ f_playing f' = true /\ exists s', f_doc f' = Some (D, s') /\
  forall o ob, d_obj D !! o = Some ob ->
    keysOf o (s_log s') = (if decide (evState s (ob_lambda ob) = SLEEPING) then [] else [(k, p)]) ++ keysOf o (s_log s).
Proof.
  intros n k p f b f' D s rb Hr%freach_inv Hd Hrb Hsl. revert b f'.
  assert (Hp : f_playing f = true) by (destruct Hr as [_ Hx]; rewrite Hd in Hx; tauto).
  set (Q := fun (b : bool) f' => b = true /\ f_playing f' = true /\ exists s', f_doc f' = Some (D, s') /\
  forall o ob, d_obj D !! o = Some ob ->
    keysOf o (s_log s') = (if decide (evState s (ob_lambda ob) = SLEEPING) then [] else [(k, p)]) ++ keysOf o (s_log s)).
  cut (pwp (fkey n k p) Q f). { intros H b f'. exact (wp_ok _ _ _ _ _ H b f'). }
  unfold fkey. w1. w1. rewrite Hp. cbn [negb]. w1. eapply wp_mono; [by apply FInv_check|].
  intros [] f1 (_ & D' & s' & rb' & Hd' & Hrb' & _ & Hs1). simplify_eq. rewrite (Hs1 Hsl). cbv beta. clear f1 Hs1.
  w1. w1. cbn [f_set_focus f_playing]. rewrite Hp. cbn [negb]. w1. eapply onDoc_pwp; [exact Hd|].
  w1. w1. apply pwp_intro. intros [] s2 E. cbv beta. w1. split; [done|]. split; [done|].
  exists s2. split; [done|]. intros o ob Ho. destruct Hr as [_ Hr]. rewrite Hd in Hr. destruct Hr as (_ & [rank WF] & Hreach).
  pose proof (deliver_all (fun o1 => sendKey D n o1 k p) (fun o T => (k, p) :: T)
     (fun T s => deliv D o (ticksOf o (s_log s)) T s)) as HA.
  assert (HK : forall o1 T K s, deliv D o T K s -> pwp (sendKey D n o1 k p)
     (fun _ s' => deliv D o (ticksOf o (s_log s')) (if decide (o1 = o) then (k, p) :: K else K) s') s).
  { intros. eapply wp_mono; [by eapply (deliv_sendKey D rank WF)|]. intros [] s3 (A1 & A2 & A3 & A4). by split. }
  eapply wp_ok in E; [|apply (HA _ o s (keysOf o (s_log s)))].
  - destruct E as (_ & _ & _ & E). rewrite E. clear E HA HK.
    destruct (decide (evState s (ob_lambda ob) = SLEEPING)) as [Hoc|Hoc].
    + rewrite decide_False; [done|]. rewrite elem_filter, Ho, bool_decide_eq_true. tauto.
    + rewrite decide_True; [done|]. apply elem_filter. split; [apply (wf_objs _ _ WF); by eexists|].
      rewrite Ho. by apply bool_decide_eq_true.
  - intros. by eapply HK.
  - apply NoDup_lfilter. exact (wf_objs_nodup _ _ WF).
  - by apply (deliv_reach D rank WF).
Qed.

(** *** C20 *)
(** (z1, o1) is painted no later than (z2, o2). *)
Definition below (a b : Z * Z) : Prop := (fst a < fst b \/ (fst a = fst b /\ snd a <= snd b))%Z.
Lemma insert_perm D s o l : insert_sorted D s o l ≡ₚ o :: l.
Proof.
  induction l as [|x l IH]; cbn; [done|]. destruct (zcmp _ _); [done|done|]. rewrite IH. by constructor.
Qed.
Lemma zcmp_le a b : zcmp a b <> Gt -> below a b.
Proof.
  unfold zcmp, below. destruct (Z.compare_spec (fst a) (fst b)); intros H'; [|lia|done].
  right. split; [done|]. destruct (Z.compare_spec (snd a) (snd b)); [lia|lia|done].
Qed.
Lemma zcmp_gt a b : zcmp a b = Gt -> below b a.
Proof.
  unfold zcmp, below. destruct (Z.compare_spec (fst a) (fst b)); intros H'; [|done|lia].
  destruct (Z.compare_spec (snd a) (snd b)); try done. lia.
Qed.
Lemma below_trans a b c : below a b -> below b c -> below a c.
Proof. unfold below. lia. Qed.
Definition zsorted (D : doc) (s : st) : list oid -> Prop :=
  StronglySorted (fun a b => below (getZ D s a) (getZ D s b)).
Lemma insert_sorted_ok D s o l : zsorted D s l -> zsorted D s (insert_sorted D s o l).
Proof.
  induction 1 as [|x l Hl IH Hx]; cbn; [by repeat constructor|].
  destruct (zcmp (getZ D s o) (getZ D s x)) eqn:E.
  1,2: assert (B : below (getZ D s o) (getZ D s x)) by (apply zcmp_le; congruence);
    constructor; [by constructor|]; constructor; [exact B|];
    eapply List.Forall_impl; [|exact Hx]; intros y Hy; by eapply below_trans.
  constructor; [exact IH|]. apply stdpp.list.Forall_forall. intros y Hy.
  rewrite insert_perm in Hy. apply elem_of_cons in Hy as [->|Hy]; [by apply zcmp_gt|].
  by apply (proj1 (stdpp.list.Forall_forall _ _) Hx).
Qed.
Lemma redraw_gen D s l acc :
  zsorted D s acc -> fold_left (fun l o => insert_sorted D s o l) l acc ≡ₚ l ++ acc /\
  zsorted D s (fold_left (fun l o => insert_sorted D s o l) l acc).
Proof.
  revert acc. induction l as [|x l IH]; intros acc Ha; cbn; [done|].
  destruct (IH (insert_sorted D s x acc) (insert_sorted_ok D s x acc Ha)) as [H1 H2].
  split; [|done]. rewrite H1, insert_perm. symmetry. apply Permutation_middle.
Qed.
Lemma f_C20 : forall D s, redraw_order D s ≡ₚ d_medias D /\
  StronglySorted (fun a b => below (getZ D s a) (getZ D s b)) (redraw_order D s).
Proof.
  intros D s. destruct (redraw_gen D s (d_medias D) []) as [H1 H2]; [constructor|].
  rewrite app_nil_r in H1. done.
Qed.
Lemma f_C20_once : forall D s, wf_doc D -> NoDup (redraw_order D s) /\
  forall o, o ∈ redraw_order D s <-> exists ob, d_obj D !! o = Some ob /\ is_media (ob_kind ob) = true.
Proof.
  intros D s [rank WF]. destruct (f_C20 D s) as [HP _]. split.
  - rewrite HP. exact (wf_medias_nodup _ _ WF).
  - intros o. rewrite HP. apply (wf_medias _ _ WF).
Qed.
Lemma f_C20_layer : forall D, wf_doc D -> forall s, reach D s -> forall o ob, d_obj D !! o = Some ob ->
  is_media (ob_kind ob) = true ->
  getZ D s o = match o_player (ostOf s o) with Some p => (p_zindex p, p_zorder p) | None => (0, 0)%Z end.
Proof.
  intros D Hwf s Hr o ob Ho Hk. unfold getZ. rewrite Ho.
  pose proof (f_C02 D Hwf s Hr o ob Ho Hk) as HP.
  destruct (o_player (ostOf s o)) as [p|] eqn:E; [|done]. rewrite bool_decide_false; [done|].
  intros Hs. assert (Hs2 : evState s (ob_lambda ob) <> SLEEPING) by (by apply HP). done.
Qed.

(** FReach.v -- the states of the formatter reachable through its API, and how they
    relate to the reachable states of the document being played. *)
From Verif Require Export Queue Trans.
Open Scope string_scope.
Open Scope list_scope.

(** What the parser makes of a file: an error, or a well-formed document in its
    initial state. *)
Definition goodFile (F : file) : Prop := forall w h fo D s,
  F w h fo = Some (D, s) -> wf_doc D /\ init_ok D s.

Inductive freach : fmt -> Prop :=
  | fr_init fo w h : freach (mkF false None false fo w h)
  | fr_start n F b f f' : freach f -> goodFile F -> fstart n F f = Ok b f' -> freach f'
  | fr_stop n b f f' : freach f -> fstop n f = Ok b f' -> freach f'
  | fr_key n k p b f f' : freach f -> fkey n k p f = Ok b f' -> freach f'
  | fr_tick n d b f f' : freach f -> ftick n d f = Ok b f' -> freach f'
  | fr_resize w h f f' : freach f -> fresize w h f = Ok tt f' -> freach f'
  | fr_eos o f f' : freach f -> fenv_eos o f = Ok tt f' -> freach f'
  | fr_post o e t v f f' : freach f -> fenv_post o e t v f = Ok tt f' -> freach f'
  | fr_links o b f f' : freach f -> fenv_links o b f = Ok tt f' -> freach f'.

(** Playing iff there is a document, which is in one of its reachable states. *)
Definition FInv (f : fmt) : Prop :=
  f_eos f = false /\
  match f_doc f with
  | None => f_playing f = false
  | Some (D, s) => f_playing f = true /\ wf_doc D /\ reach D s
  end.

Lemma onDoc_pwp {A} (m : doc -> ME A) f D s (Q : A -> fmt -> Prop) :
  f_doc f = Some (D, s) ->
  pwp (m D) (fun a s' => Q a (f_set_focus (s_focus s') (f_set_doc (Some (D, s')) f))) s ->
  pwp (onDoc m) Q f.
Proof. unfold wp, onDoc. intros ->. by destruct (m D s). Qed.
Lemma onDoc_none {A} (m : doc -> ME A) f (Q : A -> fmt -> Prop) :
  f_doc f = None -> pwp (onDoc m) Q f.
Proof. unfold wp, onDoc. by intros ->. Qed.

Notation rk D m := (forall s, reach D s -> pwp m (fun _ s' => reach D s') s).
Lemma rk_intro {A} D (m : ME A) : (forall s a s', reach D s -> m s = Ok a s' -> reach D s') -> rk D m.
Proof. intros H s Hs. apply pwp_intro. eauto. Qed.
Lemma rk_foreach {A} D (f : A -> ME unit) l : (forall x, x ∈ l -> rk D (f x)) -> rk D (foreach f l).
Proof. intros Hf s Hs. apply wp_foreach_inv with (I := reach D); auto. Qed.
Lemma rk_tick D n o d : rk D (sendTick D n o d).
Proof. apply rk_intro. intros s [] s' Hs E. by eapply r_tick. Qed.
Lemma rk_key D n o k p : rk D (sendKey D n o k p).
Proof. apply rk_intro. intros s [] s' Hs E. by eapply r_key. Qed.
Lemma rk_act D n a : valid_evt D (ac_evt a) -> rk D (evalAction D n a).
Proof. intros Ha. apply rk_intro. intros s k s' Hs E. by eapply r_act. Qed.
Lemma rk_mset D o ob k v d : d_obj D !! o = Some ob -> is_media (ob_kind ob) = true ->
  rk D (mediaSetProperty D o k v d).
Proof.
  intros Ho Hk. apply rk_intro. intros s [] s' Hs E. eapply (r_prop _ _ o k v d); [exact Hs|].
  unfold setProperty, getO, bind. rewrite Ho. cbn [ofoption ret]. by rewrite Hk.
Qed.

(** Evaluating the start of a sleeping root context succeeds. *)
Lemma start_root_pos D n o ob s : wf_doc D -> d_obj D !! o = Some ob -> ob_kind ob = KContext ->
  evState s (ob_lambda ob) = SLEEPING ->
  pwp (evalAction D n (mkA (ob_lambda ob) START "")) (fun k _ => k <> 0) s.
Proof.
  intros [rank WF] Ho Hk Hs. destruct n as [|n]; [done|]. unfold evalAction. rewrite loop_S. unfold loop_body.
  w1. apply (wp_mono _ _ _ (fun b _ => b = true)).
  - unfold attempt. w1. w1. w1. wgetE ev He. w1. unfold setParam. w1. w1.
    destruct (lambda_evt D rank WF _ _ Ho) as (ev' & He' & Hl & Hob).
    assert (ev' = ev) as -> by (cbn [ac_evt mkA] in He; congruence).
    assert (Hty : ev_type ev = PRESENTATION).
    { unfold isLambda in Hl. apply andb_true_iff in Hl as [Hl _]. by apply bool_decide_eq_true in Hl. }
    rewrite Hty. rewrite bool_decide_false by done. cbn [whenm].
    w1. cbn [mkA ac_evt ac_tr ac_dur] in *. destruct n as [|n]; [done|]. rewrite tr_S. unfold tr_body.
    w1. wgetE ev2 He2. assert (ev2 = ev) as -> by congruence. w1. w1. sts. rewrite Hs. cbn [legal negb].
    w1. unfold before. rewrite Hob. w1. wgetO ob2 Ho2. assert (ob2 = ob) as -> by congruence. rewrite Hk.
    unfold ctx_before. rewrite Hty, Hl. w1. w1. w1. cbn [negb]. w1. w1. w1. w1. w1.
    unfold after. w1. wgetO ob3 Ho3. assert (ob3 = ob) as -> by congruence. rewrite Hk.
    eapply wp_mono; [eapply (ctx_start_after D rank WF); eauto|]. 2:{ intros a s' [-> _]. by w1. }
    all: try done.
    intros. by apply tr_ctx_start with (rank := rank).
  - intros b s1 ->. cbv beta iota. w1. apply (wp_mono _ _ _ (fun _ _ => True)); [by apply pwp_intro|]. intros r s2 _. cbv beta. w1.
    apply (wp_mono _ _ _ (fun _ _ => True)); [by apply pwp_intro|]. intros k s3 _. by w1.
Qed.

Lemma FInv_stop n f : FInv f -> pwp (fstop n) (fun b f' => b = f_playing f /\ FInv f' /\ f_playing f' = false /\
  f_doc f' = None /\ (b = false -> f' = f)) f.
Proof.
  intros [He Hd]. unfold fstop. w1. w1. w1.
  - w1. destruct (f_doc f) as [[D s]|] eqn:Ed; [|congruence].
    eapply onDoc_pwp; [exact Ed|]. apply pwp_intro. intros [] s' _. cbv beta. w1. w1. w1. by repeat split.
  - w1. destruct (f_doc f) as [[D s]|] eqn:Ed; [destruct Hd; congruence|]. repeat split; try done. by rewrite Ed.
Qed.

Lemma FInv_start n F f : FInv f -> goodFile F -> pwp (fstart n F) (fun b f' => FInv f' /\
  (f_playing f = true -> b = false /\ f' = f) /\
  (f_playing f = false ->
     match F (f_w f) (f_h f) (f_focus f) with
     | None => b = false /\ f' = f
     | Some (D, s) => b = true /\ f_playing f' = true /\ exists s' sb, f_doc f' = Some (D, s') /\
         d_obj D !! d_settings D = Some sb /\ evState s' (ob_lambda sb) = OCCURRING
     end)) f.
Proof.
  intros HI HF. pose proof HI as [He Hd]. unfold fstart. w1. w1. w1; [w1; split; [done|]; split; [done|congruence]|].
  w1. w1. destruct (F _ _ _) as [[D s]|] eqn:EF.
  2:{ w1. split; [done|]. split; [congruence|done]. }
  destruct (HF _ _ _ _ _ EF) as (Hwf & Hin).
  destruct (f_doc f) as [[D0 s0]|] eqn:Ed; [destruct Hd; congruence|].
  w1. w1. w1. w1. w1. eapply onDoc_pwp; [reflexivity|]. w1.
  pose proof Hwf as [rank WF]. destruct (wf_root _ _ WF) as (rb & Hrb & Hrk & _).
  wgetO rb' Hrb'. assert (rb' = rb) as -> by congruence.
  assert (Hr0 : reach D (Formatter.set_size (f_w f) (f_h f) s)) by (apply r_size; by apply r_init).
  assert (Hpos := start_root_pos D n (d_root D) rb (Formatter.set_size (f_w f) (f_h f) s) Hwf Hrb Hrk
     ltac:(apply (in_ev _ _ Hin))).
  eapply wp_mono; [apply (wp_conj _ _ _ _ _ _ Hpos (rk_act D n (mkA (ob_lambda rb) START "") ltac:(by eapply valid_lambda) _ Hr0))|].
  intros k s1 [Hk Hs1]. cbv beta. destruct k as [|k]; [done|]. w1. eapply onDoc_pwp; [reflexivity|].
  destruct (wf_settings _ _ WF) as (sb & Hsb & Hsk & _). w1. wgetO sb' Hsb'. assert (sb' = sb) as -> by congruence.
  apply pwp_intro. intros b s2 Etr. cbv beta. w1. w1. w1. w1. w1.
  assert (Hs2 : reach D s2) by (eapply r_tr; [exact Hs1| |exact Etr]; by eapply valid_lambda).
  split; [by repeat split|]. split; [congruence|]. intros _. split; [done|]. split; [done|].
  exists s2, sb. split; [done|]. split; [done|].
  destruct (lambda_evt D rank WF _ _ Hsb) as (ev & Hev & _).
  subst b. apply (tr_ok D rank WF n _ ev START s1 true s2 Hev Etr). done.
Qed.

Lemma FInv_check n f : FInv f -> f_playing f = true ->
  pwp (checkEOS n) (fun _ f' => FInv f' /\ exists D s rb, f_doc f = Some (D, s) /\ d_obj D !! d_root D = Some rb /\
    (evState s (ob_lambda rb) = SLEEPING -> f_playing f' = false /\ f_doc f' = None) /\
    (evState s (ob_lambda rb) <> SLEEPING -> f' = f_set_focus (s_focus s) f)) f.
Proof.
  intros HI Hp. pose proof HI as [He Hd]. destruct (f_doc f) as [[D s]|] eqn:Ed; [|congruence].
  destruct Hd as (_ & Hwf & Hr). pose proof Hwf as [rank WF]. destruct (wf_root _ _ WF) as (rb & Hrb & Hrk & _).
  unfold checkEOS. w1. eapply onDoc_pwp; [exact Ed|]. eapply (pwp_isSleeping D); [exact Hrb|]. cbv beta.
  rewrite <- Ed. assert (Ef : f_set_focus (s_focus s) (f_set_doc (f_doc f) f) = f_set_focus (s_focus s) f) by by destruct f.
  rewrite Ef. w1. eapply (wp_mono _ _ _ (fun _ f' => f' = f_set_eos (bool_decide (evState s (ob_lambda rb) = SLEEPING)) (f_set_focus (s_focus s) f))).
  { w1.
    - apply bool_decide_eq_true in H. rewrite bool_decide_true by done. by w1.
    - w1. apply bool_decide_eq_false in H. rewrite bool_decide_false by done. cbv beta. destruct f; cbn in *. by subst. }
  intros [] f' ->. cbv beta. w1. w1. cbn [f_eos f_set_eos]. w1.
  - w1. w1. w1. w1. w1. eapply wp_mono.
    + apply FInv_stop. split; [done|]. cbn. rewrite Ed. done.
    + intros b f2 (H1 & H2 & H3 & H4 & H5). cbv beta. w1. split; [done|].
      exists D, s, rb. repeat split; try done.
      all: intros; apply bool_decide_eq_true in H; congruence.
  - w1. apply bool_decide_eq_false in H. split.
    + split; [|cbn; by rewrite Ed]. cbn. by rewrite bool_decide_false by done.
    + exists D, s, rb. repeat split; try done. intros _. rewrite bool_decide_false by done. destruct f; cbn in *. by subst.
Qed.

(** Running something on the document keeps the invariant. *)
Lemma FInv_onDoc {A} (m : doc -> ME A) f : FInv f ->
  (forall D, wf_doc D -> rk D (m D)) ->
  pwp (onDoc m) (fun _ f' => FInv f' /\ f_playing f' = f_playing f) f.
Proof.
  intros [He Hd] Hm. destruct (f_doc f) as [[D s]|] eqn:Ed; [|by apply onDoc_none].
  destruct Hd as (Hp & Hwf & Hr). eapply onDoc_pwp; [exact Ed|]. eapply wp_mono; [by apply Hm|].
  intros a s' Hs'. split; [|done]. split; [done|]. done.
Qed.
Lemma FInv_tick n d f : FInv f -> pwp (ftick n d) (fun _ f' => FInv f') f.
Proof.
  intros HI. unfold ftick. w1. w1. w1; [by w1|]. w1.
  eapply wp_mono; [apply FInv_check; [done|by destruct (f_playing f)]|].
  intros [] f1 [HI1 _]. cbv beta. w1. w1. w1; [by w1|]. w1. eapply wp_mono; [apply FInv_onDoc; [exact HI1|]|].
  - intros D _ s Hs. w1. w1. apply rk_foreach; [|done]. intros o _. apply rk_tick.
  - intros [] f2 [HI2 _]. by w1.
Qed.
Lemma FInv_key n k p f : FInv f -> pwp (fkey n k p) (fun _ f' => FInv f') f.
Proof.
  intros HI. unfold fkey. w1. w1. w1; [by w1|]. w1.
  eapply wp_mono; [apply FInv_check; [done|by destruct (f_playing f)]|].
  intros [] f1 [HI1 _]. cbv beta. w1. w1. w1; [by w1|]. w1. eapply wp_mono; [apply FInv_onDoc; [exact HI1|]|].
  - intros D _ s Hs. w1. w1. apply rk_foreach; [|done]. intros o _. apply rk_key.
  - intros [] f2 [HI2 _]. by w1.
Qed.
Lemma FInv_resize w h f : FInv f -> pwp (fresize w h) (fun _ f' => FInv f') f.
Proof.
  intros HI. unfold fresize. w1. w1. w1. w1.
  assert (HI1 : FInv (f_set_size w h f)) by exact HI. revert HI1. generalize (f_set_size w h f). clear f HI. intros f HI.
  w1. w1. w1; [by w1|]. eapply wp_mono; [apply FInv_onDoc; [exact HI|]|by intros [] f2 [? _]].
  intros D [rank WF] s Hs. w1. w1. apply rk_foreach; [|by apply r_size].
  intros o Ho. apply (wf_medias _ _ WF) in Ho as (ob & Ho & Hk). apply rk_foreach. intros k _ s1 Hs1.
  w1. w1. cbv zeta. w1; [by w1|]. by eapply rk_mset.
Qed.
Lemma freach_inv f : freach f -> FInv f.
Proof.
  induction 1.
  - done.
  - eapply wp_ok in H1; [|by apply FInv_start]. exact (proj1 H1).
  - eapply wp_ok in H0; [|by apply FInv_stop]. exact (proj1 (proj2 H0)).
  - eapply wp_ok in H0; [|by apply FInv_key]. done.
  - eapply wp_ok in H0; [|by apply FInv_tick]. done.
  - eapply wp_ok in H0; [|by apply FInv_resize]. done.
  - eapply wp_ok in H0; [|unfold fenv_eos; apply FInv_onDoc; [done|]]; [exact (proj1 H0)|].
    intros D Hwf s Hs. w1. wgetO ob Ho. w1; [|by w1]. unfold updPlayer. w1. by eapply r_eos.
  - eapply wp_ok in H0; [|unfold fenv_post; apply FInv_onDoc; [done|]]; [exact (proj1 H0)|].
    intros D Hwf s Hs. w1. wgetO ob Ho. w1; [|by w1]. apply bool_decide_eq_true in H1.
    unfold addDelayed. w1. by eapply r_post.
  - eapply wp_ok in H0; [|unfold fenv_links; apply FInv_onDoc; [done|]]; [exact (proj1 H0)|].
    intros D Hwf s Hs. w1. wgetO ob Ho. w1. by eapply r_links.
Qed.

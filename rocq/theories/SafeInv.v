(** SafeInv.v -- on calm documents no transition that links, ticks and keys request
    aborts (C34, positive part): the engine. *)
From Verif Require Export Safe.
Open Scope string_scope.
Open Scope list_scope.
Open Scope m_scope.

Section SafeInv.
Context (D : doc) (rank : oid -> nat) (WF : wf_at D rank) (CD : calmDoc D) (B : oid -> N).
Context (rb sb : obj) (Hrb : d_obj D !! d_root D = Some rb) (Hsb : d_obj D !! d_settings D = Some sb).

(** An anchor of the media [o] is started. *)
Definition anchorAct (o : oid) (a : action) : Prop :=
  exists ev ob, d_evt D !! ac_evt a = Some ev /\ ev_obj ev = o /\ d_obj D !! o = Some ob /\ is_media (ob_kind ob) = true /\
    ev_type ev = PRESENTATION /\ isLambda ev = false /\ ac_tr a = START.
Definition delOK (o : oid) (a : action) : Prop := calmAct D a \/ anchorAct o a.

Record K (s : st) : Prop := mkK {
  k_np : forall e, evState s e <> PAUSED;
  k_pl : forall o ob, d_obj D !! o = Some ob -> is_media (ob_kind ob) = true ->
      (is_Some (o_player (ostOf s o)) <-> evState s (ob_lambda ob) <> SLEEPING);
  k_anc : forall o ob e ev, d_obj D !! o = Some ob -> is_media (ob_kind ob) = true -> e ∈ ob_events ob ->
      d_evt D !! e = Some ev -> ev_type ev = PRESENTATION -> evState s e <> SLEEPING -> evState s (ob_lambda ob) <> SLEEPING;
  k_del : forall o ax, ax ∈ o_delayed (ostOf s o) -> is_Some (d_obj D !! o) -> delOK o ax.1;
  k_prop : forall o ob, d_obj D !! o = Some ob -> is_media (ob_kind ob) = true -> okO D o (ostOf s o);
  k_time : forall o ob, d_obj D !! o = Some ob -> evState s (ob_lambda ob) = OCCURRING -> (o_time (ostOf s o) <= B o)%N }.

Lemma K_frame s s' : (forall e, evState s' e = evState s e) ->
  (forall o ob, d_obj D !! o = Some ob -> is_media (ob_kind ob) = true -> okO D o (ostOf s o) -> okO D o (ostOf s' o)) ->
  (forall o, is_Some (o_player (ostOf s' o)) <-> is_Some (o_player (ostOf s o))) ->
  (forall o ax, ax ∈ o_delayed (ostOf s' o) -> (exists x, (ax.1, x) ∈ o_delayed (ostOf s o)) \/ delOK o ax.1) ->
  (forall o, o_time (ostOf s' o) = o_time (ostOf s o)) -> K s -> K s'.
Proof.
  intros E HO HP HD HT [K1 K2 K3 K4 K5 K6]. split.
  - intros e. by rewrite E.
  - intros o ob Ho Hm. rewrite HP, E. by apply K2.
  - intros o ob e ev Ho Hm He Hev Ht. rewrite !E. eauto.
  - intros o ax Hax Ho. destruct (HD _ _ Hax) as [[x Hx]|?]; [|done]. by apply (K4 o (ax.1, x)).
  - intros o ob Ho Hm. eauto.
  - intros o ob Ho. rewrite E, HT. eauto.
Qed.
Lemma K_same s s' : (forall e, evState s' e = evState s e) -> (forall o, ostOf s' o = ostOf s o) -> K s -> K s'.
Proof.
  intros E O. apply K_frame; [done|intros; by rewrite O|intros; by rewrite O| |intros; by rewrite O].
  intros o [a x]. rewrite O. intros. left. by exists x.
Qed.
Lemma K_param e k v s : K s -> K (upd_ev e (es_set_param k v) s).
Proof. apply K_same; [intros; apply evState_param|done]. Qed.
Lemma K_log x s : K s -> K (log x s).
Proof. by apply K_same. Qed.
Lemma K_next x s : K s -> K (set_next x s).
Proof. by apply K_same. Qed.
Lemma K_focus x s : K s -> K (set_focus x s).
Proof. by apply K_same. Qed.
Lemma okO_ext o x y : o_props x = o_props y -> o_player x = o_player y -> okO D o y -> okO D o x.
Proof. unfold okO. by intros -> ->. Qed.
Lemma K_sched o e t v d s : delOK o (mkAct e t None v "" "") -> K s -> K (sched o e t v d s).
Proof.
  intros HD. apply K_frame; unfold sched; [done| | | |].
  - intros o' ob' _ _. sts. destruct (decide (o = o')) as [->|]; [|done]. by apply okO_ext.
  - intros o'. sts. by destruct (decide (o = o')) as [->|].
  - intros o' [a x]. sts. destruct (decide (o = o')) as [->|]; [|left; eauto].
    cbn. intros [?|Hx]%elem_of_app; [left; eauto|]. apply elem_of_list_singleton in Hx. injection Hx as -> ->. by right.
  - intros o'. sts. by destruct (decide (o = o')) as [->|].
Qed.
Lemma K_pframe o s s' : pframe o s s' -> (forall ob, d_obj D !! o = Some ob -> is_media (ob_kind ob) = true -> okO D o (ostOf s' o)) -> K s -> K s'.
Proof.
  intros F HO. apply K_frame.
  - intros e. by eapply pframe_evState.
  - intros o' ob' Ho Hm H. destruct (decide (o' = o)) as [->|Hne]; [eauto|]. by rewrite (pf_other _ _ _ F).
  - intros o'. destruct (decide (o' = o)) as [->|Hne]; [by apply (pf_player _ _ _ F)|]. by rewrite (pf_other _ _ _ F).
  - intros o' [a x] Hx. left. exists x. destruct (decide (o' = o)) as [->|Hne]; [by rewrite <- (pf_delayed _ _ _ F)|]. by rewrite <- (pf_other _ _ _ F).
  - intros o'. destruct (decide (o' = o)) as [->|Hne]; [by apply (pf_time _ _ _ F)|]. by rewrite (pf_other _ _ _ F).
Qed.

Lemma lam_not e ev o ob : d_evt D !! e = Some ev -> isLambda ev = false -> d_obj D !! o = Some ob -> ob_lambda ob <> e.
Proof. intros He Hl Ho <-. destruct (lambda_evt D rank WF _ _ Ho) as (ev' & He' & Hl' & _). congruence. Qed.
Lemma K_commit e ev t s : d_evt D !! e = Some ev -> isLambda ev = false -> t <> PAUSE ->
  (ev_type ev = PRESENTATION -> target t <> SLEEPING -> forall ob, d_obj D !! ev_obj ev = Some ob -> evState s (ob_lambda ob) <> SLEEPING) ->
  K s -> K (commit e t s).
Proof.
  intros He Hl Ht Ha [K1 K2 K3 K4 K5 K6].
  assert (EL : forall o ob, d_obj D !! o = Some ob -> evState (commit e t s) (ob_lambda ob) = evState s (ob_lambda ob)).
  { intros o ob Ho. sts. rewrite decide_False; [done|]. intros E. by eapply lam_not. }
  split.
  - intros e'. sts. destruct (decide (e = e')); [by destruct t|apply K1].
  - intros o ob Ho Hm. rewrite (EL _ _ Ho). by apply K2.
  - intros o ob e' ev' Ho Hm Hin He' Hty. rewrite (EL _ _ Ho). sts. destruct (decide (e = e')) as [<-|]; [|by eapply K3].
    assert (ev' = ev) as -> by congruence. intros Htg. apply Ha; [done|done|].
    destruct (wo_events _ _ _ _ (wf_o _ _ WF _ _ Ho) _ Hin) as (ev2 & H1 & H2). assert (ev2 = ev) as -> by congruence. by rewrite H2.
  - exact K4.
  - exact K5.
  - intros o ob Ho. rewrite (EL _ _ Ho). by apply K6.
Qed.
Lemma K_start o ob s1 s2 : d_obj D !! o = Some ob ->
  (forall e, evState s2 e = if decide (ob_lambda ob = e) then OCCURRING else evState s1 e) ->
  (is_media (ob_kind ob) = true -> is_Some (o_player (ostOf s2 o)) /\ okO D o (ostOf s2 o)) ->
  (forall o', o' <> o -> o_player (ostOf s2 o') = o_player (ostOf s1 o') /\ o_props (ostOf s2 o') = o_props (ostOf s1 o') /\ o_time (ostOf s2 o') = o_time (ostOf s1 o')) ->
  (forall o', o_delayed (ostOf s2 o') = o_delayed (ostOf s1 o')) -> o_time (ostOf s2 o) = 0%N -> K s1 -> K s2.
Proof.
  intros Ho E HP HO HD HT [K1 K2 K3 K4 K5 K6].
  assert (EL : forall o' ob', d_obj D !! o' = Some ob' -> o' <> o -> evState s2 (ob_lambda ob') = evState s1 (ob_lambda ob')).
  { intros o' ob' Ho' Hne. rewrite E. rewrite decide_False; [done|]. intros El.
    apply Hne. destruct (lambda_evt D rank WF _ _ Ho) as (ev & H1 & _ & H2). destruct (lambda_evt D rank WF _ _ Ho') as (ev' & H1' & _ & H2'). congruence. }
  assert (E0 : evState s2 (ob_lambda ob) = OCCURRING) by (rewrite E; by rewrite decide_True).
  split.
  - intros e. rewrite E. by destruct (decide _).
  - intros o' ob' Ho' Hm. destruct (decide (o' = o)) as [->|Hne].
    + assert (ob' = ob) as -> by congruence. rewrite E0. split; [done|]. intros _. by apply HP.
    + rewrite (EL _ _ Ho' Hne). destruct (HO _ Hne) as (-> & _). by apply K2.
  - intros o' ob' e ev Ho' Hm Hin He Hty Ha. destruct (decide (o' = o)) as [->|Hne].
    + assert (ob' = ob) as -> by congruence. by rewrite E0.
    + rewrite (EL _ _ Ho' Hne). eapply K3; eauto. rewrite E in Ha. rewrite decide_False in Ha; [done|].
      intros El. rewrite <- El in *. destruct (wo_events _ _ _ _ (wf_o _ _ WF _ _ Ho') _ Hin) as (ev2 & H1 & H2).
      destruct (lambda_evt D rank WF _ _ Ho) as (ev3 & H3 & _ & H4). congruence.
  - intros o' ax. rewrite HD. apply K4.
  - intros o' ob' Ho' Hm. destruct (decide (o' = o)) as [->|Hne].
    + assert (ob' = ob) as -> by congruence. by apply HP.
    + destruct (HO _ Hne) as (H1 & H2 & _). eapply okO_ext; [done|done|eauto].
  - intros o' ob' Ho'. destruct (decide (o' = o)) as [->|Hne]; [intros _; rewrite HT; lia|].
    rewrite (EL _ _ Ho' Hne). destruct (HO _ Hne) as (_ & _ & ->). by apply K6.
Qed.
Lemma K_stop o ob s1 s2 : d_obj D !! o = Some ob ->
  (forall e, evState s2 e = if decide (inEvents D o e) then SLEEPING else evState s1 e) ->
  (is_media (ob_kind ob) = true -> o_player (ostOf s2 o) = None) ->
  (forall o', o_props (ostOf s2 o') = o_props (ostOf s1 o')) ->
  (forall o', o' <> o -> o_player (ostOf s2 o') = o_player (ostOf s1 o') /\ o_delayed (ostOf s2 o') = o_delayed (ostOf s1 o') /\ o_time (ostOf s2 o') = o_time (ostOf s1 o')) ->
  o_delayed (ostOf s2 o) = [] -> K s1 -> K s2.
Proof.
  intros Ho E HP HR HO HD [K1 K2 K3 K4 K5 K6].
  assert (EL : forall o' ob', d_obj D !! o' = Some ob' -> o' <> o -> evState s2 (ob_lambda ob') = evState s1 (ob_lambda ob')).
  { intros o' ob' Ho' Hne. rewrite E. rewrite decide_False; [done|]. eapply (other_event D rank WF o ob o' ob'); eauto. by eapply lam_ev. }
  assert (E0 : evState s2 (ob_lambda ob) = SLEEPING) by (rewrite E; rewrite decide_True; [done|]; exists ob; split; [done|]; by eapply lam_ev).
  split.
  - intros e. rewrite E. by destruct (decide _).
  - intros o' ob' Ho' Hm. destruct (decide (o' = o)) as [->|Hne].
    + assert (ob' = ob) as -> by congruence. rewrite E0, HP by done. split; [by intros []|done].
    + rewrite (EL _ _ Ho' Hne). destruct (HO _ Hne) as (-> & _). by apply K2.
  - intros o' ob' e ev Ho' Hm Hin He Hty Ha. destruct (decide (o' = o)) as [->|Hne].
    + exfalso. apply Ha. rewrite E. rewrite decide_True; [done|]. by exists ob'.
    + rewrite (EL _ _ Ho' Hne). eapply K3; eauto. rewrite E in Ha. destruct (decide _); done.
  - intros o' ax. destruct (decide (o' = o)) as [->|Hne].
    + rewrite HD. by intros ?%elem_of_nil.
    + destruct (HO _ Hne) as (_ & -> & _). apply K4.
  - intros o' ob' Ho' Hm. destruct (decide (o' = o)) as [->|Hne].
    + assert (ob' = ob) as -> by congruence. destruct (K5 _ _ Ho Hm) as (H1 & H2 & H3). split; [|split]; rewrite ?HR; [done|done|].
      intros _ p. by rewrite HP.
    + destruct (HO _ Hne) as (H1 & _). eapply okO_ext; [by apply HR|done|eauto].
  - intros o' ob' Ho'. destruct (decide (o' = o)) as [->|Hne].
    + assert (ob' = ob) as -> by congruence. by rewrite E0.
    + rewrite (EL _ _ Ho' Hne). destruct (HO _ Hne) as (_ & _ & ->). by apply K6.
Qed.

Lemma time_empty : try_parse_time "" = TOk 0%N.
Proof. vm_compute. done. Qed.
Lemma literal_empty : literal "".
Proof. by intros r. Qed.
Lemma literal_ref s v : literal v -> evalPropertyRef D s v = None.
Proof.
  intros H. unfold evalPropertyRef. destruct v as [|c v]; [done|].
  destruct (Ascii.eqb_spec c "$"%char) as [->|Hne]; [by destruct (H v)|].
  destruct c as [[][][][][][][][]]; try reflexivity. by destruct Hne.
Qed.

(** ** Transitions. *)
Notation rl := (ob_lambda rb).
Notation sl := (ob_lambda sb).
Definition mono (s s' : st) : Prop := forall e, evState s e <> SLEEPING -> evState s' e <> SLEEPING.
Definition keep (s s' : st) : Prop := evState s' sl = evState s sl /\ (evState s rl <> SLEEPING -> evState s' rl <> SLEEPING).
Lemma mono_trans s1 s2 s3 : mono s1 s2 -> mono s2 s3 -> mono s1 s3.
Proof. unfold mono. auto. Qed.
Lemma mono_same s s' : (forall e, evState s' e = evState s e) -> mono s s'.
Proof. intros E e. by rewrite E. Qed.
Lemma keep_refl s : keep s s.
Proof. done. Qed.
Lemma keep_trans s1 s2 s3 : keep s1 s2 -> keep s2 s3 -> keep s1 s3.
Proof. intros [H1 H2] [H3 H4]. split; [congruence|auto]. Qed.
Lemma keep_same s s' : (forall e, evState s' e = evState s e) -> keep s s'.
Proof. intros E. split; [apply E|by rewrite E]. Qed.

(** What may be asked of an event. *)
Definition req (s : st) (e : eid) (t : trans) : Prop :=
  exists ev ob, d_evt D !! e = Some ev /\ d_obj D !! ev_obj ev = Some ob /\
  match ev_type ev with
  | PRESENTATION => (isLambda ev = true /\ (t = START \/ t = STOP \/ t = ABORT)) \/
      (isLambda ev = false /\ is_media (ob_kind ob) = true /\
        ((t = STOP \/ t = ABORT) \/ (t = START /\ evState s (ob_lambda ob) <> SLEEPING)))
  | ATTRIBUTION => t = STOP \/ (t = START /\ exists d v,
      e_params (estOf s e) !! "duration" = Some d /\ literal d /\ try_parse_time d = TOk 0%N /\
      e_params (estOf s e) !! "value" = Some v /\
      ((literal v /\ okAssign D (ev_obj ev) (ev_id ev) v) \/ (forall w, okAssign D (ev_obj ev) (ev_id ev) w)))
  | SELECTION => is_media (ob_kind ob) = true /\ (t = START \/ t = STOP)
  | LOOKAT => False
  end.
Lemma req_lam s o ob t : d_obj D !! o = Some ob -> t = START \/ t = STOP \/ t = ABORT -> req s (ob_lambda ob) t.
Proof.
  intros Ho Ht. destruct (lambda_evt D rank WF _ _ Ho) as (ev & He & Hl & Hob). exists ev, ob. split; [done|]. rewrite Hob. split; [done|].
  assert (ev_type ev = PRESENTATION) as ->.
  { unfold isLambda in Hl. apply andb_true_iff in Hl as [Hl _]. by apply bool_decide_eq_true in Hl. }
  by left.
Qed.
Definition post (s : st) (e : eid) (t : trans) (b : bool) (s' : st) : Prop :=
  K s' /\ (t = START -> mono s s') /\ (e <> sl -> (e = rl -> t = START) -> keep s s') /\
  (t = START -> evState s e = SLEEPING -> (forall ev, d_evt D !! e = Some ev -> isLambda ev = true) -> b = true) /\
  (t <> START -> (forall ev, d_evt D !! e = Some ev -> isLambda ev = true) -> evState s' e = SLEEPING) /\
  ((forall ev, d_evt D !! e = Some ev -> ev_type ev <> PRESENTATION) -> forall o ob, d_obj D !! o = Some ob ->
     evState s' (ob_lambda ob) = evState s (ob_lambda ob)).
Lemma post_false s e ev t : d_evt D !! e = Some ev -> K s -> (t = START -> evState s e <> SLEEPING) -> (t <> START -> isLambda ev = true -> evState s e = SLEEPING) -> post s e t false s.
Proof.
  intros He HK Ht Ht2. split; [done|]. split; [intros _ ?; done|]. split; [intros; apply keep_refl|]. split; [intros H1 H2; by destruct (Ht H1)|].
  split; [|done]. intros H1 H2. auto.
Qed.

Lemma attrib_safe o e ev ob d v s : K s -> d_evt D !! e = Some ev -> d_obj D !! o = Some ob -> ev_obj ev = o -> ev_type ev = ATTRIBUTION ->
  e_params (estOf s e) !! "duration" = Some d -> literal d -> try_parse_time d = TOk 0%N ->
  e_params (estOf s e) !! "value" = Some v ->
  ((literal v /\ okAssign D (ev_obj ev) (ev_id ev) v) \/ (forall w, okAssign D (ev_obj ev) (ev_id ev) w)) ->
  swp (attribStart D o e) (fun _ s' => K s' /\ forall e', evState s' e' = evState s e') s.
Proof.
  intros HK He Ho Hob Hty Hd Hd1 Hd2 Hv Hok. unfold attribStart. w1. eapply sgetE; [done|]. cbv beta. w1. unfold getParam. w1. w1. w1. cbv zeta.
  w1. w1. rewrite Hv, Hd. change (default "" (Some v)) with v. w1. rewrite (literal_ref _ _ Hd1). change (default d None) with d. unfold parse_time. rewrite Hd2. w1.
  set (v' := default v (evalPropertyRef D s v)).
  assert (Hok' : okAssign D (ev_obj ev) (ev_id ev) v').
  { destruct Hok as [[Hl Hok]|Hok]; [|apply Hok]. subst v'. by rewrite (literal_ref _ _ Hl). }
  rewrite Hob in Hok'. clearbody v'. w1. apply (wp_mono _ _ _ (fun _ s' => K s' /\ forall e', evState s' e' = evState s e')).
  - unfold setProperty. w1. eapply sgetO; [done|]. cbv beta. destruct (is_media (ob_kind ob)) eqn:Hm.
    + eapply wp_mono; [apply (mset_safe D o ob); [done|done|by apply (k_prop _ HK o ob)|done]|]. intros [] s1 [H1 H2]. split.
      * eapply K_pframe; [exact H2|by intros|done].
      * intros e'. by eapply pframe_evState.
    + w1. w1; [done|]. unfold objSetProp. w1. split; [|done]. apply (K_pframe o s); [apply (pframe_props o (fun _ => _))| |done].
      intros ob' Ho' Hm'. congruence.
  - intros [] s1 [H1 H2]. unfold addDelayed. w1. split; [|intros e'; unfold sched; sts; apply H2]. apply K_sched; [|done].
    left. exists ev, ob. cbn [ac_evt ac_delay ac_tr]. split; [done|]. rewrite Hob. split; [done|]. split; [apply literal_empty|].
    split; [eexists; apply time_empty|]. rewrite Hty. by left.
Qed.

Lemma sl_event : exists ev, d_evt D !! sl = Some ev /\ isLambda ev = true /\ ev_obj ev = d_settings D.
Proof. by apply (lambda_evt D rank WF). Qed.
Lemma rl_event : exists ev, d_evt D !! rl = Some ev /\ isLambda ev = true /\ ev_obj ev = d_root D.
Proof. by apply (lambda_evt D rank WF). Qed.
Lemma sb_kind : ob_kind sb = KSettings /\ ob_parent sb = Some (d_root D).
Proof. destruct (wf_settings _ _ WF) as (sb' & H1 & H2 & H3). by assert (sb' = sb) as -> by congruence. Qed.
Lemma rb_kind : ob_kind rb = KContext /\ ob_parent rb = None.
Proof. destruct (wf_root _ _ WF) as (rb' & H1 & H2 & H3). by assert (rb' = rb) as -> by congruence. Qed.
Lemma rl_sl : rl <> sl.
Proof.
  intros E. destruct rl_event as (e1 & H1 & _ & H2), sl_event as (e2 & H3 & _ & H4). rewrite E in H1.
  assert (e1 = e2) as -> by congruence. destruct sb_kind, rb_kind. congruence.
Qed.
Lemma lam_inj o ob o' ob' : d_obj D !! o = Some ob -> d_obj D !! o' = Some ob' -> ob_lambda ob = ob_lambda ob' -> o = o'.
Proof.
  intros Ho Ho' E. destruct (lambda_evt D rank WF _ _ Ho) as (e1 & H1 & _ & H2), (lambda_evt D rank WF _ _ Ho') as (e2 & H3 & _ & H4). congruence.
Qed.
Lemma in_lam o ob o' ob' : d_obj D !! o = Some ob -> d_obj D !! o' = Some ob' -> inEvents D o (ob_lambda ob') -> o = o'.
Proof.
  intros Ho Ho' (ob2 & H1 & H2). assert (ob2 = ob) as -> by congruence.
  destruct (wo_events _ _ _ _ (wf_o _ _ WF _ _ Ho) _ H2) as (ev & H3 & H4).
  destruct (lambda_evt D rank WF _ _ Ho') as (e2 & H5 & _ & H6). congruence.
Qed.

Definition spost (s s' : st) : Prop := K s' /\ mono s s' /\ evState s' sl = evState s sl.
Definition trS (n : nat) : Prop := forall e t s, K s -> req s e t -> swp (tr D n e t) (post s e t) s.

Lemma startParent_safe n o ob s : trS n -> d_obj D !! o = Some ob -> K s ->
  swp (startParent D (tr D n) o) (fun _ => spost s) s.
Proof.
  intros IH Ho HK. assert (H0 : spost s s) by (split; [done|]; split; [intros ?; done|done]).
  unfold startParent. w1. eapply sgetO; [done|]. cbv beta.
  destruct (ob_parent ob) as [p|] eqn:Ep; [|by w1].
  destruct (wo_parent _ _ _ _ (wf_o _ _ WF _ _ Ho) _ Ep) as (pb & Hpb & _).
  w1. unfold isContext. w1. eapply sgetO; [done|]. cbv beta. w1. w1; [|by w1]. apply bool_decide_eq_true in H.
  w1. unfold isSleeping, objState. w1. w1. eapply sgetO; [done|]. cbv beta. w1. w1. w1; [|by w1].
  w1. eapply sgetO; [done|]. cbv beta. w1. unfold setParam. w1. w1.
  eapply wp_mono; [apply IH; [by apply K_param|apply (req_lam _ p); auto]|].
  intros b s1 (G1 & G2 & G3 & _). cbv beta. w1. 
  assert (E0 : forall e, evState (upd_ev (ob_lambda pb) (es_set_param "fromport" "true") s) e = evState s e) by (intros; apply evState_param).
  split; [done|]. split.
  - intros e He. apply G2; [done|]. by rewrite E0.
  - rewrite <- E0. apply G3; [|done]. intros E. destruct sb_kind as [Hk _].
    assert (p = d_settings D) as -> by (by eapply lam_inj). congruence.
Qed.

Lemma doStart_safe o ob s (Q : unit -> st -> Prop) : d_obj D !! o = Some ob ->
  (forall s', s_ev s' = s_ev s ->
     (forall o', ostOf s' o' =
        os_set_time (if decide (o = o') then 0%N else o_time (ostOf s o'))
        (os_set_awake (o_awake (ostOf s o') + awk D o 1 o')%Z (ostOf s o'))) -> Q tt s') ->
  swp (doStart D o) Q s.
Proof.
  intros Ho HQ. apply wp_doStart; [congruence| |intros; by apply HQ]. intros ob' p Ho' Hp Hn. by eapply (parent_valid D rank WF).
Qed.
Lemma doStop_safe o ob s (Q : unit -> st -> Prop) : d_obj D !! o = Some ob ->
  (forall s', (forall e, evState s' e = if decide (inEvents D o e) then SLEEPING else evState s e) ->
     (forall o', ostOf s' o' =
        let x := os_set_awake (o_awake (ostOf s o') + awk D o (-1) o')%Z (ostOf s o') in
        if decide (o = o') then os_set_time TIME_NONE (os_set_delayed [] x) else x) -> Q tt s') ->
  swp (doStop D o) Q s.
Proof.
  intros Ho HQ. apply wp_doStop; [congruence| |]. { intros ob' p Ho' Hp Hn. by eapply (parent_valid D rank WF). }
  intros s' _ _ _ _ _ E O. apply HQ; [|done]. intros e. unfold evState. rewrite E. by destruct (decide _).
Qed.
Lemma mediaDoStop_safe o ob s (Q : unit -> st -> Prop) : d_obj D !! o = Some ob -> is_Some (o_player (ostOf s o)) ->
  (forall s', (forall e, evState s' e = if decide (inEvents D o e) then SLEEPING else evState s e) ->
     (forall o', ostOf s' o' =
        let x := os_set_awake (o_awake (ostOf s o') + awk D o (-1) o')%Z (ostOf s o') in
        if decide (o = o') then os_set_player None (os_set_time TIME_NONE (os_set_delayed [] x)) else x) -> Q tt s') ->
  swp (mediaDoStop D o) Q s.
Proof.
  intros Ho Hp HQ. apply wp_mediaDoStop; [congruence| |done|]. { intros ob' p Ho' Hp' Hn. by eapply (parent_valid D rank WF). }
  intros s' _ _ _ _ _ E O. apply HQ; [|done]. intros e. unfold evState. rewrite E. by destruct (decide _).
Qed.

Lemma simple_post s s0 e ev t s2 : d_evt D !! e = Some ev -> isLambda ev = false -> spost s s0 ->
  K s2 -> (forall e', evState s2 e' = evState (commit e t s0) e') -> (ev_type ev <> PRESENTATION -> s0 = s) -> post s e t true s2.
Proof.
  intros He Hl (_ & HM & HS) HK E EP. split; [done|]. split; [|split; [|split; [done|split]]].
  - intros -> e' Ha. rewrite E. sts. destruct (decide (e = e')); [done|]. by apply HM.
  - intros _ _. assert (EL : forall o ob, d_obj D !! o = Some ob -> evState s2 (ob_lambda ob) = evState s0 (ob_lambda ob)).
    { intros o ob Ho. rewrite E. sts. rewrite decide_False; [done|]. intros E2. by apply (lam_not _ _ _ _ He Hl Ho). }
    split; [by rewrite (EL _ _ Hsb)|]. rewrite (EL _ _ Hrb). apply HM.
  - intros _ Hl2. rewrite (Hl2 _ He) in Hl. done.
  - intros Hp o ob Ho. rewrite (EP (Hp _ He)) in E. rewrite E. sts. rewrite decide_False; [done|]. intros E2. by apply (lam_not _ _ _ _ He Hl Ho).
Qed.
Lemma spost_refl s : K s -> spost s s.
Proof. intros HK. split; [done|]. split; [intros ?; done|done]. Qed.
Lemma notlam ev : ev_type ev <> PRESENTATION -> isLambda ev = false.
Proof. intros H. unfold isLambda. by rewrite bool_decide_false. Qed.
Lemma islam_type ev : isLambda ev = true -> ev_type ev = PRESENTATION.
Proof. intros Hl. unfold isLambda in Hl. apply andb_true_iff in Hl as [Hl _]. by apply bool_decide_eq_true in Hl. Qed.

(** Events that are not presentations of objects. *)
Lemma tr_other n e ev ob t s : d_evt D !! e = Some ev -> d_obj D !! ev_obj ev = Some ob -> ev_type ev <> PRESENTATION ->
  K s -> req s e t -> swp (tr D (S n) e t) (post s e t) s.
Proof.
  intros He Ho Hty HK (ev' & ob' & He' & Ho' & Hreq). assert (ev' = ev) as -> by congruence. assert (ob' = ob) as -> by congruence.
  pose proof (notlam _ Hty) as Hl.
  rewrite tr_S. unfold tr_body. w1. eapply sgetE; [done|]. cbv beta. w1. w1.
  destruct (legal (evState s e) t) eqn:El; cbn [negb].
  2:{ w1. apply (post_false _ _ ev); [done|done| |congruence]. intros ->. by destruct (evState s e). }
  w1. apply (wp_mono _ _ _ (fun b s' => b = true /\ s' = s)).
  { unfold before. w1. eapply sgetO; [done|]. cbv beta. destruct (ob_kind ob) eqn:Hk.
    - unfold ctx_before. destruct (ev_type ev); try done; [by destruct Hreq].
    - by destruct (cd_switch D CD _ _ Ho).
    - unfold media_before. destruct (ev_type ev); try done; by w1.
    - unfold media_before. destruct (ev_type ev); try done; by w1. }
  intros b s' [-> ->]. cbn [negb]. w1. w1. w1. w1. w1. fold (commit e t s).
  assert (Ht : t <> PAUSE). { destruct (ev_type ev); intros ->; try done; [by destruct Hreq as [?|[? _]]|by destruct Hreq as [_ [?|?]]]. }
  assert (HKc : K (commit e t s)) by (eapply K_commit; eauto; by intros ?).
  apply (wp_mono _ _ _ (fun b s' => b = true /\ K s' /\ forall e', evState s' e' = evState (commit e t s) e')).
  2:{ intros b s2 (-> & H1 & H2). cbv beta iota. w1. eapply simple_post; eauto. by apply spost_refl. }
  assert (HA : ev_type ev = ATTRIBUTION -> t = START -> swp (attribStart D (ev_obj ev) e) (fun _ s' => K s' /\ forall e', evState s' e' = evState (commit e t s) e') (commit e t s)).
  { intros E1 ->. rewrite E1 in Hreq. destruct Hreq as [?|(_ & d & v & H1 & H2 & H3 & H4 & H5)]; [done|].
    assert (EP : e_params (estOf (commit e START s) e) = e_params (estOf s e)).
    { unfold commit. sts. by rewrite decide_True. }
    eapply attrib_safe; eauto; by rewrite EP. }
  unfold after. w1. eapply sgetO; [done|]. cbv beta. destruct (ob_kind ob) eqn:Hk.
  - unfold ctx_after. destruct (ev_type ev) eqn:E1; try done; [|by destruct Hreq].
    destruct Hreq as [->|[-> _]]; [by w1|]. w1. eapply wp_mono; [by apply HA|]. intros [] s2 H. by w1.
  - by destruct (cd_switch D CD _ _ Ho).
  - unfold media_after. w1. w1. cbv zeta. destruct (ev_type ev) eqn:E1; try done.
    + destruct Hreq as [->|[-> _]]; [by w1|]. w1. eapply wp_mono; [by apply HA|]. intros [] s2 H. by w1.
    + destruct Hreq as [_ [-> | ->]]; by w1.
  - unfold media_after. w1. w1. cbv zeta. destruct (ev_type ev) eqn:E1; try done.
    + destruct Hreq as [->|[-> _]]; [by w1|]. w1. eapply wp_mono; [by apply HA|]. intros [] s2 H. by w1.
    + destruct Hreq as [_ [-> | ->]]; by w1.
Qed.

(** Anchors of media. *)
Lemma tr_anchor n e ev ob t s : trS n -> d_evt D !! e = Some ev -> d_obj D !! ev_obj ev = Some ob -> ev_type ev = PRESENTATION -> isLambda ev = false ->
  K s -> req s e t -> swp (tr D (S n) e t) (post s e t) s.
Proof.
  intros IH He Ho Hty Hl HK (ev' & ob' & He' & Ho' & Hreq). assert (ev' = ev) as -> by congruence. assert (ob' = ob) as -> by congruence.
  rewrite Hty in Hreq. destruct Hreq as [[? _]|(_ & Hm & Hreq)]; [congruence|].
  assert (Hin : e ∈ ob_events ob).
  { destruct (wf_e _ _ WF _ _ He) as (ob2 & H1 & H2 & _). congruence. }
  rewrite tr_S. unfold tr_body. w1. eapply sgetE; [done|]. cbv beta. w1. w1.
  destruct (legal (evState s e) t) eqn:El; cbn [negb].
  2:{ w1. apply (post_false _ _ ev); [done|done| |congruence]. intros ->. by destruct (evState s e). }
  assert (Hlam : evState s (ob_lambda ob) <> SLEEPING).
  { destruct Hreq as [Ht|[_ ?]]; [|done]. eapply (k_anc _ HK); eauto. intros E. rewrite E in El. by destruct Ht as [-> | ->]. }
  assert (Ht0 : t = START \/ t = STOP \/ t = ABORT) by tauto.
  w1. apply (wp_mono _ _ _ (fun b s' => b = true /\ spost s s')).
  { unfold before. w1. eapply sgetO; [done|]. cbv beta.
    assert (HMB : swp (media_before D (tr D n) (fun a => loop D n [a]) (ev_obj ev) e ev t) (fun b s' => b = true /\ spost s s') s).
    { unfold media_before. rewrite Hty. destruct Ht0 as [-> |[-> | ->]]; [|w1; split; [done|by apply spost_refl]..].
      w1. eapply wp_mono; [by eapply startParent_safe|]. intros [] s1 HS1. pose proof HS1 as (HK1 & HM1 & _). cbv beta. w1. w1. rewrite Hl.
      destruct (evState s1 e); [by w1|by w1|]. w1. eapply sgetO; [done|]. cbv beta. w1. w1.
      destruct (evState s1 (ob_lambda ob)) eqn:E1; [by w1|by w1|]. exfalso. by apply (HM1 (ob_lambda ob)). }
    destruct (ob_kind ob); try done. }
  intros b s1 [-> HS1]. pose proof HS1 as (HK1 & HM1 & _). cbn [negb]. w1. w1. w1. w1. w1. fold (commit e t s1).
  assert (Hlam1 : evState s1 (ob_lambda ob) <> SLEEPING) by by apply HM1.
  assert (HKc : K (commit e t s1)).
  { eapply K_commit; eauto; [by destruct Ht0 as [-> |[-> | ->]]|]. intros _ _ ob2 Ho2. by assert (ob2 = ob) as -> by congruence. }
  assert (Hp : is_Some (o_player (ostOf (commit e t s1) (ev_obj ev)))).
  { sts. by apply (k_pl _ HK1 _ _ Ho Hm). }
  apply (wp_mono _ _ _ (fun b s' => b = true /\ s' = commit e t s1)).
  2:{ intros b s2 (-> & ->). cbv beta iota. w1. eapply simple_post; eauto. by intros ?. }
  unfold after. w1. eapply sgetO; [done|]. cbv beta.
  assert (HMA : swp (media_after D (ev_obj ev) e ev t) (fun b s' => b = true /\ s' = commit e t s1) (commit e t s1)).
  { unfold media_after. w1. w1. cbv zeta. rewrite Hty, Hl. destruct Hp as [p Hp].
    assert (HL : swp (if hasLabel ev then match o_player (ostOf (commit e t s1) (ev_obj ev)) with None => crashm (CUB "Media.cpp:381") | Some _ => ret true end
       else do b <- isOccurring D (ev_obj ev); assertm b "Media.cpp:386" ;; ret true) (fun b s' => b = true /\ s' = commit e t s1) (commit e t s1)).
    { destruct (hasLabel ev); [rewrite Hp; by w1|]. w1. unfold isOccurring, objState. w1. w1. eapply sgetO; [done|]. cbv beta. w1. w1.
      w1. w1; [|by w1]. apply bool_decide_eq_false in H. apply H. sts. rewrite decide_False.
      - destruct (evState s1 (ob_lambda ob)) eqn:E1; [done| |done]. by destruct (k_np _ HK1 (ob_lambda ob)).
      - intros E2. by apply (lam_not _ _ _ _ He Hl Ho). }
    destruct Ht0 as [-> |[-> | ->]]; [|exact HL..]. destruct (hasLabel ev); [rewrite Hp; by w1|by w1]. }
  destruct (ob_kind ob); try done.
Qed.

(** Presentations of objects: start. *)
Lemma start_post s s1 o ob s2 : d_obj D !! o = Some ob -> spost s s1 -> K s2 ->
  (forall e, evState s2 e = if decide (ob_lambda ob = e) then OCCURRING else evState s1 e) -> spost s s2 \/ o = d_settings D.
Proof.
  intros Ho (HK & HM & HS) HK2 E. destruct (decide (o = d_settings D)) as [->|Hne]; [by right|]. left. split; [done|]. split.
  - intros e Ha. rewrite E. destruct (decide _); [done|by apply HM].
  - rewrite E, decide_False; [done|]. intros E2. apply Hne. by eapply lam_inj.
Qed.
Lemma tr_start n e ev ob s : trS n -> d_evt D !! e = Some ev -> d_obj D !! ev_obj ev = Some ob -> isLambda ev = true ->
  K s -> swp (tr D (S n) e START) (post s e START) s.
Proof.
  intros IH He Ho Hl HK. pose proof (islam_type _ Hl) as Hty.
  assert (Hlam : e = ob_lambda ob).
  { destruct (wf_e _ _ WF _ _ He) as (ob2 & H1 & _ & H2). assert (ob2 = ob) as -> by congruence. auto. }
  set (o := ev_obj ev) in *.
  rewrite tr_S. unfold tr_body. w1. eapply sgetE; [done|]. cbv beta. w1. w1.
  destruct (legal (evState s e) START) eqn:El; cbn [negb].
  2:{ w1. apply (post_false _ _ ev); [done|done| |done]. intros _. by destruct (evState s e). }
  fold o. w1.
  (* before *)
  apply (wp_mono _ _ _ (fun b s' => b = true /\ exists s1, spost s s1 /\ s_ev s' = s_ev s1 /\
    (forall o', o' <> o -> ostOf s' o' = ostOf s1 o') /\ o_delayed (ostOf s' o) = o_delayed (ostOf s1 o) /\
    (is_media (ob_kind ob) = true -> is_Some (o_player (ostOf s' o)) /\ okO D o (ostOf s' o)))).
  { unfold before. w1. eapply sgetO; [done|]. cbv beta.
    assert (HMB : is_media (ob_kind ob) = true -> swp (media_before D (tr D n) (fun a => loop D n [a]) o e ev START) (fun b s' => b = true /\ exists s1, spost s s1 /\ s_ev s' = s_ev s1 /\
      (forall o', o' <> o -> ostOf s' o' = ostOf s1 o') /\ o_delayed (ostOf s' o) = o_delayed (ostOf s1 o) /\
      (is_media (ob_kind ob) = true -> is_Some (o_player (ostOf s' o)) /\ okO D o (ostOf s' o))) s).
    { intros Hm. unfold media_before. rewrite Hty. 
      w1. eapply wp_mono; [by eapply startParent_safe|]. intros [] s1 HS1. pose proof HS1 as (HK1 & HM1 & _). cbv beta. w1. w1. rewrite Hl.
      assert (HO1 : okO D o (ostOf s1 o)) by by eapply k_prop.
      destruct (evState s1 e) eqn:E1.
      1-2: w1; split; [done|]; exists s1; split; [done|]; split; [done|]; split; [done|]; split; [done|]; intros _; split; [|done];
        apply (k_pl _ HK1 _ _ Ho Hm); by rewrite <- Hlam, E1.
      w1. eapply wp_mono; [eapply create_safe; try done|].
      - destruct (o_player (ostOf s1 o)) eqn:Ep; [|done]. exfalso. apply (k_pl _ HK1 _ _ Ho Hm); [by eexists|by rewrite <- Hlam].
      - intros [] s2 [HO2 HF]. cbv beta. w1. split; [done|]. exists s1. destruct HF. split; [done|]. split; [done|]. split; [done|]. split; [done|]. intros _. by split. }
    destruct (ob_kind ob) eqn:Hk; try (by apply HMB).
    - unfold ctx_before. rewrite Hty, Hl. w1. w1; [done|]. w1. split; [done|]. exists s. split; [by apply spost_refl|]. by repeat split.
    - by destruct (cd_switch D CD _ _ Ho). }
  intros b s' (-> & s1 & HS1 & E1 & E2 & E3 & E4). cbn [negb]. w1. w1. w1. w1. w1. fold (commit e START s').
  (* after *)
  apply (wp_mono _ _ _ (fun b s2 => b = true /\ K s2 /\ mono s s2 /\ (e <> sl -> evState s2 sl = evState s sl))).
  2:{ intros b s2 (-> & H1 & H2 & H3). cbv beta iota. w1. split; [done|]. split; [done|]. split; [|split; [done|split; [done|]]].
      - intros Hne _. split; [by apply H3|apply H2].
      - intros Hp. by destruct (Hp _ He). }
  set (s3 := commit e START s') in *.
  assert (HST : forall (Q : unit -> st -> Prop), (forall s4, K s4 -> mono s s4 -> (e <> sl -> evState s4 sl = evState s sl) ->
       (is_media (ob_kind ob) = true -> True) -> Q tt s4) -> swp (doStart D o) Q s3).
  { intros Q HQ. eapply doStart_safe; [done|]. intros s4 F1 F2.
    assert (F0 : forall e', evState s4 e' = if decide (ob_lambda ob = e') then OCCURRING else evState s1 e').
    { intros e'. unfold evState, estOf. rewrite F1. change (e_st (s_ev s3 !!! e')) with (evState s3 e'). unfold s3. sts. rewrite <- Hlam. cbn [target].
      destruct (decide (e = e')); [done|]. unfold evState, estOf. by rewrite E1. }
    assert (HK4 : K s4).
    { eapply (K_start o ob s1 s4); try done.
      - intros Hm. rewrite F2. cbn. destruct (E4 Hm) as [H1 H2]. by split.
      - intros o' Hne. rewrite F2, decide_False by done. cbn. unfold s3. sts. by rewrite E2.
      - intros o'. rewrite F2. cbn. unfold s3. sts. destruct (decide (o' = o)) as [->|Hne]; [done|]. by rewrite E2.
      - rewrite F2, decide_True by done. done.
      - apply HS1. }
    destruct HS1 as (_ & HM & HS). apply HQ; [done| | |done].
    - intros e' Ha. rewrite F0. destruct (decide _); [done|by apply HM].
    - intros Hne. rewrite F0, decide_False by congruence. done. }
  unfold after. w1. eapply sgetO; [done|]. cbv beta.
  assert (HMA : is_media (ob_kind ob) = true -> swp (media_after D o e ev START) (fun b s2 => b = true /\ K s2 /\ mono s s2 /\ (e <> sl -> evState s2 sl = evState s sl)) s3).
  { intros Hm. unfold media_after. w1. w1. cbv zeta. rewrite Hty, Hl. w1. w1.
    { apply bool_decide_eq_false in H. apply H. unfold s3. sts. destruct (E4 Hm) as [[p ->] _]. done. }
    clear H. w1. apply HST. intros s4 HK4 HM4 HS4 _. w1. eapply sgetO; [done|]. cbv beta. w1.
    apply wp_foreach_inv with (I := fun s' => K s' /\ mono s s' /\ (e <> sl -> evState s' sl = evState s sl)); [done| |intros; by w1].
    intros e' s5 Hin (H1 & H2 & H3). destruct (wo_events _ _ _ _ (wf_o _ _ WF _ _ Ho) _ Hin) as (ev' & He' & Hob').
    w1. eapply sgetE; [done|]. cbv beta. w1; [|by w1]. apply andb_true_iff in H as [H _]. apply andb_true_iff in H as [Hl' Hty'].
    apply bool_decide_eq_true in Hty'. apply negb_true_iff in Hl'.
    unfold addDelayed. w1. w1. w1. split; [|split; [intros x Hx; by apply H2|intros Hne; by apply H3]].
    apply K_sched; [|apply K_sched; [|done]].
    - left. exists ev', ob. cbn [ac_evt ac_delay ac_tr]. rewrite Hob', Hty'. split; [done|]. split; [done|]. split; [apply literal_empty|].
      split; [eexists; apply time_empty|]. right. auto.
    - right. exists ev', ob. cbn [ac_evt ac_tr]. done. }
  destruct (ob_kind ob) eqn:Hk; [|by destruct (cd_switch D CD _ _ Ho)|by apply HMA..].
  unfold ctx_after. rewrite Hty, Hl. w1. w1; [done|]. w1. apply HST. intros s4 HK4 HM4 HS4 _.
  w1. eapply wp_mono; [by eapply startParent_safe|]. intros [] s5 (HK5 & HM5 & HS5). cbv beta. w1. unfold getParam. w1. w1.
  assert (HG5 : K s5 /\ mono s s5 /\ (e <> sl -> evState s5 sl = evState s sl)).
  { split; [done|]. split; [by eapply mono_trans|]. intros Hne. rewrite HS5. auto. }
  clear HK5 HM5 HS5 HK4 HM4 HS4.
  apply (wp_mono _ _ _ (fun _ s' => K s' /\ mono s s' /\ (e <> sl -> evState s' sl = evState s sl))); [|intros; by w1].
  w1; [|by w1]. w1. eapply sgetO; [done|]. cbv beta. w1.
  apply wp_foreach_inv with (I := fun s' => K s' /\ mono s s' /\ (e <> sl -> evState s' sl = evState s sl)); [done| |].
  - intros p s6 Hin (H1 & H2 & H3). destruct (wo_ports _ _ _ _ (wf_o _ _ WF _ _ Ho) _ Hin) as [pe Hpe].
    w1. eapply sgetE; [done|]. cbv beta. w1; [|done]. match goal with HB : bool_decide _ = true |- _ => apply bool_decide_eq_true in HB; rename HB into HTY end. unfold addDelayed. w1.
    split; [|split; [intros x Hx; by apply H2|intros Hne; by apply H3]]. apply K_sched; [|done].
    left. destruct (wf_e _ _ WF _ _ Hpe) as (pob & Hpob & _). exists pe, pob. cbn [ac_evt ac_delay ac_tr]. split; [done|]. split; [done|].
    split; [apply literal_empty|]. split; [eexists; apply time_empty|]. rewrite HTY. left.
    destruct (cd_ports D CD o ob p pe Ho Hin Hpe HTY) as (? & ? & ?). auto.
  - intros s6 (H1 & H2 & H3). unfold setParam. w1. split; [by apply K_param|]. split.
    + intros x Hx. rewrite evState_param. by apply H2.
    + intros Hne. rewrite evState_param. auto.
Qed.

(** Presentations of objects: stop and abort. *)
Lemma tr_stop n e ev ob t s : trS n -> d_evt D !! e = Some ev -> d_obj D !! ev_obj ev = Some ob -> isLambda ev = true ->
  t = STOP \/ t = ABORT -> K s -> swp (tr D (S n) e t) (post s e t) s.
Proof.
  intros IH He Ho Hl Ht HK. pose proof (islam_type _ Hl) as Hty.
  assert (Hlam : e = ob_lambda ob).
  { destruct (wf_e _ _ WF _ _ He) as (ob2 & H1 & _ & H2). assert (ob2 = ob) as -> by congruence. auto. }
  set (o := ev_obj ev) in *.
  assert (HnS : t <> START) by (by destruct Ht as [-> | ->]).
  rewrite tr_S. unfold tr_body. w1. eapply sgetE; [done|]. cbv beta. w1. w1.
  destruct (legal (evState s e) t) eqn:El; cbn [negb].
  2:{ w1. apply (post_false _ _ ev); [done|done|by intros ->|]. intros _ _. by destruct (evState s e), Ht as [-> | ->]. }
  fold o. w1.
  assert (Hawake : evState s e <> SLEEPING). { intros E. rewrite E in El. by destruct Ht as [-> | ->]. }
  apply (wp_mono _ _ _ (fun b s' => b = true /\ K s' /\ (e <> rl -> e <> sl -> keep s s') /\ (is_media (ob_kind ob) = true -> s' = s))).
  { unfold before. w1. eapply sgetO; [done|]. cbv beta.
    destruct (ob_kind ob) eqn:Hk.
    - unfold ctx_before. rewrite Hty, Hl. w1. w1; [done|]. clear H.
      assert (HF : swp (do ob0 <- getO D o; foreach (fun c => do cb <- getO D c; tr D n (ob_lambda cb) t ;; ret tt) (ob_children ob0) ;; ret true)
        (fun b s' => b = true /\ K s' /\ (e <> rl -> e <> sl -> keep s s') /\ (is_media KContext = true -> s' = s)) s).
      { w1. eapply sgetO; [done|]. cbv beta. w1.
        apply wp_foreach_inv with (I := fun s' => K s' /\ (e <> rl -> e <> sl -> keep s s')).
        - split; [done|]. intros _ _. apply keep_refl.
        - intros c s1 Hc (HK1 & HP1). destruct (wo_children _ _ _ _ (wf_o _ _ WF _ _ Ho) _ Hc) as (cb & Hcb & Hcp).
          w1. eapply sgetO; [done|]. cbv beta. w1. eapply wp_mono; [apply IH; [done|]|].
          + apply (req_lam _ c); [done|]. tauto.
          + intros b s2 (G1 & _ & G3 & _). cbv beta. w1. split; [done|]. intros N1 N2. eapply keep_trans; [by apply HP1|].
            apply G3.
            * intros E. assert (c = d_settings D) as -> by (by eapply lam_inj). assert (cb = sb) as -> by congruence.
              destruct sb_kind as [_ Hsp]. assert (o = d_root D) as E2 by congruence. apply N1. rewrite Hlam. rewrite E2 in Ho. congruence.
            * intros E. exfalso. assert (c = d_root D) as -> by (by eapply lam_inj). assert (cb = rb) as -> by congruence.
              destruct rb_kind as [_ Hsp]. congruence.
        - intros s1 (H1 & H2). w1. done. }
      destruct Ht as [-> | ->]; exact HF.
    - by destruct (cd_switch D CD _ _ Ho).
    - unfold media_before. rewrite Hty. destruct Ht as [-> | ->]; w1; (split; [done|]); (split; [done|]); (split; [intros; apply keep_refl|done]).
    - unfold media_before. rewrite Hty. destruct Ht as [-> | ->]; w1; (split; [done|]); (split; [done|]); (split; [intros; apply keep_refl|done]). }
  intros b s1 (-> & HK1 & HP1 & HM1). cbn [negb]. w1. w1. w1. w1. w1. fold (commit e t s1).
  set (s3 := commit e t s1) in *.
  assert (Hie : inEvents D o e). { exists ob. split; [done|]. rewrite Hlam. by eapply lam_ev. }
  assert (HQ : forall s2, (forall e', evState s2 e' = if decide (inEvents D o e') then SLEEPING else evState s3 e') -> K s2 ->
     post s e t true s2).
  { intros s2 E2 HK2. split; [done|]. split; [by intros ->|]. split; [|split; [by intros ->|split; [|intros Hp; by destruct (Hp _ He)]]].
    2:{ intros _ _. by rewrite E2, decide_True. }
    intros N1 N2. assert (N2' : e <> rl). { intros E. by apply HnS, N2. }
    eapply keep_trans; [by apply HP1|].
    assert (E3 : forall o' ob', d_obj D !! o' = Some ob' -> e <> ob_lambda ob' -> evState s2 (ob_lambda ob') = evState s1 (ob_lambda ob')).
    { intros o' ob' Ho' Hne. rewrite E2, decide_False.
      - unfold s3. sts. by rewrite decide_False.
      - intros Hin. apply Hne. rewrite Hlam. f_equal. assert (o = o') as -> by (by eapply in_lam). congruence. }
    split; [by rewrite (E3 _ _ Hsb)|]. by rewrite (E3 _ _ Hrb). }
  assert (E4 : forall s2, (forall e', evState s2 e' = if decide (inEvents D o e') then SLEEPING else evState s3 e') ->
     forall e', evState s2 e' = if decide (inEvents D o e') then SLEEPING else evState s1 e').
  { intros s2 E2 e'. rewrite E2. destruct (decide (inEvents D o e')) as [|N]; [done|]. unfold s3. sts. rewrite decide_False; [done|]. by intros ->. }
  apply (wp_mono _ _ _ (fun b s2 => b = true /\ post s e t true s2)).
  2:{ intros b s2 (-> & H1). cbv beta iota. w1. done. }
  unfold after. w1. eapply sgetO; [done|]. cbv beta.
  assert (HMA : is_media (ob_kind ob) = true -> swp (media_after D o e ev t) (fun b s2 => b = true /\ post s e t true s2) s3).
  { intros Hm. assert (s1 = s) as -> by by apply HM1. 
    assert (Hp : is_Some (o_player (ostOf s o))). { apply (k_pl _ HK _ _ Ho Hm). by rewrite <- Hlam. }
    assert (HF : swp (assertm (bool_decide (o_player (ostOf s3 o) <> None)) "Media.cpp:370" ;; mediaDoStop D o ;; ret true)
      (fun b s2 => b = true /\ post s e t true s2) s3).
    { w1. w1. { apply bool_decide_eq_false in H. apply H. unfold s3. sts. by destruct Hp as [p ->]. }
      clear H. w1. eapply mediaDoStop_safe; [done|by unfold s3; sts|]. intros s2 F1 F2. w1. split; [done|]. apply HQ; [done|].
      eapply (K_stop o ob s s2); try done.
      - by apply E4.
      - intros _. rewrite F2. cbn. by rewrite decide_True.
      - intros o'. rewrite F2. cbn. unfold s3. sts. by destruct (decide (o = o')).
      - intros o' Hne. rewrite F2. cbn. rewrite decide_False by done. unfold s3. by sts.
      - rewrite F2. cbn. by rewrite decide_True. }
    unfold media_after. w1. w1. cbv zeta. rewrite Hty, Hl. destruct Ht as [-> | ->]; exact HF. }
  destruct (ob_kind ob) eqn:Hk; [|by destruct (cd_switch D CD _ _ Ho)|by apply HMA..].
  unfold ctx_after. rewrite Hty, Hl. w1. w1; [done|]. clear H.
  assert (HF : swp (doStop D o ;; ret true) (fun b s2 => b = true /\ post s e t true s2) s3).
  { w1. eapply doStop_safe; [done|]. intros s2 F1 F2. w1. split; [done|]. apply HQ; [done|].
    eapply (K_stop o ob s1 s2); try done.
    - by apply E4.
    - rewrite Hk. done.
    - intros o'. rewrite F2. cbn. unfold s3. sts. by destruct (decide (o = o')).
    - intros o' Hne. rewrite F2. cbn. rewrite decide_False by done. unfold s3. by sts.
    - rewrite F2. cbn. by rewrite decide_True. }
  destruct Ht as [-> | ->]; exact HF.
Qed.
Lemma tr_safe n : trS n.
Proof.
  induction n as [|n IH]; intros e t s HK HR; [by apply wp_tr_O || done|].
  pose proof HR as (ev & ob & He & Ho & Hreq). destruct (decide (ev_type ev = PRESENTATION)) as [Hty|Hty]; [|by eapply tr_other].
  destruct (isLambda ev) eqn:Hl; [|by eapply tr_anchor]. rewrite Hty in Hreq.
  destruct Hreq as [[_ Ht]|[? _]]; [|congruence]. destruct Ht as [-> |Ht]; [by eapply tr_start|by eapply tr_stop].
Qed.
End SafeInv.

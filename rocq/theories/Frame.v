(** Frame.v -- what the basic operations of the engine do to a state, field by
    field, plus the proof automation for [wp]. *)
From Verif Require Export Wf.
Open Scope string_scope.
Open Scope list_scope.

Notation pwp := (wp True True).   (* partial correctness *)

Ltac w1 :=
  lazymatch goal with
  | |- wp _ _ (bind _ _) _ _ => apply wp_bind
  | |- wp _ _ (ret _) _ _ => apply wp_ret
  | |- wp _ _ get _ _ => apply wp_get
  | |- wp _ _ (gets _) _ _ => apply wp_gets
  | |- wp _ _ (modify _) _ _ => apply wp_modify
  | |- wp _ _ (crashm _) _ _ => apply wp_crash
  | |- wp _ _ nofuel _ _ => apply wp_nofuel
  | |- wp _ _ (assertm _ _) _ _ => apply wp_assert; intros ?
  | |- wp _ _ (ofoption _ _) _ _ => apply wp_ofoption; intros
  | |- wp _ _ (whenm _ _) _ _ => apply wp_when; intros
  | |- wp _ _ (if ?b then _ else _) _ _ => apply wp_if; intros
  end; try exact I; cbv beta iota.
Ltac wgo := repeat w1.

Lemma wp_ok {S A} cr nf (m : M S A) Q s : 
  wp cr nf m Q s -> forall a s', m s = Ok a s' -> Q a s'.
Proof. unfold wp. intros H a s' E. rewrite E in H. exact H. Qed.
Lemma pwp_intro {S A} (m : M S A) (Q : A -> S -> Prop) s :
  (forall a s', m s = Ok a s' -> Q a s') -> pwp m Q s.
Proof. unfold wp. destruct (m s); auto. Qed.
Lemma pwp_ok_and {S A} (m : M S A) (Q : A -> S -> Prop) s :
  pwp m Q s -> pwp m (fun a s' => m s = Ok a s' /\ Q a s') s.
Proof. unfold wp. destruct (m s); auto. Qed.
Lemma wp_conj {S A} cr nf (m : M S A) (P Q : A -> S -> Prop) s :
  wp cr nf m P s -> wp cr nf m Q s -> wp cr nf m (fun a s' => P a s' /\ Q a s') s.
Proof. unfold wp. destruct (m s); auto. Qed.

(** ** Reading updated states. *)
Lemma estOf_upd_ev e f s e' :
  estOf (upd_ev e f s) e' = if decide (e = e') then f (estOf s e) else estOf s e'.
Proof.
  unfold estOf at 1, upd_ev; cbn. destruct (decide (e = e')) as [->|].
  - by rewrite lookup_total_insert.
  - by rewrite lookup_total_insert_ne.
Qed.
Lemma ostOf_upd_ob o f s o' :
  ostOf (upd_ob o f s) o' = if decide (o = o') then f (ostOf s o) else ostOf s o'.
Proof.
  unfold ostOf at 1, upd_ob; cbn. destruct (decide (o = o')) as [->|].
  - by rewrite lookup_total_insert.
  - by rewrite lookup_total_insert_ne.
Qed.
Lemma estOf_upd_ob o f s e : estOf (upd_ob o f s) e = estOf s e. Proof. done. Qed.
Lemma ostOf_upd_ev e f s o : ostOf (upd_ev e f s) o = ostOf s o. Proof. done. Qed.
Lemma estOf_log x s e : estOf (log x s) e = estOf s e. Proof. done. Qed.
Lemma ostOf_log x s o : ostOf (log x s) o = ostOf s o. Proof. done. Qed.
Lemma estOf_set_next x s e : estOf (set_next x s) e = estOf s e. Proof. done. Qed.
Lemma ostOf_set_next x s o : ostOf (set_next x s) o = ostOf s o. Proof. done. Qed.
Lemma estOf_set_focus x s e : estOf (set_focus x s) e = estOf s e. Proof. done. Qed.
Lemma ostOf_set_focus x s o : ostOf (set_focus x s) o = ostOf s o. Proof. done. Qed.
Lemma evState_param e k v s e' : evState (upd_ev e (es_set_param k v) s) e' = evState s e'.
Proof.
  unfold evState. rewrite estOf_upd_ev. destruct (decide (e = e')) as [->|]; done.
Qed.
Lemma evState_set e x s e' :
  evState (upd_ev e (es_set_state x) s) e' = if decide (e = e') then x else evState s e'.
Proof.
  unfold evState. rewrite estOf_upd_ev. destruct (decide (e = e')) as [->|]; done.
Qed.
Lemma evState_upd_ob o f s e : evState (upd_ob o f s) e = evState s e. Proof. done. Qed.
Lemma evState_log x s e : evState (log x s) e = evState s e. Proof. done. Qed.
Lemma evState_set_next x s e : evState (set_next x s) e = evState s e. Proof. done. Qed.
Lemma evState_set_focus x s e : evState (set_focus x s) e = evState s e. Proof. done. Qed.
Lemma slog_upd_ev e f s : s_log (upd_ev e f s) = s_log s. Proof. done. Qed.
Lemma slog_upd_ob o f s : s_log (upd_ob o f s) = s_log s. Proof. done. Qed.
Lemma slog_log x s : s_log (log x s) = x :: s_log s. Proof. done. Qed.
Lemma slog_next x s : s_log (set_next x s) = s_log s. Proof. done. Qed.
Lemma slog_focus x s : s_log (set_focus x s) = s_log s. Proof. done. Qed.

#[global] Hint Rewrite estOf_upd_ev ostOf_upd_ob estOf_upd_ob ostOf_upd_ev estOf_log ostOf_log
  estOf_set_next ostOf_set_next estOf_set_focus ostOf_set_focus evState_param evState_set
  evState_upd_ob evState_log evState_set_next evState_set_focus
  slog_upd_ev slog_upd_ob slog_log slog_next slog_focus : st.
Ltac sts := autorewrite with st.
Ltac sts_in H := autorewrite with st in H.

(** ** Atomic state changes. *)
Definition commit (e : eid) (t : trans) (s : st) : st :=
  log (OTrans e t) (upd_ev e (es_set_state (target t)) s).
Lemma evState_commit e t s e' :
  evState (commit e t s) e' = if decide (e = e') then target t else evState s e'.
Proof. unfold commit. by sts. Qed.
Lemma ostOf_commit e t s o : ostOf (commit e t s) o = ostOf s o.
Proof. done. Qed.
#[global] Hint Rewrite evState_commit ostOf_commit : st.

(** The parent of an object if it is a context. *)
Definition ctxParent (D : doc) (o : oid) : option oid :=
  match d_obj D !! o with
  | Some ob =>
    match ob_parent ob with
    | Some p => match d_obj D !! p with
                | Some pb => match ob_kind pb with KContext => Some p | _ => None end
                | None => None
                end
    | None => None
    end
  | None => None
  end.

(** Everything but the listed fields is unchanged. *)
Record same_ev (s s' : st) : Prop := { se_ev : s_ev s' = s_ev s }.

Definition awk (D : doc) (o : oid) (k : Z) (o' : oid) : Z :=
  if decide (ctxParent D o = Some o') then k else 0%Z.

Section Frame.
Context (D : doc).

Lemma wp_getO (cr nf : Prop) o (Q : obj -> st -> Prop) s :
  (d_obj D !! o = None -> cr) -> (forall ob, d_obj D !! o = Some ob -> Q ob s) ->
  wp cr nf (getO D o) Q s.
Proof. intros. unfold getO. w1; auto. Qed.
Lemma wp_getE (cr nf : Prop) e (Q : evt -> st -> Prop) s :
  (d_evt D !! e = None -> cr) -> (forall ev, d_evt D !! e = Some ev -> Q ev s) ->
  wp cr nf (getE D e) Q s.
Proof. intros. unfold getE. w1; auto. Qed.

Lemma wp_addAwake (cr nf : Prop) o k (Q : unit -> st -> Prop) s :
  (d_obj D !! o = None -> cr) ->
  (forall ob p, d_obj D !! o = Some ob -> ob_parent ob = Some p -> d_obj D !! p = None -> cr) ->
  (forall s', s_ev s' = s_ev s -> s_log s' = s_log s -> s_focus s' = s_focus s ->
     s_next s' = s_next s -> s_w s' = s_w s -> s_h s' = s_h s ->
     (forall o', ostOf s' o' = os_set_awake (o_awake (ostOf s o') + awk D o k o')%Z (ostOf s o')) ->
     Q tt s') ->
  wp cr nf (addAwake D o k) Q s.
Proof.
  intros H1 H2 HQ. unfold addAwake. w1. apply wp_getO; [auto|]. intros ob Ho.
  assert (Hid : ctxParent D o = None -> Q tt s).
  { intros Hc. apply HQ; try done. intros o'. unfold awk. rewrite Hc.
    rewrite decide_False by done. rewrite Z.add_0_r. by destruct (ostOf s o'). }
  unfold ctxParent in Hid. rewrite Ho in Hid.
  destruct (ob_parent ob) as [p|] eqn:Hp; [|w1; auto].
  unfold isContext. w1. w1. apply wp_getO; [eauto|]. intros pb Hpb. w1. w1.
  - apply bool_decide_eq_true in H. w1. apply HQ; try done. intros o'. sts.
    unfold awk, ctxParent. rewrite Ho, Hp, Hpb, H.
    destruct (decide (p = o')) as [->|Hne].
    + rewrite decide_True by done. done.
    + rewrite decide_False by congruence. rewrite Z.add_0_r. by destruct (ostOf s o').
  - apply bool_decide_eq_false in H. apply Hid. rewrite Hpb. by destruct (ob_kind pb).
Qed.

Lemma wp_doStart (cr nf : Prop) o (Q : unit -> st -> Prop) s :
  (d_obj D !! o = None -> cr) ->
  (forall ob p, d_obj D !! o = Some ob -> ob_parent ob = Some p -> d_obj D !! p = None -> cr) ->
  (forall s', s_ev s' = s_ev s -> s_log s' = s_log s -> s_focus s' = s_focus s ->
     (s_next s' = s_next s \/ s_next s' = Some "") -> s_w s' = s_w s -> s_h s' = s_h s ->
     (forall o', ostOf s' o' =
        os_set_time (if decide (o = o') then 0%N else o_time (ostOf s o'))
        (os_set_awake (o_awake (ostOf s o') + awk D o 1 o')%Z (ostOf s o'))) ->
     Q tt s') ->
  wp cr nf (doStart D o) Q s.
Proof.
  intros H1 H2 HQ. unfold doStart. w1. w1. w1. apply wp_addAwake; [auto|eauto|].
  intros s' E1 E2 E3 E4 E5 E6 E7. w1. w1.
  assert (E8 : forall o', ostOf s' o' =
        os_set_time (if decide (o = o') then 0%N else o_time (ostOf s o'))
        (os_set_awake (o_awake (ostOf s o') + awk D o 1 o')%Z (ostOf s o'))).
  { intros o'. rewrite E7. sts. destruct (decide (o = o')) as [->|].
    - done. - destruct (ostOf s o'); reflexivity. }
  w1.
  - unfold scheduleFocus. w1. apply HQ; auto.
  - apply HQ; auto.
Qed.

Definition inEvents (o : oid) (e : eid) : Prop :=
  exists ob, d_obj D !! o = Some ob /\ e ∈ ob_events ob.
#[global] Instance inEvents_dec o e : Decision (inEvents o e).
Proof.
  unfold inEvents. destruct (d_obj D !! o) as [ob|].
  - destruct (decide (e ∈ ob_events ob)).
    + left. eauto.
    + right. intros (? & [= <-] & ?). done.
  - right. intros (? & ? & ?). done.
Defined.

Lemma wp_resets (cr nf : Prop) l (Q : unit -> st -> Prop) s :
  (forall s', s_ob s' = s_ob s -> s_log s' = s_log s -> s_focus s' = s_focus s ->
     s_next s' = s_next s -> s_w s' = s_w s -> s_h s' = s_h s ->
     (forall e, estOf s' e = if decide (e ∈ l) then es_set_state SLEEPING (estOf s e) else estOf s e) ->
     Q tt s') ->
  wp cr nf (foreach (fun e => modify (upd_ev e (es_set_state SLEEPING))) l) Q s.
Proof.
  revert s. induction l as [|x l IH]; intros s HQ; cbn [foreach].
  - w1. by apply HQ.
  - w1. w1. apply IH. intros s' E1 E2 E3 E4 E5 E6 E7. apply HQ; auto.
    intros e. rewrite E7. sts.
    destruct (decide (x = e)) as [->|Hne].
    + rewrite (decide_True (P := e ∈ e :: l)) by left.
      destruct (decide (e ∈ l)); done.
    + destruct (decide (e ∈ l)).
      * rewrite decide_True by (by right). done.
      * rewrite decide_False; [done|]. set_solver.
Qed.

Lemma wp_doStop (cr nf : Prop) o (Q : unit -> st -> Prop) s :
  (d_obj D !! o = None -> cr) ->
  (forall ob p, d_obj D !! o = Some ob -> ob_parent ob = Some p -> d_obj D !! p = None -> cr) ->
  (forall s', s_log s' = s_log s -> s_focus s' = s_focus s ->
     s_next s' = s_next s -> s_w s' = s_w s -> s_h s' = s_h s ->
     (forall e, estOf s' e = if decide (inEvents o e) then es_set_state SLEEPING (estOf s e)
                             else estOf s e) ->
     (forall o', ostOf s' o' =
        let x := os_set_awake (o_awake (ostOf s o') + awk D o (-1) o')%Z (ostOf s o') in
        if decide (o = o') then os_set_time TIME_NONE (os_set_delayed [] x) else x) ->
     Q tt s') ->
  wp cr nf (doStop D o) Q s.
Proof.
  intros H1 H2 HQ. unfold doStop. w1. apply wp_getO; [auto|]. intros ob Ho. w1. w1. w1.
  apply wp_resets. intros s1 A1 A2 A3 A4 A5 A6 A7. w1. w1.
  apply wp_addAwake; [auto|eauto|]. intros s2 B1 B2 B3 B4 B5 B6 B7.
  apply HQ.
  - rewrite B2. by sts.
  - by rewrite B3.
  - by rewrite B4.
  - by rewrite B5.
  - by rewrite B6.
  - intros e. unfold estOf at 1. rewrite B1. cbn. fold (estOf s1 e). rewrite A7.
    unfold inEvents.
    destruct (decide (e ∈ ob_events ob)).
    + rewrite decide_True by eauto. done.
    + rewrite decide_False; [done|]. intros (? & E & ?). congruence.
  - intros o'. rewrite B7. sts. unfold ostOf. rewrite A1.
    repeat rewrite lookup_total_insert. cbn.
    destruct (decide (o = o')) as [->|].
    + rewrite lookup_total_insert. reflexivity.
    + rewrite lookup_total_insert_ne by done. done.
Qed.
End Frame.

(** ** Property assignment only touches the object's properties and player, and
    the focus variable. *)
Record pframe (o : oid) (s s' : st) : Prop := mkPframe {
  pf_ev : s_ev s' = s_ev s;
  pf_log : s_log s' = s_log s;
  pf_next : s_next s' = s_next s;
  pf_w : s_w s' = s_w s;
  pf_h : s_h s' = s_h s;
  pf_other : forall o', o' <> o -> ostOf s' o' = ostOf s o';
  pf_time : o_time (ostOf s' o) = o_time (ostOf s o);
  pf_delayed : o_delayed (ostOf s' o) = o_delayed (ostOf s o);
  pf_awake : o_awake (ostOf s' o) = o_awake (ostOf s o);
  pf_links : o_links_on (ostOf s' o) = o_links_on (ostOf s o);
  pf_selected : o_selected (ostOf s' o) = o_selected (ostOf s o);
  pf_player : is_Some (o_player (ostOf s' o)) <-> is_Some (o_player (ostOf s o))
}.
Lemma pframe_refl o s : pframe o s s.
Proof. by split. Qed.
Lemma pframe_trans o s1 s2 s3 : pframe o s1 s2 -> pframe o s2 s3 -> pframe o s1 s3.
Proof.
  intros [] []. split; try congruence.
  - intros o' Hne. rewrite pf_other1, pf_other0; auto.
  - rewrite pf_player1. exact pf_player0.
Qed.
Lemma pframe_evState o s s' e : pframe o s s' -> evState s' e = evState s e.
Proof. intros H. unfold evState, estOf. by rewrite (pf_ev _ _ _ H). Qed.
Lemma pframe_focus o x s : pframe o s (set_focus x s).
Proof. by split. Qed.
Lemma pframe_props o f s : pframe o s (upd_ob o (fun x => os_set_props (f x) x) s).
Proof. split; try done; intros; sts; rewrite ?decide_True by done; try done.
  by rewrite decide_False. Qed.
Lemma pframe_player o f s : pframe o s (upd_ob o (fun x => os_set_player (f <$> o_player x) x) s).
Proof. split; try done; intros; sts; rewrite ?decide_True by done; try done.
  - by rewrite decide_False. - cbn. by rewrite fmap_is_Some. Qed.

Section Frame2.
Context (D : doc).

Lemma wp_foreach_trans {A} (R : st -> st -> Prop) (f : A -> ME unit) l s :
  (forall s, R s s) -> (forall s1 s2 s3, R s1 s2 -> R s2 s3 -> R s1 s3) ->
  (forall x s, x ∈ l -> pwp (f x) (fun _ s' => R s s') s) ->
  pwp (foreach f l) (fun _ s' => R s s') s.
Proof.
  intros Hr Ht Hf. apply (wp_foreach_inv True True f l (fun s' => R s s')); auto.
  intros x s' Hx HR. eapply wp_mono; [apply Hf, Hx|]. intros [] s'' H. eapply Ht; eauto.
Qed.

Lemma set_pframe n :
  (forall o k v d s, pwp (mediaSet D n o k v d) (fun _ s' => pframe o s s') s) /\
  (forall o k v s, pwp (playerSet D n o k v) (fun _ s' => pframe o s s') s).
Proof.
  induction n as [|n [IH1 IH2]]; [split; intros; exact I|]. split; intros o k v.
  - intros d s. cbn [mediaSet]. w1. apply wp_getO; [done|]. intros ob Ho. w1.
    eapply (wp_mono _ _ _ (fun _ s' => pframe o s s')).
    { w1; [w1; apply pframe_focus | apply pframe_refl]. }
    intros [] s1 F1; cbv beta in F1. cbv beta. w1. w1. w1. w1. w1. unfold objSetProp. w1.
    assert (F2 : pframe o s (upd_ob o (fun x => os_set_props (<[k:=v]> (o_props x)) x) s1)).
    { eapply pframe_trans; [exact F1|]. apply pframe_props. }
    set (s2 := upd_ob _ _ s1) in *. w1. w1.
    destruct (o_player (ostOf s2 o)) as [p|]; [|by w1].
    w1.
    + unfold animSchedule. repeat (w1; try done).
    + eapply wp_mono; [apply IH2|]. intros [] s3 F3; cbv beta in F3. eapply pframe_trans; eauto.
  - intros s. cbn [playerSet]. w1. w1.
    destruct (o_player (ostOf s o)) as [p|]; [|exact I].
    w1. eapply (wp_mono _ _ _ (fun _ s' => pframe o s s')).
    { destruct (pset_value p k v) as [[code v']|]; [|w1; apply pframe_refl].
      destruct (doset_own _ _ _ _ _ _); try exact I.
      w1. unfold updPlayer. w1.
      eapply wp_mono.
      - apply (wp_foreach_trans (pframe o)); [apply pframe_refl | apply pframe_trans |].
        intros x s' _. apply IH1.
      - intros [] s' F; cbv beta in F. cbv beta in F. eapply pframe_trans; [|exact F]. apply pframe_player. }
    intros [] s1 F1; cbv beta in F1. cbv beta. unfold updPlayer. w1. eapply pframe_trans; [exact F1|].
    apply pframe_player.
Qed.
Lemma mediaSetProperty_pframe o k v d s :
  pwp (mediaSetProperty D o k v d) (fun _ s' => pframe o s s') s.
Proof. apply set_pframe. Qed.
Lemma playerSetProperty_pframe o k v s :
  pwp (playerSetProperty D o k v) (fun _ s' => pframe o s s') s.
Proof. apply set_pframe. Qed.
Lemma setProperty_pframe o k v d s :
  pwp (setProperty D o k v d) (fun _ s' => pframe o s s') s.
Proof.
  unfold setProperty. w1. apply wp_getO; [done|]. intros ob Ho. w1.
  - apply mediaSetProperty_pframe.
  - w1. w1. unfold objSetProp. w1. apply pframe_props.
Qed.

(** createPlayer: as a property assignment, but a player appears. *)
Record cframe (o : oid) (s s' : st) : Prop := mkCframe {
  cf_ev : s_ev s' = s_ev s;
  cf_log : s_log s' = OPlayer o true :: s_log s;
  cf_next : s_next s' = s_next s;
  cf_w : s_w s' = s_w s;
  cf_h : s_h s' = s_h s;
  cf_other : forall o', o' <> o -> ostOf s' o' = ostOf s o';
  cf_time : o_time (ostOf s' o) = o_time (ostOf s o);
  cf_delayed : o_delayed (ostOf s' o) = o_delayed (ostOf s o);
  cf_awake : o_awake (ostOf s' o) = o_awake (ostOf s o);
  cf_links : o_links_on (ostOf s' o) = o_links_on (ostOf s o);
  cf_selected : o_selected (ostOf s' o) = o_selected (ostOf s o);
  cf_player : is_Some (o_player (ostOf s' o));
  cf_player0 : o_player (ostOf s o) = None
}.
Lemma createPlayer_cframe o s : pwp (createPlayer D o) (fun _ s' => cframe o s s') s.
Proof.
  unfold createPlayer. w1. w1. w1. w1.
  apply bool_decide_eq_true in H.
  destruct (choose_player _ _ _ _) as [cls|]; [|exact I].
  destruct (reset_attrs _ _ _ _) as [a| |]; try exact I.
  w1. unfold objSetProp. w1. w1. w1. w1. w1.
  match goal with |- context [modify (upd_ob o (os_set_player _))] => idtac end || idtac.
  w1. w1. w1. w1.
  match goal with |- wp _ _ _ _ ?x => set (s1 := x) in * end.
  assert (F1 : cframe o s s1).
  { subst s1. split; try done; intros; sts;
      repeat (rewrite decide_True by done); repeat (rewrite decide_False by done); try done. }
  clearbody s1. w1.
  eapply wp_mono.
  { apply (wp_foreach_trans (pframe o)); [apply pframe_refl | apply pframe_trans |].
    intros x s' _. w1. w1. destruct (_ !! x); [apply playerSetProperty_pframe | w1; apply pframe_refl]. }
  intros [] s2 F2; cbv beta in F2. cbv beta in F2. unfold updPlayer. w1.
  assert (F3 : pframe o s1 (upd_ob o (λ x, os_set_player
      ((λ p, p_set_eos false (p_set_time 0%N (p_set_state POccurring p))) <$> o_player x) x) s2)).
  { eapply pframe_trans; [exact F2|]. apply pframe_player. }
  destruct F1, F3. split; try congruence.
  - intros o' Hne. rewrite pf_other0, cf_other0; auto.
  - by rewrite pf_player0.
Qed.

Lemma attribStart_pframe o e ev s :
  d_evt D !! e = Some ev ->
  pwp (attribStart D o e) (fun _ s' => exists s1 v d, pframe o s s1 /\ s' = sched o e STOP v d s1) s.
Proof.
  intros He. unfold attribStart. w1. apply wp_getE; [done|]. intros ev' He'. w1.
  unfold getParam. w1. w1. w1. w1. w1. w1.
  eapply (wp_mono _ _ _ (fun _ s' => s' = s)).
  { destruct (_ !! "duration"); [|by w1]. unfold parse_time. destruct (try_parse_time _); by w1. }
  intros d s' ->. cbv beta. w1. eapply wp_mono; [apply setProperty_pframe|].
  intros [] s1 F; cbv beta in F. cbv beta. unfold addDelayed. w1. eauto 6.
Qed.

Lemma wp_mediaDoStop (cr nf : Prop) o (Q : unit -> st -> Prop) s :
  (d_obj D !! o = None -> cr) ->
  (forall ob p, d_obj D !! o = Some ob -> ob_parent ob = Some p -> d_obj D !! p = None -> cr) ->
  is_Some (o_player (ostOf s o)) ->
  (forall s', s_log s' = OPlayer o false :: s_log s -> s_focus s' = s_focus s ->
     s_next s' = s_next s -> s_w s' = s_w s -> s_h s' = s_h s ->
     (forall e, estOf s' e = if decide (inEvents D o e) then es_set_state SLEEPING (estOf s e)
                             else estOf s e) ->
     (forall o', ostOf s' o' =
        let x := os_set_awake (o_awake (ostOf s o') + awk D o (-1) o')%Z (ostOf s o') in
        if decide (o = o') then os_set_player None (os_set_time TIME_NONE (os_set_delayed [] x)) else x) ->
     Q tt s') ->
  wp cr nf (mediaDoStop D o) Q s.
Proof.
  intros H1 H2 [p Hp] HQ. unfold mediaDoStop. w1. w1. rewrite Hp. w1. w1. w1. w1.
  apply wp_doStop; auto. intros s' E1 E2 E3 E4 E5 E6 E7. apply HQ; auto.
  intros o'. rewrite E7. sts. destruct (decide (o = o')) as [->|]; reflexivity.
Qed.
End Frame2.

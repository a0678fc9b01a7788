(** CompileAct.v -- C42: what one bind becomes. *)
From Verif Require Import BuildInv BuildOps BuildSpec BuildFacts Frame ParserFrame ParserEnd FactsValues.
From Verif Require Export CompilePred CompileMove.
Open Scope string_scope.
Open Scope list_scope.

Definition bindIs (b : xml) (e : elt) : Prop := el_tag e = "bind" /\ (forall k, attr e k = aget k (x_attrs b)) /\ exists l, el_params e = Some l /\ forall n, sget n l = paramOf b n.
Lemma bind_role b e : bindIs b e -> attr0 e "role" = attrOf "role" b.
Proof. intros (_ & H & _). unfold attr0. by rewrite H. Qed.
Lemma denotes_ext f f' g g' h h' r v : (forall n, f n = f' n) -> (forall n, g n = g' n) -> (forall n, h n = h' n) -> denotes f g h r v -> denotes f' g' h' r v.
Proof.
  intros A B C [s Hs|n w H Hw|n m w u H Hw Hu|n m w H Hw Hu|n H1 H2].
  - by apply D_plain.
  - apply D_param; [|done]. by rewrite <- A, <- B.
  - eapply D_property; [|exact Hw|by rewrite <- C]. by rewrite <- A, <- B.
  - eapply D_unbound; [|exact Hw|by rewrite <- C]. by rewrite <- A, <- B.
  - apply D_unknown; [by rewrite <- A|by rewrite <- B].
Qed.
Lemma resolve_denotes b e y params gh ref v : bindIs b e -> (forall n, sget n params = paramOf y n) -> resolveParameter ref (default [] (el_params e)) params gh = v -> denotes (paramOf b) (paramOf y) (fun m => sget m gh) ref v.
Proof.
  intros (_ & _ & l & Hl & Hs) Hy H. apply f_C31 in H. rewrite Hl in H. cbn in H. eapply denotes_ext; [exact Hs|exact Hy|intros; reflexivity|exact H].
Qed.
Lemma resolve_empty a b c : resolveParameter "" a b c = "". Proof. done. Qed.

(** ** The names bound to roles the connector does not have. *)
Lemma fullId_ok e s : pw (fullId e) (fun n s' => s' = s /\ nameOf (p_graph s) e n) s.
Proof.
  unfold fullId. p1. apply pw_lift, wp_gevt. intros ev Hev. replace (p_set_graph (p_graph s) s) with s by (by destruct s). p1. apply pw_gobj. intros ob Ho. p1. split; [done|]. exists ev, ob. split; [done|]. split; [done|].
  destruct (ev_type ev); try done. destruct (String.eqb_spec (ev_id ev) "@lambda") as [->|]; done.
Qed.
Lemma last_snoc {A} (l : list A) (a : A) : List.last (map Some (l ++ [a])) None = Some a.
Proof. rewrite map_app. cbn. by rewrite List.last_last. Qed.
Lemma lastBind_cons b l m : lastBind (b :: l) m = match lastBind l m with Some b' => Some b' | None => if String.eqb (attrOf "role" b) m then Some b else None end.
Proof.
  unfold lastBind. cbn [List.filter]. destruct (String.eqb (attrOf "role" b) m); [|by destruct (List.last _ None)]. cbn [map].
  destruct (List.filter (fun b0 : xml => (attrOf "role" b0 =? m)%string) l) as [|b' l'] eqn:E; [done|]. destruct (exists_last (l := b' :: l') ltac:(done)) as (l2 & a & ->). 
  change (Some b :: map Some (l2 ++ [a])) with (map Some ((b :: l2) ++ [a])). by rewrite !last_snoc.
Qed.
Lemma bindTable_ok x k c s : live x s -> forall B l, Forall2 bindIs B l -> forall acc, pw (bindTable k c l acc) (fun t s' => s' = s /\ forall m,
  match lastBind B m with Some b => exists e n, sget m t = Some ("$" ++ n)%string /\ designates (p_graph s) x c b e /\ nameOf (p_graph s) e n | None => sget m t = sget m acc end) s.
Proof.
  intros L B l F. induction F as [|b e B l Hb F IH]; intros acc; cbn [bindTable]; [by p1|].
  p1. eapply pw_mono; [apply (interface_ok x k c e b s L); [by rewrite (proj1 Hb)|apply Hb]|]. intros r s' [-> Hd]. cbv beta. p1. eapply pw_mono; [apply fullId_ok|]. intros n s' [-> Hn]. cbv beta.
  eapply pw_mono; [apply IH|]. intros t s' [-> Ht]. split; [done|]. intros m. specialize (Ht m). rewrite lastBind_cons. destruct (lastBind B m) as [b'|]; [done|].
  rewrite Ht, sget_sset, (bind_role _ _ Hb). destruct (String.eqb_spec (attrOf "role" b) m) as [<-|Hne].
  - eauto.
  - done.
Qed.

(** ** The condition or action. *)
Lemma kg_roleAction k c p t g x : kg (roleAction k c p t g x).
Proof. intros s I. eapply pw_mono; [by apply roleAction_ok|]. by intros a s' [H _]. Qed.
Lemma km_roleAction k c p t g x : km (roleAction k c p t g x).
Proof. apply km_make; [apply kl_roleAction|apply kw_roleAction|apply kg_roleAction|apply kn_roleAction|unfold roleAction; kp|unfold roleAction; kct|apply kx_roleAction]. Qed.
Lemma event_in g o ob e ev : GInv g -> g_obj g !! o = Some ob -> e ∈ ob_events ob -> g_evt g !! e = Some ev -> ev_obj ev = o.
Proof. intros I Ho He Hev. destruct (oi_events _ _ _ (gi_o _ I _ _ Ho) _ He) as (ev' & Hev' & Hx). congruence. Qed.
Lemma roleAction_bind x k c params tests gh y b r rl e A cm ce s : live x s -> bindIs b e -> roleIs r rl -> (forall n, sget n params = paramOf y n) ->
  p_cache s !! cm = Some ce -> el_tag ce = "causalConnector" -> rg 1 s (Some cm) (A, r) rl ->
  pw (roleAction k c params tests gh (rl, e)) (fun a s' => compiledBind (p_graph s') x c y (fun m => sget m gh) b r a /\ if isCondition r then guarded (fun m => sget m tests) A (ac_pred a) else ac_pred a = None) s.
Proof.
  intros L Hb (R1 & R2 & R3 & R4 & R5 & R6 & R7) Hy Hcm Hct HG. pose proof (resolve_denotes b e y params gh) as RD.
  assert (M : pw (roleAction k c params tests gh (rl, e)) (fun _ s' => mv s s') s) by (apply km_roleAction, L).
  assert (G : pw (roleAction k c params tests gh (rl, e)) (fun a s' => mv s s' -> compiledBind (p_graph s') x c y (fun m => sget m gh) b r a /\ if isCondition r then guarded (fun m => sget m tests) A (ac_pred a) else ac_pred a = None) s).
  2: { eapply pw_mono; [apply pw_conj; [exact M|exact G]|]. intros a s' [H1 H2]. by apply H2. }
  clear M. unfold roleAction. p1. eapply (pw_mono _ (fun o s' => s' = s /\ if isCondition r then guarded (fun m => sget m tests) A (final tests o) else o = None)).
  { rewrite <- R2. destruct (rl_cond rl) eqn:Ec; [|by p1]. destruct (HG Ec) as (G & G1 & G2). eapply pw_mono; [by eapply obtain_ok|]. intros o s' [-> Ho]. split; [done|]. by eapply guarded_ok. }
  intros pred s1 [-> Hpred]. cbv beta. rename L into L1. rename s into s1. p1. eapply pw_mono; [apply (interface_ok x k c e b s1 L1); [by rewrite (proj1 Hb)|apply Hb]|]. intros ev0 s' [-> Hd]. cbv beta.
  p1. apply pw_lift, wp_gevt. intros ev Hev. replace (p_set_graph (p_graph s1) s1) with s1 by (by destruct s1). cbv zeta. p1.
  set (res := fun s0 => resolveParameter s0 (default [] (el_params e)) params gh).
  eapply (pw_mono _ (fun ee s' => mv s1 s' /\ forall ty, ty = rl_type rl -> match ty with
    | PRESENTATION => fst ee = ev0 /\ ev_type ev = PRESENTATION /\ snd ee = ""
    | ATTRIBUTION => fst ee = ev0 /\ ev_type ev = ATTRIBUTION /\ snd ee = res (rl_value rl)
    | SELECTION => ev_id ev = "@lambda" /\ ev_type ev = PRESENTATION /\ snd ee = res (rl_key rl) /\ exists ev', g_evt (p_graph s') !! fst ee = Some ev' /\ ev_type ev' = SELECTION /\ ev_obj ev' = ev_obj ev /\ ev_id ev' = snd ee
    | LOOKAT => snd ee = "" /\ exists ev', g_evt (p_graph s') !! fst ee = Some ev' /\ ev_type ev' = LOOKAT /\ ev_obj ev' = ev_obj ev /\ ev_id ev' = ev_id ev
    end)).
  { pose proof (pi_g _ _ _ _ (lv_i _ _ L1)) as I1.
    assert (AE : forall t v, t <> PRESENTATION -> km (lift (addEvent (ev_obj ev) t v 0 TIME_NONE ""))).
    { intros t v Ht. apply km_make; [apply kl_lift|apply kw_lift|apply kg_lift; intros; by apply gsm_addEvent|apply kn_lift; intros; apply nk_addEvent; by left|kp|kct|apply kx_lift]. }
    assert (SP : forall y0 v, km (lift (gsetParameter y0 "key" v))).
    { intros y0 v. apply km_make; [apply kl_lift|apply kw_lift|apply kg_lift; intros; by apply gsm_setParameter|apply kn_lift; intros; apply nk_setParameter|kp|kct|apply kx_lift]. }
    destruct (rl_type rl) eqn:Et.
    - p1. p1. match goal with Hz : bool_decide _ = true |- _ => apply bool_decide_eq_true in Hz end. p1. split; [by apply mv_refl|]. intros ty ->. done.
    - p1. p1. match goal with Hz : bool_decide _ = true |- _ => apply bool_decide_eq_true in Hz end. p1. split; [by apply mv_refl|]. intros ty ->. done.
    - p1. p1. match goal with Hz : negb _ = true |- _ => rename Hz into HC end.
      assert (HE : ev_id ev = "@lambda" /\ ev_type ev = PRESENTATION).
      { destruct (designates_type _ _ _ _ _ I1 Hd) as (ev2 & Hev2 & Hty). assert (ev2 = ev) as -> by congruence. destruct (String.eqb_spec (ev_id ev) "@lambda") as [Hl|Hl]; destruct Hty as [Hty|Hty]; rewrite Hty in HC; try done; vm_compute in HC; discriminate HC. }
      p1. eapply pw_mono; [apply AE; [done|exact I1]|]. intros [] s2 M2. cbv beta. p1. apply pw_getEvent. intros yy ob Ho Hyy. p1. p1. subst yy. destruct Hyy as (Hin & ev' & Hev' & H1 & H2).
      assert (I2 : GInv (p_graph s2)) by (eapply gg_inv; apply (mv_g _ _ M2)). p1. eapply pw_mono; [by apply SP|]. intros [] s3 M3. cbv beta. p1. split; [by eapply mv_trans|]. intros ty ->. split; [apply HE|]. split; [apply HE|]. split; [done|].
      exists ev'. cbn [fst snd]. split; [apply (gx_evt _ _ (tm_ext _ _ (gm_tm _ _ (mv_gm _ _ I2 M3)))); exact Hev'|]. split; [done|]. split; [by eapply event_in|done].
    - p1. eapply pw_mono; [apply AE; [done|exact I1]|]. intros [] s2 M2. cbv beta. p1. apply pw_getEvent. intros yy ob Ho Hyy. p1. p1. subst yy. destruct Hyy as (Hin & ev' & Hev' & H1 & H2).
      assert (I2 : GInv (p_graph s2)) by (eapply gg_inv; apply (mv_g _ _ M2)). p1. split; [done|]. intros ty ->. split; [done|]. exists ev'. cbn [fst snd]. split; [done|]. split; [done|]. split; [by eapply event_in|done]. }
  intros [e1 v1] s2 [M2 H2]. cbv beta in *. cbn [fst snd] in *. p1. intros _. specialize (H2 _ eq_refl). pose proof (mv_gm _ _ (pi_g _ _ _ _ (lv_i _ _ L1)) M2) as G2.
  split; [|destruct (isCondition r); [exact Hpred|subst pred; done]]. split; cbn [ac_evt ac_tr ac_value ac_dur ac_delay].
  - exists ev0, ev, (rl_type rl). split; [by eapply designates_gm|]. split; [by apply (gx_evt _ _ (tm_ext _ _ (gm_tm _ _ G2)))|]. split; [done|]. destruct (rl_type rl).
    + destruct H2 as (H2 & H3 & H4). split; [done|]. split; [done|]. specialize (R7 eq_refl). destruct (isCondition r); [rewrite H4; unfold res; rewrite R7; done|]. destruct R7 as [R7 R8]. split; [done|]. apply (RD _ _ Hb Hy). rewrite H4, <- R8. done.
    + done.
    + destruct H2 as (H2 & H3 & H4 & ev' & H5 & H6 & H7 & H8). split; [done|]. split; [done|]. exists ev'. split; [done|]. split; [done|]. split; [done|]. split; [done|]. apply (RD _ _ Hb Hy). rewrite H4, <- (R6 eq_refl). done.
    + done.
  - rewrite R4. destruct (isCondition r); [done|]. by apply (RD _ _ Hb Hy).
  - rewrite R5. destruct (isCondition r); [done|]. by apply (RD _ _ Hb Hy).
Qed.

(** FactsTerm.v -- the property theorems of Props_Term.v (C11), proved. *)
From Verif Require Export TermApi Witness.
Open Scope string_scope.
Open Scope list_scope.
Open Scope m_scope.

Lemma f_C11 D : wf_doc D -> forall a, valid_evt D (ac_evt a) -> acyclicFrom D (ac_evt a, ac_tr a) ->
  exists n0, forall s, reach D s -> evalAction D n0 a s <> NoFuel /\ forall n, n0 <= n -> evalAction D n a s = evalAction D n0 a s.
Proof.
  intros WF a Hv Ha. destruct (eval_terminates D a WF Hv Ha) as [n0 H]. exists n0. intros s Hs. split; [by apply H|].
  intros n Hn. apply fuel_loop; [done|]. by apply H.
Qed.
Lemma f_C11_api D : wf_doc D -> noCycle D -> exists n0, forall n, n0 <= n -> forall f, freach f ->
  (forall s, f_doc f = Some (D, s) ->
     (forall d, ftick n0 d f <> NoFuel /\ ftick n d f = ftick n0 d f) /\
     (forall k p, fkey n0 k p f <> NoFuel /\ fkey n k p f = fkey n0 k p f) /\
     (fstop n0 f <> NoFuel /\ fstop n f = fstop n0 f)) /\
  (forall F s, goodFile F -> F (f_w f) (f_h f) (f_focus f) = Some (D, s) ->
     fstart n0 F f <> NoFuel /\ fstart n F f = fstart n0 F f).
Proof.
  intros Hwf Hc. destruct (eval_uniform D Hwf Hc) as [n1 H1]. pose proof Hwf as [rank WF].
  destruct (map_bound (d_obj D) (fun o _ => S (rank o))) as [R HR].
  assert (Hev : forall a s, valid_evt D (ac_evt a) -> BInv D s -> evalAction D (n1 + (R + R + 3)) a s <> NoFuel).
  { intros a s Hv Hs. apply H1; [lia|done|done]. }
  assert (Hrk : forall o ob, d_obj D !! o = Some ob -> S (rank o) <= n1 + (R + R + 3)).
  { intros o ob Ho. pose proof (HR _ _ Ho). lia. }
  assert (Htr : forall o ob s, d_obj D !! o = Some ob -> BInv D s -> tr D (n1 + (R + R + 3)) (ob_lambda ob) START s <> NoFuel).
  { intros o ob s Ho Hs E. destruct (lambda_evt D rank WF _ _ Ho) as (ev & He & Hl & Hob).
    assert (HT : twp (tr D (n1 + (R + R + 3)) (ob_lambda ob) START) (fun _ _ => True) s).
    { eapply (start_t D rank WF R HR); eauto. rewrite Hob. pose proof (HR _ _ Ho). lia. }
    unfold wp in HT. by rewrite E in HT. }
  exists (n1 + (R + R + 3)). intros n Hn f Hf.
  assert (HN : forall A (m : nat -> MF A), (forall k k', k <= k' -> Fuel.ext (m k) (m k')) ->
     twp (m (n1 + (R + R + 3))) (fun _ _ => True) f ->
     m (n1 + (R + R + 3)) f <> NoFuel /\ m n f = m (n1 + (R + R + 3)) f).
  { intros A m Hm HT. assert (E : m (n1 + (R + R + 3)) f <> NoFuel) by (intros E; unfold wp in HT; by rewrite E in HT).
    split; [done|]. by apply (Hm _ _ Hn). }
  apply freach_inv in Hf as [He Hd]. split.
  - intros s Ed. rewrite Ed in Hd. destruct Hd as (_ & _ & Hr). pose proof (BInv_reach D rank WF s Hr) as HB.
    split; [intros d; apply (HN _ (fun n => ftick n d)); [intros; by apply ext_ftick|by eapply ftick_t]|].
    split; [intros k p; apply (HN _ (fun n => fkey n k p)); [intros; by apply ext_fkey|by eapply fkey_t]|].
    apply (HN _ fstop); [intros; by apply ext_fstop|].
    eapply wp_mono; [by eapply fstop_t|done].
  - intros F s HF EF. destruct (HF _ _ _ _ _ EF) as [_ Hin].
    apply (HN _ (fun n => fstart n F)); [intros; by apply ext_fstart|by eapply fstart_t].
Qed.

(** ** A check for the absence of trigger cycles. *)
Definition below (f : node -> nat) (x y : node) : bool := (f y <? f x)%nat.
Definition trans5 : list trans := [START; STOP; ABORT; PAUSE; RESUME].
Definition noCycleb (D : doc) (f : node -> nat) : bool :=
  (all_in (map_to_list (d_obj D)) (fun oc =>
     all_in (ob_links (snd oc)) (fun l => all_in (fst l) (fun k => all_in (snd l) (fun x =>
        below f (ac_evt k, ac_tr k) (ac_evt x, ac_tr x)))) &&
     match ob_kind (snd oc) with
     | KSwitch => all_in (ob_children (snd oc)) (fun c => has (d_obj D !! c) (fun cb =>
         all_in (ob_events cb) (fun e => all_in (ob_events (snd oc)) (fun le => all_in trans5 (fun t => below f (e, t) (le, t))))))
     | _ => true end) &&
   all_in (map_to_list (d_evt D)) (fun e1 => all_in (map_to_list (d_evt D)) (fun e2 =>
     negb (isLambda (snd e1) || has (d_obj D !! ev_obj (snd e1)) (fun ob => match ob_kind ob with KSwitch => true | _ => false end)) ||
     isLambda (snd e2) || negb (has (d_obj D !! ev_obj (snd e2)) (fun ob => is_media (ob_kind ob))) ||
     negb (bool_decide (ev_type (snd e2) = PRESENTATION)) ||
     below f (fst e1, PAUSE) (fst e2, PAUSE) && below f (fst e1, RESUME) (fst e2, RESUME))))%bool.
Lemma noCycleb_sound D f : wf_doc D -> noCycleb D f = true -> noCycle D.
Proof.
  intros [rank WF] H. unfold noCycleb in H. apply andb_true_iff in H as [H1 H2].
  assert (HE : forall x y, causes D x y -> f y < f x).
  { intros x y Hc. apply Nat.ltb_lt. change (below f x y = true). destruct Hc as [c cb conds acts k x Hcb Hl Hk Hx Him | a b H | e ev ob t o mb e' ev' Ht He Hob Hor Hi Hmb Hmed Hin He' Hty Hnl].
    - apply elem_of_map_to_list in Hcb. apply (all_in_spec _ _ H1) in Hcb. cbn [snd] in Hcb. apply andb_true_iff in Hcb as [Hcb _].
      apply (all_in_spec _ _ Hcb) in Hl. cbn [fst snd] in Hl. apply (all_in_spec _ _ Hl) in Hk. by apply (all_in_spec _ _ Hk) in Hx.
    - destruct H as (ev & ob & p & pb & name & mapped & m & me & le & He & Ho & Hp & Hpb & Hk & Hsp & Hm & Hme & Heq & Hb & Hle & _ & _ & Htr).
      rewrite Htr. destruct (wo_parent _ _ _ _ (wf_o _ _ WF _ _ Ho) _ Hp) as (pb' & Hpb' & Hch & _). assert (pb' = pb) as -> by congruence.
      apply elem_of_map_to_list in Hpb. apply (all_in_spec _ _ H1) in Hpb. cbn [snd] in Hpb. apply andb_true_iff in Hpb as [_ Hpb].
      rewrite Hk in Hpb. apply (all_in_spec _ _ Hpb) in Hch. rewrite Ho in Hch. cbn [has] in Hch.
      destruct (wf_e _ _ WF _ _ He) as (ob' & Ho' & Hin & _). assert (ob' = ob) as -> by congruence.
      apply (all_in_spec _ _ Hch) in Hin. apply (all_in_spec _ _ Hin) in Hb. apply (all_in_spec _ _ Hb). unfold trans5.
      destruct (ac_tr a); rewrite !elem_of_cons; tauto.
    - destruct (wo_events _ _ _ _ (wf_o _ _ WF _ _ Hmb) _ Hin) as (ev2 & He2 & Hob2). assert (ev2 = ev') as -> by congruence.
      apply elem_of_map_to_list in He. apply elem_of_map_to_list in He'. apply (all_in_spec _ _ H2) in He. apply (all_in_spec _ _ He) in He'.
      cbn [fst snd] in He'. rewrite Hob2, Hmb, Hob, Hnl in He'. cbn [has] in He'. rewrite Hmed, bool_decide_true in He' by done.
      cbn [negb orb] in He'. rewrite !orb_false_r in He'.
      apply orb_true_iff in He' as [E|E].
      + exfalso. apply negb_true_iff, orb_false_iff in E as [E1 E2]. destruct Hor as [H4|H4]; [congruence|]. cbn [has] in E2. by rewrite H4 in E2.
      + apply andb_true_iff in E as [E1 E2]. by destruct Ht as [-> | ->]. }
  intros y Hy. assert (HT : forall x y, tc (causes D) x y -> f y < f x).
  { intros x z Hxz. induction Hxz as [x z Hc|x z w Hc _ IH]; [auto|]. apply HE in Hc. lia. }
  apply HT in Hy. lia.
Qed.

(** ** Two links that trigger each other run for ever. *)
Definition w_cycle : doc := mk
  [ (1, ctx "root" None 101 [101] [2;3] [103]
       [ ([cond 110 START], [act 110 STOP]); ([cond 110 STOP], [act 110 START]) ]);
    (2, leaf KSettings "settings" 1 102 [102]);
    (3, leaf KMedia "a" 1 103 [103;110]) ]%positive
  [ (101, lam 1); (102, lam 2); (103, lam 3); (110, sel 3 "RED")]%positive.
Lemma w_cycle_wf : wf_doc w_cycle.
Proof. apply (wfb_sound w_cycle depth). vm_compute. reflexivity. Qed.
Definition P (x : evstate) (s : st) : Prop := evState s 101 = OCCURRING /\ o_links_on (ostOf s 1) = true /\ evState s 110 = x.
Notation dwp := (wp False True).
Lemma lk_obj o (Q : obj -> st -> Prop) s ob : d_obj w_cycle !! o = Some ob -> Q ob s -> dwp (getO w_cycle o) Q s.
Proof. intros H HQ. unfold wp, getO, ofoption. by rewrite H. Qed.
Lemma lk_evt e (Q : evt -> st -> Prop) s ev : d_evt w_cycle !! e = Some ev -> Q ev s -> dwp (getE w_cycle e) Q s.
Proof. intros H HQ. unfold wp, getE, ofoption. by rewrite H. Qed.
Lemma lap t x y n s : (t, x, y) = (START, SLEEPING, OCCURRING) \/ (t, x, y) = (STOP, OCCURRING, SLEEPING) -> P x s -> 
  dwp (attempt w_cycle (tr w_cycle n) (act 110 t)) (fun b s' => b = true /\ P y s') s.
Proof.
  intros Ht (H1 & H2 & H3). unfold attempt. w1. w1. w1. eapply lk_evt; [reflexivity|]. cbv beta. w1. unfold setParam. w1.
  rewrite bool_decide_false by done. cbn [whenm].
  w1. w1. destruct n as [|n]; [exact I|]. rewrite tr_S. unfold tr_body. w1. eapply lk_evt; [reflexivity|]. cbv beta. w1. w1. 
  cbn [ac_evt ac_tr act ev_obj sel snd]. sts. rewrite H3.
  assert (legal x t = true) as -> by (destruct Ht as [[= -> -> ->]|[= -> -> ->]]; reflexivity). cbn [negb].
  w1. unfold before. w1. eapply lk_obj; [reflexivity|]. cbv beta. cbn [ob_kind leaf snd]. unfold media_before.
  cbn [ev_type sel snd]. w1. cbn [negb]. w1. w1. w1. w1. w1.
  unfold after. w1. eapply lk_obj; [reflexivity|]. cbv beta. cbn [ob_kind leaf snd]. unfold media_after. w1. w1.
  cbn [ev_type sel snd]. cbv zeta.
  assert (Hret : (match t with START | STOP => ret true | _ => crashm (CAssert "Media.cpp:459") end : ME bool) = ret true)
    by (destruct Ht as [[= -> -> ->]|[= -> -> ->]]; reflexivity). rewrite Hret.
  w1. w1. split; [done|]. split; [|split]; sts.
  - rewrite decide_False by done. by sts.
  - done.
  - rewrite decide_True by done. destruct Ht as [[= -> -> ->]|[= -> -> ->]]; reflexivity.
Qed.
Lemma cyc_trig evalA t x s : t = START \/ t = STOP -> P x s ->
  dwp (triggered w_cycle evalA (act 110 t)) (fun r s' => r = [act 110 (match t with START => STOP | _ => START end)] /\ s' = s) s.
Proof.
  intros Ht (H1 & H2 & H3). unfold triggered. w1. eapply lk_evt; [reflexivity|]. cbv beta. w1. eapply lk_obj; [reflexivity|]. cbv beta. 
  w1. unfold fire_parent. cbn [ob_parent leaf snd]. w1. eapply lk_obj; [reflexivity|]. cbv beta. cbn [ob_kind ctx snd].
  w1. unfold isOccurring, objState. w1. w1. eapply lk_obj; [reflexivity|]. cbv beta. w1. w1. cbn [ob_lambda ctx snd]. rewrite H1.
  rewrite bool_decide_true by done. w1. unfold evalActionInContext. w1. eapply lk_obj; [reflexivity|]. cbv beta. w1. w1. rewrite H2.
  cbn [ob_links ctx snd ob_parent].
  assert (HE : fire_links w_cycle 1 (ac_evt (act 110 t)) (ac_tr (act 110 t)) [ ([cond 110 START], [act 110 STOP]); ([cond 110 STOP], [act 110 START]) ] s
     = Ok [act 110 (match t with START => STOP | _ => START end)] s) by (destruct Ht as [-> | ->]; vm_compute; reflexivity).
  unfold wp at 1. rewrite HE. w1. w1. w1. w1. unfold fire_self. cbn [ob_kind leaf snd ob_aliases fire_aliases]. w1. w1. by rewrite app_nil_r.
Qed.
Lemma cyc n : forall t x, (t, x) = (START, SLEEPING) \/ (t, x) = (STOP, OCCURRING) -> forall s, P x s -> loop w_cycle n [act 110 t] s = NoFuel.
Proof.
  induction n as [|n IH]; [done|]. intros t x Ht s HP.
  assert (HT : dwp (loop w_cycle (S n) [act 110 t]) (fun _ _ => False) s).
  2:{ unfold wp in HT. by destruct (loop _ _ _ _). }
  rewrite loop_S. unfold loop_body. w1. destruct Ht as [Ht|Ht]; simplify_eq.
  - eapply wp_mono; [eapply lap; eauto|]. intros b s1 [-> H1]. cbv beta iota. w1. eapply wp_mono; [eapply cyc_trig; eauto|].
    intros r s2 [-> ->]. cbv beta. cbn [rev app]. w1. unfold wp at 1. by rewrite (IH STOP OCCURRING) by auto.
  - eapply wp_mono; [eapply lap; eauto|]. intros b s1 [-> H1]. cbv beta iota. w1. eapply wp_mono; [eapply cyc_trig; eauto|].
    intros r s2 [-> ->]. cbv beta. cbn [rev app]. w1. unfold wp at 1. by rewrite (IH START SLEEPING) by auto.
Qed.

Lemma f_C11_cycle : exists D a s, wf_doc D /\ reach D s /\ valid_evt D (ac_evt a) /\ forall n, evalAction D n a s = NoFuel.
Proof.
  destruct (check_reach w_cycle (init [] []) play (fun s => stb s 101 OCCURRING && o_links_on (ostOf s 1) && stb s 110 SLEEPING)%bool)
    as (s & Hr & Hs); [apply init_init|vm_compute; reflexivity|].
  unfold stb in Hs. splitb Hs. exists w_cycle, (act 110 START), s. split; [apply w_cycle_wf|]. split; [exact Hr|].
  split; [by eexists|]. intros n. apply (cyc n START SLEEPING); [by left|]. split; [hyp|]. split; hyp.
Qed.
Definition demoRank (x : node) : nat :=
  match fst x with 103%positive | 132%positive => 5 | 108%positive | 109%positive => 2 | 130%positive => 0 | _ => 1 end.
Lemma demo_noCycle : noCycle demo.
Proof. apply (noCycleb_sound demo demoRank); [apply demo_wf|]. vm_compute. reflexivity. Qed.

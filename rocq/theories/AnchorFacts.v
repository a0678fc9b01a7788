(** AnchorFacts.v -- starting an anchor of a media that is asleep (C38). *)
From Verif Require Import Frame SetProps Trans StartFacts StartMedia Steps Wf Reach FactsLinks PresInv FactsPres NumFacts MediaFacts AnchorSpec.
Open Scope m_scope.
Open Scope string_scope.
Open Scope list_scope.

(** ** Numerals. *)
Lemma sola_app l x t : (string_of_list_ascii l ++ String x t)%string = (string_of_list_ascii (l ++ [x]) ++ t)%string.
Proof. induction l as [|c l IH]; [reflexivity|]. cbn [string_of_list_ascii app]. change (String c (string_of_list_ascii l ++ String x t) = String c (string_of_list_ascii (l ++ [x]) ++ t))%string. by rewrite IH. Qed.
Lemma sola_nil l : (string_of_list_ascii l ++ "")%string = string_of_list_ascii l.
Proof. induction l as [|c l IH]; [reflexivity|]. cbn [string_of_list_ascii]. change (String c (string_of_list_ascii l ++ "") = String c (string_of_list_ascii l))%string. by rewrite IH. Qed.
Lemma dec_go_ok k : forall n acc, (n < 10 ^ N.of_nat k)%N -> (0 < k)%nat ->
  exists ds, digits ds /\ value ds = n /\ dec_go k n acc = (numeral ds ++ acc)%string.
Proof.
  induction k as [|k IH]; intros n acc Hn Hk; [lia|]. cbn [dec_go].
  pose proof (N.mod_lt n 10 ltac:(lia)) as Hm.
  destruct (N.ltb_spec n 10) as [Hs|Hs].
  - exists [n]. split; [split; [done|repeat constructor; lia]|]. split; [unfold value; cbn; lia|].
    rewrite N.mod_small by lia. reflexivity.
  - destruct (IH (n / 10)%N (String (ascii_of_N (48 + n mod 10)) acc)) as (ds & (H1 & H2) & H3 & H4).
    { replace (N.of_nat (S k)) with (N.succ (N.of_nat k)) in Hn by lia. rewrite N.pow_succ_r' in Hn. apply N.div_lt_upper_bound; lia. }
    { destruct k; [|lia]. cbn in Hn. lia. }
    exists (ds ++ [n mod 10])%N. split; [split; [by destruct ds|apply Forall_app; split; [done|by repeat constructor]]|].
    split.
    + unfold value in *. rewrite fold_left_app, H3. cbn [fold_left]. pose proof (N.div_mod n 10 ltac:(lia)). lia.
    + rewrite H4. unfold numeral. rewrite map_app. cbn [map]. apply sola_app.
Qed.
Lemma dec_ok n : (n <= TIME_NONE)%N -> numeralOf n (dec n).
Proof.
  intros H. destruct (dec_go_ok 25 n "") as (ds & H1 & H2 & H3); [unfold TIME_NONE in H; cbn; lia|lia|].
  exists ds. split; [done|]. split; [done|]. unfold dec. rewrite H3. apply sola_nil.
Qed.
Lemma dec_time n : (n <= 4611686018)%N -> try_parse_time (dec n) = TOk (n * 1000000000).
Proof. intros H. destruct (dec_ok n) as (ds & H1 & H2 & ->); [unfold TIME_NONE; lia|]. subst n. by apply f_C26_seconds. Qed.

(** Everything but one object's state and the states of events. *)
Definition only (o : oid) (s s' : st) : Prop :=
  s_next s' = s_next s /\ s_w s' = s_w s /\ s_h s' = s_h s /\ forall o', o' <> o -> ostOf s' o' = ostOf s o'.
(** ** Which anchors are to start is decided by the list. *)
Definition toStartb (b : N) (l : list (action * N)) (y : eid) : bool :=
  existsb (fun ax => bool_decide (ac_tr (fst ax) = START) && (snd ax <? b)%N && bool_decide (ac_evt (fst ax) = y)) l.
Section Anchor.
Context (D : doc) (rank : oid -> nat) (WF : wf_at D rank).

(** ** Telling the player. *)
Lemma with_self p : with_attrs p (attrs_of p) = p.
Proof. by destruct p. Qed.
Lemma tell_time o v s p : o_player (ostOf s o) = Some p ->
  pwp (playerSetProperty D o "time" v) (fun _ s' => only o s s' /\ s_ev s' = s_ev s /\
    ostOf s' o = os_set_player (Some (p_set_props (<["time" := v]> (p_props p)) p)) (ostOf s o)) s.
Proof.
  intros Hp. unfold playerSetProperty, SETPROP_DEPTH. cbn [playerSet]. w1. w1. rewrite Hp. w1.
  assert (E : exists v', pset_value p "time" v = Some (PROP_TIME, v')).
  { unfold pset_value. assert (getPlayerProperty "time" = (PROP_TIME, "indefinite")) as -> by (vm_compute; reflexivity). cbn. eauto. }
  destruct E as [v' ->]. cbv beta iota.
  assert (doset_own (d_ext D) (s_w s) (s_h s) PROP_TIME v' (attrs_of p) = DOk (attrs_of p)) as -> by (destruct (attrs_of p); reflexivity).
  cbv beta iota. unfold updPlayer. w1. w1. cbn [doset_media foreach]. w1. w1.
  split; [split; [done|]; split; [done|]; split; [done|]; intros o' Ho; sts; by rewrite !decide_False|]. split; [done|].
  sts. repeat (rewrite decide_True by done; cbn). rewrite Hp. cbn. rewrite with_self. by destruct (ostOf s o).
Qed.
Lemma tell_duration o n s p : o_player (ostOf s o) = Some p -> (n <= TIME_NONE)%N ->
  pwp (playerSetProperty D o "duration" (dec n)) (fun _ s' => only o s s' /\ s_ev s' = s_ev s /\ exists a,
    ((n <= 4611686018)%N -> a_duration a = (n * 1000000000)%N) /\
    ostOf s' o = os_set_player (Some (p_set_props (<["duration" := dec n]> (p_props p)) (with_attrs p a))) (ostOf s o)) s.
Proof.
  intros Hp Hn. unfold playerSetProperty, SETPROP_DEPTH. cbn [playerSet]. w1. w1. rewrite Hp. w1.
  assert (NE : is_empty (dec n) = false /\ String.eqb (dec n) "indefinite" = false).
  { destruct (dec_ok n Hn) as (ds & (H1 & H2) & _ & ->). destruct ds as [|d ds]; [done|]. split; [reflexivity|].
    apply String.eqb_neq. intros E. inversion H2 as [|? ? Hd _]; subst. unfold numeral in E. cbn [map string_of_list_ascii] in E.
    injection E as E _. apply (f_equal N_of_ascii) in E. unfold digit in E. rewrite N_ascii_embedding in E by lia. change (N_of_ascii "i") with 105%N in E. lia. }
  assert (E : pset_value p "duration" (dec n) = Some (PROP_DURATION, dec n)).
  { unfold pset_value. assert (getPlayerProperty "duration" = (PROP_DURATION, "indefinite")) as -> by (vm_compute; reflexivity).
    cbn [andb]. by rewrite (proj1 NE). }
  rewrite E. cbv beta iota. unfold doset_own. destruct (attrs_of p) eqn:Ea. rewrite (proj2 NE).
  destruct (try_parse_time (dec n)) as [t| | |] eqn:Et; [|exact I..]. unfold updPlayer. w1. w1. cbn [doset_media foreach]. w1. w1.
  split; [split; [done|]; split; [done|]; split; [done|]; intros o' Ho; sts; by rewrite !decide_False|]. split; [done|].
  eexists (mkPattrs _ _ _ _ _ _ _ _ _ _ _ _ t _ _). split.
  - intros Hs. cbn. rewrite (dec_time n Hs) in Et. by injection Et as <-.
  - sts. repeat (rewrite decide_True by done; cbn). rewrite Hp. cbn. by destruct (ostOf s o).
Qed.

(** ** Starting an anchor of a media that is up. *)
Lemma climb_none n o s : (forall p, ~ sleepsAbove D s o p) -> pwp (startParent D (tr D n) o) (fun _ s' => s' = s) s.
Proof.
  intros NA. unfold startParent. w1. apply wp_getO; [done|]. intros ob Ho.
  destruct (ob_parent ob) as [p|] eqn:Ep; [|by w1].
  unfold isContext. w1. w1. apply wp_getO; [done|]. intros pb Hpb. w1.
  case_bool_decide as Hc; [|by w1].
  w1. unfold isSleeping, objState. w1. w1. apply wp_getO; [done|]. intros pb' Hpb'. assert (pb' = pb) as -> by congruence. clear Hpb'. w1. w1.
  case_bool_decide as Hsl; [|by w1]. exfalso. apply (NA p). by exists ob, pb.
Qed.
Lemma anchor_tr n x ev o ob s : d_obj D !! o = Some ob -> is_media (ob_kind ob) = true -> d_evt D !! x = Some ev -> ev_obj ev = o ->
  timed ev = true -> evState s (ob_lambda ob) <> SLEEPING -> (forall p, ~ sleepsAbove D s o p) ->
  pwp (tr D n x START) (fun _ s' => s_next s' = s_next s /\ s_w s' = s_w s /\ s_h s' = s_h s /\ (forall o', ostOf s' o' = ostOf s o') /\
     evState s' x = OCCURRING /\ forall y, y <> x -> evState s' y = evState s y) s.
Proof.
  intros Ho Hm He Heo Ht Hl NA. destruct n as [|n]; [exact I|]. rewrite tr_S. unfold tr_body.
  assert (T : ev_type ev = PRESENTATION /\ isLambda ev = false /\ hasLabel ev = false).
  { unfold timed in Ht. destruct (ev_type ev) eqn:Et; try done. apply andb_prop in Ht as [T1 T2]. apply negb_true_iff in T1.
    unfold isLambda, hasLabel. rewrite Et, T1. apply String.eqb_eq in T2. rewrite T2. done. }
  destruct T as (Et & El & Eh).
  w1. apply wp_getE; [done|]. intros ev' He'. assert (ev' = ev) as -> by congruence. clear He'. w1. w1.
  destruct (evState s x) eqn:Ex; cbn [legal negb].
  { w1. repeat split; try done. }
  all: w1; unfold before; w1; rewrite Heo; apply wp_getO; [done|]; intros ob' Ho'; assert (ob' = ob) as -> by congruence; clear Ho'.
  all: eapply (wp_mono _ _ _ (fun b1 s1 => b1 = true /\ s1 = s));
    [assert (G : pwp (media_before D (tr D n) (fun a => loop D n [a]) o x ev START) (fun b1 s1 => b1 = true /\ s1 = s) s); [|by destruct (ob_kind ob)];
     unfold media_before; rewrite Et; w1; eapply wp_mono; [by apply climb_none|]; intros [] s0 ->; cbv beta; w1; w1; rewrite Ex, ?El|].
  2:{ intros b1 s1 [-> ->]. cbv beta. cbn [negb]. w1. w1. w1. w1. w1.
      match goal with |- wp _ _ _ _ ?z => set (s2 := z) end.
      unfold after. w1. apply wp_getO; [done|]. intros ob' Ho'. assert (ob' = ob) as -> by congruence. clear Ho'.
      eapply (wp_mono _ _ _ (fun b1 s1 => b1 = true /\ s1 = s2)).
      { assert (G : pwp (media_after D o x ev START) (fun b1 s1 => b1 = true /\ s1 = s2) s2); [|by destruct (ob_kind ob)].
        unfold media_after. w1. w1. rewrite Et, El, Eh. by w1. }
      intros b1 s1 [-> ->]. cbv beta. w1. unfold s2. repeat split; try done; [sts; by rewrite decide_True|].
      intros y Hy. sts. by rewrite decide_False. }
  { by w1. }
  { w1. apply wp_getO; [done|]. intros ob' Ho'. assert (ob' = ob) as -> by congruence. clear Ho'. w1. w1.
    destruct (evState s (ob_lambda ob)) eqn:Ey; by w1. }
  intros b1 s1 [-> ->]. cbv beta. cbn [negb]. w1. w1. w1. w1. w1.
  match goal with |- wp _ _ _ _ ?z => set (s2 := z) end.
  unfold after. w1. apply wp_getO; [done|]. intros ob' Ho'. assert (ob' = ob) as -> by congruence. clear Ho'.
  eapply (wp_mono _ _ _ (fun b1 s1 => b1 = true /\ s1 = s2)).
  { assert (G : pwp (media_after D o x ev START) (fun b1 s1 => b1 = true /\ s1 = s2) s2); [|by destruct (ob_kind ob)].
    unfold media_after. w1. w1. rewrite Et, El, Eh. by w1. }
  intros b1 s1 [-> ->]. cbv beta. w1. unfold s2. repeat split; try done; [sts; by rewrite decide_True|].
  intros y Hy. sts. by rewrite decide_False.
Qed.

(** ** Moving the schedule. *)
Definition toStart (b : N) (l : list (action * N)) (y : eid) : Prop :=
  exists a x, (a, x) ∈ l /\ ac_tr a = START /\ (x < b)%N /\ ac_evt a = y.
Lemma classic_start l b y : toStart b l y \/ ~ toStart b l y.
Proof.
  destruct (toStartb b l y) eqn:E; [left|right].
  - apply existsb_exists in E as ([a x] & Hin & E). apply andb_prop in E as [E E3]. apply andb_prop in E as [E1 E2]. cbn in *.
    apply bool_decide_eq_true in E1, E3. apply N.ltb_lt in E2. apply elem_of_list_In in Hin. by exists a, x.
  - intros (a & x & Hin & E1 & E2 & E3). assert (toStartb b l y = true); [|congruence]. apply existsb_exists. exists (a, x). split; [by apply elem_of_list_In|].
    cbn. rewrite !bool_decide_true by done. apply N.ltb_lt in E2. by rewrite E2.
Qed.
Lemma not_lambda x ev o ob : d_evt D !! x = Some ev -> timed ev = true -> d_obj D !! o = Some ob -> x <> ob_lambda ob.
Proof.
  intros He Ht Ho ->. destruct (lam_obj D rank WF _ _ Ho) as (ev' & He' & _ & Hl & _). assert (ev' = ev) as -> by congruence.
  unfold timed in Ht. unfold isLambda in Hl. destruct (ev_type ev); try done. rewrite bool_decide_true in Hl by done. cbn [andb] in Hl. by rewrite Hl in Ht.
Qed.
Lemma seek_ok n o ob b f : d_obj D !! o = Some ob -> is_media (ob_kind ob) = true -> forall l pre s,
  o_delayed (ostOf s o) = pre ++ l -> (forall a x, (a, x) ∈ l -> (x <= TIME_NONE)%N) ->
  (forall a x, (a, x) ∈ l -> ac_tr a = START -> exists ev, d_evt D !! ac_evt a = Some ev /\ ev_obj ev = o /\ timed ev = true) ->
  evState s (ob_lambda ob) <> SLEEPING -> (forall p, ~ sleepsAbove D s o p) ->
  pwp (anchor_seek (tr D n) o b f (length l) (length pre)) (fun _ s' => only o s s' /\
     ostOf s' o = os_set_delayed (pre ++ within b f l) (ostOf s o) /\
     (forall y, toStart b l y -> evState s' y = OCCURRING) /\ (forall y, ~ toStart b l y -> evState s' y = evState s y)) s.
Proof.
  intros Ho Hm. induction l as [|[a x] l IH]; intros pre s Hq Hf Ha Hl NA; cbn [length anchor_seek].
  { w1. split; [by repeat split|]. split; [unfold within; cbn; rewrite app_nil_r in *; rewrite <- Hq; by destruct (ostOf s o)|].
    split; [intros y (? & ? & Hin & _); by apply elem_of_nil in Hin|done]. }
  w1. w1. rewrite Hq. assert (((pre ++ (a, x) :: l) !! length pre) = Some (a, x)) as -> by (by apply list_lookup_middle).
  assert (Hx : (x <= TIME_NONE)%N) by (apply (Hf a); left).
  assert (Hf' : forall a' x', (a', x') ∈ l -> (x' <= TIME_NONE)%N) by (intros a' x' Hin; apply (Hf a'); by right).
  assert (Ha' : forall a' x', (a', x') ∈ l -> ac_tr a' = START -> exists ev, d_evt D !! ac_evt a' = Some ev /\ ev_obj ev = o /\ timed ev = true)
    by (intros a' x' Hin; apply (Ha a' x'); by right).
  destruct ((x =? TIME_NONE)%N || (x <? b)%N || (negb (f =? TIME_NONE)%N && (f <? x)%N))%bool eqn:Ec.
  - assert (K : within b f ((a, x) :: l) = within b f l).
    { unfold within. cbn [List.filter snd]. assert ((negb (x =? TIME_NONE)%N && (b <=? x)%N && ((f =? TIME_NONE)%N || (x <=? f)%N))%bool = false) as ->; [|done].
      apply orb_prop in Ec as [Ec|Ec]; [apply orb_prop in Ec as [Ec|Ec]|].
      - by rewrite Ec.
      - apply N.ltb_lt in Ec. assert ((b <=? x)%N = false) as -> by (apply N.leb_gt; lia). by rewrite andb_false_r.
      - apply andb_prop in Ec as [E1 E2]. apply negb_true_iff in E1. apply N.ltb_lt in E2. rewrite E1. assert ((x <=? f)%N = false) as -> by (apply N.leb_gt; lia). by rewrite andb_false_r. }
    set (st1 := ac_tr a = START /\ (x < b)%N).
    w1. eapply (wp_mono _ _ _ (fun _ s1 => s_next s1 = s_next s /\ s_w s1 = s_w s /\ s_h s1 = s_h s /\ (forall o', ostOf s1 o' = ostOf s o') /\
      (st1 -> evState s1 (ac_evt a) = OCCURRING) /\ (forall y, ~ (st1 /\ ac_evt a = y) -> evState s1 y = evState s y))).
    { destruct (bool_decide (ac_tr a = START) && (x <? b)%N)%bool eqn:Es.
      - apply andb_prop in Es as [E1 E2]. apply bool_decide_eq_true in E1. apply N.ltb_lt in E2.
        destruct (Ha a x) as (ev & He & Heo & Ht); [left|done|]. rewrite E1. w1. eapply wp_mono; [by eapply anchor_tr|].
        intros b1 s1 (K1 & K2 & K3 & K4 & K5 & K6). cbv beta. w1. repeat split; try done. intros y Hy. apply K6. intros ->. by apply Hy.
      - w1. repeat split; try done. intros [E1 E2]. rewrite bool_decide_true in Es by done. cbn in Es. apply N.ltb_ge in Es. lia. }
    intros [] s1 (N1 & W1 & H1 & O1 & V1 & U1). cbv beta. w1. w1. rewrite O1, Hq. rewrite bool_decide_true by (by apply list_lookup_middle).
    w1. w1. w1. w1. match goal with |- wp _ _ _ _ ?z => set (s2 := z) end.
    assert (S2 : only o s s2 /\ ostOf s2 o = os_set_delayed (pre ++ l) (ostOf s o) /\ forall y, evState s2 y = evState s1 y).
    { unfold s2. split; [split; [done|]; split; [done|]; split; [done|]; intros o' Hne; sts; by rewrite decide_False|].
      split; [|intros y; by sts]. sts. rewrite decide_True by done. rewrite O1, Hq. f_equal.
      rewrite delete_middle. done. }
    destruct S2 as (S2 & Q2 & V2). clearbody s2.
    assert (NL : forall o' ob', d_obj D !! o' = Some ob' -> evState s2 (ob_lambda ob') = evState s (ob_lambda ob')).
    { intros o' ob' Ho'. rewrite V2. apply U1. intros [[E1 E2] E3]. destruct (Ha a x) as (ev & He & Heo & Ht); [left|done|]. revert E3. by eapply not_lambda. }
    eapply wp_mono; [apply (IH pre s2)|].
    { by rewrite Q2. } { done. } { done. } { by rewrite (NL _ _ Ho). }
    { intros p (ob' & pb & K1 & K2 & K3 & K4 & K5). apply (NA p). exists ob', pb. rewrite (NL _ _ K3) in K5. done. }
    intros [] s3 (O3 & Q3 & V3 & U3). destruct S2 as (A1 & A2 & A3 & A4), O3 as (B1 & B2 & B3 & B4).
    split; [split; [congruence|]; split; [congruence|]; split; [congruence|]; intros o' Hne; by rewrite B4, A4|].
    split; [rewrite Q3, Q2, K; by destruct (ostOf s o)|]. split.
    + intros y (a' & x' & Hin & E1 & E2 & E3). destruct (classic_start l b y) as [HT|HT]; [by apply V3|].
      rewrite U3, V2 by done. apply elem_of_cons in Hin as [[= -> ->]|Hin]; [subst y; by apply V1|]. exfalso. apply HT. by exists a', x'.
    + intros y Hy. rewrite U3, V2, U1; [done| |].
      * intros [[E1 E2] E3]. apply Hy. exists a, x. split; [left|done].
      * intros (a' & x' & Hin & K'). apply Hy. exists a', x'. split; [by right|done].
  - apply orb_false_elim in Ec as [Ec Ec3]. apply orb_false_elim in Ec as [Ec1 Ec2]. apply N.ltb_ge in Ec2.
    assert (K : within b f ((a, x) :: l) = (a, x - b)%N :: within b f l).
    { unfold within. cbn [List.filter snd]. assert ((negb (x =? TIME_NONE)%N && (b <=? x)%N && ((f =? TIME_NONE)%N || (x <=? f)%N))%bool = true) as ->; [|done].
      rewrite Ec1. apply andb_true_iff. split; [cbn; by apply N.leb_le|]. destruct (f =? TIME_NONE)%N; [done|]. cbn in *. apply N.ltb_ge in Ec3. by apply N.leb_le. }
    w1. w1. w1. w1. match goal with |- wp _ _ _ _ ?z => set (s2 := z) end.
    assert (S2 : only o s s2 /\ ostOf s2 o = os_set_delayed ((pre ++ [(a, x - b)%N]) ++ l) (ostOf s o) /\ forall y, evState s2 y = evState s y).
    { unfold s2. split; [split; [done|]; split; [done|]; split; [done|]; intros o' Hne; sts; by rewrite decide_False|].
      split; [|intros y; by sts]. sts. rewrite decide_True by done. rewrite Hq. f_equal.
      rewrite <- app_assoc. cbn [app]. rewrite alter_app_r_alt by lia. rewrite Nat.sub_diag. f_equal. cbn. f_equal. f_equal.
      unfold tsub, TIME_NONE, W64 in *. replace (x + 18446744073709551616 - b)%N with (x - b + 1 * 18446744073709551616)%N by lia.
      rewrite N.mod_add by lia. apply N.mod_small. lia. }
    destruct S2 as (S2 & Q2 & V2). clearbody s2.
    replace (S (length pre)) with (length (pre ++ [(a, x - b)%N])) by (rewrite app_length; cbn; lia).
    eapply wp_mono; [apply (IH (pre ++ [(a, x - b)%N]) s2)|].
    { by rewrite Q2. } { done. } { done. } { by rewrite V2. }
    { intros p (ob' & pb & K1 & K2 & K3 & K4 & K5). apply (NA p). exists ob', pb. rewrite V2 in K5. done. }
    intros [] s3 (O3 & Q3 & V3 & U3). destruct S2 as (A1 & A2 & A3 & A4), O3 as (B1 & B2 & B3 & B4).
    split; [split; [congruence|]; split; [congruence|]; split; [congruence|]; intros o' Hne; by rewrite B4, A4|].
    split; [rewrite Q3, Q2, K, <- app_assoc; by destruct (ostOf s o)|]. split.
    + intros y (a' & x' & Hin & E1 & E2 & E3). apply V3. apply elem_of_cons in Hin as [[= -> ->]|Hin]; [lia|]. by exists a', x'.
    + intros y Hy. rewrite U3, V2; [done|]. intros (a' & x' & Hin & K'). apply Hy. exists a', x'. split; [by right|done].
Qed.

(** ** Starting the media from below. *)
Notation raised := (raised D).
Lemma raised_above s s0 o : raised s s0 o -> forall p, ~ sleepsAbove D s0 o p.
Proof.
  intros R p (ob & pb & K1 & K2 & K3 & K4 & K5). destruct (decide (evState s (ob_lambda pb) = SLEEPING)) as [E|E].
  - assert (W : wakes D s o p) by (apply wakes_one; by exists ob, pb). destruct (ra_on _ _ _ _ R p pb W K3). congruence.
  - assert (NW : notAwoken D s o (ob_lambda pb)).
    { intros q qb Hw Hq El. assert (p = q) as <- by (eapply (lam_inj D rank WF); eauto). assert (qb = pb) as -> by congruence.
      destruct (ra_on _ _ _ _ R p pb Hw K3). congruence. }
    rewrite (evState_est s s0) in K5 by (by apply (ra_ev _ _ _ _ R)). done.
Qed.
Lemma raised_started s s0 s1 o ob : d_obj D !! o = Some ob -> raised s s0 o -> mediaStarted D s0 s1 o ob -> mediaStarted D s s1 o ob.
Proof.
  intros Ho R M. pose proof (raised_above _ _ _ R) as NA.
  assert (NW : forall p, ~ wakes D s0 o p) by (intros p Hw; inversion Hw; subst; by eapply NA).
  destruct M as [[M1 M2 M3 M4 M5 M6 M7] MS (p & mime & P1 & P2 & P3 & P4 & P5 & P6)]. destruct R as [R1 R2 R3 R4 R5 R6 R9 R7 R8].
  assert (NN : forall e, notAwoken D s0 o e) by (intros e p' pb Hw; by apply NW in Hw).
  assert (PR : forall o', o_props (ostOf s0 o') = o_props (ostOf s o')) by (intros o'; apply still_props, R4).
  assert (PP : forall o' k, propOf s0 o' k = propOf s o' k) by (intros o' k; unfold propOf; by rewrite PR).
  assert (Above : forall q, wakes D s o q -> q <> o) by (intros q Hw ->; apply (wakes_rank D rank WF) in Hw; lia).
  split; [split|..].
  - done.
  - done.
  - intros q qb Hw Hq. destruct (R1 q qb Hw Hq) as [G1 G2]. pose proof (Above _ Hw) as Hne. split.
    + rewrite M4; [done| |done]. intros El. apply Hne. eapply (lam_inj D rank WF); eauto.
    + rewrite M5; [done|done|apply NW].
  - intros e Hne Hna. rewrite M4; [|done|done]. by apply evState_est, R2.
  - intros o' Hne Hw. rewrite M5; [by apply R3|done|apply NW].
  - intros o' Hne. destruct (M6 o' Hne) as (-> & -> & ->). by apply still_props, R4.
  - unfold focusable in *. destruct M7 as [M7 M8]. split.
    + intros [Hf|Hf]; [apply M7; by left|]. pose proof (R7 Hf) as E. destruct (decide (propOf s1 o "focusIndex" = "")) as [E0|E0]; [|apply M7; by left].
      rewrite M8; [done|]. intros [?|(q & Hq & _)]; [done|by apply NW in Hq].
    + intros Hf. rewrite M8; [apply R8; tauto|]. intros [?|(q & Hq & _)]; [tauto|by apply NW in Hq].
  - rewrite MS. f_equal. by apply still_props, R4.
  - exists p, mime. rewrite !PP in *. split; [done|]. split; [done|]. split; [done|]. split; [done|].
    rewrite R5, R6 in P6. split; [|done]. intros k. rewrite P5. unfold spreadTable, givenTable, tableOf. by rewrite PR.
Qed.
Lemma schedule_in l : forall a x, (a, x) ∈ anchorSchedule D l -> exists y ev, y ∈ l /\ d_evt D !! y = Some ev /\ timed ev = true /\
   ((a = mkAct y START None "" "" "" /\ x = ev_begin ev) \/ (a = mkAct y STOP None "" "" "" /\ x = ev_end ev)).
Proof.
  induction l as [|y l IH]; intros a x; cbn [anchorSchedule]; [by intros ?%elem_of_nil|]. intros [Hin|Hin]%elem_of_app.
  - destruct (d_evt D !! y) as [ev|] eqn:Ey; [|by apply elem_of_nil in Hin]. destruct (timed ev) eqn:Et; [|by apply elem_of_nil in Hin].
    exists y, ev. split; [left|]. split; [done|]. split; [done|]. apply elem_of_cons in Hin as [[= -> ->]|Hin]; [by left|].
    apply elem_of_cons in Hin as [[= -> ->]|Hin]; [by right|]. by apply elem_of_nil in Hin.
  - destruct (IH a x Hin) as (z & ev & K1 & K). exists z, ev. split; [by right|done].
Qed.
Lemma schedule_has l y ev : y ∈ l -> d_evt D !! y = Some ev -> timed ev = true -> (mkAct y START None "" "" "", ev_begin ev) ∈ anchorSchedule D l.
Proof.
  intros Hy He Ht. induction l as [|z l IH]; [by apply elem_of_nil in Hy|]. cbn [anchorSchedule]. apply elem_of_app. apply elem_of_cons in Hy as [<-|Hy].
  - left. rewrite He, Ht. left.
  - right. by apply IH.
Qed.

Lemma start_anchor n s b s' o ob e ev : timesFit D -> screen s -> d_obj D !! o = Some ob -> is_media (ob_kind ob) = true ->
  evState s (ob_lambda ob) = SLEEPING -> o_delayed (ostOf s o) = [] ->
  d_evt D !! e = Some ev -> e ∈ ob_events ob -> ev_type ev = PRESENTATION -> isLambda ev = false -> evState s e = SLEEPING ->
  tr D n e START s = Ok b s' -> b = true /\ startedAt D s s' o ob e ev.
Proof.
  intros TF HS Ho Hm Hs Hq He Hin Et El Es E. byrun E b s'.
  destruct (wo_events _ _ _ _ (wf_o _ _ WF _ _ Ho) e Hin) as (ev0 & He0 & Heo). assert (ev0 = ev) as -> by congruence. clear He0.
  assert (NLe : forall o' ob', d_obj D !! o' = Some ob' -> e <> ob_lambda ob').
  { intros o' ob' Ho' ->. destruct (lam_obj D rank WF _ _ Ho') as (ev' & He' & _ & Hl & _). congruence. }
  destruct n as [|n]; [exact I|]. rewrite tr_S. unfold tr_body. w1. apply wp_getE; [done|]. intros ev' He'.
  assert (ev' = ev) as -> by congruence. clear He'. w1. w1. rewrite Es. cbn [legal negb]. w1.
  unfold before. w1. rewrite Heo. apply wp_getO; [done|]. intros ob' Ho'. assert (ob' = ob) as -> by congruence. clear Ho'.
  pose proof (TF _ _ He) as [TB TE].
  set (bg := beginOf ev). assert (Hbg : (bg <= TIME_NONE)%N) by (unfold bg, beginOf; destruct (ev_begin ev =? TIME_NONE)%N; [unfold TIME_NONE; lia|done]).
  set (sch := anchorSchedule D (ob_events ob) ++ if (ev_end ev =? TIME_NONE)%N then [] else [(mkAct e STOP None "" "" "", ev_end ev)]).
  set (Q1 := fun (b1 : bool) (s5 : st) => b1 = true /\ exists s1 p1 p', mediaStarted D s s1 o ob /\
    (forall x, beginsBefore D ob bg x -> evState s5 x = OCCURRING) /\
    (forall x, ~ beginsBefore D ob bg x -> evState s5 x = evState s1 x) /\ only o s1 s5 /\
    o_time (ostOf s5 o) = 0%N /\ o_props (ostOf s5 o) = o_props (ostOf s1 o) /\
    o_delayed (ostOf s5 o) = within bg (ev_end ev) sch /\
    o_player (ostOf s1 o) = Some p1 /\ o_player (ostOf s5 o) = Some p' /\
    p_state p' = POccurring /\ p_class p' = p_class p1 /\
    (exists t, numeralOf (bg / second) t /\ p_props p' !! "time" = Some t) /\
    (ev_end ev = TIME_NONE -> attrs_of p' = attrs_of p1) /\
    (ev_end ev <> TIME_NONE -> (bg <= ev_end ev)%N -> (ev_end ev - bg <= 4611686018 * second)%N ->
       (exists t, numeralOf ((ev_end ev - bg) / second) t /\ p_props p' !! "duration" = Some t) /\
       p_duration p' = ((ev_end ev - bg) / second * second)%N)).
  eapply (wp_mono _ _ _ Q1).
  { assert (G : pwp (media_before D (tr D n) (fun a => loop D n [a]) o e ev START) Q1 s); [|by destruct (ob_kind ob)].
    unfold media_before. rewrite Et. w1. eapply wp_mono; [apply (climb D rank WF)|]. intros [] s0 R0. cbv beta. w1. w1.
    assert (NA : forall x, x = e \/ x = ob_lambda ob -> notAwoken D s o x).
    { intros x Hx q qb Hw Hq'. destruct Hx as [-> | ->]; [by eapply NLe|]. intros E. assert (o = q) by (eapply (lam_inj D rank WF); eauto). subst q. apply (wakes_rank D rank WF) in Hw. lia. }
    rewrite (evState_est s s0) by (apply (ra_ev _ _ _ _ R0), NA; by left). rewrite Es, El. w1. apply wp_getO; [done|]. intros ob' Ho'. assert (ob' = ob) as -> by congruence. clear Ho'. w1. w1.
    rewrite (evState_est s s0) by (apply (ra_ev _ _ _ _ R0), NA; by right). rewrite Hs. w1.
    unfold media_start_anchor. w1. destruct (tr D n (ob_lambda ob) START s0) as [b1 s1| |] eqn:E1; unfold wp at 1; rewrite E1; [|exact I..].
    apply (start_media D rank WF n s0 b1 s1) with (o := o) (ob := ob) in E1; [|done| |done|by destruct (ob_kind ob); auto|].
    2:{ unfold screen. by rewrite (ra_w _ _ _ _ R0), (ra_h _ _ _ _ R0). }
    2:{ rewrite (evState_est s s0) by (apply (ra_ev _ _ _ _ R0), NA; by right). done. }
    destruct E1 as [-> M0]. pose proof (raised_started _ _ _ _ _ Ho R0 M0) as M.
    assert (NS : forall p, ~ sleepsAbove D s1 o p).
    { intros p (ob1 & pb & K1 & K2 & K3 & K4 & K5). apply (raised_above _ _ _ R0 p). exists ob1, pb. repeat (split; [done|]).
      rewrite <- K5. symmetry. apply (st_events _ _ _ _ _ (ms_started _ _ _ _ _ M0)).
      - intros E. pose proof (lam_inj D rank WF _ _ _ _ K3 Ho E) as ->. rewrite Ho in K3. injection K3 as ->. by rewrite K4 in Hm.
      - intros q qb Hw _. exfalso. inversion Hw; subst; by eapply (raised_above _ _ _ R0). }
    destruct (ms_player _ _ _ _ _ M) as (p1 & mime & P1 & P2 & _). pose proof (ms_sched _ _ _ _ _ M) as SQ. rewrite Hq in SQ. cbn [app] in SQ.
    pose proof (st_clock _ _ _ _ _ (ms_started _ _ _ _ _ M)) as CK. pose proof (st_occurs _ _ _ _ _ (ms_started _ _ _ _ _ M)) as OC.
    w1. eapply wp_mono; [by apply tell_time|]. intros [] s2 (A2 & V2 & O2). cbv beta. w1. fold (beginOf ev). fold bg.
    set (p2 := p_set_props (<["time" := dec (bg / SECOND)]> (p_props p1)) p1).
    eapply (wp_mono _ _ _ (fun _ s3 => only o s2 s3 /\ s_ev s3 = s_ev s2 /\ exists p3, ostOf s3 o = os_set_delayed sch (os_set_player (Some p3) (ostOf s2 o)) /\
       p_state p3 = POccurring /\ p_class p3 = p_class p1 /\ p_props p3 !! "time" = Some (dec (bg / SECOND)) /\
       (ev_end ev = TIME_NONE -> attrs_of p3 = attrs_of p1) /\
       (ev_end ev <> TIME_NONE -> (bg <= ev_end ev)%N -> (ev_end ev - bg <= 4611686018 * second)%N ->
         p_props p3 !! "duration" = Some (dec ((ev_end ev - bg) / SECOND)) /\ p_duration p3 = ((ev_end ev - bg) / second * second)%N))).
    { unfold sch. destruct (N.eqb_spec (ev_end ev) TIME_NONE) as [En|En].
      - w1. split; [by repeat split|]. split; [done|]. exists p2. split; [rewrite O2, app_nil_r, <- SQ; by destruct (ostOf s1 o)|].
        split; [by destruct P2|]. split; [done|]. split; [unfold p2; cbn; by rewrite lookup_insert|]. split; [by destruct p1|done].
      - w1. eapply wp_mono; [apply (tell_duration o _ s2 p2); [by rewrite O2|]|].
        { unfold tsub, W64, TIME_NONE. change (2 ^ 64)%N with 18446744073709551616%N. pose proof (N.mod_lt (ev_end ev + 18446744073709551616 - bg) 18446744073709551616 ltac:(lia)).
          pose proof (N.div_le_upper_bound ((ev_end ev + 18446744073709551616 - bg) mod 18446744073709551616) SECOND 18446744073709551615 ltac:(done)) as HD. apply HD. unfold SECOND. lia. }
        intros [] s3 (A3 & V3 & a & Ha & O3). cbv beta. unfold addDelayed. w1.
        assert (T0 : tadd 0 (ev_end ev) = ev_end ev) by (unfold tadd; apply N.mod_small; unfold TIME_NONE, W64 in *; lia).
        split; [destruct A3 as (? & ? & ? & A3'); split; [done|]; split; [done|]; split; [done|]; intros o' Hne; unfold sched; sts; rewrite decide_False by done; by apply A3'|].
        split; [done|].
        exists (p_set_props (<["duration" := dec (tsub (ev_end ev) bg / SECOND)]> (p_props p2)) (with_attrs p2 a)).
        split. { unfold sched. sts. rewrite decide_True by done. rewrite O3. cbn. rewrite O2. cbn. rewrite SQ, CK, T0. by destruct (ostOf s1 o). }
        split; [by destruct P2|]. split; [done|].
        split; [cbn; rewrite lookup_insert_ne by done; by rewrite lookup_insert|]. split; [done|]. intros _ Hle Hsm.
        assert (TS : tsub (ev_end ev) bg = (ev_end ev - bg)%N).
        { unfold tsub, TIME_NONE, W64 in *. replace (ev_end ev + 18446744073709551616 - bg)%N with (ev_end ev - bg + 1 * 18446744073709551616)%N by lia.
          rewrite N.mod_add by lia. apply N.mod_small. lia. }
        rewrite TS in *. split; [cbn; by rewrite lookup_insert|]. change (a_duration a = (ev_end ev - bg) / second * second)%N. apply Ha.
        unfold SECOND. apply N.div_le_upper_bound; [done|]. unfold second in Hsm. lia. }
    intros [] s3 (A3 & V3 & p3 & O3 & P31 & P32 & P33 & P34 & P35). cbv beta. w1. w1.
    assert (Q3 : o_delayed (ostOf s3 o) = sch) by (by rewrite O3).
    assert (V13 : forall y, evState s3 y = evState s1 y) by (intros y; rewrite (evState_sev s2 s3) by done; by rewrite (evState_sev s1 s2)).
    assert (TS : forall y, toStart bg sch y <-> beginsBefore D ob bg y).
    { intros y. split.
      - intros (a & x & Hx & E1 & E2 & E3). apply elem_of_app in Hx as [Hx|Hx].
        + apply schedule_in in Hx as (z & ev' & K1 & K2 & K3 & [[-> ->]|[-> ->]]); [|done]. cbn in E3. subst z. split; [done|]. by exists ev'.
        + destruct (ev_end ev =? TIME_NONE)%N; [by apply elem_of_nil in Hx|]. apply elem_of_list_singleton in Hx as [= -> ->]. done.
      - intros (K1 & ev' & K2 & K3 & K4). exists (mkAct y START None "" "" ""), (ev_begin ev'). split; [|done]. apply elem_of_app. left. by apply schedule_has. }
    rewrite Q3. eapply wp_mono; [apply (seek_ok n o ob bg (ev_end ev) Ho Hm sch [] s3)|].
    { by rewrite Q3. }
    { intros a x Hx. apply elem_of_app in Hx as [Hx|Hx].
      - apply schedule_in in Hx as (z & ev' & K1 & K2 & K3 & [[-> ->]|[-> ->]]); by apply (TF _ _ K2).
      - destruct (ev_end ev =? TIME_NONE)%N; [by apply elem_of_nil in Hx|]. by apply elem_of_list_singleton in Hx as [= -> ->]. }
    { intros a x Hx Ea. apply elem_of_app in Hx as [Hx|Hx].
      - apply schedule_in in Hx as (z & ev' & K1 & K2 & K3 & [[-> ->]|[-> ->]]); [|done]. exists ev'. split; [done|]. split; [|done].
        destruct (wo_events _ _ _ _ (wf_o _ _ WF _ _ Ho) z K1) as (ev'' & ? & ?). congruence.
      - destruct (ev_end ev =? TIME_NONE)%N; [by apply elem_of_nil in Hx|]. by apply elem_of_list_singleton in Hx as [= -> ->]. }
    { by rewrite V13, OC. }
    { intros p (ob1 & pb & K). apply (NS p). exists ob1, pb. by rewrite V13 in K. }
    intros [] s4 (A4 & O4 & U4 & W4). cbv beta. w1. split; [done|]. exists s1, p1, p3. split; [done|].
    split; [intros x Hx; apply U4; by apply TS|]. split; [intros x Hx; rewrite W4 by (by rewrite TS); apply V13|].
    destruct A2 as (A21 & A22 & A23 & A24), A3 as (A31 & A32 & A33 & A34), A4 as (A41 & A42 & A43 & A44).
    split; [split; [congruence|]; split; [congruence|]; split; [congruence|]; intros o' Hne; by rewrite A44, A34, A24|].
    split; [rewrite O4, O3, O2; exact CK|]. split; [by rewrite O4, O3, O2|]. split; [by rewrite O4|].
    split; [done|]. split; [by rewrite O4, O3|]. split; [done|]. split; [done|].
    split; [exists (dec (bg / SECOND)); split; [apply dec_ok; unfold SECOND, TIME_NONE in *; apply N.div_le_upper_bound; lia|done]|].
    split; [done|]. intros H1 H2 H3. destruct (P35 H1 H2 H3) as [H4 H5]. split; [|done].
    exists (dec ((ev_end ev - bg) / SECOND)). split; [|done]. apply dec_ok. unfold SECOND, TIME_NONE in *. apply N.div_le_upper_bound; lia. }
  intros b1 s5 (-> & s1 & p1 & p' & M & U & W & A & K1 & K2 & K3 & K4 & K5 & K6 & K7 & K8 & K9 & K10). cbv beta. cbn [negb]. w1. w1. w1. w1. w1.
  match goal with |- wp _ _ _ _ ?z => set (s6 := z) end.
  unfold after. w1. apply wp_getO; [done|]. intros ob' Ho'. assert (ob' = ob) as -> by congruence. clear Ho'.
  eapply (wp_mono _ _ _ (fun b6 s7 => b6 = true /\ s7 = s6)).
  { assert (G : pwp (media_after D o e ev START) (fun b6 s7 => b6 = true /\ s7 = s6) s6); [|by destruct (ob_kind ob)].
    unfold media_after. w1. w1. rewrite Et, El. destruct (hasLabel ev); [|by w1]. assert (o_player (ostOf s6 o) = Some p') as -> by done. by w1. }
  intros b6 s7 [-> ->]. cbv beta. w1. split; [done|]. split. exists s1, p1, p'. split; [done|].
  fold bg. destruct A as (A1 & A2 & A3 & A4).
  split. { intros x [-> |Hx]; unfold s6; sts; [by rewrite decide_True|]. case_decide; [done|]. by apply U. }
  split. { intros x Hx Hn. unfold s6. sts. rewrite decide_False by done. by apply W. }
  split; [intros o' Hne; unfold s6; sts; by apply A4|]. split; [done|]. split; [done|]. split; [done|]. split; [done|]. split; [done|]. split; [done|].
  split; [done|]. split; [done|]. split; [done|]. split; [done|]. done.
Qed.
End Anchor.
Lemma f_C38 D : wf_doc D -> timesFit D -> forall o ob e ev s n b s', d_obj D !! o = Some ob -> is_media (ob_kind ob) = true ->
  d_evt D !! e = Some ev -> e ∈ ob_events ob -> ev_type ev = PRESENTATION -> isLambda ev = false ->
  screen s -> evState s (ob_lambda ob) = SLEEPING -> o_delayed (ostOf s o) = [] -> evState s e = SLEEPING ->
  tr D n e START s = Ok b s' -> b = true /\ startedAt D s s' o ob e ev.
Proof. intros [rank WF] TF o ob e ev s n b s' Ho Hm He Hin Et El HS Hs Hq Es E. eapply (start_anchor D rank WF); eauto. Qed.

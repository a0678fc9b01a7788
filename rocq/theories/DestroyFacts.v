(** DestroyFacts.v -- C51: deleting a document is safe. *)
From Verif Require Export Destroy Stop TermApi FReach.
Open Scope string_scope.
Open Scope list_scope.
Open Scope m_scope.

(** ** Two runs with the same successful outcome. *)
Definition both {S A} (m m' : M S A) (Q : A -> S -> Prop) (s : S) : Prop := exists a s', m s = Ok a s' /\ m' s = Ok a s' /\ Q a s'.
Section Both.
Context {S : Type}.
Lemma both_ret {A} (a : A) (Q : A -> S -> Prop) s : Q a s -> both (ret a) (ret a) Q s.
Proof. intros H. by exists a, s. Qed.
Lemma both_bind {A B} (m m' : M S A) (f f' : A -> M S B) (R : A -> S -> Prop) Q s : both m m' R s -> (forall a s', R a s' -> both (f a) (f' a) Q s') -> both (bind m f) (bind m' f') Q s.
Proof. intros (a & s1 & E & E' & H) Hf. destruct (Hf _ _ H) as (b & s2 & F & F' & HQ). exists b, s2. unfold bind. rewrite E, E'. done. Qed.
Lemma both_get {B} (f f' : S -> M S B) Q s : both (f s) (f' s) Q s -> both (bind get f) (bind get f') Q s.
Proof. done. Qed.
Lemma both_gets {A B} (g : S -> A) (f f' : A -> M S B) Q s : both (f (g s)) (f' (g s)) Q s -> both (bind (gets g) f) (bind (gets g) f') Q s.
Proof. done. Qed.
Lemma both_mod {B} (g : S -> S) (f f' : unit -> M S B) Q s : both (f tt) (f' tt) Q (g s) -> both (bind (modify g) f) (bind (modify g) f') Q s.
Proof. done. Qed.
Lemma both_mono {A} (m m' : M S A) (R Q : A -> S -> Prop) s : both m m' R s -> (forall a s', R a s' -> Q a s') -> both m m' Q s.
Proof. intros (a & s1 & E & E' & H) HQ. exists a, s1. auto. Qed.
Lemma both_pwp {A} (m m' : M S A) (R Q : A -> S -> Prop) s : both m m' R s -> wp True True m Q s -> both m m' (fun a s' => R a s' /\ Q a s') s.
Proof. intros (a & s1 & E & E' & H) HQ. exists a, s1. unfold wp in HQ. rewrite E in HQ. done. Qed.
Lemma both_eq {A} (m m' : M S A) (Q : A -> S -> Prop) s : m' s = m s -> wp False False m Q s -> both m m' Q s.
Proof. unfold wp. intros E H. destruct (m s) as [a s'| |] eqn:Em; [|done|done]. exists a, s'. done. Qed.
Lemma both_foreach {A} (f f' : A -> M S unit) (I : S -> Prop) (Q : unit -> S -> Prop) l s : I s -> (forall x s', x ∈ l -> I s' -> both (f x) (f' x) (fun _ => I) s') -> (forall s', I s' -> Q tt s') -> both (foreach f l) (foreach f' l) Q s.
Proof.
  intros HI Hf HQ. revert s HI. induction l as [|x l IH]; intros s HI; cbn [foreach]; [by apply both_ret, HQ|].
  eapply both_bind; [apply Hf; [left|done]|]. intros [] s' HI'. apply IH; [|done]. intros y s2 Hy. apply Hf. by right.
Qed.
End Both.

Section Delete.
Context (D : doc) (rank : oid -> nat) (WF : wf_at D rank).
Notation J := (J D).

(** ** Trees. *)
Lemma child_of o ob c : d_obj D !! o = Some ob -> c ∈ ob_children ob -> exists cb, d_obj D !! c = Some cb /\ ob_parent cb = Some o /\ rank c < rank o.
Proof.
  intros Ho Hc. destruct (wo_children _ _ _ _ (wf_o _ _ WF _ _ Ho) _ Hc) as (cb & Hcb & Hpar).
  destruct (wo_parent _ _ _ _ (wf_o _ _ WF _ _ Hcb) _ Hpar) as (pb & _ & _ & _ & Hr). eauto.
Qed.
Lemma inside_rank a x : inside D a x -> x = a \/ rank x < rank a.
Proof.
  induction 1 as [|x xb p Hx Hp H IH]; [by left|]. right. destruct (wo_parent _ _ _ _ (wf_o _ _ WF _ _ Hx) _ Hp) as (pb & _ & _ & _ & Hr). destruct IH as [->|]; lia.
Qed.
Lemma inside_up o ob c x : d_obj D !! o = Some ob -> c ∈ ob_children ob -> inside D c x -> inside D o x.
Proof.
  intros Ho Hc H. destruct (child_of _ _ _ Ho Hc) as (cb & Hcb & Hp & _). induction H as [|x xb p Hx Hxp H IH]; [by eapply in_nested; [done|done|constructor]|by eapply in_nested].
Qed.
(** Two siblings have nothing in common. *)
Lemma inside_chain a b x : inside D a x -> inside D b x -> inside D a b \/ inside D b a.
Proof.
  intros Ha. revert b. induction Ha as [|x xb p Hx Hp Ha IH]; intros b Hb; [by right|].
  inversion Hb as [|x' xb' p' Hx' Hp' Hb']; subst; [left; by eapply in_nested|].
  assert (p' = p) as -> by congruence. by apply IH.
Qed.
Lemma sibling_apart o ob c d x : d_obj D !! o = Some ob -> c ∈ ob_children ob -> d ∈ ob_children ob -> inside D c x -> inside D d x -> c = d.
Proof.
  assert (A : forall o ob c d, d_obj D !! o = Some ob -> c ∈ ob_children ob -> d ∈ ob_children ob -> inside D c d -> c = d).
  { intros o' ob' c' d' Ho Hc Hd H. destruct (child_of _ _ _ Ho Hc) as (cb & Hcb & Hp & Hr). destruct (child_of _ _ _ Ho Hd) as (db & Hdb & Hdp & Hdr).
    inversion H as [|x' xb' p' Hx' Hp' Hb']; subst; [done|]. assert (p' = o') as -> by congruence. destruct (inside_rank _ _ Hb') as [->|]; lia. }
  intros Ho Hc Hd H1 H2. destruct (inside_chain _ _ _ H1 H2) as [H|H]; [by eapply A|symmetry; by eapply A].
Qed.
Lemma cared_inside a x : is_Some (d_obj D !! a) -> caredBy D a x -> inside D a x /\ is_Some (d_obj D !! x).
Proof.
  intros Ha. induction 1 as [|p pb c H [IH _] Hp Hk Hc]; [split; [constructor|done]|]. destruct (child_of _ _ _ Hp Hc) as (cb & Hcb & Hpar & _). split; [by eapply in_nested|by eexists].
Qed.
Lemma cared_step o ob x : d_obj D !! o = Some ob -> caredBy D o x <-> x = o \/ (ob_kind ob = KContext /\ exists c, c ∈ ob_children ob /\ caredBy D c x).
Proof.
  intros Ho. split.
  - induction 1 as [|p pb c H IH Hp Hk Hc]; [by left|]. right. destruct IH as [->|(Hk' & d & Hd & IH)].
    + assert (pb = ob) as -> by congruence. split; [done|]. exists c. split; [done|constructor].
    + split; [done|]. exists d. split; [done|]. by eapply cb_child.
  - intros [->|(Hk & c & Hc & H)]; [constructor|]. induction H as [|p pb d H IH Hp Hkp Hd]; [eapply cb_child; [constructor|done..]|by eapply cb_child].
Qed.

(** ** Stopping looks only at what is in the object, and at its parent. *)
(** What [D'] still has of [D]: the objects in [o] with their events, and its parent. *)
Definition live (D' : doc) (o : oid) : Prop :=
  (forall x xb, inside D o x -> d_obj D !! x = Some xb -> d_obj D' !! x = Some xb /\ forall e, e ∈ ob_events xb -> d_evt D' !! e = d_evt D !! e) /\
  (forall ob p, d_obj D !! o = Some ob -> ob_parent ob = Some p -> d_obj D' !! p = d_obj D !! p).
Lemma live_child D' o ob c : live D' o -> d_obj D !! o = Some ob -> c ∈ ob_children ob -> live D' c.
Proof.
  intros [H1 H2] Ho Hc. split.
  - intros x xb Hx. apply H1. by eapply inside_up.
  - intros cb p Hcb Hp. destruct (child_of _ _ _ Ho Hc) as (cb' & Hcb' & Hp' & _). assert (cb' = cb) as -> by congruence. assert (p = o) as -> by congruence. rewrite Ho. by apply H1; [constructor|].
Qed.
Lemma live_self D' o ob : live D' o -> d_obj D !! o = Some ob -> d_obj D' !! o = Some ob /\ forall e, e ∈ ob_events ob -> d_evt D' !! e = d_evt D !! e.
Proof. intros [H1 _] Ho. apply H1; [constructor|done]. Qed.
Lemma getO_eq D' o s : d_obj D' !! o = d_obj D !! o -> getO D' o s = getO D o s.
Proof. intros E. unfold getO. by rewrite E. Qed.
Lemma addAwake_eq D' o k s : live D' o -> is_Some (d_obj D !! o) -> addAwake D' o k s = addAwake D o k s.
Proof.
  intros L [ob Ho]. destruct (live_self _ _ _ L Ho) as [Ho' _]. unfold addAwake, bind, getO. rewrite Ho, Ho'. cbn. destruct (ob_parent ob) as [p|] eqn:Ep; [|done].
  unfold isContext, bind, getO. by rewrite (proj2 L _ _ Ho Ep).
Qed.
Lemma doStop_eq D' o s : live D' o -> is_Some (d_obj D !! o) -> doStop D' o s = doStop D o s.
Proof.
  intros L [ob Ho]. destruct (live_self _ _ _ L Ho) as [Ho' _].
  assert (A : forall s, addAwake D' o (-1) s = addAwake D o (-1) s) by (intros s1; apply addAwake_eq; [done|by eexists]).
  unfold doStop, bind, getO, modify. rewrite Ho, Ho'. cbn [ofoption ret]. destruct (foreach _ _ _); [|done|done]. apply A.
Qed.
Lemma mediaDoStop_eq D' o s : live D' o -> is_Some (d_obj D !! o) -> mediaDoStop D' o s = mediaDoStop D o s.
Proof.
  intros L Hs. assert (A : forall s, doStop D' o s = doStop D o s) by (intros s1; by apply doStop_eq). destruct Hs as [ob Ho]. destruct (live_self _ _ _ L Ho) as [Ho' _].
  unfold mediaDoStop, bind, get, modify. destruct (o_player (ostOf s o)); [apply A|]. unfold isSleeping, objState, bind, getO. by rewrite Ho, Ho'.
Qed.

Lemma both_getO D' o ob {B} (f f' : obj -> ME B) Q s : d_obj D !! o = Some ob -> d_obj D' !! o = Some ob -> both (f ob) (f' ob) Q s -> both (bind (getO D o) f) (bind (getO D' o) f') Q s.
Proof. intros H H' (a & s1 & E & E' & HQ). exists a, s1. unfold bind, getO. rewrite H, H'. cbn. done. Qed.
Lemma both_getE D' e ev {B} (f f' : evt -> ME B) Q s : d_evt D !! e = Some ev -> d_evt D' !! e = Some ev -> both (f ev) (f' ev) Q s -> both (bind (getE D e) f) (bind (getE D' e) f') Q s.
Proof. intros H H' (a & s1 & E & E' & HQ). exists a, s1. unfold bind, getE. rewrite H, H'. cbn. done. Qed.
Lemma both_assert b q {B} (f f' : unit -> ME B) Q s : b = true -> both (f tt) (f' tt) Q s -> both (bind (assertm b q) f) (bind (assertm b q) f') Q s.
Proof. intros ->. done. Qed.
Lemma both_doStop D' o ob s : live D' o -> d_obj D !! o = Some ob -> both (doStop D o ;; ret true) (doStop D' o ;; ret true) (fun _ _ => True) s.
Proof. intros L Ho. eapply (both_bind _ _ _ _ (fun _ _ => True)); [apply both_eq; [apply doStop_eq; [done|by eexists]|by eapply doStop_f]|]. intros [] s' _. by apply both_ret. Qed.

Lemma stop_both D' n : forall o ob s, d_obj D !! o = Some ob -> rank o < n -> J s -> live D' o -> both (tr D n (ob_lambda ob) STOP) (tr D' n (ob_lambda ob) STOP) (fun _ s' => J s') s.
Proof.
  induction n as [|n IH]; intros o ob s Ho Hn HJ L; [lia|].
  destruct (lambda_evt D rank WF _ _ Ho) as (ev & He & Hl & Hob). destruct (live_self _ _ _ L Ho) as [Ho' HE].
  assert (He' : d_evt D' !! ob_lambda ob = Some ev) by (rewrite HE; [done|by eapply lam_ev]).
  cut (both (tr D (S n) (ob_lambda ob) STOP) (tr D' (S n) (ob_lambda ob) STOP) (fun _ _ => True) s).
  { intros HB. eapply both_mono; [eapply both_pwp; [exact HB|]|intros a s' [_ H]; exact H]. apply J_tr with rank; [done|by eexists|done]. }
  assert (Hty : ev_type ev = PRESENTATION). { unfold isLambda in Hl. apply andb_true_iff in Hl as [Hl _]. by apply bool_decide_eq_true in Hl. }
  rewrite !tr_S. unfold tr_body. eapply both_getE; [done..|]. apply both_gets. 
  destruct (legal (evState s (ob_lambda ob)) STOP) eqn:El; cbn [negb]; [|by apply both_ret].
  assert (Hact : evState s (ob_lambda ob) <> SLEEPING) by (intros E; by rewrite E in El).
  rewrite Hob. eapply (both_bind _ _ _ _ (fun _ s1 => J s1 /\ (is_media (ob_kind ob) = true -> s1 = s))).
  - unfold before. eapply both_getO; [done..|]. destruct (ob_kind ob) eqn:Hk.
    + unfold ctx_before. rewrite Hty. apply both_assert; [done|]. eapply both_getO; [done..|].
      eapply (both_bind _ _ _ _ (fun _ s1 => J s1)); [|intros [] s1 H1; by apply both_ret].
      apply (both_foreach _ _ J); [done| |done]. intros c s1 Hc H1. destruct (child_of _ _ _ Ho Hc) as (cb & Hcb & _ & Hr). pose proof (live_child _ _ _ _ L Ho Hc) as Lc.
      eapply both_getO; [done|by eapply live_self|]. eapply (both_bind _ _ _ _ (fun _ s2 => J s2)); [eapply IH; [done|lia|done..]|]. intros b s2 H2. by apply both_ret.
    + unfold sw_before. rewrite Hty. eapply (both_bind _ _ _ _ (fun _ s1 => s1 = s)).
      { unfold sw_candidates. eapply both_getO; [done..|]. rewrite Hl. 
        assert (A : forall l, (forall c, c ∈ l -> c ∈ ob_children ob) -> both 
          ((fix go (l : list oid) : ME (list eid) := match l with [] => ret [] | c :: l => do cb <- getO D c; do r <- go l; ret (ob_lambda cb :: r) end) l)
          ((fix go (l : list oid) : ME (list eid) := match l with [] => ret [] | c :: l => do cb <- getO D' c; do r <- go l; ret (ob_lambda cb :: r) end) l) (fun _ s1 => s1 = s) s).
        { induction l as [|c l IHl]; intros Hsub; [by apply both_ret|]. assert (Hc : c ∈ ob_children ob) by (apply Hsub; left). destruct (child_of _ _ _ Ho Hc) as (cb & Hcb & _ & Hr). 
          eapply both_getO; [done|eapply live_self; [eapply live_child; eauto|done]|]. eapply both_bind; [apply IHl; intros; apply Hsub; by right|]. intros r s' ->. by apply both_ret. }
        by apply A. }
      intros cands s0 ->. apply both_get. destruct (o_selected (ostOf s o)) as [c|] eqn:Esel; [|by apply both_ret].
      pose proof HJ as [(HS & HQ & HO) HP]. pose proof (HS _ _ _ Ho Esel) as Hc. destruct (child_of _ _ _ Ho Hc) as (cb & Hcb & _ & Hr). pose proof (live_child _ _ _ _ L Ho Hc) as Lc.
      eapply both_getO; [done|by eapply live_self|]. eapply (both_bind _ _ _ _ (fun _ s2 => J s2)); [eapply IH; [done|lia|done..]|]. intros b s2 H2. apply both_mod. apply both_ret. split; [|done].
      eapply J_step; [exact WF|exact H2|]. constructor. eapply ms_select; eauto. done.
    + unfold media_before. rewrite Hty. by apply both_ret.
    + unfold media_before. rewrite Hty. by apply both_ret.
  - intros b s1 [HJ1 Hs1]. destruct b; cbn [negb]; [|by apply both_ret]. apply both_mod, both_mod. fold (commit (ob_lambda ob) STOP s1).
    eapply (both_bind _ _ _ _ (fun _ _ => True)).
    2:{ intros b s2 _. destruct b; [by apply both_ret|]. apply both_mod. by apply both_ret. }
    unfold after. eapply both_getO; [done..|].
    assert (HM : is_media (ob_kind ob) = true -> both (media_after D o (ob_lambda ob) ev STOP) (media_after D' o (ob_lambda ob) ev STOP) (fun _ _ => True) (commit (ob_lambda ob) STOP s1)).
    { intros Hm. unfold media_after. apply both_get. cbv zeta. rewrite Hty, Hl. rewrite (Hs1 Hm) in *.
      assert (Hp : is_Some (o_player (ostOf s o))).
      { destruct HJ as [_ HP]. specialize (HP _ _ Ho). rewrite Hm, bool_decide_true in HP by done. unfold pl in HP.
        destruct (o_player (ostOf s o)); [by eexists|done]. }
      apply both_assert; [apply bool_decide_eq_true; sts; by destruct Hp as [? ->]|].
      eapply (both_bind _ _ _ _ (fun _ _ => True)); [|intros [] s2 _; by apply both_ret]. apply both_eq; [apply mediaDoStop_eq; [done|by eexists]|].
      apply wp_mediaDoStop; [congruence| |done|done]. intros ob' p Hob' Hp' Hn'. by eapply parent_valid. }
    destruct (ob_kind ob) eqn:Hk; [| |by apply HM|by apply HM].
    + unfold ctx_after. rewrite Hty. apply both_assert; [done|]. by eapply both_doStop.
    + unfold sw_after. rewrite Hty. by eapply both_doStop.
Qed.

(** ** One object. *)
Lemma media_gone o ob s : d_obj D !! o = Some ob -> is_media (ob_kind ob) = true -> J s ->
  wp False False (mediaDoStop D o) (fun _ s' => J s' /\ o_player (ostOf s' o) = None /\ forall y, o_player (ostOf s y) = None -> o_player (ostOf s' y) = None) s.
Proof.
  intros Ho Hm HJ. pose proof HJ as [HB HP]. pose proof (HP _ _ Ho) as Hpl. rewrite Hm in Hpl. unfold pl in Hpl.
  apply fwp_of; cycle 1.
  - assert (HB' : pwp (mediaDoStop D o) (fun _ s' => BInv D s') s) by (by eapply BI_mediaDoStop).
    unfold wp in *. destruct (mediaDoStop D o s) as [[] s'| |] eqn:E; [|done|done]. destruct (o_player (ostOf s o)) as [q|] eqn:Ep.
    + destruct (mediaDoStop_ok _ _ _ _ _ Ho (ex_intro _ _ Ep) E) as (_ & E2 & E3). split; [split; [exact HB'|]|split].
      * intros o1 ob1 Ho1. unfold pl, evState. rewrite E3, E2. cbn. destruct (decide (o = o1)) as [<-|Hne]; cbn.
        -- assert (ob1 = ob) as -> by congruence. rewrite decide_True by (exists ob; split; [done|by eapply lam_ev]). cbn. by rewrite Hm.
        -- rewrite decide_False by (eapply other_event; [exact WF|exact Ho|exact Ho1|done|by eapply lam_ev]). apply (HP _ _ Ho1).
      * rewrite E3. cbn. by rewrite decide_True.
      * intros y Hy. rewrite E3. cbn. destruct (decide (o = y)); cbn; done.
    + assert (s' = s) as ->. { revert E. unfold mediaDoStop, bind, get. rewrite Ep. unfold isSleeping, objState, bind, getO. rewrite Ho. cbn. unfold assertm. destruct (bool_decide (evState s (ob_lambda ob) = SLEEPING)); unfold ret, crashm; cbv beta; intros EE; congruence. }
      done.
  - unfold wp. destruct (o_player (ostOf s o)) as [q|] eqn:Ep.
    + assert (X : wp False False (mediaDoStop D o) (fun _ _ => True) s). { apply wp_mediaDoStop; [congruence| |by eexists|done]. intros ob' p Ho' Hp' Hn'. by eapply parent_valid. } exact X.
    + unfold mediaDoStop, bind, get. rewrite Ep. unfold isSleeping, objState, bind, getO. rewrite Ho. cbn. cbn in Hpl. symmetry in Hpl. apply bool_decide_eq_false in Hpl.
      rewrite bool_decide_true by (destruct (decide (evState s (ob_lambda ob) = SLEEPING)); tauto). done.
Qed.
Lemma tr_noplayer n o ob s : d_obj D !! o = Some ob -> pwp (tr D n (ob_lambda ob) STOP) (fun _ s' => forall y yb, d_obj D !! y = Some yb -> is_media (ob_kind yb) = true -> o_player (ostOf s y) = None -> o_player (ostOf s' y) = None) s.
Proof.
  intros Ho. eapply wp_mono; [eapply (R_stop D rank WF n STOP o ob s); [by left|done]|]. intros b s' [HR _] y yb Hy Hm Hn. cbv beta.
  destruct (HR y) as [Hs|[(yb' & Hy' & _ & H & _) _]]; [by rewrite (sm_pl _ _ _ _ Hs)|]. apply H. congruence.
Qed.

(** ** What deleting the objects in [P] does to the memory. *)
Record gone (P : oid -> Prop) (h h' : heap) : Prop := mkGone {
  go_obj : forall x, P x -> h_obj h' !! x = None;
  go_objk : forall x, ~ P x -> h_obj h' !! x = h_obj h !! x;
  go_evt : forall x xb e, P x -> d_obj D !! x = Some xb -> e ∈ ob_events xb -> h_evt h' !! e = None;
  go_evtk : forall e, (forall x xb, P x -> d_obj D !! x = Some xb -> e ∉ ob_events xb) -> h_evt h' !! e = h_evt h !! e;
  go_log : exists l, h_gone h' = l ++ h_gone h /\ NoDup l /\ forall x, x ∈ l <-> P x;
  go_pl : forall x xb, P x -> d_obj D !! x = Some xb -> is_media (ob_kind xb) = true -> o_player (ostOf (h_st h') x) = None;
  go_plk : forall x xb, d_obj D !! x = Some xb -> is_media (ob_kind xb) = true -> o_player (ostOf (h_st h) x) = None -> o_player (ostOf (h_st h') x) = None }.
Lemma owner_unique x xb y yb e : d_obj D !! x = Some xb -> d_obj D !! y = Some yb -> e ∈ ob_events xb -> e ∈ ob_events yb -> x = y.
Proof.
  intros Hx Hy He He'. destruct (wo_events _ _ _ _ (wf_o _ _ WF _ _ Hx) _ He) as (ev & E1 & <-). destruct (wo_events _ _ _ _ (wf_o _ _ WF _ _ Hy) _ He') as (ev' & E2 & <-). congruence.
Qed.
Lemma gone_nil (P : oid -> Prop) h : (forall x, ~ P x) -> gone P h h.
Proof. intros H. split; try done; try (intros; by edestruct H). exists []. split; [done|]. split; [constructor|]. intros x. split; [intros Hx; by apply elem_of_nil in Hx|intros Hx; by edestruct H]. Qed.
Lemma gone_trans (P Q R : oid -> Prop) h h1 h2 : (forall x, P x -> Q x -> False) -> (forall x, R x <-> P x \/ Q x) -> gone P h h1 -> gone Q h1 h2 -> gone R h h2.
Proof.
  intros Hd HR [A1 A2 A3 A4 (l1 & A5 & A6 & A7) A8 A9] [B1 B2 B3 B4 (l2 & B5 & B6 & B7) B8 B9]. split.
  - intros x [Hx|Hx]%HR; [|auto]. rewrite B2; [auto|]. intros Hq. by eapply Hd.
  - intros x Hx. rewrite B2; [apply A2|]; intros H; apply Hx, HR; auto.
  - intros x xb e [Hx|Hx]%HR Hxb He; [|eauto]. rewrite B4; [eauto|]. intros y yb Hy Hyb Hin. pose proof (owner_unique _ _ _ _ _ Hxb Hyb He Hin) as <-. by eapply Hd.
  - intros e He. rewrite B4; [apply A4|]; intros x xb Hx; apply He, HR; auto.
  - exists (l2 ++ l1). rewrite B5, A5, app_assoc. split; [done|]. split.
    + apply NoDup_app. split; [done|]. split; [|done]. intros x Hx%B7 Hx'%A7. by eapply Hd.
    + intros x. rewrite elem_of_app, A7, B7, HR. tauto.
  - intros x xb [Hx|Hx]%HR Hxb Hm; [|eauto]. eapply B9; eauto.
  - intros x xb Hxb Hm Hn. eapply B9; eauto.
Qed.
Lemma gone_set (P Q : oid -> Prop) h h' : (forall x, P x <-> Q x) -> gone P h h' -> gone Q h h'.
Proof. intros HE HP. eapply (gone_trans P (fun _ => False)); [done|intros x; rewrite <- HE; tauto|exact HP|apply gone_nil; tauto]. Qed.

(** ** Deleting. *)
Lemma live_gone D0 P h h' o : gone P h h' -> (forall x, inside D o x -> ~ P x) -> (forall ob p, d_obj D !! o = Some ob -> ob_parent ob = Some p -> ~ P p) -> live (docIn D0 h) o -> live (docIn D0 h') o.
Proof.
  intros [G1 G2 G3 G4 _ _ _] Hn Hp [L1 L2]. split.
  - intros x xb Hx Hxb. destruct (L1 _ _ Hx Hxb) as [A B]. cbn in A, B |- *. split; [by rewrite G2 by (by apply Hn)|]. intros e He. rewrite G4; [by apply B|].
    intros y yb Hy Hyb Hin. pose proof (owner_unique _ _ _ _ _ Hxb Hyb He Hin) as <-. by eapply Hn.
  - intros ob p Ho Hpp. cbn. rewrite G2 by (by eapply Hp). by eapply L2.
Qed.
Lemma free_ok o ob h : d_obj D !! o = Some ob -> h_obj h !! o = Some ob -> (forall e, e ∈ ob_events ob -> h_evt h !! e = d_evt D !! e) -> (is_media (ob_kind ob) = true -> o_player (ostOf (h_st h) o) = None) ->
  exists h', freeObject o h = Ok tt h' /\ h_st h' = h_st h /\ gone (fun x => x = o) h h'.
Proof.
  intros Ho Ho' HE Hpl.
  assert (HF : forallb (fun e => bool_decide (is_Some (h_evt h !! e))) (ob_events ob) = true).
  { apply forallb_forall. intros e He%elem_of_list_In. apply bool_decide_eq_true. rewrite HE by done. destruct (wo_events _ _ _ _ (wf_o _ _ WF _ _ Ho) _ He) as (ev & -> & _). by eexists. }
  assert (HD : forall l (m : gmap eid evt) e, foldr delete m l !! e = if bool_decide (e ∈ l) then None else m !! e).
  { clear. intros l m e. induction l as [|x l IH]; cbn; [by rewrite bool_decide_false by (by intros ?%elem_of_nil)|]. destruct (decide (e = x)) as [->|Hn].
    - rewrite lookup_delete, bool_decide_true by left. done.
    - rewrite lookup_delete_ne, IH by done. destruct (decide (e ∈ l)); [rewrite !bool_decide_true by (done || by right); done|]. rewrite !bool_decide_false; [done| |done]. intros [?|?]%elem_of_cons; done. }
  eexists. unfold freeObject, bind, get, modify. rewrite Ho', HF. split; [reflexivity|]. split; [done|]. split; cbn.
  - intros x ->. apply lookup_delete.
  - intros x Hx. by apply lookup_delete_ne.
  - intros x xb e -> Hxb He. rewrite HD, bool_decide_true; [done|]. congruence.
  - intros e He. rewrite HD, bool_decide_false; [done|]. by eapply He.
  - exists [o]. split; [done|]. split; [apply NoDup_singleton|]. intros x. by rewrite elem_of_list_singleton.
  - intros x xb -> Hxb Hm. apply Hpl. congruence.
  - done.
Qed.
Lemma gone_st (P : oid -> Prop) h h' s : gone P (h_set_st s h) h' -> (forall x xb, d_obj D !! x = Some xb -> is_media (ob_kind xb) = true -> o_player (ostOf (h_st h) x) = None -> o_player (ostOf s x) = None) -> gone P h h'.
Proof. intros [A1 A2 A3 A4 A5 A6 A7] H. split; eauto. Qed.
Lemma inHeap_ok {A} D0 (m : doc -> ME A) h (Q : A -> st -> Prop) : both (m D) (m (docIn D0 h)) Q (h_st h) -> exists a s, m D (h_st h) = Ok a s /\ inHeap D0 m h = Ok a (h_set_st s h) /\ Q a s.
Proof. intros (a & s & E & E' & H). exists a, s. unfold inHeap. by rewrite E'. Qed.

Lemma delete_ok D0 n k : forall o ob h, d_obj D !! o = Some ob -> rank o < k -> rank o < n -> J (h_st h) -> live (docIn D0 h) o ->
  exists h', deleteObject D0 n k o h = Ok tt h' /\ destroy D n k o (h_st h) = Ok tt (h_st h') /\ J (h_st h') /\ gone (caredBy D o) h h'.
Proof.
  induction k as [|k IH]; intros o ob h Ho Hk Hn HJ L; [lia|].
  destruct (live_self _ _ _ L Ho) as [Ho' HE]. cbn in Ho', HE.
  assert (X1 : deleteObject D0 n (S k) o h = (match ob_kind ob with KContext => inHeap D0 (fun D => tr D n (ob_lambda ob) STOP) ;; foreach (deleteObject D0 n k) (ob_children ob)
    | KSwitch => ret tt | KMedia | KSettings => inHeap D0 (fun D => mediaDoStop D o) end ;; freeObject o) h) by (cbn [deleteObject]; unfold bind at 1, get; by rewrite Ho').
  assert (X2 : destroy D n (S k) o (h_st h) = (match ob_kind ob with KContext => tr D n (ob_lambda ob) STOP ;; foreach (destroy D n k) (ob_children ob)
    | KSwitch => ret tt | KMedia | KSettings => mediaDoStop D o end) (h_st h)) by (cbn [destroy]; unfold bind at 1, getO; by rewrite Ho).
  rewrite X1, X2. clear X1 X2.
  assert (HM : is_media (ob_kind ob) = true -> exists h', (inHeap D0 (fun D => mediaDoStop D o) ;; freeObject o) h = Ok tt h' /\ mediaDoStop D o (h_st h) = Ok tt (h_st h') /\ J (h_st h') /\ gone (caredBy D o) h h').
  { intros Hm. destruct (inHeap_ok D0 (fun D => mediaDoStop D o) h _ (both_eq _ _ _ _ (mediaDoStop_eq (docIn D0 h) o (h_st h) L ltac:(by eexists)) (media_gone o ob (h_st h) Ho Hm HJ))) as ([] & s1 & E1 & E2 & HJ1 & Hp & Hnp).
    destruct (free_ok o ob (h_set_st s1 h)) as (h3 & K1 & K2 & K3); [done..|]. exists h3. unfold bind. rewrite E2, K1, E1, K2. split; [done|]. split; [done|]. split; [done|].
    eapply gone_st; [|intros x xb _ _; apply Hnp]. eapply gone_set; [|exact K3]. intros x. cbn. rewrite (cared_step _ _ _ Ho). split; [by left|]. intros [->|[Hk' _]]; [done|]. rewrite Hk' in Hm. discriminate Hm. }
  destruct (ob_kind ob) eqn:Ek.
  - destruct (inHeap_ok D0 (fun D => tr D n (ob_lambda ob) STOP) h _ (both_pwp _ _ _ _ _ (stop_both _ n o ob (h_st h) Ho Hn HJ L) (tr_noplayer n o ob (h_st h) Ho))) as (b & s1 & E1 & E2 & HJ1 & Hnp).
    assert (HL : forall l h, NoDup l -> (forall c, c ∈ l -> c ∈ ob_children ob) -> J (h_st h) -> (forall c, c ∈ l -> live (docIn D0 h) c) ->
      exists h', foreach (deleteObject D0 n k) l h = Ok tt h' /\ foreach (destroy D n k) l (h_st h) = Ok tt (h_st h') /\ J (h_st h') /\ gone (fun x => exists c, c ∈ l /\ caredBy D c x) h h').
    { induction l as [|c l IHl]; intros h1 HN Hs HJ' HLv; cbn [foreach].
      { exists h1. split; [done|]. split; [done|]. split; [done|]. apply gone_nil. intros x (c & Hc & _). by apply elem_of_nil in Hc. }
      apply stdpp.list.NoDup_cons in HN as [HN1 HN2]. assert (Hc : c ∈ ob_children ob) by (apply Hs; left). destruct (child_of _ _ _ Ho Hc) as (cb & Hcb & Hcp & Hr).
      destruct (IH c cb h1 Hcb ltac:(lia) ltac:(lia) HJ' (HLv c ltac:(left))) as (h2 & F1 & F2 & F3 & F4).
      assert (Ap : forall d x, d ∈ l -> inside D d x -> ~ caredBy D c x).
      { intros d x Hd Hx Hcx. apply cared_inside in Hcx as [Hcx _]; [|by eexists]. assert (c = d) as <-; [|done]. eapply (sibling_apart o ob); [done|done|apply Hs; by right|done|done]. }
      destruct (IHl h2 HN2 ltac:(intros; apply Hs; by right) F3) as (h3 & G1 & G2 & G3 & G4).
      { intros d Hd. eapply live_gone; [exact F4| | |apply HLv; by right]; [intros x Hx; by eapply Ap|]. intros db p Hdb Hdp Hcx. assert (Hd' : d ∈ ob_children ob) by (apply Hs; by right).
        destruct (child_of _ _ _ Ho Hd') as (db' & Hdb' & Hdp' & _). assert (p = o) as -> by congruence. apply cared_inside in Hcx as [Hcx _]; [|by eexists]. destruct (inside_rank _ _ Hcx) as [->|]; lia. }
      exists h3. unfold bind. rewrite F1, F2. split; [done|]. split; [done|]. split; [done|].
      eapply gone_trans; [| |exact F4|exact G4]; cbn.
      - intros x Hx (d & Hd & Hx'). eapply Ap; [exact Hd| |exact Hx]. destruct (child_of _ _ _ Ho (Hs d ltac:(by right))) as (db & Hdb & _). apply cared_inside; [by eexists|done].
      - intros x. split.
        + intros (d & [->|Hd]%elem_of_cons & Hx); [by left|right; eauto].
        + intros [Hx|(d & Hd & Hx)]; [exists c; split; [left|done]|exists d; split; [by right|done]]. }
    destruct (HL (ob_children ob) (h_set_st s1 h) (wo_nodup _ _ _ _ (wf_o _ _ WF _ _ Ho)) ltac:(done) HJ1) as (h2 & G1 & G2 & G3 & G4).
    { intros c Hc. exact (live_child _ _ _ _ L Ho Hc). }
    assert (G4' : gone (fun x => exists c, c ∈ ob_children ob /\ caredBy D c x) h h2) by (by eapply gone_st).
    assert (No : ~ exists c, c ∈ ob_children ob /\ caredBy D c o).
    { intros (c & Hc & Hx). destruct (child_of _ _ _ Ho Hc) as (cb & Hcb & _ & Hr). apply cared_inside in Hx as [Hx _]; [|by eexists]. destruct (inside_rank _ _ Hx) as [->|]; lia. }
    destruct (free_ok o ob h2) as (h3 & K1 & K2 & K3); [done|by rewrite (go_objk _ _ _ G4') by done| |by rewrite Ek|].
    { intros e He. rewrite (go_evtk _ _ _ G4'); [by apply HE|]. intros x xb Hx Hxb Hin. pose proof (owner_unique _ _ _ _ _ Ho Hxb He Hin) as <-. done. }
    exists h3. unfold bind. rewrite E2, G1, E1. cbn in G2. rewrite G2. split; [done|]. split; [by rewrite K2|]. split; [by rewrite K2|].
    eapply gone_trans; [| |exact G4'|exact K3]; cbn; [by intros x Hx ->|]. intros x. rewrite (cared_step _ _ _ Ho). rewrite Ek. tauto.
  - destruct (free_ok o ob h) as (h3 & K1 & K2 & K3); [done|done|done|by rewrite Ek|]. exists h3. unfold bind, ret. rewrite K1, K2. split; [done|]. split; [done|]. split; [done|].
    eapply gone_set; [|exact K3]. intros x. cbn. rewrite (cared_step _ _ _ Ho), Ek. split; [by left|]. intros [->|[Hk' _]]; done.
  - by apply HM.
  - by apply HM.
Qed.
End Delete.

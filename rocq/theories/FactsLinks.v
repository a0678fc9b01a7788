(** FactsLinks.v -- the statements of Props_Links.v, proved. *)
From Verif Require Export Links Witness.
Open Scope string_scope.
Open Scope list_scope.

Lemma f_forest : forall D n a s k s', evalAction D n a s = Ok k s' ->
  exists t, Cascade D s [t] s' /\ root t = a /\ forall x, within x t -> (sound D x /\ complete D x /\ ordered D x) /\ echoed D x.
Proof.
  intros D n a s k s' E. destruct (loop_cascade D n [a] s k s' E) as (ts & H1 & H2 & H3 & _).
  destruct ts as [|t [|]]; try done. injection H2 as H2. exists t. split; [done|]. split; [done|].
  apply Forall_inv in H3. exact H3.
Qed.
Lemma f_cascade : forall D n a s k s', evalAction D n a s = Ok k s' ->
  exists t, Cascade D s [t] s' /\ root t = a /\ forall x, within x t -> sound D x /\ complete D x /\ ordered D x.
Proof. intros D n a s k s' (t & H1 & H2 & H3)%f_forest. exists t. split; [done|]. split; [done|]. intros x Hx. by apply H3. Qed.
Lemma f_C39 : forall D n a s k s', evalAction D n a s = Ok k s' ->
  exists t, Cascade D s [t] s' /\ root t = a /\ forall x, within x t -> sound D x /\ complete D x /\ ordered D x /\ echoed D x.
Proof. intros D n a s k s' (t & H1 & H2 & H3)%f_forest. exists t. split; [done|]. split; [done|]. intros x Hx. destruct (H3 x Hx) as ((? & ? & ?) & ?). done. Qed.
Lemma f_C08 : forall D n a s k s', evalAction D n a s = Ok k s' ->
  exists t, Cascade D s [t] s' /\ root t = a /\ forall x, within x t -> sound D x.
Proof. intros D n a s k s' (t & H1 & H2 & H3)%f_cascade. exists t. split; [done|]. split; [done|]. intros x Hx. by apply H3. Qed.
Lemma f_C09 : forall D n a s k s', evalAction D n a s = Ok k s' ->
  exists t, Cascade D s [t] s' /\ root t = a /\ forall x, within x t -> sound D x /\ complete D x.
Proof. intros D n a s k s' (t & H1 & H2 & H3)%f_cascade. exists t. split; [done|]. split; [done|]. intros x Hx. by destruct (H3 x Hx) as (? & ? & ?). Qed.

(** *** Two actions of a link with the same delay (finding 40). *)
Definition w_order : doc := mk
  [ (1, ctx "root" None 101 [101] [2;3;4;5] [103] 
       [ ([cond 103 START], [actd 104 START "1s"; actd 105 START "1s"]) ]);
    (2, leaf KSettings "settings" 1 102 [102;120]);
    (3, leaf KMedia "a" 1 103 [103]);
    (4, leaf KMedia "b" 1 104 [104]);
    (5, leaf KMedia "c" 1 105 [105]) ]%positive
  [ (101, lam 1); (102, lam 2); (103, lam 3); (104, lam 4); (105, lam 5); (120, attr 2 "service.currentFocus") ]%positive.
Lemma w_order_wf : wf_doc w_order.
Proof. apply (wfb_sound w_order depth). vm_compute. reflexivity. Qed.
Lemma f_C10_refuted : exists D s c cb conds x y h1 h2 h3, wf_doc D /\ reach D s /\ d_obj D !! c = Some cb /\
  ob_links cb = [(conds, [x; y])] /\ ac_delay x = ac_delay y /\
  ac_evt x <> ac_evt y /\ ac_tr x = START /\ ac_tr y = START /\
  s_log s = h3 ++ OTrans (ac_evt x) START :: h2 ++ OTrans (ac_evt y) START :: h1 /\
  (forall e, e ∈ h3 ++ h2 ++ h1 -> e <> OTrans (ac_evt x) START /\ e <> OTrans (ac_evt y) START).
Proof.
  pose (f := fix f (e : eid) (l : list obs) : option (list obs * list obs) :=
     match l with [] => None | OTrans e' START :: l =>
        if decide (e' = e) then Some ([], l) else match f e l with Some (a, b) => Some (OTrans e' START :: a, b) | None => None end
     | x :: l => match f e l with Some (a, b) => Some (x :: a, b) | None => None end end).
  assert (Hf : forall e l a b, f e l = Some (a, b) -> l = a ++ OTrans e START :: b).
  { intros e l. induction l as [|x l IH]; intros a b; cbn; [done|].
    destruct x as [e' t| | | | | | | |]; [destruct t|..]; try (destruct (f e l) as [[a' b']|]; [|done]; intros [= <- <-]; cbn; by rewrite (IH _ _ eq_refl)).
    destruct (decide (e' = e)) as [->|]; [by intros [= <- <-]|].
    destruct (f e l) as [[a' b']|]; [|done]; intros [= <- <-]; cbn; by rewrite (IH _ _ eq_refl). }
  pose (g := fun x => match x with OTrans e START => negb ((e =? 104) || (e =? 105))%positive | _ => true end).
  destruct (check_reach w_order (init [] []) (play ++ [CTick 1 0; CTick 1 (sec 1)]) (fun s =>
     match f 104%positive (s_log s) with None => false | Some (h3, r) =>
     match f 105%positive r with None => false | Some (h2, h1) => forallb g (h3 ++ h2 ++ h1) end end)) as (s & Hr & Hs);
    [apply init_init|vm_compute; reflexivity|].
  destruct (f 104%positive (s_log s)) as [[h3 r]|] eqn:E1; [|done]. destruct (f 105%positive r) as [[h2 h1]|] eqn:E2; [|done].
  apply Hf in E1, E2. rewrite E2 in E1.
  exists w_order, s, 1%positive. eexists _, _, _, _, h1, h2, h3. split; [apply w_order_wf|].
  split; [exact Hr|]. split; [reflexivity|]. split; [reflexivity|]. cbn.
  split; [done|]. split; [done|]. split; [done|]. split; [done|]. split; [exact E1|].
  intros e He. rewrite forallb_forall in Hs. apply elem_of_list_In, Hs in He. clear -He. unfold g in He.
  split; intros ->; done.
Qed.

(** *** A switch port mapped to the whole content of a media that has an anchor from
    1 s to 2 s (findings 61, 62).  The root context starts event [start]. *)
Definition w_echo (start : eid) : doc := mk
  [ (1, ctx "root" None 101 [101] [2;3] [start] []);
    (2, leaf KSettings "settings" 1 102 [102;120]);
    (3, swt "s" 1 103 [103;140] [4;5] [(4, PVerum)] [("port", [104])]);
    (4, leaf KMedia "a" 3 104 [104;131]);
    (5, leaf KMedia "b" 3 105 [105]) ]%positive
  [ (101, lam 1); (102, lam 2); (103, lam 3); (104, lam 4); (105, lam 5); (120, attr 2 "service.currentFocus");
    (131, area 4 "part" (sec 1) (sec 2)); (140, mkEvt PRESENTATION 3 "port" NON NON "") ]%positive.
Lemma w_echo_wf start : start = 103%positive \/ start = 140%positive -> wf_doc (w_echo start).
Proof. intros [-> | ->]; apply (wfb_sound (w_echo _) depth); vm_compute; reflexivity. Qed.
Lemma f_C39_stop_refuted : exists s s', wf_doc (w_echo 140) /\ reach (w_echo 140) s /\
  ob_swports <$> d_obj (w_echo 140) !! 3%positive = Some [("port", [104%positive])] /\
  evalAction (w_echo 140) 60 (act 131 STOP) s = Ok 1 s' /\
  (evState s 104 = OCCURRING /\ evState s 131 = OCCURRING /\ evState s 140 = OCCURRING) /\
  (evState s' 104 = SLEEPING /\ evState s' 131 = SLEEPING /\ evState s' 140 = SLEEPING).
Proof.
  destruct (check_reach (w_echo 140) (init [] []) (play ++ [CTick 1 (sec 1); CTick 4 (sec 1)]) (fun s =>
    stb s 104 OCCURRING && stb s 140 OCCURRING && stb s 131 OCCURRING &&
    run_is (evalAction (w_echo 140) 60 (act 131 STOP) s) (fun k s' => (k =? 1)%nat && stb s' 104 SLEEPING && stb s' 131 SLEEPING && stb s' 140 SLEEPING))%bool) as (s & Hr & Hs);
    [apply init_init|vm_compute; reflexivity|].
  unfold stb in Hs. splitb Hs. match goal with HH : run_is _ _ = true |- _ => apply run_is_ok in HH as (k & s' & E & Hs') end.
  unfold stb in Hs'. splitb Hs'. rewrite Hs' in E.
  exists s, s'. split; [apply w_echo_wf; by right|]. split; [exact Hr|]. split; [vm_compute; reflexivity|]. split; [exact E|].
  split; (split; [hyp|split; hyp]).
Qed.
Lemma f_C39_crash_refuted : exists s, wf_doc (w_echo 103) /\ reach (w_echo 103) s /\
  evState s 101 = OCCURRING /\ evState s 103 = OCCURRING /\ evState s 104 = OCCURRING /\
  sendTick (w_echo 103) 60 4 (sec 1) s = Crash (CAssert "Switch.cpp:97").
Proof.
  destruct (check_reach (w_echo 103) (init [] []) (play ++ [CTick 1 (sec 1)]) (fun s =>
    stb s 101 OCCURRING && stb s 103 OCCURRING && stb s 104 OCCURRING &&
    match sendTick (w_echo 103) 60 4 (sec 1) s with Crash (CAssert x) => String.eqb x "Switch.cpp:97" | _ => false end)%bool) as (s & Hr & Hs);
    [apply init_init|vm_compute; reflexivity|].
  unfold stb in Hs. splitb Hs. exists s. split; [apply w_echo_wf; by left|]. split; [exact Hr|]. split; [hyp|]. split; [hyp|]. split; [hyp|].
  destruct (sendTick (w_echo 103) 60 4 (sec 1) s) as [| [x| |] |]; try discriminate.
  match goal with HH : String.eqb x _ = true |- _ => apply String.eqb_eq in HH as -> end. reflexivity.
Qed.

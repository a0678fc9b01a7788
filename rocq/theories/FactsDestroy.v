(** FactsDestroy.v -- proofs of the theorems of Props_Destroy.v. *)
From Verif Require Export DestroyFacts FactsStop.
Open Scope string_scope.
Open Scope list_scope.

Lemma live_all D rank (WF : wf_at D rank) s : live D (docIn D (heapOf D s)) (d_root D).
Proof. split; [done|]. done. Qed.
Lemma f_C51_at : forall D rank, wf_at D rank -> forall s n, reach D s -> S (rank (d_root D)) <= n ->
  exists h, deleteObject D n n (d_root D) (heapOf D s) = Ok tt h /\ destroy D n n (d_root D) s = Ok tt (h_st h) /\
    NoDup (h_gone h) /\ (forall x, x ∈ h_gone h <-> caredBy D (d_root D) x) /\
    (forall x, h_obj h !! x = if bool_decide (x ∈ h_gone h) then None else d_obj D !! x) /\
    (forall e, h_evt h !! e = if existsb (fun x => match d_obj D !! x with Some xb => bool_decide (e ∈ ob_events xb) | None => false end) (h_gone h) then None else d_evt D !! e) /\
    (forall x xb, x ∈ h_gone h -> d_obj D !! x = Some xb -> is_media (ob_kind xb) = true -> o_player (ostOf (h_st h) x) = None).
Proof.
  intros D rank WF s n Hr Hn. destruct (wf_root _ _ WF) as (rb & Hrb & _).
  destruct (delete_ok D rank WF D n n (d_root D) rb (heapOf D s) Hrb ltac:(lia) ltac:(lia) (J_reach D rank WF s Hr) (live_all D rank WF s)) as (h & E1 & E2 & _ & [G1 G2 G3 G4 (l & G5 & G6 & G7) G8 G9]).
  cbn [h_gone heapOf] in G5. rewrite app_nil_r in G5. exists h. rewrite G5. split; [done|]. split; [done|]. split; [done|]. split; [done|]. split; [|split].
  - intros x. case_bool_decide as Hx; [by apply G1, G7|]. apply G2. by rewrite <- G7.
  - intros e. destruct (existsb _ l) eqn:Ex.
    + apply existsb_exists in Ex as (x & Hx%elem_of_list_In & Hd). destruct (d_obj D !! x) as [xb|] eqn:Hxb; [|done]. apply bool_decide_eq_true in Hd. eapply G3; [by apply G7|done|done].
    + apply G4. intros x xb Hx%G7 Hxb He. assert (existsb (fun x => match d_obj D !! x with Some xb => bool_decide (e ∈ ob_events xb) | None => false end) l = true) as Ht; [|congruence].
      apply existsb_exists. exists x. split; [by apply elem_of_list_In|]. rewrite Hxb. by apply bool_decide_eq_true.
  - intros x xb Hx. apply G8. by apply G7.
Qed.
Lemma f_C51 : forall D, wf_doc D -> exists N, forall s n, reach D s -> N <= n ->
  exists h, deleteObject D n n (d_root D) (heapOf D s) = Ok tt h /\ destroy D n n (d_root D) s = Ok tt (h_st h) /\
    NoDup (h_gone h) /\ (forall x, x ∈ h_gone h <-> caredBy D (d_root D) x) /\
    (forall x, h_obj h !! x = if bool_decide (x ∈ h_gone h) then None else d_obj D !! x) /\
    (forall e, h_evt h !! e = if existsb (fun x => match d_obj D !! x with Some xb => bool_decide (e ∈ ob_events xb) | None => false end) (h_gone h) then None else d_evt D !! e) /\
    (forall x xb, x ∈ h_gone h -> d_obj D !! x = Some xb -> is_media (ob_kind xb) = true -> o_player (ostOf (h_st h) x) = None).
Proof. intros D [rank WF]. exists (S (rank (d_root D))). intros s n. by apply f_C51_at. Qed.
(** With no switch, everything in the root is freed. *)
Lemma f_C51_all : forall D, wf_doc D -> noSwitch D -> forall x, caredBy D (d_root D) x <-> inside D (d_root D) x.
Proof.
  intros D [rank WF] NS x. destruct (wf_root _ _ WF) as (rb & Hrb & _). split; [intros H; by eapply (cared_inside D rank WF) in H as [H _]|].
  induction 1 as [|x xb p Hx Hp H IH]; [constructor|]. destruct (wo_parent _ _ _ _ (wf_o _ _ WF _ _ Hx) _ Hp) as (pb & Hpb & Hc & Hk & _).
  eapply cb_child; [done|exact Hpb| |done]. specialize (NS _ _ Hpb). by destruct Hk.
Qed.
(** Formatter::stop. *)
Lemma f_C51_stop : forall f, freach f -> exists N, forall n, N <= n -> exists b f', fstop n f = Ok b f' /\ b = f_playing f /\ f_playing f' = false /\ f_doc f' = None.
Proof.
  intros f Hf. destruct (freach_inv _ Hf) as [_ HI]. unfold fstop. destruct (f_doc f) as [[D s]|] eqn:Ed.
  - destruct HI as (Hp & HW & Hr). destruct (f_C51 D HW) as (N & HN). exists N. intros n Hn. destruct (HN s n Hr Hn) as (h & _ & E & _). unfold bind at 1, get. rewrite Hp. unfold bind, onDoc. rewrite Ed, E. eexists _, _. split; [reflexivity|]. done.
  - exists 0. intros n _. unfold bind, get. rewrite HI. eexists _, _. split; [reflexivity|]. rewrite Ed, HI. done.
Qed.

(** ** Examples. *)
Definition runs_is {S A} (r : outcome S A) (f : A -> S -> bool) : bool := match r with Ok a s => f a s | _ => false end.
Lemma runs_is_ok {S A} (r : outcome S A) f : runs_is r f = true -> exists a s, r = Ok a s /\ f a s = true.
Proof. destruct r as [a s| |]; [|done|done]. intros H. by exists a, s. Qed.
(** A switch is not emptied: what is in it stays in memory, playing. *)
Lemma f_C51_leak : exists D s h x xb, wf_doc D /\ reach D s /\ deleteObject D 64 64 (d_root D) (heapOf D s) = Ok tt h /\
  inside D (d_root D) x /\ d_obj D !! x = Some xb /\ is_Some (h_obj h !! x) /\ is_media (ob_kind xb) = true /\
  evState (h_st h) (ob_lambda xb) = OCCURRING /\ o_player (ostOf (h_st h) x) <> None.
Proof.
  destruct (check_reach demo demo0 (play ++ [CAct (act 140 START)]) (fun s =>
     runs_is (deleteObject demo 64 64 1 (heapOf demo s)) (fun _ h => stb (h_st h) 109 OCCURRING && issome (o_player (ostOf (h_st h) 9)) && issome (h_obj h !! 9%positive)))%bool)
    as (s & Hr & Hs); [apply demo_init|vm_compute; reflexivity|].
  apply runs_is_ok in Hs as ([] & h & E & Hs). unfold stb in Hs. splitb Hs.
  repeat match goal with HH : issome _ = true |- _ => apply issome_spec in HH end.
  exists demo, s, h, 9%positive. eexists. split; [apply demo_wf|]. split; [exact Hr|]. split; [exact E|].
  split; [eapply in_nested; [reflexivity|reflexivity|]; eapply in_nested; [reflexivity|reflexivity|]; apply in_self|].
  split; [reflexivity|]. split; [assumption|]. split; [reflexivity|]. split; [assumption|].
  intros Hn. match goal with HH : is_Some (o_player _) |- _ => rewrite Hn in HH; destruct HH as [? HH]; discriminate HH end.
Qed.

Lemma w_C51 : exists s, wf_doc demo /\ reach demo s /\ evState s 101 = OCCURRING /\ evState s 103 = OCCURRING /\ o_player (ostOf s 3) <> None /\
  exists h, deleteObject demo 64 64 (d_root demo) (heapOf demo s) = Ok tt h /\ h_gone h = [1;7;5;6;4;3;2]%positive.
Proof.
  destruct (check_reach demo demo0 (play ++ [CTick 1 1; CTick 3 (sec 2)]) (fun s => stb s 101 OCCURRING && stb s 103 OCCURRING && issome (o_player (ostOf s 3)) &&
     runs_is (deleteObject demo 64 64 1 (heapOf demo s)) (fun _ h => bool_decide (h_gone h = [1;7;5;6;4;3;2]%positive)))%bool)
    as (s & Hr & Hs); [apply demo_init|vm_compute; reflexivity|].
  unfold stb in Hs. splitb Hs. match goal with HH : runs_is _ _ = true |- _ => apply runs_is_ok in HH as ([] & h & E & Hz) end. apply bool_decide_eq_true in Hz.
  match goal with HH : issome _ = true |- _ => apply issome_spec in HH as [pl Hpl] end.
  exists s. split; [apply demo_wf|]. split; [exact Hr|]. split; [hyp|]. split; [hyp|]. split; [by rewrite Hpl|]. exists h. by split.
Qed.

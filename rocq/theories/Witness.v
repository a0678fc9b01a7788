(** Witness.v -- documents and call sequences on which a property fails. *)
From Verif Require Export Examples Spec.
Open Scope string_scope.
Open Scope list_scope.

(** Checking runs by computation. *)
Definition run_is {A} (r : outcome st A) (f : A -> st -> bool) : bool :=
  match r with Ok a s => f a s | _ => false end.
Lemma run_is_ok {A} (r : outcome st A) f : run_is r f = true -> exists a s, r = Ok a s /\ f a s = true.
Proof. destruct r; cbn; [eauto|done|done]. Qed.
Definition exec_is (D : doc) (s : st) (l : list call) (f : st -> bool) : Prop := check D s l f = true.
Fixpoint regularb (D : doc) (o : oid) (h : list obs) : bool :=
  match h with
  | [] => true
  | OTrans e t :: h =>
    regularb D o h &&
    (negb (mainb D o e) ||
     match t with START => negb (activeOf D o h) | PAUSE | RESUME => activeOf D o h | _ => true end)
  | _ :: h => regularb D o h
  end.
Lemma regularb_spec D o h : regularb D o h = true -> regular D o h.
Proof.
  induction h as [|x h IH]; cbn; [done|]. destruct x; try done. intros [H1 H2]%andb_prop.
  split; [by apply IH|]. intros Hm. rewrite Hm in H2. cbn [negb orb] in H2.
  destruct t; try done. by apply negb_true_iff.
Qed.
Ltac splitb H := repeat match type of H with
  | (_ && _)%bool = true => let H2 := fresh H in apply andb_prop in H as [H H2]; splitb H2
  | bool_decide _ = true => apply bool_decide_eq_true in H
  | (_ =? _)%N = true => apply N.eqb_eq in H
  | (_ =? _)%Z = true => apply Z.eqb_eq in H
  | (_ =? _)%nat = true => apply Nat.eqb_eq in H
  | regularb _ _ _ = true => apply regularb_spec in H
  end.

(** [assumption] up to syntax: never computes. *)
Ltac hyp := match goal with H : ?T |- ?G => constr_eq T G; exact H end.

(** *** Restarting a paused media (finding 4): context 3 with media 4. *)
Definition w_restart : doc := mk
  [ (1, ctx "root" None 101 [101] [2;3] [103] []);
    (2, leaf KSettings "settings" 1 102 [102;120]);
    (3, ctx "c" (Some 1) 103 [103] [4] [104] []);
    (4, leaf KMedia "m" 3 104 [104]) ]%positive
  [ (101, lam 1); (102, lam 2); (103, lam 3); (104, lam 4); (120, attr 2 "service.currentFocus") ]%positive.
Definition w_restart_calls : list call :=
  play ++ [CAct (act 104 START); CAct (act 104 PAUSE); CAct (act 104 START); CAct (act 104 STOP)].
Lemma w_restart_wf : wf_doc w_restart.
Proof. apply (wfb_sound w_restart depth). vm_compute. reflexivity. Qed.

(** *** A context that is stopped by a link while it is being paused (findings 6, 39):
    context 3 with switch 4 with media 5, which is also known in 3 by an alias. *)
Definition w_pause : doc := mk
  [ (1, ctx "root" None 101 [101] [2;3] [] []);
    (2, leaf KSettings "settings" 1 102 [102;120]);
    (3, ctx "c" (Some 1) 103 [103] [4] []
       [ ([cond 130 PAUSE], [act 104 PAUSE; act 104 RESUME; act 105 RESUME; act 103 STOP]) ]);
    (4, swt "s" 3 104 [104] [5] [(5, PVerum)] []);
    (5, mkObj KMedia "m" (Some 4) [("m2", Some 3)] 105 [105;130] [] [] [] [] []) ]%positive
  [ (101, lam 1); (102, lam 2); (103, lam 3); (104, lam 4); (105, lam 5);
    (120, attr 2 "service.currentFocus"); (130, area 5 "begin" 0 NON) ]%positive.
Definition w_pause_calls : list call :=
  play ++ [CAct (act 103 START); CAct (act 104 START); CTick 5 0; CAct (act 103 PAUSE); CAct (act 103 RESUME)].
Lemma w_pause_wf : wf_doc w_pause.
Proof. apply (wfb_sound w_pause depth). vm_compute. reflexivity. Qed.

(** *** Two delayed actions due at the same tick, the first of which pauses the
    context that queued them (finding 7): the second is lost. *)
Definition w_lost : doc := mk
  [ (1, ctx "root" None 101 [101] [2;3] [103] []);
    (2, leaf KSettings "settings" 1 102 [102;120]);
    (3, ctx "c" (Some 1) 103 [103] [4] [104]
       [ ([cond 104 START], [actd 104 STOP "1s"; actd 103 PAUSE "1s"]) ]);
    (4, leaf KMedia "m" 3 104 [104]) ]%positive
  [ (101, lam 1); (102, lam 2); (103, lam 3); (104, lam 4); (120, attr 2 "service.currentFocus") ]%positive.
Definition w_lost_calls : list call :=
  play ++ [CTick 1 1; CTick 3 0; CTick 3 (sec 1); CAct (act 103 RESUME); CTick 3 (sec 5)].
Lemma w_lost_wf : wf_doc w_lost.
Proof. apply (wfb_sound w_lost depth). vm_compute. reflexivity. Qed.

(** Boolean versions of specification predicates. *)
Fixpoint schedSinceb (D : doc) (o : oid) (a : action) (x : N) (h : list obs) : bool :=
  match h with
  | [] => false
  | OSched o' a' d :: h =>
    (bool_decide (o' = o) && bool_decide (a' = a) && (x =? deadline D o d h)%N) || schedSinceb D o a x h
  | OSeek o' a' b :: h =>
    (bool_decide (o' = o) && bool_decide (a' = a) && schedSinceb D o a (x + b)%N h) || schedSinceb D o a x h
  | OTrans e t :: h => negb (mainb D o e && ends t) && schedSinceb D o a x h
  | _ :: h => schedSinceb D o a x h
  end%bool.
Lemma schedSinceb_spec D o a x h : schedSinceb D o a x h = true -> schedSince D o a x h.
Proof.
  revert x. induction h as [|y h IH]; intros x; cbn [schedSinceb schedSince]; [done|].
  destruct y; try apply IH.
  - intros [H1 H2]%andb_prop. split; [by apply negb_true_iff|auto].
  - intros [[[H1 H2]%andb_prop H3]%andb_prop|H]%orb_prop; [left|right; auto].
    apply bool_decide_eq_true in H1, H2. apply N.eqb_eq in H3. done.
  - intros [[[H1 H2]%andb_prop H3]%andb_prop|H]%orb_prop; [left|right; auto].
    apply bool_decide_eq_true in H1, H2. auto.
Qed.

(** *** A set action on property bounds (finding 33): media 3. *)
Definition w_bounds : doc := mk
  [ (1, ctx "root" None 101 [101] [2;3] [103] []);
    (2, leaf KSettings "settings" 1 102 [102;120]);
    (3, leaf KMedia "m" 1 103 [103;131]) ]%positive
  [ (101, lam 1); (102, lam 2); (103, lam 3); (120, attr 2 "service.currentFocus"); (131, attr 3 "bounds") ]%positive.
Definition w_bounds0 : st := init [(3, [("left", "10%")])]%positive [].
Lemma w_bounds_wf : wf_doc w_bounds.
Proof. apply (wfb_sound w_bounds depth). vm_compute. reflexivity. Qed.

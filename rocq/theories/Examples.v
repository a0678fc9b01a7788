(** Examples.v -- concrete documents, used to show that hypotheses of theorems can be
    met and as witnesses of refutations.  Every document satisfies [wf_doc]. *)
From Verif Require Export Reach.
Open Scope string_scope.
Open Scope list_scope.

Definition NON := TIME_NONE.
Definition lam (o : oid) : evt := mkEvt PRESENTATION o "@lambda" NON NON "".
Definition area (o : oid) (i : string) (b e : N) : evt := mkEvt PRESENTATION o i b e "".
Definition attr (o : oid) (i : string) : evt := mkEvt ATTRIBUTION o i NON NON "".
Definition sel (o : oid) (i : string) : evt := mkEvt SELECTION o i NON NON "".
Definition leaf (k : kind) (i : string) (p : oid) (l : eid) (evs : list eid) : obj :=
  mkObj k i (Some p) [] l evs [] [] [] [] [].
Definition ctx (i : string) (p : option oid) (l : eid) (evs : list eid) (ch : list oid)
    (ports : list eid) (links : list (list action * list action)) : obj :=
  mkObj KContext i p [] l evs ch ports links [] [].
Definition swt (i : string) (p : oid) (l : eid) (evs : list eid) (ch : list oid)
    (rules : list (oid * npred)) (sps : list (string * list eid)) : obj :=
  mkObj KSwitch i (Some p) [] l evs ch [] [] rules sps.
Definition cond (e : eid) (t : trans) : action := mkAct e t None "" "" "".
Definition act (e : eid) (t : trans) : action := mkAct e t None "" "" "".
Definition actd (e : eid) (t : trans) (d : string) : action := mkAct e t None "" "" d.
Definition setv (e : eid) (v : string) : action := mkAct e START None v "" "".

Definition noext : ext := mkExt (fun _ => true) false (fun _ => 0%Z).
Definition mk (os : list (oid * obj)) (es : list (eid * evt)) : doc :=
  mkDoc (list_to_map os) (list_to_map es) (map fst os)
    (map fst (List.filter (fun x => is_media (ob_kind (snd x))) os)) 1%positive 2%positive noext.
Definition ost0 (ps : list (string * string)) : ostate :=
  mkOS TIME_NONE (list_to_map ps) [] 0 true None None.
Definition est0 (ps : list (string * string)) : estate := mkES SLEEPING (list_to_map ps).
Definition init (ps : list (oid * list (string * string))) (qs : list (eid * list (string * string))) : st :=
  mkSt (list_to_map (map (fun x => (fst x, est0 (snd x))) qs))
       (list_to_map (map (fun x => (fst x, ost0 (snd x))) ps)) "" None 800 600 [].
Lemma init_init D ps qs : init_ok D (init ps qs).
Proof.
  assert (Ho : forall o, exists p, ostOf (init ps qs) o = ost0 p).
  { intros o. unfold ostOf, init; cbn. induction ps as [|[x p] ps IH]; cbn.
    - exists []. by rewrite lookup_total_alt, lookup_empty.
    - destruct (decide (x = o)) as [->|].
      + rewrite lookup_total_insert. eauto.
      + rewrite lookup_total_insert_ne by done. done. }
  assert (He : forall e, exists p, estOf (init ps qs) e = est0 p).
  { clear Ho. intros e. unfold estOf, init; cbn. induction qs as [|[x p] qs IH]; cbn.
    - exists []. by rewrite lookup_total_alt, lookup_empty.
    - destruct (decide (x = e)) as [->|].
      + rewrite lookup_total_insert. eauto.
      + rewrite lookup_total_insert_ne by done. done. }
  split.
  1: intros e; unfold evState; destruct (He e) as [p ->]; reflexivity.
  all: try reflexivity; intros o; destruct (Ho o) as [p ->]; reflexivity.
Qed.
Definition depth (o : oid) : nat := 64 - Pos.to_nat o.

(** Sequencing of API calls on a state; [None] if one crashes or needs more fuel. *)
Definition ok {A} (r : outcome st A) : option st := match r with Ok _ s => Some s | _ => None end.
Definition sec (n : N) : N := (n * SECOND)%N.

(** *** [demo]: two media, a nested context, a switch, links.
    1 root; 2 settings; 3 media a (anchor 1s-3s, property x, selection on key RED);
    4 media b; 5 context c; 6 media d in c; 7 switch s; 8, 9 media e, f in s. *)
Definition demo : doc := mk
  [ (1, ctx "root" None 101 [101] [2;3;4;5;7] [103;105]
       [ ([cond 103 START], [act 104 START; actd 104 STOP "5s"]);
         ([cond 103 STOP], [act 105 STOP; setv 131 "9"]);
         ([cond 132 START], [act 107 START]) ]);
    (2, leaf KSettings "settings" 1 102 [102;120]);
    (3, mkObj KMedia "a" (Some 1) [("alias_a", None)] 103 [103;130;131;132] [] [] [] [] []);
    (4, leaf KMedia "b" 1 104 [104]);
    (5, ctx "c" (Some 1) 105 [105] [6] [106] []);
    (6, leaf KMedia "d" 5 106 [106]);
    (7, swt "s" 1 107 [107;140] [8;9]
          [(8, PAtom "$a.x" TEQ "1"); (9, PVerum)] [("port", [108;109])]);
    (8, leaf KMedia "e" 7 108 [108]);
    (9, leaf KMedia "f" 7 109 [109]) ]%positive
  [ (101, lam 1); (102, lam 2); (103, lam 3); (104, lam 4); (105, lam 5); (106, lam 6);
    (107, lam 7); (108, lam 8); (109, lam 9); (120, attr 2 "service.currentFocus");
    (130, area 3 "anchor" (sec 1) (sec 3)); (131, attr 3 "x"); (132, sel 3 "RED");
    (140, mkEvt PRESENTATION 7 "port" NON NON "") ]%positive.
Definition demo0 : st :=
  init [(3, [("x", "0"); ("focusIndex", "2")]); (4, [("focusIndex", "1")])]%positive
       [(132, [("key", "RED")])]%positive.
Lemma demo_wf : wf_doc demo.
Proof. apply (wfb_sound demo depth). vm_compute. reflexivity. Qed.
Lemma demo_init : init_ok demo demo0.
Proof. apply init_init. Qed.

(** Running API calls. *)
Inductive call : Type :=
  | CAct (a : action) | CTr (e : eid) (t : trans) | CTick (o : oid) (d : N)
  | CKey (o : oid) (k : string) (p : bool) | CEos (o : oid).
Definition FUEL : nat := 60.
Definition exec1 (D : doc) (c : call) (s : st) : option st :=
  match c with
  | CAct a => if issome (d_evt D !! ac_evt a) then ok (evalAction D FUEL a s) else None
  | CTr e t => if issome (d_evt D !! e) then ok (tr D FUEL e t s) else None
  | CTick o d => ok (sendTick D FUEL o d s)
  | CKey o k p => ok (sendKey D FUEL o k p s)
  | CEos o => if has (d_obj D !! o) (fun ob => is_media (ob_kind ob))
              then Some (upd_ob o (fun x => os_set_player (p_set_eos true <$> o_player x) x) s) else None
  end.
Fixpoint exec (D : doc) (l : list call) (s : st) : option st :=
  match l with [] => Some s | c :: l => match exec1 D c s with Some s' => exec D l s' | None => None end end.
Lemma exec1_reach D c s s' : reach D s -> exec1 D c s = Some s' -> reach D s'.
Proof.
  intros Hr. unfold exec1, ok. destruct c.
  - destruct (issome _) eqn:E; [|done]. apply issome_spec in E.
    destruct (evalAction D FUEL a s) eqn:E'; intros [= <-]. by eapply r_act.
  - destruct (issome _) eqn:E; [|done]. apply issome_spec in E.
    destruct (tr D FUEL e t s) eqn:E'; intros [= <-]. by eapply r_tr.
  - destruct (sendTick D FUEL o d s) as [[]| |] eqn:E'; intros [= <-]. by eapply r_tick.
  - destruct (sendKey D FUEL o k p s) as [[]| |] eqn:E'; intros [= <-]. by eapply r_key.
  - destruct (has _ _) eqn:E; [|done]. apply has_spec in E as (ob & Ho & Hk). intros [= <-]. by eapply r_eos.
Qed.
Lemma exec_reach D l s s' : reach D s -> exec D l s = Some s' -> reach D s'.
Proof.
  revert s. induction l as [|c l IH]; intros s Hr; cbn [exec]; [by intros [= <-]|].
  destruct (exec1 D c s) as [s1|] eqn:E; [|done]. apply IH. by eapply exec1_reach.
Qed.
(** Evaluate a boolean check on the state reached. *)
Definition check (D : doc) (s : st) (l : list call) (f : st -> bool) : bool :=
  match exec D l s with Some s' => f s' | None => false end.
Lemma check_reach D s l f : init_ok D s -> check D s l f = true -> exists s', reach D s' /\ f s' = true.
Proof.
  intros Hi. unfold check. destruct (exec D l s) as [s'|] eqn:E; [|done]. intros Hf. exists s'.
  split; [|done]. eapply exec_reach; [|exact E]. by apply r_init.
Qed.
Definition play : list call := [CAct (act 101 START); CTr 102 START].
Definition stb (s : st) (e : eid) (x : evstate) : bool := bool_decide (evState s e = x).
Example demo_runs : check demo demo0 (play ++ [CTick 1 1; CTick 3 (sec 2)])
   (fun s => stb s 103 OCCURRING && stb s 104 OCCURRING && stb s 105 OCCURRING && stb s 130 OCCURRING
      && stb s 106 SLEEPING)%bool = true.
Proof. vm_compute. reflexivity. Qed.

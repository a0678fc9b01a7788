(** Props_Safe.v -- C34 for documents and documents' values that are known to be
    accepted: no call of the player's API aborts. *)
From Verif Require Import FactsSafe Examples.
Open Scope string_scope.
Open Scope list_scope.

(** What is missing from C34: documents outside [calmDoc] and [calmInit] (SafeSpec.v):
    with switches, with actions or ports on the body or the settings, with anchors
    started by links, with values that are not literals of the property's type (the
    refutations show that the claim is false of some of these). *)
Theorem C34_player_partial : forall f T, calls f T ->
  (forall n F c, calmFile F -> fstart n F f <> Crash c) /\
  (forall n c, fstop n f <> Crash c) /\
  (forall n k p c, fkey n k p f <> Crash c) /\
  (forall n d c, (T + d < TIME_NONE)%N -> ftick n d f <> Crash c) /\
  (forall w h c, (0 < w)%Z -> (0 < h)%Z -> fresize w h f <> Crash c).
Proof. exact f_safe. Qed.
Print Assumptions C34_player_partial.

(** A document with two media, an anchor, a nested context and links of all calm kinds. *)
Definition w_calm : doc := mk
  [ (1, ctx "root" None 101 [101] [2;3;4;5] [103]
       [ ([cond 103 START], [act 104 START; actd 104 STOP "5s"; setv 131 "10%,10%,50%,50%"]);
         ([mkAct 130 START (Some (PAtom "$a.soundLevel" TEQ "1")) "" "" ""], [act 105 START; mkAct 131 START None "0,0,1,1" "" "2s"]);
         ([cond 132 START], [act 105 STOP; act 130 STOP]) ]);
    (2, leaf KSettings "settings" 1 102 [102;120]);
    (3, leaf KMedia "a" 1 103 [103;130;131;132]);
    (4, leaf KMedia "b" 1 104 [104]);
    (5, ctx "c" (Some 1) 105 [105] [6] [106] []);
    (6, leaf KMedia "d" 5 106 [106]) ]%positive
  [ (101, lam 1); (102, lam 2); (103, lam 3); (104, lam 4); (105, lam 5); (106, lam 6);
    (120, attr 2 "service.currentFocus");
    (130, area 3 "anchor" (sec 1) (sec 3)); (131, attr 3 "bounds"); (132, sel 3 "RED") ]%positive.
Definition w_calm0 : st :=
  init [(3, [("soundLevel", "1"); ("explicitDur", "8s"); ("left", "5%")])]%positive [(132, [("key", "RED")])]%positive.
Definition calmF : file := fun _ _ _ => Some (w_calm, w_calm0).

Lemma w_calm_obj o ob : d_obj w_calm !! o = Some ob -> (o, ob) ∈ 
  [ (1, ctx "root" None 101 [101] [2;3;4;5] [103]
       [ ([cond 103 START], [act 104 START; actd 104 STOP "5s"; setv 131 "10%,10%,50%,50%"]);
         ([mkAct 130 START (Some (PAtom "$a.soundLevel" TEQ "1")) "" "" ""], [act 105 START; mkAct 131 START None "0,0,1,1" "" "2s"]);
         ([cond 132 START], [act 105 STOP; act 130 STOP]) ]);
    (2, leaf KSettings "settings" 1 102 [102;120]);
    (3, leaf KMedia "a" 1 103 [103;130;131;132]);
    (4, leaf KMedia "b" 1 104 [104]);
    (5, ctx "c" (Some 1) 105 [105] [6] [106] []);
    (6, leaf KMedia "d" 5 106 [106]) ]%positive.
Proof. apply elem_of_list_to_map_2. Qed.
Ltac cases H := repeat (apply elem_of_cons in H as [H|H]); [..|by apply elem_of_nil in H].
Ltac objs Ho := apply w_calm_obj in Ho; cases Ho; injection Ho as -> ->.
Lemma bounds_ok v : try_parse_list v "," 4 4 <> None -> is_empty v = false -> okAssign w_calm 3%positive "bounds" v.
Proof.
  intros Hv He ob Ho _. split; [|done]. unfold okProp. destruct (getPlayerProperty "bounds") as [c dv] eqn:E. vm_compute in E. injection E as <- <-. cbn [fst snd].
  rewrite He. split; [exact Hv|done].
Qed.
Lemma w_calm_calm : calmDoc w_calm.
Proof.
  split.
  - intros o ob Ho. objs Ho; done.
  - intros o ob cs acts c Ho Hl Hc. objs Ho; cbn in Hl; cases Hl; injection Hl as -> ->; cases Hc; subst; done.
  - intros o ob Ho Hne. objs Ho; done.
  - reflexivity.
  - intros o ob cs acts c Ho Hl Hc. objs Ho; cbn in Hl; cases Hl; injection Hl as -> ->; cases Hc; subst; (split; [intros p Hp; first [done|by injection Hp as <-]|by intros rb _ _]).
  - intros o ob cs acts a Ho Hl Ha. objs Ho; cbn in Hl; cases Hl; injection Hl as -> ->; cases Ha; subst.
    + exists (lam 4), (leaf KMedia "b" 1 104 [104])%positive. split; [reflexivity|]. split; [reflexivity|]. split; [by intros r|]. split; [by exists 0%N|]. left. auto 10.
    + exists (lam 4), (leaf KMedia "b" 1 104 [104])%positive. split; [reflexivity|]. split; [reflexivity|]. split; [by intros r|].
      split; [by exists (sec 5)|]. left. auto 10.
    + exists (attr 3 "bounds"), (leaf KMedia "a" 1 103 [103;130;131;132])%positive. split; [reflexivity|]. split; [reflexivity|]. split; [by intros r|]. split; [by exists 0%N|].
      right. split; [done|]. split; [by intros r|]. split; [done|]. left. split; [by intros r|]. apply bounds_ok; [vm_compute; discriminate|done].
    + exists (lam 5), (ctx "c" (Some 1) 105 [105] [6] [106] [])%positive. split; [reflexivity|]. split; [reflexivity|]. split; [by intros r|]. split; [by exists 0%N|]. left. auto 10.
    + exists (attr 3 "bounds"), (leaf KMedia "a" 1 103 [103;130;131;132])%positive. split; [reflexivity|]. split; [reflexivity|]. split; [by intros r|]. split; [by exists (sec 2)|].
      right. split; [done|]. split; [by intros r|]. split; [done|]. left. split; [by intros r|]. apply bounds_ok; [vm_compute; discriminate|done].
    + exists (lam 5), (ctx "c" (Some 1) 105 [105] [6] [106] [])%positive. split; [reflexivity|]. split; [reflexivity|]. split; [by intros r|]. split; [by exists 0%N|]. left. auto 10.
    + exists (area 3 "anchor" (sec 1) (sec 3)), (leaf KMedia "a" 1 103 [103;130;131;132])%positive. split; [reflexivity|]. split; [reflexivity|]. split; [by intros r|]. split; [by exists 0%N|].
      right. auto.
  - intros o ob e ev Ho He Hev Hty. objs Ho; cbn in He; cases He; subst.
    + assert (E : Some ev = Some (lam 3)) by (rewrite <- Hev; reflexivity). injection E as ->. done.
    + assert (E : Some ev = Some (lam 6)) by (rewrite <- Hev; reflexivity). injection E as ->. done.
  - exists (leaf KSettings "settings" 1 102 [102;120])%positive, 120%positive, (attr 2 "service.currentFocus"). split; [reflexivity|].
    split; [cbn; set_solver|]. done.
  - intros sb i c cb cs acts x ev Hsb Hin. assert (E : Some sb = Some (leaf KSettings "settings" 1 102 [102;120])%positive) by (rewrite <- Hsb; reflexivity).
    injection E as ->. cbn in Hin. by apply elem_of_nil in Hin.
Qed.
Lemma w_calm_init : calmInit w_calm w_calm0.
Proof.
  assert (HP : forall o k v, readProp w_calm0 o k = Some v -> o = 3%positive /\ (k, v) ∈ [("soundLevel", "1"); ("explicitDur", "8s"); ("left", "5%")]).
  { intros o k v. unfold readProp, w_calm0, init, ostOf. cbn [s_ob map fst snd list_to_map foldr uncurry].
    destruct (decide (o = 3%positive)) as [->|Hne].
    - rewrite lookup_total_insert. intros H. split; [done|]. by apply elem_of_list_to_map_2.
    - rewrite lookup_total_insert_ne by done. rewrite lookup_total_alt, lookup_empty. cbn. by rewrite lookup_empty. }
  assert (HN : forall o k, k ∈ ["type"; "uri"; "device"] -> readProp w_calm0 o k = None).
  { intros o k Hk. destruct (readProp w_calm0 o k) as [v|] eqn:E; [|done]. apply HP in E as [_ E]. cases E; injection E as -> _; cases Hk; discriminate Hk. }
  intros o ob Ho Hm. split.
  - intros k v Hv. apply HP in Hv as [-> Hin]. cases Hin; injection Hin as -> ->; (split; [|discriminate]); unfold okValue.
    + done.
    + change (fst (getPlayerProperty "explicitDur")) with PROP_DURATION. cbn iota. right. exists (sec 8). vm_compute. done.
    + done.
  - rewrite !HN by set_solver. by eexists.
Qed.
Lemma calmF_calm : calmFile calmF.
Proof.
  intros w h fo D s H. unfold calmF in H. assert (D = w_calm /\ s = w_calm0) as [-> ->] by (clear -H; inversion H; done). clear H. split; [apply (wfb_sound w_calm depth); vm_compute; reflexivity|].
  split; [apply init_init|]. split; [apply w_calm_calm|apply w_calm_init].
Qed.


(** Started, ticked into the anchor, resized and with a key pressed, the document plays:
    these are calls of the theorem, and none of them is idle. *)
Definition occb (f : fmt) (e : eid) : bool :=
  match f_doc f with Some (D, s) => bool_decide (evState s e = OCCURRING) | None => false end.
Definition init0 : fmt := mkF false None false "" 800 600.
Definition runF : option (list bool) :=
  match fstart 40 calmF init0 with Ok true f1 =>
  match ftick 40 0 f1 with Ok true f2 =>
  match ftick 40 1500000000 f2 with Ok true f3 =>
  match fresize 640 480 f3 with Ok _ f4 =>
  match fkey 40 "RED" true f4 with Ok _ f5 =>
    Some (map (occb f3) [103; 104; 130; 105; 106]%positive ++ map (occb f5) [103; 104; 130; 105; 106]%positive)
  | _ => None end | _ => None end | _ => None end | _ => None end | _ => None end.
Example C34_player_nonvacuous : calmFile calmF /\
  exists f3 f5, calls f3 (0 + 0 + 1500000000) /\ calls f5 (0 + 0 + 1500000000) /\
    map (occb f3) [103; 104; 130; 105; 106]%positive = [true; true; true; true; false] /\
    map (occb f5) [103; 104; 130; 105; 106]%positive = [true; true; false; false; false].
Proof.
  split; [exact calmF_calm|].
  assert (R : runF = Some [true; true; true; true; false; true; true; false; false; false]) by (vm_compute; reflexivity).
  unfold runF in R.
  destruct (fstart 40 calmF init0) as [[] f1| |] eqn:E1; try discriminate R.
  destruct (ftick 40 0 f1) as [[] f2| |] eqn:E2; try discriminate R.
  destruct (ftick 40 1500000000 f2) as [[] f3| |] eqn:E3; try discriminate R.
  destruct (fresize 640 480 f3) as [u f4| |] eqn:E4; try discriminate R.
  destruct (fkey 40 "RED" true f4) as [b f5| |] eqn:E5; try discriminate R.
  assert (C1 : calls f1 0) by (eapply (ca_start 40 calmF); [apply (ca_init "" 800 600)|done|exact calmF_calm|exact E1]).
  assert (C3 : calls f3 (0 + 0 + 1500000000)).
  { eapply ca_tick; [|reflexivity|exact E3]. eapply ca_tick; [exact C1|reflexivity|exact E2]. }
  exists f3, f5. split; [exact C3|].
  split; [eapply ca_key; [|exact E5]; destruct u; eapply ca_resize; [exact C3|exact E4]|].
  cbn [map app] in R. injection R as R1 R2 R3 R4 R5 R6 R7 R8 R9 R10. cbn [map].
  by rewrite R1, R2, R3, R4, R5, R6, R7, R8, R9, R10.
Qed.

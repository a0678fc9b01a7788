(** PredHeap.v -- predicates as the mutable heap objects they are
    (lib/Predicate.cpp, lib/Predicate.h), and that a pointer to one is as good as
    the term [npred] used everywhere else. *)
From Verif Require Export Predicate.
Open Scope string_scope.
Open Scope list_scope.

Definition ptr : Type := positive.
Inductive ptype : Type := TyFalsum | TyVerum | TyAtom | TyNeg | TyAnd | TyOr.   (* Predicate.h:28-36 *)
#[global] Instance ptype_eq_dec : EqDecision ptype. Proof. solve_decision. Defined.
(** Predicate.h:66-75. *)
Record pnode : Type := mkP {
  n_type : ptype; n_left : string; n_test : ptest; n_right : string;
  n_children : list ptr; n_parent : option ptr }.
Notation heap := (gmap ptr pnode).
Notation MP := (M heap).

(** Following a pointer; a freed or wild pointer is undefined behaviour. *)
Definition deref (p : ptr) : MP pnode := fun h => match h !! p with Some n => Ok n h | None => Crash (CUB "wild pointer") end.
Definition store (p : ptr) (n : pnode) : MP unit := modify (insert p n).
(** new Predicate (type), Predicate.cpp:23-30, at an unused address. *)
Definition pnew (ty : ptype) : MP ptr := fun h =>
  let p := fresh (dom h : gset ptr) in Ok p (<[p := mkP ty "" TEQ "" [] None]> h).
Definition is_conn (ty : ptype) : bool := match ty with TyNeg | TyAnd | TyOr => true | _ => false end.
(** Predicate::setTest, Predicate.cpp:135-143. *)
Definition setTest (p : ptr) (l : string) (t : ptest) (r : string) : MP unit :=
  do n <- deref p;
  assertm (bool_decide (n_type n = TyAtom)) "Predicate.cpp:139" ;;
  store p (mkP (n_type n) l t r (n_children n) (n_parent n)).
(** Predicate::getTest, Predicate.cpp:145-152. *)
Definition getTest (p : ptr) : MP (string * ptest * string) :=
  do n <- deref p;
  assertm (bool_decide (n_type n = TyAtom)) "Predicate.cpp:148" ;;
  ret (n_left n, n_test n, n_right n).
(** Predicate::addChild and initParent, Predicate.cpp:160-187. *)
Definition addChild (p c : ptr) : MP unit :=
  do n <- deref p;
  assertm (is_conn (n_type n)) "Predicate.cpp:174" ;;
  do m <- deref c;
  assertm (bool_decide (n_parent m = None)) "Predicate.cpp:183" ;;
  store c (mkP (n_type m) (n_left m) (n_test m) (n_right m) (n_children m) (Some p)) ;;
  do n <- deref p;
  store p (mkP (n_type n) (n_left n) (n_test n) (n_right n) (n_children n ++ [c]) (n_parent n)).
(** Predicate::clone, Predicate.cpp:117-133.  The fuel bounds the depth of recursion. *)
Fixpoint pclone (k : nat) (p : ptr) : MP ptr :=
  match k with
  | O => nofuel
  | S k =>
    do n <- deref p;
    do c <- pnew (n_type n);
    (if bool_decide (n_type n = TyAtom) then setTest c (n_left n) (n_test n) (n_right n)
     else foreach (fun x => do y <- pclone k x; addChild c y) (n_children n)) ;;
    ret c
  end.
(** Predicate::~Predicate, Predicate.cpp:32-36 (the memory of the node is released
    after its children's). *)
Definition pfree (p : ptr) : MP unit := deref p ;; modify (delete p).
Fixpoint pdelete (k : nat) (p : ptr) : MP unit :=
  match k with
  | O => nofuel
  | S k => do n <- deref p; foreach (pdelete k) (n_children n) ;; pfree p
  end.
(** Predicate::toString, Predicate.cpp:44-115. *)
Fixpoint pargs (f : ptr -> MP string) (l : list ptr) : MP string :=
  match l with
  | [] => ret ""
  | [c] => f c
  | c :: l => do x <- f c; do y <- pargs f l; ret (x ++ ", " ++ y)%string
  end.
Fixpoint ptoString (k : nat) (p : ptr) : MP string :=
  match k with
  | O => nofuel
  | S k =>
    do n <- deref p;
    match n_type n with
    | TyFalsum => ret "false"
    | TyVerum => ret "true"
    | TyAtom => ret (quote_operand (n_left n) ++ test_str (n_test n) ++ quote_operand (n_right n))%string
    | TyNeg => do x <- pargs (ptoString k) (n_children n); ret ("not(" ++ x ++ ")")%string
    | TyAnd => do x <- pargs (ptoString k) (n_children n); ret ("and(" ++ x ++ ")")%string
    | TyOr => do x <- pargs (ptoString k) (n_children n); ret ("or(" ++ x ++ ")")%string
    end
  end.
(** Document::evalPredicate, Document.cpp:426-538, given the value of references. *)
Fixpoint pall (f : ptr -> MP bool) (l : list ptr) : MP bool :=
  match l with [] => ret true | c :: l => do b <- f c; if b then pall f l else ret false end.
Fixpoint pany (f : ptr -> MP bool) (l : list ptr) : MP bool :=
  match l with [] => ret false | c :: l => do b <- f c; if b then ret true else pany f l end.
Fixpoint peval (rf : string -> option string) (k : nat) (p : ptr) : MP bool :=
  match k with
  | O => nofuel
  | S k =>
    do n <- deref p;
    match n_type n with
    | TyFalsum => ret false
    | TyVerum => ret true
    | TyAtom => do x <- getTest p; ret (eval_test (operand rf (fst (fst x))) (snd (fst x)) (operand rf (snd x)))
    | TyNeg => crashm (CAssert "Document.cpp:504")
    | TyAnd => pall (peval rf k) (n_children n)
    | TyOr => pany (peval rf k) (n_children n)
    end
  end.

(** ** What a pointer stands for.
    [den h p t F]: in heap [h] the pointer [p] is the root of a tree that occupies
    exactly the addresses [F] and spells the formula [t]. *)
Inductive den (h : heap) : ptr -> npred -> gset ptr -> Prop :=
  | den_falsum p n : h !! p = Some n -> n_type n = TyFalsum -> n_children n = [] -> den h p PFalsum {[p]}
  | den_verum p n : h !! p = Some n -> n_type n = TyVerum -> n_children n = [] -> den h p PVerum {[p]}
  | den_atom p n : h !! p = Some n -> n_type n = TyAtom -> n_children n = [] ->
      den h p (PAtom (n_left n) (n_test n) (n_right n)) {[p]}
  | den_neg p n ts F : h !! p = Some n -> n_type n = TyNeg -> dens h (n_children n) ts F -> p ∉ F ->
      den h p (PNeg ts) ({[p]} ∪ F)
  | den_and p n ts F : h !! p = Some n -> n_type n = TyAnd -> dens h (n_children n) ts F -> p ∉ F ->
      den h p (PAnd ts) ({[p]} ∪ F)
  | den_or p n ts F : h !! p = Some n -> n_type n = TyOr -> dens h (n_children n) ts F -> p ∉ F ->
      den h p (POr ts) ({[p]} ∪ F)
with dens (h : heap) : list ptr -> list npred -> gset ptr -> Prop :=
  | dens_nil : dens h [] [] ∅
  | dens_cons p ps t ts F G : den h p t F -> dens h ps ts G -> F ## G -> dens h (p :: ps) (t :: ts) (F ∪ G).
Scheme den_ind2 := Minimality for den Sort Prop
  with dens_ind2 := Minimality for dens Sort Prop.
Combined Scheme den_mutind from den_ind2, dens_ind2.

(** The parent of the node at [p]. *)
Definition parentOf (h : heap) (p : ptr) : option (option ptr) := n_parent <$> h !! p.

Lemma den_dom h : (forall p t F, den h p t F -> p ∈ F /\ F ⊆ dom h) /\ (forall ps ts F, dens h ps ts F -> F ⊆ dom h).
Proof.
  apply den_mutind.
  1,2,3: intros p n H H1 H2; (split; [set_solver|]; apply elem_of_dom_2 in H; set_solver).
  1,2,3: intros p n ts F H H1 _ IH H2; apply elem_of_dom_2 in H; set_solver.
  - set_solver.
  - set_solver.
Qed.
(** Only the addresses in [F] matter. *)
Lemma den_frame h : (forall p t F, den h p t F -> forall h', (forall x, x ∈ F -> h' !! x = h !! x) -> den h' p t F) /\
  (forall ps ts F, dens h ps ts F -> forall h', (forall x, x ∈ F -> h' !! x = h !! x) -> dens h' ps ts F).
Proof.
  apply den_mutind.
  - intros p n H H1 H2 h' E. eapply den_falsum; [rewrite E; [exact H|set_solver]|done|done].
  - intros p n H H1 H2 h' E. eapply den_verum; [rewrite E; [exact H|set_solver]|done|done].
  - intros p n H H1 H2 h' E. eapply den_atom; [rewrite E; [exact H|set_solver]|done|done].
  - intros p n ts F H H1 _ IH H2 h' E. eapply den_neg; [rewrite E; [exact H|set_solver]|done|apply IH; set_solver|done].
  - intros p n ts F H H1 _ IH H2 h' E. eapply den_and; [rewrite E; [exact H|set_solver]|done|apply IH; set_solver|done].
  - intros p n ts F H H1 _ IH H2 h' E. eapply den_or; [rewrite E; [exact H|set_solver]|done|apply IH; set_solver|done].
  - intros h' _. constructor.
  - intros p ps t ts F G _ IH1 _ IH2 HD h' E. constructor; [apply IH1; set_solver|apply IH2; set_solver|done].
Qed.

(** Depth of a formula. *)
Fixpoint pdepth (t : npred) : nat :=
  match t with
  | PNeg cs | PAnd cs | POr cs => S ((fix go (l : list npred) : nat := match l with [] => 0 | c :: l => Nat.max (pdepth c) (go l) end) cs)
  | _ => 1
  end.
Fixpoint pdepths (l : list npred) : nat := match l with [] => 0 | c :: l => Nat.max (pdepth c) (pdepths l) end.
Lemma pdepth_conn cs : pdepth (PNeg cs) = S (pdepths cs) /\ pdepth (PAnd cs) = S (pdepths cs) /\ pdepth (POr cs) = S (pdepths cs).
Proof.
  enough (E : (fix go (l : list npred) : nat := match l with [] => 0 | c :: l => Nat.max (pdepth c) (go l) end) cs = pdepths cs)
    by (cbn [pdepth]; by rewrite E).
  induction cs as [|c cs IH]; [done|]. cbn [pdepths]. by rewrite <- IH.
Qed.
Lemma dens_app h ps ts F p t G : dens h ps ts F -> den h p t G -> F ## G -> dens h (ps ++ [p]) (ts ++ [t]) (F ∪ G).
Proof.
  intros H Hp HD. induction H as [|p' ps t' ts F1 F2 H1 H2 IH H3]; cbn.
  - replace (∅ ∪ G) with (G ∪ ∅) by set_solver. constructor; [done|constructor|set_solver].
  - replace (F1 ∪ F2 ∪ G) with (F1 ∪ (F2 ∪ G)) by set_solver. constructor; [done|apply IH; set_solver|set_solver].
Qed.
(** Changing the parent field is invisible. *)
Lemma den_parent h p t F n q : den h p t F -> h !! p = Some n ->
  den (<[p := mkP (n_type n) (n_left n) (n_test n) (n_right n) (n_children n) q]> h) p t F.
Proof.
  intros H Hn.
  assert (Hf : forall ts G, dens h (n_children n) ts G -> p ∉ G ->
     dens (<[p := mkP (n_type n) (n_left n) (n_test n) (n_right n) (n_children n) q]> h) (n_children n) ts G).
  { intros ts G HG Hp. eapply den_frame; [exact HG|]. intros x Hx. rewrite lookup_insert_ne; [done|]. set_solver. }
  inversion H; subst; simplify_eq.
  - eapply den_falsum; [by rewrite lookup_insert|done|done].
  - eapply den_verum; [by rewrite lookup_insert|done|done].
  - eapply (den_atom _ p (mkP (n_type n) (n_left n) (n_test n) (n_right n) (n_children n) q)); [by rewrite lookup_insert|done|done].
  - eapply den_neg; [by rewrite lookup_insert|done|cbn; auto|done].
  - eapply den_and; [by rewrite lookup_insert|done|cbn; auto|done].
  - eapply den_or; [by rewrite lookup_insert|done|cbn; auto|done].
Qed.

(** ** The operations on trees. *)
Definition clone_ok (k : nat) (p : ptr) (t : npred) : Prop := forall h F, den h p t F -> pdepth t <= k ->
  exists q h' G, pclone k p h = Ok q h' /\ den h' q t G /\ parentOf h' q = Some None /\
    G ## dom h /\ (forall x, x ∉ G -> h' !! x = h !! x).
Definition conn_of (ty : ptype) (ts : list npred) : npred :=
  match ty with TyNeg => PNeg ts | TyAnd => PAnd ts | _ => POr ts end.
Lemma den_conn h p n ts F : h !! p = Some n -> is_conn (n_type n) = true -> dens h (n_children n) ts F -> p ∉ F ->
  den h p (conn_of (n_type n) ts) ({[p]} ∪ F).
Proof.
  intros H Hc Hd Hp. destruct (n_type n) eqn:E; try done; cbn.
  - by eapply den_neg.
  - by eapply den_and.
  - by eapply den_or.
Qed.
(** The loop of clone: [c] is the clone under construction, in heap [h]. *)
Lemma clone_loop k c ps ts : Forall2 (fun p t => clone_ok k p t) ps ts -> pdepths ts <= k ->
  forall h F n us G, dens h ps ts F -> h !! c = Some n -> is_conn (n_type n) = true -> n_parent n = None ->
    dens h (n_children n) us G -> c ∉ G -> c ∉ F -> G ## F ->
  exists h' n' G', foreach (fun x => do y <- pclone k x; addChild c y) ps h = Ok tt h' /\
    h' !! c = Some n' /\ n_type n' = n_type n /\ n_parent n' = None /\
    dens h' (n_children n') (us ++ ts) (G ∪ G') /\ c ∉ G ∪ G' /\ G' ## dom h /\ 
    (forall x, x ∉ {[c]} ∪ G' -> h' !! x = h !! x).
Proof.
  induction 1 as [|p t ps ts Hp Hps IH]; intros Hk h F n us G HF Hc Hn Hpar HG HcG HcF HGF.
  - exists h, n, ∅. cbn. rewrite app_nil_r. replace (G ∪ ∅) with G by set_solver. repeat split; try done; set_solver.
  - inversion HF as [|? ? ? ? F1 F2 D1 D2 HD]; subst. cbn [pdepths] in Hk.
    destruct (Hp h F1 D1 ltac:(lia)) as (q & h1 & G1 & E1 & Dq & Hpq & HG1 & Hfr).
    assert (Hcd : c ∈ dom h) by (by apply elem_of_dom_2 in Hc).
    assert (Hc1 : c ∉ G1) by set_solver.
    destruct (proj1 (den_dom _) _ _ _ Dq) as [Hq1 Hq2].
    assert (Hqc : q <> c) by set_solver.
    unfold parentOf in Hpq. destruct (h1 !! q) as [nq|] eqn:Eq; [|done]. injection Hpq as Hpq.
    set (h2 := <[q := mkP (n_type nq) (n_left nq) (n_test nq) (n_right nq) (n_children nq) (Some c)]> h1).
    set (n3 := mkP (n_type n) (n_left n) (n_test n) (n_right n) (n_children n ++ [q]) (n_parent n)).
    set (h3 := <[c := n3]> h2).
    assert (Ec1 : h1 !! c = Some n) by (rewrite Hfr; done).
    assert (Ec2 : h2 !! c = Some n) by (unfold h2; rewrite lookup_insert_ne; done).
    assert (Eadd : addChild c q h1 = Ok tt h3).
    { unfold addChild, bind, deref, store, modify, assertm, ret. rewrite Ec1, Hn, Eq, Hpq. cbn. fold h2. by rewrite Ec2. }
    assert (Hfr3 : forall x, x ∉ {[c]} ∪ G1 -> h3 !! x = h !! x).
    { intros x Hx. unfold h3, h2. rewrite !lookup_insert_ne by set_solver. apply Hfr. set_solver. }
    assert (Hsub : F1 ∪ F2 ⊆ dom h) by (apply (proj2 (den_dom h) _ _ _ HF)).
    assert (HsubG : G ⊆ dom h) by (apply (proj2 (den_dom h) _ _ _ HG)).
    assert (Dq3 : den h3 q t G1).
    { eapply den_frame; [apply (den_parent _ _ _ _ _ (Some c) Dq Eq)|]. intros x Hx. unfold h3. rewrite lookup_insert_ne; [done|set_solver]. }
    destruct (IH ltac:(lia) h3 F2 n3 (us ++ [t]) (G ∪ G1)) as (h4 & n4 & G4 & E4 & Ec4 & T4 & P4 & D4 & C4 & I4 & X4).
    { eapply den_frame; [exact D2|]. intros x Hx. apply Hfr3. set_solver. }
    { unfold h3. by rewrite lookup_insert. }
    { done. } { done. }
    { cbn. apply dens_app; [|done|set_solver]. eapply den_frame; [exact HG|]. intros x Hx. apply Hfr3. set_solver. }
    { set_solver. } { set_solver. } { set_solver. }
    exists h4, n4, (G1 ∪ G4). split.
    { cbn [foreach]. unfold bind at 1. unfold bind at 1. rewrite E1, Eadd. exact E4. }
    split; [done|]. split; [done|]. split; [done|].
    split. { rewrite <- app_assoc in D4. cbn in D4. replace (G ∪ (G1 ∪ G4)) with (G ∪ G1 ∪ G4) by set_solver. done. }
    assert (Hd3 : dom h ⊆ dom h3).
    { intros x Hx. apply elem_of_dom. destruct (decide (x = c)) as [->|Hxc]; [exists n3; unfold h3; by rewrite lookup_insert|].
      rewrite Hfr3 by set_solver. by apply elem_of_dom. }
    split; [set_solver|]. split; [set_solver|].
    intros x Hx. rewrite X4 by set_solver. apply Hfr3. set_solver.
Qed.
Lemma clone_all t : forall k p, clone_ok k p t.
Proof.
  assert (Hfresh : forall h ty, pnew ty h = Ok (fresh (dom h : gset ptr)) (<[fresh (dom h : gset ptr) := mkP ty "" TEQ "" [] None]> h)) by done.
  assert (Hconn : forall ts, Forall (fun t => forall k p, clone_ok k p t) ts -> forall ty, is_conn ty = true ->
    forall k p h n F, S (pdepths ts) <= k -> h !! p = Some n -> n_type n = ty -> dens h (n_children n) ts F -> p ∉ F ->
    exists q h' G, pclone k p h = Ok q h' /\ den h' q (conn_of ty ts) G /\ parentOf h' q = Some None /\
      G ## dom h /\ (forall x, x ∉ G -> h' !! x = h !! x)).
  { intros ts IH ty Hty k p h n F Hk Hn Ht HF Hp. destruct k as [|k]; [lia|].
    set (c := fresh (dom h : gset ptr)). assert (Hc : c ∉ dom h) by apply is_fresh.
    set (h1 := <[c := mkP ty "" TEQ "" [] None]> h).
    assert (HFd : F ⊆ dom h) by (apply (proj2 (den_dom h) _ _ _ HF)).
    destruct (clone_loop k c (n_children n) ts) with (h := h1) (F := F) (n := mkP ty "" TEQ "" [] None) (us := @nil npred) (G := ∅ : gset ptr)
      as (h2 & n2 & G & E & Ec & Et & Epar & Hd & Hcg & Hg & Hfr).
    { assert (Hl : length (n_children n) = length ts).
      { clear -HF. induction HF as [|p q ps t ts F G]; [done|]. cbn. congruence. }
      clear -IH Hl. revert Hl. generalize (n_children n). induction IH as [|t ts Ht Hts IHt]; intros [|p ps] Hl; try done; constructor; [auto|].
      apply IHt. by injection Hl. }
    { lia. }
    { eapply den_frame; [exact HF|]. intros x Hx. unfold h1. rewrite lookup_insert_ne; [done|set_solver]. }
    { unfold h1. by rewrite lookup_insert. } { done. } { done. } { constructor. } { set_solver. } { set_solver. } { set_solver. }
    exists c, h2, ({[c]} ∪ (∅ ∪ G)). split.
    { cbn [pclone]. unfold bind at 1. unfold deref. rewrite Hn. unfold bind at 1. rewrite Ht, Hfresh. fold c h1.
      rewrite bool_decide_false by (by intros ->). unfold bind at 1. rewrite E. done. }
    split. { replace ty with (n_type n2). apply (den_conn h2 c n2 ts (∅ ∪ G)); [done| |done|done]. by rewrite Et. }
    split. { unfold parentOf. rewrite Ec. cbn. by rewrite Epar. }
    assert (dom h1 = {[c]} ∪ dom h) by (unfold h1; by rewrite dom_insert_L).
    split; [set_solver|]. intros x Hx. rewrite Hfr by set_solver. unfold h1. rewrite lookup_insert_ne; [done|set_solver]. }
  induction t as [| |l t r|cs IH|cs IH|cs IH] using pred_ind'; intros k p h F Hd Hk.
  1,2,3: inversion Hd as [? n Hn Ht Hch|? n Hn Ht Hch|? n Hn Ht Hch| | |]; subst; destruct k as [|k]; [cbn in Hk; lia|];
    set (c := fresh (dom h : gset ptr)); assert (Hc : c ∉ dom h) by apply is_fresh.
  - exists c, (<[c := mkP TyFalsum "" TEQ "" [] None]> h), {[c]}. split.
    { cbn [pclone]. unfold bind at 1. unfold deref. rewrite Hn. unfold bind at 1. rewrite Ht, Hfresh, Hch. done. }
    split; [eapply den_falsum; [by rewrite lookup_insert|done|done]|].
    split; [unfold parentOf; by rewrite lookup_insert|]. split; [set_solver|]. intros x Hx. rewrite lookup_insert_ne; [done|set_solver].
  - exists c, (<[c := mkP TyVerum "" TEQ "" [] None]> h), {[c]}. split.
    { cbn [pclone]. unfold bind at 1. unfold deref. rewrite Hn. unfold bind at 1. rewrite Ht, Hfresh, Hch. done. }
    split; [eapply den_verum; [by rewrite lookup_insert|done|done]|].
    split; [unfold parentOf; by rewrite lookup_insert|]. split; [set_solver|]. intros x Hx. rewrite lookup_insert_ne; [done|set_solver].
  - exists c, (<[c := mkP TyAtom (n_left n) (n_test n) (n_right n) [] None]> (<[c := mkP TyAtom "" TEQ "" [] None]> h)), {[c]}. split.
    { cbn [pclone]. unfold bind at 1. unfold deref at 1. rewrite Hn. unfold bind at 1. rewrite Ht, Hfresh. fold c.
      rewrite bool_decide_true by done. unfold setTest, bind, deref, assertm, store, modify, ret. rewrite lookup_insert. done. }
    split; [eapply (den_atom _ c (mkP TyAtom (n_left n) (n_test n) (n_right n) [] None)); [by rewrite lookup_insert|done|done]|].
    split; [unfold parentOf; by rewrite lookup_insert|]. split; [set_solver|]. intros x Hx. rewrite !lookup_insert_ne; [done|set_solver|set_solver].
  - inversion Hd; subst. rewrite (proj1 (pdepth_conn cs)) in Hk. eapply (Hconn cs IH TyNeg); eauto.
  - inversion Hd; subst. rewrite (proj1 (proj2 (pdepth_conn cs))) in Hk. eapply (Hconn cs IH TyAnd); eauto.
  - inversion Hd; subst. rewrite (proj2 (proj2 (pdepth_conn cs))) in Hk. eapply (Hconn cs IH TyOr); eauto.
Qed.

(** Printing and evaluating a tree. *)
Fixpoint args_str (cs : list npred) : string :=
  match cs with
  | [] => ""
  | [c] => pred_str c
  | c :: cs => (pred_str c ++ ", " ++ args_str cs)%string
  end.
Lemma pred_str_conn cs : pred_str (PNeg cs) = ("not(" ++ args_str cs ++ ")")%string /\
  pred_str (PAnd cs) = ("and(" ++ args_str cs ++ ")")%string /\ pred_str (POr cs) = ("or(" ++ args_str cs ++ ")")%string.
Proof. done. Qed.
Lemma toString_all h : (forall p t F, den h p t F -> forall k, pdepth t <= k -> ptoString k p h = Ok (pred_str t) h) /\
  (forall ps ts F, dens h ps ts F -> forall k, pdepths ts <= k -> pargs (ptoString k) ps h = Ok (args_str ts) h).
Proof.
  apply den_mutind.
  1,2,3: intros p n H H1 H2 k Hk; destruct k; [cbn in Hk; lia|]; cbn [ptoString]; unfold bind, deref; rewrite H, H1; done.
  1,2,3: intros p n ts F H H1 _ IH H2 k Hk; (destruct k as [|k]; [cbn in Hk; lia|]);
     destruct (pdepth_conn ts) as (E1 & E2 & E3); cbn [ptoString]; unfold bind at 1; unfold deref; rewrite H, H1;
     unfold bind; (rewrite IH by lia); done.
  - done.
  - intros p ps t ts F G _ IH1 H2 IH2 _ k Hk. cbn [pdepths] in Hk. cbn [pargs args_str].
    destruct ps as [|p' ps].
    + inversion H2; subst. apply IH1. lia.
    + inversion H2; subst. unfold bind. rewrite IH1, IH2 by lia. done.
Qed.
Definition outEval (h : heap) (o : option bool) : outcome heap bool :=
  match o with Some b => Ok b h | None => Crash (CAssert "Document.cpp:504") end.
Lemma eval_all rf h : (forall p t F, den h p t F -> forall k, pdepth t <= k -> peval rf k p h = outEval h (eval_pred rf t)) /\
  (forall ps ts F, dens h ps ts F -> forall k, pdepths ts <= k ->
     pall (peval rf k) ps h = outEval h (eval_pred rf (PAnd ts)) /\ pany (peval rf k) ps h = outEval h (eval_pred rf (POr ts))).
Proof.
  apply den_mutind.
  1,2: intros p n H H1 H2 k Hk; destruct k; [cbn in Hk; lia|]; cbn [peval]; unfold bind, deref; rewrite H, H1; done.
  - intros p n H H1 H2 k Hk; destruct k; [cbn in Hk; lia|]; cbn [peval]. unfold bind at 1, deref. rewrite H, H1.
    unfold getTest, bind, deref, assertm. rewrite H, H1. done.
  - intros p n ts F H H1 _ IH H2 k Hk; (destruct k as [|k]; [cbn in Hk; lia|]); cbn [peval]. unfold bind at 1, deref. rewrite H, H1. done.
  - intros p n ts F H H1 _ IH H2 k Hk; (destruct k as [|k]; [cbn in Hk; lia|]).
    destruct (pdepth_conn ts) as (E1 & E2 & E3); cbn [peval]; unfold bind at 1; unfold deref; rewrite H, H1. apply IH. lia.
  - intros p n ts F H H1 _ IH H2 k Hk; (destruct k as [|k]; [cbn in Hk; lia|]).
    destruct (pdepth_conn ts) as (E1 & E2 & E3); cbn [peval]; unfold bind at 1; unfold deref; rewrite H, H1. apply IH. lia.
  - done.
  - intros p ps t ts F G _ IH1 _ IH2 _ k Hk. cbn [pdepths] in Hk. cbn [pall pany]. unfold bind.
    rewrite IH1 by lia. destruct (IH2 k ltac:(lia)) as [E1 E2]. cbn [eval_pred].
    destruct (eval_pred rf t) as [[]|]; cbn [outEval]; done.
Qed.
(** Deleting a tree releases exactly its addresses, each one once (a second release
    of an address would be a crash). *)
Lemma delete_all h0 : (forall p t F, den h0 p t F -> forall h k, pdepth t <= k -> (forall x, x ∈ F -> h !! x = h0 !! x) ->
    exists h', pdelete k p h = Ok tt h' /\ (forall x, x ∈ F -> h' !! x = None) /\ (forall x, x ∉ F -> h' !! x = h !! x)) /\
  (forall ps ts F, dens h0 ps ts F -> forall h k, pdepths ts <= k -> (forall x, x ∈ F -> h !! x = h0 !! x) ->
    exists h', foreach (pdelete k) ps h = Ok tt h' /\ (forall x, x ∈ F -> h' !! x = None) /\ (forall x, x ∉ F -> h' !! x = h !! x)).
Proof.
  apply den_mutind.
  1,2,3: intros p n H H1 H2 h k Hk E; (destruct k; [cbn in Hk; lia|]); assert (Ep : h !! p = Some n) by (rewrite E; [done|set_solver]);
    exists (delete p h); cbn [pdelete]; unfold bind, deref, pfree, bind, deref, modify; rewrite Ep, H2; cbn [foreach]; unfold ret; rewrite Ep;
    split; [done|]; split; [intros x ->%elem_of_singleton; by rewrite lookup_delete|];
    intros x Hx; rewrite lookup_delete_ne; [done|set_solver].
  1,2,3: intros p n ts F H H1 _ IH H2 h k Hk E; (destruct k as [|k]; [cbn in Hk; lia|]);
    assert (Ep : h !! p = Some n) by (rewrite E; [done|set_solver]);
    destruct (pdepth_conn ts) as (E1 & E2 & E3);
    (destruct (IH h k) as (h1 & X1 & X2 & X3); [lia|intros; apply E; set_solver|]);
    exists (delete p h1); cbn [pdelete]; unfold bind at 1; unfold deref; rewrite Ep; unfold bind at 1; rewrite X1;
    unfold pfree, bind, deref, modify; (rewrite X3 by done); rewrite Ep;
    split; [done|]; (split; [intros x Hx; destruct (decide (x = p)) as [->|]; [by rewrite lookup_delete|];
       rewrite lookup_delete_ne by done; apply X2; set_solver|]);
    intros x Hx; rewrite lookup_delete_ne by set_solver; apply X3; set_solver.
  - intros h k _ _. exists h. split; [done|]. split; [set_solver|done].
  - intros p ps t ts F G _ IH1 _ IH2 HD h k Hk E. cbn [pdepths] in Hk.
    destruct (IH1 h k) as (h1 & X1 & X2 & X3); [lia|intros; apply E; set_solver|].
    destruct (IH2 h1 k) as (h2 & Y1 & Y2 & Y3); [lia|intros x Hx; rewrite X3 by set_solver; apply E; set_solver|].
    exists h2. cbn [foreach]. unfold bind. rewrite X1, Y1. split; [done|]. split.
    + intros x Hx. destruct (decide (x ∈ G)); [auto|]. rewrite Y3 by done. apply X2. set_solver.
    + intros x Hx. rewrite Y3 by set_solver. apply X3. set_solver.
Qed.

(** LtabWp.v -- reasoning about ParserLua: what is accepted, and what it meant. *)
From Verif Require Export LtabStr.
From Verif Require Import StrFacts BuildInv BuildOps BuildSpec BuildFacts Frame.
Open Scope string_scope.
Open Scope list_scope.

(** ** Triples about what happens when no error is raised. *)
Definition lwp {A} (m : LM A) (Q : A -> graph -> Prop) (g : graph) : Prop := pwp m (fun r g' => match r with Some a => Q a g' | None => True end) g.
Lemma lwp_mono {A} (m : LM A) (P Q : A -> graph -> Prop) g : lwp m P g -> (forall a g', P a g' -> Q a g') -> lwp m Q g.
Proof. unfold lwp, wp. destruct (m g) as [[a|] g'| |]; auto. Qed.
Lemma lwp_bind {A B} (m : LM A) (f : A -> LM B) Q g : lwp m (fun a g' => lwp (f a) Q g') g -> lwp (lbind m f) Q g.
Proof. unfold lwp, lbind, wp, bind. destruct (m g) as [[a|] g'| |]; auto. Qed.
Lemma lwp_ok {A} (a : A) (Q : A -> graph -> Prop) g : Q a g -> lwp (lok a) Q g. Proof. auto. Qed.
Lemma lwp_error {A} (Q : A -> graph -> Prop) g : lwp lerror Q g. Proof. exact I. Qed.
Lemma lwp_crash {A} c (Q : A -> graph -> Prop) g : lwp (crashm c) Q g. Proof. exact I. Qed.
Lemma lwp_nofuel {A} (Q : A -> graph -> Prop) g : lwp nofuel Q g. Proof. exact I. Qed.
Lemma lwp_lift {A} (m : MG A) Q g : pwp m Q g -> lwp (llift m) Q g.
Proof. unfold lwp, llift, wp, bind, lok, ret. destruct (m g); auto. Qed.
Lemma lwp_checkstring (v : option lval) (Q : string -> graph -> Prop) g : (forall s, v ≫= text = Some s -> Q s g) -> lwp (checkstring v) Q g.
Proof. intros H. unfold checkstring. destruct (v ≫= text); [apply lwp_ok; auto|apply lwp_error]. Qed.
Lemma lwp_checktable v (Q : list entry -> graph -> Prop) g : (forall l, v = Some (VTab l) -> Q l g) -> lwp (checktable v) Q g.
Proof. intros H. unfold checktable. destruct v as [[]|]; try apply lwp_error. apply lwp_ok. auto. Qed.
Lemma lwp_rawtable v pos (Q : list entry -> graph -> Prop) g : (forall l, v = VTab l -> Q l g) -> lwp (rawtable v pos) Q g.
Proof. intros H. unfold rawtable. destruct v; try apply lwp_crash. apply lwp_ok. auto. Qed.
Lemma lwp_rawentries l n pos (Q : list entry -> graph -> Prop) g : (forall ts, entriesAt l n ts -> Q ts g) -> lwp (rawentries (item l n) pos) Q g.
Proof.
  intros H. unfold rawentries. destruct (item l n) as [v|] eqn:E; [|apply lwp_ok, H; by left].
  apply lwp_rawtable. intros ts ->. apply H. by right.
Qed.
Lemma lwp_tostring v pos (Q : string -> graph -> Prop) g : (forall s, text v = Some s -> Q s g) -> lwp (tostring v pos) Q g.
Proof. intros H. unfold tostring. destruct (text v); [apply lwp_ok; auto|apply lwp_crash]. Qed.
Lemma lwp_optstring v (Q : string -> graph -> Prop) g : (forall s, textOr v "" s -> Q s g) -> lwp (optstring v) Q g.
Proof. intros H. unfold optstring. destruct v as [v|]; [|by apply lwp_ok, H]. apply lwp_checkstring. intros s Hs. by apply H. Qed.
Lemma textAt_bind l n s : item l n ≫= text = Some s <-> textAt l n s.
Proof.
  unfold textAt. destruct (item l n) as [v|]; cbn; split.
  - intros H. by exists v.
  - by intros (x & [= <-] & H).
  - done.
  - by intros (x & ? & _).
Qed.
Ltac l1 := lazymatch goal with
  | |- lwp (lbind _ _) _ _ => apply lwp_bind
  | |- lwp (lok _) _ _ => apply lwp_ok
  | |- lwp lerror _ _ => apply lwp_error
  | |- lwp (crashm _) _ _ => apply lwp_crash
  | |- lwp nofuel _ _ => apply lwp_nofuel
  | |- lwp (checktable _) _ _ => apply lwp_checktable; intros ? ?
  | |- lwp (rawtable _ _) _ _ => apply lwp_rawtable; intros ? ?
  | |- lwp (rawentries _ _) _ _ => apply lwp_rawentries; intros ? ?
  | |- lwp (tostring _ _) _ _ => apply lwp_tostring; intros ? ?
  | |- lwp (optstring _) _ _ => apply lwp_optstring; intros ? ?
  | |- lwp (checkstring (item _ _)) _ _ => apply lwp_checkstring; intros ? ?%textAt_bind
  | |- lwp (checkstring _) _ _ => apply lwp_checkstring; intros ? ?
  end; cbv beta.
(** Loops: the invariant says what has been done for the entries already visited. *)
Lemma lwp_leach {A B} (f : A -> LM unit) (R : list B -> graph -> Prop) (S : A -> B -> Prop) l :
  (forall x bs g, x ∈ l -> R bs g -> lwp (f x) (fun _ g' => exists b, S x b /\ R (bs ++ [b]) g') g) ->
  forall bs g, R bs g -> lwp (leach f l) (fun _ g' => exists bs', Forall2 S l bs' /\ R (bs ++ bs') g') g.
Proof.
  induction l as [|x l IH]; intros Hf bs g H; cbn [leach].
  - l1. exists []. split; [constructor|]. by rewrite app_nil_r.
  - l1. eapply lwp_mono; [apply Hf; [left|exact H]|]. intros [] g1 (b & Hb & H1). cbv beta. eapply lwp_mono; [apply IH; [|exact H1]|].
    + intros y bs0 g0 Hy H0. apply Hf; [by right|done].
    + intros [] g2 (bs' & F & H2). exists (b :: bs'). split; [by constructor|]. by rewrite <- app_assoc in H2.
Qed.
Lemma lwp_lmap {A B} (f : A -> LM B) (S : A -> B -> Prop) l g : (forall x, lwp (f x) (fun b g' => g' = g /\ S x b) g) ->
  lwp (lmap f l) (fun bs g' => g' = g /\ Forall2 S l bs) g.
Proof.
  intros Hf. induction l as [|x l IH]; cbn [lmap].
  - l1. split; [done|constructor].
  - l1. eapply lwp_mono; [apply Hf|]. intros b g1 [-> Hb]. l1. eapply lwp_mono; [exact IH|]. intros bs g1 [-> H]. l1. split; [done|]. by constructor.
Qed.

(** ** Everything that is built is built by the construction operations. *)
Definition kbuilt {A} (m : MG A) : Prop := forall g a g', built g -> m g = Ok a g' -> built g'.
Lemma kb_ret {A} (a : A) : kbuilt (ret a). Proof. intros g x g' B [= <- <-]. done. Qed.
Lemma kb_crash {A} c : kbuilt (crashm c : MG A). Proof. intros g x g' B [=]. Qed.
Lemma kb_nofuel {A} : kbuilt (nofuel : MG A). Proof. intros g x g' B [=]. Qed.
Lemma kb_bind {A B} (m : MG A) (f : A -> MG B) : kbuilt m -> (forall a, kbuilt (f a)) -> kbuilt (bind m f).
Proof. intros Hm Hf g x g' B0. unfold bind. destruct (m g) as [a g1| |] eqn:E; try done. intros H. eapply Hf; [|exact H]. by eapply Hm. Qed.
Lemma kb_lbind {A B} (m : LM A) (f : A -> LM B) : kbuilt m -> (forall a, kbuilt (f a)) -> kbuilt (lbind m f).
Proof. intros Hm Hf. apply kb_bind; [done|]. intros [a|]; [apply Hf|apply kb_ret]. Qed.
Lemma kb_gets {A} (f : graph -> A) : kbuilt (gets f). Proof. intros g x g' B [= <- <-]. done. Qed.
Lemma kb_get : kbuilt get. Proof. intros g x g' B [= <- <-]. done. Qed.
Lemma kb_gobj o : kbuilt (gobj o). Proof. intros g x g' B. unfold gobj, ofoption, ret, crashm. destruct (g_obj g !! o); [|done]. by intros [= <- <-]. Qed.
Lemma kb_op op : kbuilt (bexec op). Proof. intros g [] g' B H. by eapply b_op. Qed.
Lemma kb_new k i : kbuilt (newObject k i).
Proof.
  intros g o g' B H. apply (b_op g (BNew k i)); [done|]. cbn [bexec]. unfold bind. by rewrite H.
Qed.
Lemma kb_lift {A} (m : MG A) : kbuilt m -> kbuilt (llift m).
Proof. intros H. apply kb_bind; [done|]. intros a. apply kb_ret. Qed.
Lemma kb_leach {A} (f : A -> LM unit) l : (forall x, kbuilt (f x)) -> kbuilt (leach f l).
Proof. intros H. induction l; cbn [leach]; [apply kb_ret|]. apply kb_lbind; auto. Qed.
Lemma kb_lmap {A B} (f : A -> LM B) l : (forall x, kbuilt (f x)) -> kbuilt (lmap f l).
Proof. intros H. induction l; cbn [lmap]; [apply kb_ret|]. apply kb_lbind; [done|]. intros y. apply kb_lbind; [done|]. intros ys. apply kb_ret. Qed.
Lemma kb_checkstring v : kbuilt (checkstring v). Proof. unfold checkstring. destruct (v ≫= text); apply kb_ret. Qed.
Lemma kb_checktable v : kbuilt (checktable v). Proof. unfold checktable. destruct v as [[]|]; apply kb_ret. Qed.
Lemma kb_rawtable v pos : kbuilt (rawtable v pos). Proof. unfold rawtable. destruct v; first [apply kb_ret|apply kb_crash]. Qed.
Lemma kb_rawentries v pos : kbuilt (rawentries v pos). Proof. unfold rawentries. destruct v; [apply kb_rawtable|apply kb_ret]. Qed.
Lemma kb_tostring v pos : kbuilt (tostring v pos). Proof. unfold tostring. destruct (text v); first [apply kb_ret|apply kb_crash]. Qed.
Lemma kb_optstring v : kbuilt (optstring v). Proof. unfold optstring. destruct v; [apply kb_checkstring|apply kb_ret]. Qed.
Lemma kb_child c i : kbuilt (getChildById c i). Proof. apply kb_bind; [apply kb_gobj|]. intros. apply kb_gets. Qed.
Lemma kb_getEvent o t i : kbuilt (getEvent o t i). Proof. apply kb_bind; [apply kb_gobj|]. intros. apply kb_gets. Qed.
Ltac kb := repeat (intros; cbv beta; lazymatch goal with
  | |- kbuilt (lbind _ _) => apply kb_lbind
  | |- kbuilt (bind _ _) => apply kb_bind
  | |- kbuilt (ret _) => apply kb_ret
  | |- kbuilt (lok _) => apply kb_ret
  | |- kbuilt lerror => apply kb_ret
  | |- kbuilt (crashm _) => apply kb_crash
  | |- kbuilt nofuel => apply kb_nofuel
  | |- kbuilt (llift _) => apply kb_lift
  | |- kbuilt (leach _ _) => apply kb_leach
  | |- kbuilt (lmap _ _) => apply kb_lmap
  | |- kbuilt (checkstring _) => apply kb_checkstring
  | |- kbuilt (checktable _) => apply kb_checktable
  | |- kbuilt (rawtable _ _) => apply kb_rawtable
  | |- kbuilt (rawentries _ _) => apply kb_rawentries
  | |- kbuilt (tostring _ _) => apply kb_tostring
  | |- kbuilt (optstring _) => apply kb_optstring
  | |- kbuilt (getChildById _ _) => apply kb_child
  | |- kbuilt (getEvent _ _ _) => apply kb_getEvent
  | |- kbuilt (newObject _ _) => apply kb_new
  | |- kbuilt (addChild ?c ?o) => exact (kb_op (BChild c o))
  | |- kbuilt (addAlias ?c ?o ?p) => exact (kb_op (BAlias c o p))
  | |- kbuilt (addPort ?c ?o) => exact (kb_op (BPort c o))
  | |- kbuilt (addLink ?c ?o ?p) => exact (kb_op (BLink c o p))
  | |- kbuilt (addRule ?c ?o ?p) => exact (kb_op (BRule c o p))
  | |- kbuilt (addAttributionEvent ?c ?o) => exact (kb_op (BAttribution c o))
  | |- kbuilt (addPresentationEvent ?c ?o ?p ?q) => exact (kb_op (BPresentation c o p q))
  | |- kbuilt (gsetProperty ?c ?o ?p) => exact (kb_op (BProperty c o p))
  | |- kbuilt get => apply kb_get
  | |- kbuilt (if ?b then _ else _) => destruct b
  | |- kbuilt (match ?x with _ => _ end) => destruct x
  end); intros; cbv beta.
Lemma kb_pred k v : kbuilt (lpredicate k v).
Proof.
  revert v. induction k as [|k IH]; intros v; cbn [lpredicate]; kb; try apply IH.
Qed.
Lemma kb_named c s : kbuilt (getEventString c s).
Proof. unfold getEventString, eventOf. kb. Qed.
Lemma kb_transition s : kbuilt (ltransition s). Proof. unfold ltransition, transitionOf. kb. Qed.
Lemma kb_port c v : kbuilt (lport c v). Proof. unfold lport. kb. apply kb_named. Qed.
Lemma kb_condition c v : kbuilt (lcondition c v).
Proof. unfold lcondition. kb; first [apply kb_transition|apply kb_named|apply kb_pred]. Qed.
Lemma kb_action c v : kbuilt (laction c v).
Proof. unfold laction. kb; first [apply kb_transition|apply kb_named|apply kb_pred]. Qed.
Lemma kb_link c v : kbuilt (llink c v).
Proof. unfold llink. kb.
 all: first [apply kb_condition|apply kb_action]. Qed.
Lemma kb_transText v : kbuilt (ltransText v). Proof. unfold ltransText, transField. kb. Qed.
Lemma kb_property E x : kbuilt (lproperty E x). Proof. unfold lproperty. kb; apply kb_transText. Qed.
Lemma kb_setProperty E o x : kbuilt (lsetProperty E o x). Proof. unfold lsetProperty. kb. apply kb_property. Qed.
Lemma kb_area o x : kbuilt (laddArea o x). Proof. unfold laddArea, larea, ltime. kb. Qed.
Lemma kb_media E p v : kbuilt (lmedia E p v).
Proof. unfold lmedia. kb.
 all: first [apply kb_setProperty|apply kb_area]. Qed.
Lemma kb_rule c x : kbuilt (lrule c x). Proof. unfold lrule. kb. apply kb_pred. Qed.
Lemma kb_children rec c v : (forall k p v, kbuilt (rec k p v)) -> kbuilt (lchildren rec c v).
Proof. intros H. unfold lchildren, lchild. kb; apply H. Qed.
Lemma kb_body rec c l : (forall k p v, kbuilt (rec k p v)) -> kbuilt (lbody rec c l).
Proof. intros H. unfold lbody. kb; first [by apply kb_children|apply kb_port|apply kb_link]. Qed.
Lemma kb_parse E k : forall what p v, kbuilt (lparse E k what p v).
Proof.
  induction k as [|k IH]; intros what p v; cbn [lparse]; [apply kb_nofuel|].
  destruct what; [unfold lcontext|unfold lswitch|apply kb_media..]; kb; first [by apply kb_body|by apply kb_children|apply kb_rule].
Qed.
Lemma kb_root E k v : kbuilt (lroot (lparse E k) v).
Proof. unfold lroot. kb; apply kb_body; intros; apply kb_parse. Qed.
Lemma ltab_built E addr focus v r g : parseLtab E addr focus v = Ok r g -> built g.
Proof.
  unfold parseLtab, lprocess, lbind, llift, bind. destruct (newDocument (emptyGraph addr focus)) as [[] g0| |] eqn:N; [|done..]. cbn. intros H. eapply kb_root; [|exact H]. by eapply b_new.
Qed.
(** The invariant comes for free. *)
Lemma lwp_built {A} (m : LM A) Q g : kbuilt m -> built g -> lwp m Q g -> lwp m (fun a g' => built g' /\ Q a g') g.
Proof. intros K B. unfold lwp, wp. destruct (m g) as [[a|] g'| |] eqn:E; try done. intros H. split; [by eapply K|done]. Qed.

(** LtabMake.v -- ParserLua: creating objects, filling them, hanging them in the tree. *)
From Verif Require Export LtabKept.
From Verif Require Import StrFacts BuildInv BuildOps BuildSpec BuildFacts Frame.
Open Scope string_scope.
Open Scope list_scope.

Lemma sins_perm a x l : sins a x l ≡ₚ x :: l.
Proof. induction l as [|y l IH]; cbn [sins]; [done|]. destruct (a x <? a y)%positive; [done|]. rewrite IH. apply Permutation_swap. Qed.

(** Only objects have properties. *)
Definition propsKnown (g : graph) : Prop := forall o, is_Some (g_props g !! o) -> is_Some (g_obj g !! o).
Definition propsBy (g g' : graph) : Prop := forall x, is_Some (g_props g' !! x) -> is_Some (g_props g !! x) \/ is_Some (g_obj g' !! x).
Lemma addEvent_props g o t i b e l : pwp (addEvent o t i b e l) (fun _ g' => g_props g' = g_props g) g.
Proof.
  unfold addEvent. w1. eapply wp_mono; [apply wp_getEvent|]. intros [x|] g1 [-> _]; cbv beta; [by w1|].
  w1. unfold galloc. unfold wp at 1. cbv beta. w1. w1. w1. w1. apply wp_oupd. done.
Qed.
Lemma addObject_props g o : pwp (addObject o) (fun _ g' => g_props g' = g_props g) g.
Proof. unfold addObject. w1. apply wp_gobj. intros. w1. w1. w1. unfold glookup. w1. w1; [by w1|]. w1. w1. w1. w1. by w1. Qed.
Lemma addChild_props g c o : pwp (addChild c o) (fun _ g' => g_props g' = g_props g) g.
Proof.
  unfold addChild. w1. apply wp_gobj. intros cb Hc. w1. apply wp_gobj. intros ob Ho. w1; [by w1|]. w1. w1. w1. w1. apply wp_oupd. intros cb' Hc'. w1. apply wp_gobj. intros ob' Ho'.
  w1. w1. w1. apply wp_oupd. intros ob2 Ho2. w1. w1. eapply wp_mono; [apply addObject_props|]. intros b g1 E. cbv beta. w1. cbn in E. done.
Qed.
Lemma newObject_props g k i : GInv g -> pwp (newObject k i) (fun o g' => propsBy g g') g.
Proof.
  intros I. eapply wp_mono; [apply pwp_ok_and; by apply wp_newObject|]. intros o g' (E & S & Hn & (ob & Hob & _) & _). revert E. unfold newObject, galloc, bind, modify, whenm. cbn.
  destruct (bool_decide (k = KSettings)) eqn:K; cbn.
  2:{ intros [= <- <-]. intros x Hx. left. exact Hx. }
  match goal with |- context [addAttributionEvent ?o ?i ?g1] => pose proof (addEvent_props g1 o ATTRIBUTION i 0 TIME_NONE "") as P; unfold wp, addAttributionEvent in *; destruct (addEvent o ATTRIBUTION i 0 TIME_NONE "" g1) as [[] g2| |] end; try done.
  intros [= <- <-]. intros x. rewrite P. cbn. destruct (decide (x = g_next g)) as [->|Hne]; [right; by eexists|]. rewrite lookup_insert_ne by done. by left.
Qed.
Lemma bexec_props g op g' : GInv g -> bexec op g = Ok tt g' -> propsBy g g'.
Proof.
  intros I H. assert (X : pwp (bexec op) (fun _ g' => propsBy g g') g); [|by apply (wp_ok _ _ _ _ _ X _ _ H)].
  assert (Eq : forall (m : MG unit), pwp m (fun _ g' => g_props g' = g_props g) g -> pwp m (fun _ g' => propsBy g g') g).
  { intros m Hm. eapply wp_mono; [exact Hm|]. intros [] g1 E x Hx. left. by rewrite E in Hx. }
  destruct op; cbn [bexec].
  - w1. eapply wp_mono; [by apply newObject_props|]. intros. by w1.
  - w1. eapply wp_mono; [apply addObject_props|]. intros b g1 E. w1. intros x Hx. left. by rewrite E in Hx.
  - apply Eq, addChild_props.
  - apply Eq. unfold addAlias. apply wp_oupd. done.
  - apply Eq, addEvent_props.
  - apply Eq, addEvent_props.
  - apply Eq, addEvent_props.
  - apply Eq, addEvent_props.
  - apply Eq, addEvent_props.
  - apply Eq. unfold addPort. apply wp_oupd. done.
  - apply Eq. unfold addLink. w1. w1. w1. w1. apply wp_oupd. done.
  - apply Eq. unfold addRule. apply wp_oupd. done.
  - apply Eq. unfold addSwitchPort. w1. eapply wp_mono; [apply addEvent_props|]. intros [] g1 E. cbv beta. apply wp_oupd. done.
  - unfold gsetProperty. w1. apply wp_gobj. intros ob Ho. w1. w1; [w1|]; w1; intros x; cbn; (destruct (decide (x = o)) as [->|Hne]; [right; by eexists|rewrite lookup_insert_ne by done; by left]).
  - apply Eq. unfold gsetParameter. w1. apply wp_gevt. intros. by w1.
Qed.
Lemma built_props g : built g -> propsKnown g.
Proof.
  induction 1 as [addr focus g H|g op g' B IH H].
  - assert (X : pwp newDocument (fun _ g => propsKnown g) (emptyGraph addr focus)); [|by apply (wp_ok _ _ _ _ _ X _ _ H)]. clear.
    assert (I0 := ginv_empty addr focus). unfold newDocument. w1. eapply wp_mono; [apply wp_conj; [by apply newObject_props|by apply wp_newObject]|]. intros r g1 (P1 & S1 & N1 & (rb & R1 & _) & _). cbv beta.
    assert (K1 : propsKnown g1). { intros x Hx. destruct (P1 x Hx) as [Y|Y]; [|done]. cbn in Y. rewrite lookup_empty in Y. by destruct Y. }
    assert (I1 := inv_root g1 (Some r) (st_inv _ _ S1)). w1. w1. w1. eapply wp_mono; [apply wp_conj; [apply addObject_props|by apply wp_addObject]|]. intros b g2 (E2 & ob & Hob & H2). cbv beta. cbn in E2.
    w1. w1. destruct b; [|done]. destruct H2 as (S2 & _). assert (I2 := st_inv _ _ S2).
    assert (K2 : propsKnown g2). { intros x Hx. rewrite E2 in Hx. destruct (K1 x Hx) as [y Hy]. destruct (gx_obj _ _ (st_ext _ _ S2) x y) as (y' & Hy' & _); [done|]. by eexists. }
    w1. eapply wp_mono; [apply wp_conj; [by apply newObject_props|by apply wp_newObject]|]. intros s g3 (P3 & S3 & _). cbv beta. assert (I3 := st_inv _ _ S3).
    assert (K3 : propsKnown g3). { intros x Hx. destruct (P3 x Hx) as [Y|Y]; [|done]. destruct (K2 x Y) as [y Hy]. destruct (gx_obj _ _ (st_ext _ _ S3) x y) as (y' & Hy' & _); [done|]. by eexists. }
    w1. eapply wp_mono; [apply wp_conj; [apply addChild_props|by apply wp_addChild]|]. intros [] g4 (E4 & S4 & _). cbv beta. w1.
    intros x Hx. cbn in Hx. rewrite E4 in Hx. destruct (K3 x Hx) as [y Hy]. destruct (gx_obj _ _ (st_ext _ _ S4) x y) as (y' & Hy' & _); [done|]. by eexists.
  - destruct (built_inv _ B) as [I _]. pose proof (bexec_step _ _ _ I H) as S. intros x Hx. destruct (bexec_props _ _ _ I H x Hx) as [Y|Y]; [|done]. destruct (IH x Y) as [y Hy].
    destruct (gx_obj _ _ (st_ext _ _ S) x y) as (y' & Hy' & _); [done|]. by eexists.
Qed.

(** PlayerFacts.v -- properties do what PlayerSpec says (C28). *)
From Verif Require Import Frame SetProps PlayerSpec NumFacts.
Open Scope m_scope.
Open Scope string_scope.
Open Scope list_scope.

Lemma unknown_not name d : getPlayerProperty name = (PROP_UNKNOWN, d) ->
  forall k, (k ∈ map fst player_property_map \/ k ∈ map fst player_property_aliases) -> name <> k.
Proof.
  intros H k Hk ->. revert H. unfold getPlayerProperty.
  destruct Hk as [Hk|Hk]; cbn [map fst player_property_map player_property_aliases] in Hk;
    repeat (apply elem_of_cons in Hk as [-> |Hk]; [vm_compute; discriminate|]); by apply elem_of_nil in Hk.
Qed.
Lemma clamp255 z : (0 <= z <= 255)%Z -> clamp (255 - z) 0 255 = (255 - z)%Z.
Proof. intros. apply clamp_id. lia. Qed.


Definition ptable : list (string * string * pcode) :=
  map (fun e => (fst e, snd (snd e), fst (fst (snd e)))) player_property_map ++
  map (fun e => (fst e, snd (getPlayerProperty (snd e)), fst (getPlayerProperty (snd e)))) player_property_aliases.
Lemma ptable_in name c d : getPlayerProperty name = (c, d) -> c <> PROP_UNKNOWN -> In (name, d, c) ptable.
Proof.
  intros Hg Hc. unfold ptable. apply in_or_app. pose proof Hg as Hg0. unfold getPlayerProperty in Hg.
  destruct (Player.assoc name player_property_map) as [[[c' i] d']|] eqn:E1.
  - injection Hg as -> ->. left. apply assoc_in in E1. apply elem_of_list_In in E1.
    apply in_map_iff. exists (name, (c, i, d)). split; [reflexivity|exact E1].
  - destruct (Player.assoc name player_property_aliases) as [n'|] eqn:E2; [|congruence].
    right. apply assoc_in in E2. apply elem_of_list_In in E2. apply in_map_iff. exists (name, n').
    split; [|exact E2]. cbn [fst snd].
    assert (getPlayerProperty n' = (c, d)) as ->; [|reflexivity].
    unfold getPlayerProperty. destruct (Player.assoc n' player_property_map) as [[[c' i] d']|]; congruence.
Qed.
Lemma Forall_In {A} (P : A -> Prop) l : List.Forall P l -> forall x, In x l -> P x.
Proof. intros HF x Hx. eapply (proj1 (List.Forall_forall P l)); eassumption. Qed.

Section Own.
Context (x : ext) (W H : Z).
Definition entryOk (e : string * string * pcode) : Prop :=
  let '(name, d, c) := e in
  components name = [] -> forall v a a',
  doset_own x W H c v a = DOk a' -> shows x W H (canonical name) v a a'.
Lemma entries_ok : List.Forall entryOk ptable.
Proof.
  let l := eval vm_compute in ptable in change ptable with l.
  repeat apply List.Forall_cons; [..|apply List.Forall_nil].
  all: unfold entryOk; intros Hc; try discriminate Hc; clear Hc; intros v a a' Hd.
  all: match goal with |- shows _ _ _ ?n _ _ _ => let m := eval vm_compute in n in change n with m end.
  all: destruct a; unfold shows; cbn [String.eqb Ascii.eqb Bool.eqb]; cbn [doset_own] in Hd;
       unfold with_color, with_percent in Hd.
  all: try (injection Hd as <-; reflexivity).
  all: try (destruct (_ || _)%bool in Hd; [injection Hd as <-; reflexivity|discriminate]).
  all: try (destruct (try_parse_bool v); [injection Hd as <-; eexists; split; reflexivity|discriminate]).
  all: try (destruct (xstrtoint v); [injection Hd as <-; eexists; split; reflexivity|discriminate]).
  all: try (injection Hd as <-; unfold opacity; rewrite clamp255 by (apply f_C27_range; lia); reflexivity).
  all: destruct (String.eqb_spec v "indefinite"); [left; injection Hd as <-; split; [assumption|reflexivity]|];
       right; split; [assumption|]; destruct (try_parse_time v) as [t| | |]; try discriminate;
       exists t; injection Hd as <-; split; reflexivity.
Qed.
Lemma defaults_ok : List.forallb (fun e => String.eqb (defaultValue (canonical (fst (fst e)))) (snd (fst e))) ptable = true.
Proof. vm_compute. reflexivity. Qed.
Lemma own_shows name c d v a a' :
  getPlayerProperty name = (c, d) -> doset_own x W H c (if is_empty v then d else v) a = DOk a' ->
  components name = [] -> shows x W H (canonical name) (valueOf name v) a a'.
Proof.
  intros Hn Hd Hc.
  destruct (decide (c = PROP_UNKNOWN)) as [->|Hk].
  - assert (a' = a) as -> by (destruct a; cbn in Hd; congruence).
    pose proof (unknown_not name d Hn) as Hne.
    assert (Hne1 : forall k, existsb (String.eqb k) (map fst player_property_map ++ map fst player_property_aliases) = true -> String.eqb name k = false).
    { intros k Hk. apply String.eqb_neq, Hne. apply existsb_exists in Hk as (k' & Hin & Ek).
      apply String.eqb_eq in Ek as <-. apply in_app_or in Hin as [Hin|Hin]; apply elem_of_list_In in Hin; auto. }
    unfold canonical. rewrite !Hne1 by reflexivity. unfold shows. rewrite !Hne1 by reflexivity. reflexivity.
  - pose proof (ptable_in _ _ _ Hn Hk) as Hin.
    pose proof (Forall_In _ _ entries_ok _ Hin Hc) as Hok. cbv beta in Hok.
    pose proof (proj1 (List.forallb_forall _ _) defaults_ok _ Hin) as E. cbn [fst snd] in E. apply String.eqb_eq in E.
    unfold valueOf. replace (String.eqb v "") with (is_empty v) by (destruct v; reflexivity). destruct (is_empty v); [|apply Hok, Hd].
    rewrite E. apply Hok, Hd.
Qed.
End Own.

(** ** In the engine. *)
Section SetP.
Context (D : doc).
Definition presents (s : st) (o : oid) (a : pattrs) : Prop :=
  exists p, o_player (ostOf s o) = Some p /\ attrs_of p = a.
Definition rightOf (s : st) (o : oid) : string := propOf s o "right".
Definition bottomOf (s : st) (o : oid) : string := propOf s o "bottom".
Definition dims (s s' : st) : Prop := s_w s' = s_w s /\ s_h s' = s_h s.
Notation X := (d_ext D).

Lemma attrs_with p a : attrs_of (with_attrs p a) = a.
Proof. by destruct a. Qed.
Lemma attrs_props p m : attrs_of (p_set_props m p) = attrs_of p.
Proof. done. Qed.
Lemma pset_none p name v : pset_value p name v = None -> exists d, getPlayerProperty name = (PROP_UNKNOWN, d).
Proof.
  unfold pset_value. destruct (getPlayerProperty name) as [[] d]; cbn; try discriminate. eauto.
Qed.
Lemma pset_some p name v c v' : pset_value p name v = Some (c, v') ->
  exists d, getPlayerProperty name = (c, d) /\ v' = if is_empty v then d else v.
Proof.
  unfold pset_value. destruct (getPlayerProperty name) as [c' d]. destruct (_ && _)%bool; [done|].
  intros [= <- <-]. eauto.
Qed.
Lemma comps_depth name c d : getPlayerProperty name = (c, d) ->
  depthOf c = 2 <-> components name <> [].
Proof.
  intros E. destruct (code_name _ _ _ E) as (H1 & H2 & H3). split.
  - destruct c; try discriminate; intros _; [rewrite H1|rewrite H2|rewrite H3]; done.
  - unfold components. destruct (String.eqb_spec name "bounds") as [->|]; [cbv in E; by injection E as <- <-|].
    destruct (String.eqb_spec name "location") as [->|]; [cbv in E; by injection E as <- <-|].
    destruct (String.eqb_spec name "size") as [->|]; [cbv in E; by injection E as <- <-|]. done.
Qed.
Lemma wh_depth name c d : getPlayerProperty name = (c, d) ->
  depthOf c = 1 <-> name = "width" \/ name = "height".
Proof.
  intros E. split.
  - intros Hd. assert (Hk : c <> PROP_UNKNOWN) by (intros ->; discriminate).
    pose proof (ptable_in _ _ _ E Hk) as Hin.
    assert (G : List.forallb (fun e => implb (Nat.eqb (depthOf (snd e)) 1) (String.eqb (fst (fst e)) "width" || String.eqb (fst (fst e)) "height")%bool) ptable = true)
      by (vm_compute; reflexivity).
    pose proof (proj1 (List.forallb_forall _ _) G _ Hin) as G'. cbn [fst snd] in G'. rewrite Hd in G'. cbn in G'.
    apply orb_prop in G' as [G'|G']; apply String.eqb_eq in G'; auto.
  - intros [-> | ->]; cbv in E; by injection E as <- <-.
Qed.
Lemma doset_media0 c v f : depthOf c = 0 -> doset_media c v f = [].
Proof. by destruct c. Qed.

(** The last step of Player::setProperty. *)
Lemma last_step o name v s (Q : unit -> st -> Prop) a :
  presents s o a ->
  (forall s', presents s' o a -> dims s s' -> (forall k, lk s' o k = lk s o k) ->
     (exists p, o_player (ostOf s' o) = Some p /\ p_props p !! name = Some v) -> Q tt s') ->
  pwp (updPlayer o (fun p => p_set_props (<[name := v]> (p_props p)) p)) Q s.
Proof.
  intros (p & Hp & Ha) HQ. unfold updPlayer. w1. apply HQ.
  - exists (p_set_props (<[name := v]> (p_props p)) p). sts. rewrite decide_True by done. cbn. by rewrite Hp.
  - done.
  - intros k. unfold lk. sts. by rewrite decide_True.
  - exists (p_set_props (<[name := v]> (p_props p)) p). sts. rewrite decide_True by done. cbn. rewrite Hp. split; [done|].
    cbn. by rewrite lookup_insert.
Qed.

Definition post (E : pattrs -> pattrs -> Prop) (o : oid) (name v : string) (s : st) : unit -> st -> Prop :=
  fun _ s' => forall a, presents s o a -> exists a', presents s' o a' /\ E a a' /\ dims s s' /\
    exists p, o_player (ostOf s' o) = Some p /\ p_props p !! name = Some v.

(** depth 0 *)
Lemma player0 n o name v s : components name = [] -> name <> "width" -> name <> "height" ->
  pwp (playerSet D n o name v) (post (shows X (s_w s) (s_h s) (canonical name) (valueOf name v)) o name v s) s.
Proof.
  intros Hc Hw Hh. destruct n as [|n]; [exact I|]. cbn [playerSet]. w1. w1.
  destruct (o_player (ostOf s o)) as [p|] eqn:Ep; [|exact I]. w1.
  destruct (pset_value p name v) as [[c v']|] eqn:Epv.
  - destruct (pset_some _ _ _ _ _ Epv) as (d & Hn & ->).
    destruct (doset_own X _ _ _ _ _) as [a'| |] eqn:Ed; [|exact I..].
    rewrite doset_media0.
    2:{ destruct (depthOf c) as [|[|[|k]]] eqn:E; [done|..].
        - apply (wh_depth _ _ _ Hn) in E. tauto.
        - apply (comps_depth _ _ _ Hn) in E. done.
        - by destruct c. }
    w1. unfold updPlayer at 1. w1. cbn [foreach]. w1.
    pose proof (own_shows _ _ _ _ _ _ _ _ _ Hn Ed Hc) as Hs.
    apply (last_step o name v _ _ a').
    { exists (with_attrs p a'). sts. rewrite decide_True by done. cbn. rewrite Ep. split; [done|apply attrs_with]. }
    intros s' Hp' Hd' _ Hr a (p0 & Hp0 & <-). rewrite Ep in Hp0. injection Hp0 as <-.
    exists a'. repeat split; try assumption; apply Hd'.
  - apply pset_none in Epv as [d Hn]. w1.
    apply (last_step o name v s _ (attrs_of p)); [by exists p|].
    intros s' Hp' Hd' _ Hr a (p0 & Hp0 & <-). rewrite Ep in Hp0. injection Hp0 as <-.
    exists (attrs_of p). split; [exact Hp'|]. split; [|by split].
    eapply (own_shows _ _ _ _ _ _ _ _ _ Hn); [|exact Hc]. by destruct (attrs_of p).
Qed.
(** mediaSet adds the media's own table and the focus variable. *)
Lemma media_of_player (E : Z -> Z -> pattrs -> pattrs -> Prop) n o name v s :
  (forall s1, (forall k, k <> name -> lk s1 o k = lk s o k) -> pwp (playerSet D n o name v) (post (E (s_w s1) (s_h s1)) o name v s1) s1) ->
  pwp (mediaSet D (S n) o name v 0%N) (post (E (s_w s) (s_h s)) o name v s) s.
Proof.
  intros IH. cbn [mediaSet]. w1. apply wp_getO; [done|]. intros ob Ho. w1.
  eapply (wp_mono _ _ _ (fun _ s' => (forall k, lk s' o k = lk s o k) /\ dims s s' /\ ostOf s' o = ostOf s o)).
  { w1; [by w1|done]. }
  intros [] s1 (F1 & F2 & F3); cbv beta. w1. w1. w1. w1. w1. unfold objSetProp. w1.
  match goal with |- wp _ _ _ _ ?z => set (s2 := z) end.
  assert (E2 : forall k, k <> name -> lk s2 o k = lk s o k).
  { intros k Hk. rewrite <- F1. unfold lk, s2. sts. rewrite decide_True by done. cbn. by rewrite lookup_insert_ne. }
  assert (E3 : o_player (ostOf s2 o) = o_player (ostOf s o)).
  { unfold s2. sts. rewrite decide_True by done. cbn. by rewrite F3. }
  assert (E4 : dims s s2) by (destruct F2; done). clearbody s2. w1. w1.
  destruct (o_player (ostOf s2 o)) as [p|] eqn:Ep.
  2:{ w1. intros a (p & Hp & _). congruence. }
  cbn. eapply wp_mono; [apply IH, E2|]. intros [] s3 H3. cbv beta in H3. intros a (p0 & Hp0 & Ha).
  destruct (H3 a) as (a' & G1 & G2 & G3 & G4). { exists p0. split; [congruence|done]. }
  destruct E4 as [E4 E5]. rewrite E4, E5 in G2. exists a'. split; [done|]. split; [done|]. split; [|done].
  destruct G3. split; congruence.
Qed.
Lemma media0 n o name v s : components name = [] -> name <> "width" -> name <> "height" ->
  pwp (mediaSet D n o name v 0%N) (post (shows X (s_w s) (s_h s) (canonical name) (valueOf name v)) o name v s) s.
Proof.
  intros. destruct n as [|n]; [exact I|].
  apply (media_of_player (fun W H => shows X W H (canonical name) (valueOf name v))). intros s1 _. by apply player0.
Qed.
Lemma propOf_lk s s' o k : lk s' o k = lk s o k -> propOf s' o k = propOf s o k.
Proof. unfold propOf, lk. by intros ->. Qed.
Lemma valueOf_nonempty name v : v <> "" -> valueOf name v = v.
Proof. unfold valueOf. destruct (String.eqb_spec v ""); [done|]. done. Qed.

(** depth 1 *)
Lemma player1 n o name v s : components name = [] ->
  pwp (playerSet D n o name v) (post (showsOne X (s_w s) (s_h s) (rightOf s o) (bottomOf s o) name v) o name v s) s.
Proof.
  intros Hc. destruct (decide (name = "width" \/ name = "height")) as [Hwh|Hwh].
  2:{ eapply wp_mono; [apply player0; tauto|]. intros [] s' H' a Ha. destruct (H' a Ha) as (a' & G1 & G2 & G3).
      exists a'. split; [done|]. split; [|done]. exists a'. split; [done|].
      destruct (String.eqb_spec name "width"); [tauto|]. destruct (String.eqb_spec name "height"); [tauto|]. done. }
  destruct n as [|n]; [exact I|]. cbn [playerSet]. w1. w1.
  destruct (o_player (ostOf s o)) as [p|] eqn:Ep; [|exact I]. w1.
  destruct (pset_value p name v) as [[c v']|] eqn:Epv.
  2:{ exfalso. apply pset_none in Epv as [d Hn]. destruct Hwh as [-> | ->]; discriminate Hn. }
  destruct (pset_some _ _ _ _ _ Epv) as (d & Hn & ->).
  destruct (doset_own X _ _ _ _ _) as [a1| |] eqn:Ed; [|exact I..].
  pose proof (own_shows _ _ _ _ _ _ _ _ _ Hn Ed Hc) as Hs.
  w1. unfold updPlayer at 1. w1.
  match goal with |- wp _ _ _ _ ?z => set (s1 := z) end.
  assert (P1 : presents s1 o a1).
  { exists (with_attrs p a1). unfold s1. sts. rewrite decide_True by done. cbn. rewrite Ep. split; [done|apply attrs_with]. }
  assert (D1 : dims s s1) by done.
  clearbody s1.
  assert (Hdm : doset_media c (if is_empty v then d else v) (propOf s o) =
     if (String.eqb name "width" && negb (String.eqb (rightOf s o) ""))%bool then [("right", rightOf s o)]
     else if (String.eqb name "height" && negb (String.eqb (bottomOf s o) ""))%bool then [("bottom", bottomOf s o)] else []).
  { unfold rightOf, bottomOf. destruct Hwh as [-> | ->]; cbv in Hn; injection Hn as <- <-; cbn [doset_media String.eqb Ascii.eqb Bool.eqb andb].
    - by destruct (propOf s o "right").
    - by destruct (propOf s o "bottom"). }
  rewrite Hdm. clear Hdm.
  assert (Go : forall m v2, m = "right" \/ m = "bottom" -> v2 <> "" ->
     (forall a2, shows X (s_w s) (s_h s) m v2 a1 a2 -> showsOne X (s_w s) (s_h s) (rightOf s o) (bottomOf s o) name v (attrs_of p) a2) ->
     pwp (foreach (fun kv => mediaSet D n o (fst kv) (snd kv) 0) [(m, v2)])
       (fun _ s' => pwp (updPlayer o (fun p => p_set_props (<[name := v]> (p_props p)) p))
          (post (showsOne X (s_w s) (s_h s) (rightOf s o) (bottomOf s o) name v) o name v s) s') s1).
  { intros m v2 Hm Hv2 Hq. cbn [foreach]. w1. cbn [fst snd].
    assert (Hcm : components m = [] /\ m <> "width" /\ m <> "height" /\ canonical m = m) by (destruct Hm as [-> | ->]; done).
    destruct Hcm as (Hcm1 & Hcm2 & Hcm3 & Hcm4).
    eapply wp_mono; [apply media0; assumption|]. intros [] s2 H2. cbv beta in H2. w1.
    destruct (H2 a1 P1) as (a2 & G1 & G2 & G3 & _). destruct D1 as [D1 D1'], G3 as [G3 G3'].
    rewrite D1, D1', Hcm4, valueOf_nonempty in G2 by done.
    apply (last_step o name v s2 _ a2); [done|]. intros s' Hp' [Hd' Hd''] _ Hr a (p0 & Hp0 & <-).
    rewrite Ep in Hp0. injection Hp0 as <-. exists a2. split; [done|]. split; [by apply Hq|]. split; [split; congruence|done]. }
  destruct (String.eqb name "width" && negb (String.eqb (rightOf s o) ""))%bool eqn:E1.
  { apply (Go "right" (rightOf s o)); [auto| |].
    - apply andb_prop in E1 as [_ E1]. apply negb_true_iff, String.eqb_neq in E1. done.
    - intros a2 H2. exists a1. rewrite E1. done. }
  destruct (String.eqb name "height" && negb (String.eqb (bottomOf s o) ""))%bool eqn:E2.
  { apply (Go "bottom" (bottomOf s o)); [auto| |].
    - apply andb_prop in E2 as [_ E2]. apply negb_true_iff, String.eqb_neq in E2. done.
    - intros a2 H2. exists a1. rewrite E1, E2. done. }
  cbn [foreach]. w1. apply (last_step o name v s1 _ a1); [done|].
  intros s' Hp' [Hd' Hd''] _ Hr a (p0 & Hp0 & <-). rewrite Ep in Hp0. injection Hp0 as <-.
  destruct D1 as [D1 D1']. exists a1. split; [done|]. split; [|split; [split; congruence|done]].
  exists a1. rewrite E1, E2. done.
Qed.
Lemma showsOne0 W H r b name v a a' : name <> "width" -> name <> "height" ->
  shows X W H (canonical name) (valueOf name v) a a' -> showsOne X W H r b name v a a'.
Proof.
  intros Hw Hh Hs. exists a'. split; [done|].
  destruct (String.eqb_spec name "width"); [done|]. by destruct (String.eqb_spec name "height").
Qed.
Lemma post_mono (E1 E2 : pattrs -> pattrs -> Prop) o name v s u s' :
  (forall a a', E1 a a' -> E2 a a') -> post E1 o name v s u s' -> post E2 o name v s u s'.
Proof. intros HE HP a Ha. destruct (HP a Ha) as (a' & G1 & G2 & G3). exists a'. auto. Qed.
Lemma media1 n o name v s : components name = [] ->
  pwp (mediaSet D n o name v 0%N) (post (showsOne X (s_w s) (s_h s) (rightOf s o) (bottomOf s o) name v) o name v s) s.
Proof.
  intros Hc. destruct n as [|n]; [exact I|].
  destruct (decide (name = "width" \/ name = "height")) as [Hwh|Hwh].
  - apply (media_of_player (fun W H => showsOne X W H (rightOf s o) (bottomOf s o) name v)). intros s1 Hs1.
    replace (rightOf s o) with (rightOf s1 o) by (apply propOf_lk, Hs1; destruct Hwh as [-> | ->]; done).
    replace (bottomOf s o) with (bottomOf s1 o) by (apply propOf_lk, Hs1; destruct Hwh as [-> | ->]; done).
    by apply player1.
  - eapply wp_mono; [apply media0; tauto|]. intros [] s'. apply post_mono. intros. apply showsOne0; tauto.
Qed.
(** depth 2: the components, one after the other *)
Fixpoint assigned (l : list (string * string)) (T : table) : table :=
  match l with
  | [] => T
  | (k, v) :: l => assigned l (fun j => if String.eqb j k then Some v else T j)
  end.
Lemma assigned_ext l : forall T T', (forall j, T j = T' j) -> forall j, assigned l T j = assigned l T' j.
Proof.
  induction l as [|[k v] l IH]; intros T T' HT j; cbn [assigned]; [apply HT|]. apply IH. intros i. by rewrite HT.
Qed.
Lemma seq2 n o l : (forall k x, (k, x) ∈ l -> k ∈ ["left"; "top"; "width"; "height"]) -> forall s a,
  presents s o a ->
  pwp (foreach (fun kv => mediaSet D n o (fst kv) (snd kv) 0%N) l)
    (fun _ s' => exists a', presents s' o a' /\ dims s s' /\
       showsSeq X (s_w s) (s_h s) (rightOf s o) (bottomOf s o) l a a' /\
       forall j, lk s' o j = assigned l (lk s o) j) s.
Proof.
  induction l as [|[k x] l IH]; intros Hl s a Ha; cbn [foreach].
  { w1. exists a. done. }
  w1. cbn [fst snd].
  assert (Hk : k ∈ ["left"; "top"; "width"; "height"]) by (eapply Hl; left).
  assert (Hc : components k = [] /\ k <> "right" /\ k <> "bottom" /\ forall j, ~ spreads k j).
  { clear -Hk. repeat (apply elem_of_cons in Hk as [-> |Hk]; [unfold spreads; intuition discriminate|]). by apply elem_of_nil in Hk. }
  destruct Hc as (Hc & Hr & Hb & Hsp).
  eapply wp_mono; [apply wp_conj; [apply media1, Hc|apply (proj1 (set_props D n))]|].
  intros [] s1 [H1 [H0 H2]]. specialize (H0 (Hsp _)). cbv beta in H1, H2. destruct (H1 a Ha) as (b & Pb & Sb & [D1 D2] & _).
  eapply wp_mono; [apply (IH ltac:(intros; eapply Hl; right; eassumption) s1 b Pb)|].
  intros [] s' (a' & Pa' & [D3 D4] & Sa' & Ta'). exists a'. split; [done|]. split; [split; congruence|].
  split.
  2:{ intros j. rewrite Ta'. cbn [assigned]. apply assigned_ext. intros i. destruct (String.eqb_spec i k) as [->|Hi]; [done|]. by apply H2. }
  exists b. split; [done|]. rewrite D1, D2 in Sa'.
  replace (rightOf s o) with (rightOf s1 o) by (apply propOf_lk, H2; done).
  replace (bottomOf s o) with (bottomOf s1 o) by (apply propOf_lk, H2; done). done.
Qed.
Lemma combine_in (ns vs : list string) k x : (k, x) ∈ combine ns vs -> k ∈ ns.
Proof. rewrite !elem_of_list_In. apply in_combine_l. Qed.
Lemma try_parse_list_len s sep m l : try_parse_list s sep m m = Some l -> length l = m.
Proof.
  unfold try_parse_list. destruct (Nat.ltb_spec (length (xstrsplit s sep)) m); [done|].
  destruct (Nat.ltb_spec m (length (xstrsplit s sep))); [done|]. cbn. intros [= <-]. rewrite map_length. lia.
Qed.
(** One property, with what happens to the table. *)
Definition pstep (W H : Z) (name v : string) (T : table) (a : pattrs) (T' : table) (a' : pattrs) : Prop :=
  match components name with
  | [] => (forall j, T' j = T j) /\ showsOne X W H (default "" (T "right")) (default "" (T "bottom")) name v a a'
  | ns => exists vs, try_parse_list (valueOf name v) "," (length ns) (length ns) = Some vs /\ length vs = length ns /\
      (forall j, T' j = assigned (combine ns vs) T j) /\
      showsSeq X W H (default "" (T "right")) (default "" (T "bottom")) (combine ns vs) a a'
  end.
Lemma playerT n o name v s :
  pwp (playerSet D n o name v) (fun _ s' => forall a, presents s o a -> exists a', presents s' o a' /\
     pstep (s_w s) (s_h s) name v (lk s o) a (lk s' o) a' /\ dims s s' /\
     exists p, o_player (ostOf s' o) = Some p /\ p_props p !! name = Some v) s.
Proof.
  destruct (components name) as [|c0 cs] eqn:Ec.
  { eapply wp_mono; [apply wp_conj; [apply player1, Ec|apply (proj2 (set_props D n))]|]. intros [] s' [H1 H2] a Ha.
    destruct (H1 a Ha) as (a' & G1 & G2 & G3). exists a'. split; [done|]. split; [|done]. unfold pstep. rewrite Ec. split.
    - intros j. apply H2. unfold spreads. intros [[-> _]|[[-> _]|[-> _]]]; discriminate.
    - exact G2. }
  destruct n as [|n]; [exact I|]. cbn [playerSet]. w1. w1.
  destruct (o_player (ostOf s o)) as [p|] eqn:Ep; [|exact I]. w1.
  assert (Hname : exists c d, getPlayerProperty name = (c, d) /\ c <> PROP_UNKNOWN /\ d = defaultValue (canonical name) /\
     (forall v a, doset_own X (s_w s) (s_h s) c v a = match try_parse_list v "," (length (components name)) (length (components name)) with Some _ => DOk a | None => DRefused end) /\
     (forall v f, doset_media c v f = match try_parse_list v "," (length (components name)) (length (components name)) with Some l => combine (components name) l | None => [] end) /\
     (forall k, k ∈ components name -> k ∈ ["left"; "top"; "width"; "height"])).
  { unfold components in Ec |- *.
    destruct (String.eqb_spec name "bounds") as [->|]; [|destruct (String.eqb_spec name "location") as [->|]; [|destruct (String.eqb_spec name "size") as [->|]; [|done]]].
    - exists PROP_BOUNDS, "0%,0%,100%,100%". repeat split; try done. by intros ? [].
    - exists PROP_LOCATION, "0,0". repeat split; try done; [by intros ? []|]. intros k Hk. set_solver.
    - exists PROP_SIZE, "100%,100%". repeat split; try done; [by intros ? []|]. intros k Hk. set_solver. }
  destruct Hname as (c & d & Hg & Hk & Hdv & Hown & Hmed & Hcomp).
  destruct (pset_value p name v) as [[c' v']|] eqn:Epv.
  2:{ exfalso. apply pset_none in Epv as [d' Hn]. congruence. }
  destruct (pset_some _ _ _ _ _ Epv) as (d' & Hn & ->). rewrite Hg in Hn. injection Hn as <- <-.
  set (v' := if is_empty v then d else v) in *.
  assert (Ev : v' = valueOf name v).
  { unfold v', valueOf. rewrite <- Hdv. by destruct v. }
  clearbody v'. rewrite Hown, Hmed. destruct (try_parse_list v' _ _ _) as [vs|] eqn:El; [|exact I].
  w1. unfold updPlayer at 1. w1.
  match goal with |- wp _ _ _ _ ?z => set (s1 := z) end.
  assert (P1 : presents s1 o (attrs_of p)).
  { exists (with_attrs p (attrs_of p)). unfold s1. sts. rewrite decide_True by done. cbn. rewrite Ep. split; [done|apply attrs_with]. }
  assert (L1 : forall k, lk s1 o k = lk s o k).
  { intros k. unfold lk, s1. sts. by rewrite decide_True. }
  assert (D1 : dims s s1) by done. clearbody s1.
  eapply wp_mono; [apply (seq2 n o (combine (components name) vs) ltac:(intros k y Hin; eapply Hcomp, combine_in, Hin) s1 _ P1)|].
  intros [] s2 (a' & Pa' & [D2 D3] & Sa' & Ta'). cbv beta.
  apply (last_step o name v s2 _ a'); [done|]. intros s' Hp' [Hd' Hd''] HT Hr a (p0 & Hp0 & <-).
  rewrite Ep in Hp0. injection Hp0 as <-. destruct D1 as [D1 D1'].
  exists a'. split; [done|]. split; [|split; [split; congruence|done]].
  unfold pstep. destruct (components name) as [|n0 ns] eqn:Ec'; [done|].
  exists vs. rewrite <- Ev. split; [exact El|]. split; [eapply try_parse_list_len, El|].
  split.
  { intros j. rewrite HT, Ta'. apply assigned_ext. apply L1. }
  rewrite D1, D1' in Sa'. unfold rightOf, bottomOf, propOf in Sa'.
  pose proof (L1 "right") as R1. pose proof (L1 "bottom") as R2. unfold lk in R1, R2 |- *. by rewrite R1, R2 in Sa'.
Qed.
Lemma player2 n o name v s :
  pwp (playerSet D n o name v) (post (showsProp X (s_w s) (s_h s) (rightOf s o) (bottomOf s o) name v) o name v s) s.
Proof.
  eapply wp_mono; [apply playerT|]. intros [] s' HT a Ha. destruct (HT a Ha) as (a' & G1 & G2 & G3).
  exists a'. split; [done|]. split; [|done]. unfold showsProp. unfold pstep in G2.
  destruct (components name); [apply G2|]. destruct G2 as (vs & E1 & E2 & _ & E3). eauto.
Qed.
Lemma media2 n o name v s :
  pwp (mediaSet D n o name v 0%N) (post (showsProp X (s_w s) (s_h s) (rightOf s o) (bottomOf s o) name v) o name v s) s.
Proof.
  destruct (components name) as [|c0 cs] eqn:Ec.
  { eapply wp_mono; [apply media1, Ec|]. intros [] s'. apply post_mono. unfold showsProp. rewrite Ec. done. }
  destruct n as [|n]; [exact I|].
  apply (media_of_player (fun W H => showsProp X W H (rightOf s o) (bottomOf s o) name v)). intros s1 Hs1.
  assert (name <> "right" /\ name <> "bottom") as [Hr Hb] by (split; intros ->; discriminate Ec).
  replace (rightOf s o) with (rightOf s1 o) by (apply propOf_lk, Hs1; done).
  replace (bottomOf s o) with (bottomOf s1 o) by (apply propOf_lk, Hs1; done).
  apply player2.
Qed.
Lemma f_C28 o name v s s' a ob :
  d_obj D !! o = Some ob -> is_media (ob_kind ob) = true -> presents s o a ->
  setProperty D o name v 0%N s = Ok tt s' ->
  propOf s' o name = v /\
  (forall k, k <> name -> k ∉ components name -> propOf s' o k = propOf s o k) /\
  exists p' , o_player (ostOf s' o) = Some p' /\ p_props p' !! name = Some v /\
     showsProp X (s_w s) (s_h s) (rightOf s o) (bottomOf s o) name v a (attrs_of p').
Proof.
  intros Ho Hm Ha E.
  pose proof (setProperty_props D o name v 0%N s) as Hp. unfold wp in Hp. rewrite E in Hp. destruct Hp as (Hp1 & Hp2 & _).
  split; [|split].
  - unfold propOf. unfold lk in Hp1. by rewrite Hp1.
  - intros k Hk Hc. apply propOf_lk, Hp2; [done|]. unfold spreads. unfold components in Hc.
    intros [[-> Hs]|[[-> Hs]|[-> Hs]]]; cbn in Hc; done.
  - assert (G : pwp (setProperty D o name v 0%N) (post (showsProp X (s_w s) (s_h s) (rightOf s o) (bottomOf s o) name v) o name v s) s).
    { unfold setProperty. w1. apply wp_getO; [done|]. intros ob' Ho'. rewrite Ho in Ho'. injection Ho' as <-. rewrite Hm. apply media2. }
    unfold wp in G. rewrite E in G. destruct (G a Ha) as (a' & (p1 & Hp1' & <-) & G2 & _ & (p2 & Hp2' & Hpr)).
    exists p2. rewrite Hp1' in Hp2'. injection Hp2' as <-. done.
Qed.
End SetP.

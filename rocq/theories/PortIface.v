(** PortIface.v -- C49: what the interface of a port or a mapping is resolved to when the
    composition is closed. *)
From Verif Require Import BuildInv BuildOps BuildSpec BuildFacts Frame ParserFrame ParserEnd.
From Verif Require Export PortObjs PortSpec CompileIface CompileMove.
Open Scope string_scope.
Open Scope list_scope.

(** What holds whenever an element is closed. *)
Record live0 (x : xml) (s : pst) : Prop := mkLz {
  lz_c : cinv s; lz_i : pinv (p_unique s) None [] s; lz_t : tinv (p_unique s) s; 
  lz_ports : forall m, m ∈ nodesOf "port" s -> exists p x', portAt s p x' m /\ x' ∈ elementsOf x /\ p ∈ x_kids x' }.
Lemma component0 x c e s : live0 x s ->
  pw (resolveComponent c e) (fun o s' => s' = s /\ exists i, attr e (if String.eqb (el_tag e) "bindRule" then "constituent" else "component") = Some i /\ componentOf (p_graph s) c i o) s.
Proof.
  intros L. unfold resolveComponent. p1. apply pw_attr. intros i Hi. p1. apply pw_gobj. intros sb Hs. p1.
  - p1. split; [done|]. exists i. split; [done|]. exists sb, sb. split; [done|]. split; [done|]. split; [|by left]. apply orb_true_iff in H as [H|H]; [left; apply String.eqb_eq in H; done|right; by apply alias_spec].
  - p1. apply pw_lift. unfold getChildByIdOrAlias. w1. apply wp_gobj. intros cb Hcb. assert (cb = sb) as -> by congruence. w1. replace (p_set_graph (p_graph s) s) with s by (by destruct s).
    destruct (List.find (idIs (p_graph s) i) (ob_children sb)) as [o|] eqn:E1; [|destruct (List.find (aliasIn (p_graph s) i) (ob_children sb)) as [o|] eqn:E2].
    + p1. apply find_some in E1 as [E1 E3]. split; [done|]. exists i. split; [done|]. unfold idIs in E3. destruct (g_obj (p_graph s) !! o) as [ob|] eqn:Ho; [|done]. apply String.eqb_eq in E3. exists sb, ob. split; [done|]. split; [done|]. split; [by left|]. right. left. by apply elem_of_list_In.
    + p1. apply find_some in E2 as [E2 E3]. split; [done|]. exists i. split; [done|]. unfold aliasIn in E3. destruct (g_obj (p_graph s) !! o) as [ob|] eqn:Ho; [|done]. exists sb, ob. split; [done|]. split; [done|]. split; [right; by apply alias_spec|]. right. left. by apply elem_of_list_In.
    + p1. p1. p1. match goal with Hz : sget i (p_refer s) = Some ?m |- _ => destruct (ti_refer _ _ (lz_t _ _ L) _ _ Hz) as (ob & Hob & Hm & Hg & _); split; [done|]; exists i; split; [done|]; exists sb, ob end. split; [done|]. split; [done|]. split; [done|]. by right; right.
Qed.
(** A component written in a switch is found there. *)
Lemma component_own x c cb y e s : live0 x s -> g_obj (p_graph s) !! c = Some cb -> ob_kind cb = KSwitch -> (forall z, z ∈ x_kids y -> inPlace (p_graph s) c z) ->
  pw (resolveComponent c e) (fun o s' => forall i, attr e (if String.eqb (el_tag e) "bindRule" then "constituent" else "component") = Some i -> ownTarget (p_graph s) y c i o) s.
Proof.
  intros L Hcb Kcb HP. unfold resolveComponent. p1. apply pw_attr. intros i Hi. p1. apply pw_gobj. intros sb Hs. assert (sb = cb) as -> by congruence.
  pose proof (lz_i _ _ L) as I. pose proof (pi_g _ _ _ _ I) as GI.
  assert (CH : (exists z, z ∈ x_kids y /\ plainComponent z /\ aget "id" (x_attrs z) = Some i) -> exists d db, d ∈ ob_children cb /\ g_obj (p_graph s) !! d = Some db /\ ob_parent db = Some c /\ ob_id db = i).
  { intros (z & Hz & Hp & Hid). destruct (pl_component _ _ _ (HP z Hz) Hp) as (d & db & cb' & Ho & Hdb & Hpar & Hcb' & Hin). assert (cb' = cb) as -> by congruence. exists d, db. split; [done|]. split; [done|]. split; [done|].
    destruct Hp as [Hp|[Hp|(Hp & Hr & Hns)]].
    - destruct (of_context _ _ _ Ho Hp) as (ob & A & _ & B). congruence.
    - destruct (of_switch _ _ _ Ho Hp) as (ob & A & _ & B). congruence.
    - destruct (of_media _ _ _ Ho Hp Hr Hns) as (ob & A & _ & B). congruence. }
  p1.
  - p1. intros j Hj Hex. assert (j = i) as -> by congruence. destruct (CH Hex) as (d & db & Hin & Hdb & Hpar & Hid). exfalso. apply orb_true_iff in H as [H|H].
    + apply String.eqb_eq in H. destruct (oi_parent _ _ _ (gi_o _ GI _ _ Hdb) _ Hpar) as (Hd & Hc & _).
      assert (B1 : g_byid (p_graph s) !! i = Some d) by (apply (gi_byid _ GI); eauto). assert (B2 : g_byid (p_graph s) !! i = Some c) by (apply (gi_byid _ GI); eauto).
      assert (d = c) as -> by congruence. destruct (gi_time _ GI) as (time & N & _ & HT). specialize (HT _ _ _ Hdb Hpar). lia.
    + apply alias_spec in H as [p H]. destruct (pi_names _ _ _ _ I _ _ Hcb) as [_ HA]; [by rewrite Kcb|]. destruct (HA _ _ H) as [_ HK]. congruence.
  - p1. apply pw_lift. unfold getChildByIdOrAlias. w1. apply wp_gobj. intros cb' Hcb'. assert (cb' = cb) as -> by congruence. w1. replace (p_set_graph (p_graph s) s) with s by (by destruct s).
    destruct (List.find (idIs (p_graph s) i) (ob_children cb)) as [o|] eqn:E1.
    + p1. apply find_some in E1 as [E1 _]. intros j Hj _. exists cb. split; [done|]. by apply elem_of_list_In.
    + assert (NE : ~ exists z, z ∈ x_kids y /\ plainComponent z /\ aget "id" (x_attrs z) = Some i).
      { intros Hex. destruct (CH Hex) as (d & db & Hin & Hdb & _ & Hid). apply elem_of_list_In in Hin. pose proof (find_none _ _ E1 _ Hin) as Hn. unfold idIs in Hn. rewrite Hdb in Hn. apply String.eqb_neq in Hn. done. }
      assert (W : forall o j, attr e (if String.eqb (el_tag e) "bindRule" then "constituent" else "component") = Some j -> ownTarget (p_graph s) y c j o) by (intros o j Hj Hex; exfalso; apply NE; by assert (j = i) as <- by congruence).
      destruct (List.find (aliasIn (p_graph s) i) (ob_children cb)) as [o|]; [p1; apply W|]. p1. p1. p1. first [exact (W _)|intros; eapply W; eassumption].
Qed.
(** Two objects that are no media never have the same id. *)
Lemma context_id0 x s o c ob cb : live0 x s -> g_obj (p_graph s) !! o = Some ob -> g_obj (p_graph s) !! c = Some cb -> ob_kind ob = KContext -> ob_kind cb = KContext -> ob_id cb = ob_id ob -> c = o.
Proof.
  intros L Ho Hc Ko Kc E. assert (P : forall o ob, g_obj (p_graph s) !! o = Some ob -> ob_kind ob = KContext -> o ∈ g_objs (p_graph s)).
  { intros o' ob' Ho' Ko'. destruct (pi_orphan _ _ _ _ (lz_i _ _ L) _ _ Ho') as [Hin|[Hin|(Hk & _)]]; [done|by apply elem_of_nil in Hin|congruence]. }
  pose proof (pi_g _ _ _ _ (lz_i _ _ L)) as GI. assert (H1 : g_byid (p_graph s) !! ob_id ob = Some o) by (apply (gi_byid _ GI); split; [by eapply P|eauto]).
  assert (H2 : g_byid (p_graph s) !! ob_id ob = Some c) by (apply (gi_byid _ GI); split; [by eapply P|eauto]). congruence.
Qed.
Lemma event_obj0 x s o ob e ev : live0 x s -> g_obj (p_graph s) !! o = Some ob -> e ∈ ob_events ob -> g_evt (p_graph s) !! e = Some ev -> ev_obj ev = o.
Proof. intros L Ho He Hev. destruct (oi_events _ _ _ (gi_o _ (pi_g _ _ _ _ (lz_i _ _ L)) _ _ Ho) _ He) as (ev' & Hev' & Hx). congruence. Qed.
Lemma interface0 x k : forall c e b s, live0 x s -> el_tag e <> "bindRule" -> (forall n, attr e n = aget n (x_attrs b)) ->
  pw (resolveInterface k c e) (fun r s' => s' = s /\ leadsTo (p_graph s) x c b r) s.
Proof.
  induction k as [|k IH]; intros c e b s L Ht Ha; cbn [resolveInterface]; [done|].
  p1. eapply pw_mono; [by apply (component0 x)|]. intros o s' [-> (i & Hi & Hco)]. destruct (String.eqb_spec (el_tag e) "bindRule") as [|_]; [done|]. rewrite Ha in Hi. cbv beta. p1. apply pw_gobj. intros ob Ho. rewrite (Ha "interface").
  destruct (aget "interface" (x_attrs b)) as [n|] eqn:En; [|p1; split; [done|by eapply Lt_whole]].
  assert (GE : forall t pos, (forall e' ev, e' ∈ ob_events ob -> g_evt (p_graph s) !! e' = Some ev -> ev_type ev = t -> ev_id ev = n -> interfaceType (ob_kind ob) (ev_type ev)) ->
     pw (let* r := lift (getEvent o t n) in pofe r pos) (fun r s' => s' = s /\ leadsTo (p_graph s) x c b r) s).
  { intros t pos HI. p1. apply pw_getEvent. intros r ob' Ho' Hr. assert (ob' = ob) as -> by congruence. p1. subst r. destruct Hr as (Hin & ev & Hev & H1 & H2). split; [done|].
    eapply (Lt_interface _ _ _ _ _ _ _ _ _ _ Hi Hco Ho En Hin Hev); [by eapply event_obj0|done|by eapply HI]. }
  assert (MS : aMedia (ob_kind ob) -> pw (let* r := lift (getEvent o PRESENTATION n) in match r with Some x0 => pret x0 | None => let* r0 := lift (getEvent o ATTRIBUTION n) in pofe r0 EBadAttribute end) (fun r s' => s' = s /\ leadsTo (p_graph s) x c b r) s).
  { intros Hm. p1. apply pw_getEvent. intros r ob' Ho' Hr. assert (ob' = ob) as -> by congruence. destruct r as [r|].
    - p1. destruct Hr as (Hin & ev & Hev & H1 & H2). split; [done|]. eapply (Lt_interface _ _ _ _ _ _ _ _ _ _ Hi Hco Ho En Hin Hev); [by eapply event_obj0|done|]. rewrite H1. unfold interfaceType. destruct Hm as [ -> | -> ]; by left.
    - apply GE. intros e' ev Hin Hev H1 H2. rewrite H1. unfold interfaceType. assert (HN : forall e'' ev'', g_evt (p_graph s) !! e'' = Some ev'' -> ev_obj ev'' = o -> ev_type ev'' = PRESENTATION -> ev_id ev'' <> n).
      { intros e'' ev'' He'' Hob'' Hty''. destruct (gi_e _ (pi_g _ _ _ _ (lz_i _ _ L)) _ _ He'') as (ob2 & Hob2 & Hin2). rewrite Hob'' in Hob2. assert (ob2 = ob) as -> by congruence. by eapply Hr. }
      destruct Hm as [ -> | -> ]; by right. }
  destruct (ob_kind ob) eqn:Ek.
  - destruct (bool_decide (o = c)) eqn:Ed; [apply GE; intros; done|]. apply bool_decide_eq_false in Ed. unfold cacheById. p1. p1.
    destruct (List.find (hasId n) (List.concat (map (tagged s) ["port"]))) as [pe|] eqn:Ef; [|apply GE; intros; done].
    apply find_some in Ef as [Ef Eid]. cbn in Ef. rewrite app_nil_r in Ef. apply elem_of_list_In, tagged_in in Ef as (m & Hm & Hpe & Htp). unfold hasId in Eid. destruct (attr pe "id") as [j|] eqn:Ej; [|done]. apply String.eqb_eq in Eid as ->.
    assert (Hmn : m ∈ nodesOf "port" s) by (unfold nodesOf; apply elem_of_list_In, filter_In; split; [by apply elem_of_list_In|unfold isTag; rewrite Hpe; by apply String.eqb_eq]).
    destruct (lz_ports _ _ L m Hmn) as (p & x' & (pe' & u & ue & Hpe' & Htpe & Hpa & Hpu & Hue & Hut & Hua & Hxt & Hpt) & Hx' & Hp). assert (pe' = pe) as -> by congruence. clear Hpe'.
    p1. apply pw_parent. intros u' ue' Hu' Hue'. assert (u' = u) as -> by congruence. assert (ue' = ue) as -> by congruence.
    p1. eapply (pw_mono _ (fun c' s' => s' = s /\ objectOf (p_graph s) x' c' /\ exists cb, g_obj (p_graph s) !! c' = Some cb /\ ob_kind cb = KContext)).
    { rewrite Hut. destruct (String.eqb_spec (x_tag x') "body") as [Hb|Hb].
      - p1. p1. p1. split; [done|]. match goal with Hz : g_root (p_graph s) = Some ?r |- _ => rename Hz into Hr; rename r into cr end. split.
        + split; try (rewrite Hb; intros; discriminate); [done| |]; [intros [Hz _]|intros r [Hz _]]; rewrite Hb in Hz; discriminate Hz.
        + destruct (pi_root _ _ _ _ (lz_i _ _ L)) as (r' & rb & H1 & _ & H2 & _ & H3). assert (r' = cr) as -> by congruence. eauto.
      - destruct Hxt as [Hxt|Hxt]; [done|]. p1. apply pw_attr. intros j Hj. p1. apply pw_lift. unfold glookupId. w1. replace (p_set_graph (p_graph s) s) with s by (by destruct s). p1. p1. p1. apply pw_gobj. intros cb Hcb. p1. p1. p1. split; [done|].
        match goal with Hz : bool_decide (ob_kind cb = KContext) = true |- _ => apply bool_decide_eq_true in Hz; rename Hz into Hk end. match goal with Hz : g_byid (p_graph s) !! j = Some ?r |- _ => apply (gi_byid _ (pi_g _ _ _ _ (lz_i _ _ L))) in Hz as (_ & cb' & Hcb' & Hid) end.
        assert (cb' = cb) as -> by congruence. split; [|eauto]. split; try (rewrite Hxt; intros; discriminate).
        + rewrite Hxt. intros [Hz|Hz]; discriminate Hz.
        + intros _. exists cb. split; [done|]. split; [done|]. by rewrite <- Hua, Hj, Hid.
        + intros [Hz _]. rewrite Hxt in Hz. discriminate Hz.
        + intros r [Hz _]. rewrite Hxt in Hz. discriminate Hz. }
    intros c' s' [-> (Hoc & cb & Hcb & Hkb)]. cbv beta. p1. apply pw_gobj. intros cb' Hcb'. assert (cb' = cb) as -> by congruence. p1. p1.
    match goal with Hz : String.eqb (ob_id cb) (ob_id ob) = true |- _ => apply String.eqb_eq in Hz; rename Hz into Hid end. assert (c' = o) as -> by (by eapply context_id0).
    eapply pw_mono; [apply (IH o pe p s L); [by rewrite Htp|done]|]. intros r s' [-> Hd]. split; [done|]. eapply Lt_port; try done. by rewrite <- Hpa.
  - apply GE. intros; done.
  - apply MS. by left.
  - apply MS. by right.
Qed.

(** ** It stays so while the document grows. *)
Lemma componentOf_tm g g' c i o : tm g g' -> componentOf g c i o -> componentOf g' c i o.
Proof.
  intros T (cb & ob & Hc & Ho & Hg & H). destruct (tm_obj _ _ _ _ T Hc) as (cb' & Hc' & _ & _ & _ & Hch & _). destruct (tm_obj _ _ _ _ T Ho) as (ob' & Ho' & Hk & Hi & _ & _ & _ & Ha).
  exists cb', ob'. split; [done|]. split; [done|]. split; [by eapply goesBy_tm|]. destruct H as [H|[H|H]]; [by left|right; left; by apply Hch|right; right; by rewrite Hk].
Qed.
Lemma leadsTo_tm g g' x c b e : tm g g' -> leadsTo g x c b e -> leadsTo g' x c b e.
Proof.
  intros G D. induction D as [c b i o ob Hi Hc Ho Hn|c b i o ob n e ev Hi Hc Ho Hn Hin Hev Hob Hid HI|c b i o ob n x' p e Hi Hc Ho Hk Hne Hn Hx Hox Hp Hpt Hpi D IH].
  - destruct (gx_obj _ _ (tm_ext _ _ G) _ _ Ho) as (ob' & Ho' & _ & _ & El & _). rewrite <- El. eapply Lt_whole; try done. by eapply componentOf_tm.
  - destruct (tm_obj _ _ _ _ G Ho) as (ob' & Ho' & Hk & _ & He & _). eapply (Lt_interface _ _ _ _ _ _ ob'); try done; [by eapply componentOf_tm|by apply He|by apply (gx_evt _ _ (tm_ext _ _ G))|]. by rewrite Hk.
  - destruct (tm_obj _ _ _ _ G Ho) as (ob' & Ho' & Hk' & _). eapply (Lt_port _ _ _ _ _ _ ob'); try done; [by eapply componentOf_tm|congruence|]. by eapply objectOf_tm.
Qed.

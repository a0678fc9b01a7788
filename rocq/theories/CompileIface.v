(** CompileIface.v -- C42: what the interface of a bind or a port is resolved to. *)
From Verif Require Import BuildInv BuildOps BuildSpec BuildFacts Frame ParserFrame ParserEnd.
From Verif Require Export CompileRoot.
Open Scope string_scope.
Open Scope list_scope.

(** What holds while links are made, apart from the links. *)
Record live (x : xml) (s : pst) : Prop := mkLv {
  lv_c : cinv s; lv_i : pinv (p_unique s) None [] s; lv_t : tinv (p_unique s) s; lv_uq : uq s; lv_ord : ordOk s;
  lv_ports : forall m, m ∈ nodesOf "port" s -> exists p x', portAt s p x' m /\ x' ∈ elementsOf x /\ p ∈ x_kids x';
  lv_conns : forall cx, cx ∈ elementsOf x -> x_tag cx = "causalConnector" -> exists m, connAt s cx m /\ connG 1 s cx m }.
Lemma alias_spec ob i : ghasAlias ob i = true -> exists p, (i, p) ∈ ob_aliases ob.
Proof. intros H. unfold ghasAlias in H. apply existsb_exists in H as ([a p] & Hi & He). cbn in He. apply String.eqb_eq in He as ->. exists p. by apply elem_of_list_In. Qed.
Lemma component_ok x c e s : live x s -> el_tag e <> "bindRule" ->
  pw (resolveComponent c e) (fun o s' => s' = s /\ exists i, attr e "component" = Some i /\ componentOf (p_graph s) c i o) s.
Proof.
  intros L Ht. unfold resolveComponent. destruct (String.eqb_spec (el_tag e) "bindRule") as [|_]; [done|]. p1. apply pw_attr. intros i Hi. p1. apply pw_gobj. intros sb Hs. p1.
  - p1. split; [done|]. exists i. split; [done|]. exists sb, sb. split; [done|]. split; [done|]. split; [|by left]. apply orb_true_iff in H as [H|H]; [left; apply String.eqb_eq in H; done|right; by apply alias_spec].
  - p1. apply pw_lift. unfold getChildByIdOrAlias. w1. apply wp_gobj. intros cb Hcb. assert (cb = sb) as -> by congruence. w1. replace (p_set_graph (p_graph s) s) with s by (by destruct s).
    destruct (List.find (idIs (p_graph s) i) (ob_children sb)) as [o|] eqn:E1; [|destruct (List.find (aliasIn (p_graph s) i) (ob_children sb)) as [o|] eqn:E2].
    + p1. apply find_some in E1 as [E1 E3]. split; [done|]. exists i. split; [done|]. unfold idIs in E3. destruct (g_obj (p_graph s) !! o) as [ob|] eqn:Ho; [|done]. apply String.eqb_eq in E3. exists sb, ob. split; [done|]. split; [done|]. split; [by left|]. right. left. by apply elem_of_list_In.
    + p1. apply find_some in E2 as [E2 E3]. split; [done|]. exists i. split; [done|]. unfold aliasIn in E3. destruct (g_obj (p_graph s) !! o) as [ob|] eqn:Ho; [|done]. exists sb, ob. split; [done|]. split; [done|]. split; [right; by apply alias_spec|]. right. left. by apply elem_of_list_In.
    + p1. p1. p1. match goal with Hz : sget i (p_refer s) = Some ?m |- _ => destruct (ti_refer _ _ (lv_t _ _ L) _ _ Hz) as (ob & Hob & Hm & Hg & _); split; [done|]; exists i; split; [done|]; exists sb, ob end. split; [done|]. split; [done|]. split; [done|]. by right; right.
Qed.
(** Two objects that are no media never have the same id. *)
Lemma context_id x s o c ob cb : live x s -> g_obj (p_graph s) !! o = Some ob -> g_obj (p_graph s) !! c = Some cb -> ob_kind ob = KContext -> ob_kind cb = KContext -> ob_id cb = ob_id ob -> c = o.
Proof.
  intros L Ho Hc Ko Kc E. assert (P : forall o ob, g_obj (p_graph s) !! o = Some ob -> ob_kind ob = KContext -> o ∈ g_objs (p_graph s)).
  { intros o' ob' Ho' Ko'. destruct (pi_orphan _ _ _ _ (lv_i _ _ L) _ _ Ho') as [Hin|[Hin|(Hk & _)]]; [done|by apply elem_of_nil in Hin|congruence]. }
  pose proof (pi_g _ _ _ _ (lv_i _ _ L)) as GI. assert (H1 : g_byid (p_graph s) !! ob_id ob = Some o) by (apply (gi_byid _ GI); split; [by eapply P|eauto]).
  assert (H2 : g_byid (p_graph s) !! ob_id ob = Some c) by (apply (gi_byid _ GI); split; [by eapply P|eauto]). congruence.
Qed.
Lemma event_obj x s o ob e ev : live x s -> g_obj (p_graph s) !! o = Some ob -> e ∈ ob_events ob -> g_evt (p_graph s) !! e = Some ev -> ev_obj ev = o.
Proof. intros L Ho He Hev. destruct (oi_events _ _ _ (gi_o _ (pi_g _ _ _ _ (lv_i _ _ L)) _ _ Ho) _ He) as (ev' & Hev' & Hx). congruence. Qed.
Lemma interface_ok x k : forall c e b s, live x s -> el_tag e <> "bindRule" -> (forall n, attr e n = aget n (x_attrs b)) ->
  pw (resolveInterface k c e) (fun r s' => s' = s /\ designates (p_graph s) x c b r) s.
Proof.
  induction k as [|k IH]; intros c e b s L Ht Ha; cbn [resolveInterface]; [done|].
  p1. eapply pw_mono; [by apply (component_ok x)|]. intros o s' [-> (i & Hi & Hco)]. rewrite Ha in Hi. cbv beta. p1. apply pw_gobj. intros ob Ho. rewrite (Ha "interface").
  destruct (aget "interface" (x_attrs b)) as [n|] eqn:En; [|p1; split; [done|by eapply Ds_whole]].
  assert (GE : forall t pos, (forall e' ev, e' ∈ ob_events ob -> g_evt (p_graph s) !! e' = Some ev -> ev_type ev = t -> ev_id ev = n -> isInterface (p_graph s) (ob_kind ob) o n ev) ->
     pw (let* r := lift (getEvent o t n) in pofe r pos) (fun r s' => s' = s /\ designates (p_graph s) x c b r) s).
  { intros t pos HI. p1. apply pw_getEvent. intros r ob' Ho' Hr. assert (ob' = ob) as -> by congruence. p1. subst r. destruct Hr as (Hin & ev & Hev & H1 & H2). split; [done|].
    eapply (Ds_interface _ _ _ _ _ _ _ _ _ _ Hi Hco Ho En Hin Hev); [by eapply event_obj|done|by eapply HI]. }
  assert (MS : aMedia (ob_kind ob) -> pw (let* r := lift (getEvent o PRESENTATION n) in match r with Some x0 => pret x0 | None => let* r0 := lift (getEvent o ATTRIBUTION n) in pofe r0 EBadAttribute end) (fun r s' => s' = s /\ designates (p_graph s) x c b r) s).
  { intros Hm. p1. apply pw_getEvent. intros r ob' Ho' Hr. assert (ob' = ob) as -> by congruence. destruct r as [r|].
    - p1. destruct Hr as (Hin & ev & Hev & H1 & H2). split; [done|]. eapply (Ds_interface _ _ _ _ _ _ _ _ _ _ Hi Hco Ho En Hin Hev); [by eapply event_obj|done|]. unfold isInterface. destruct Hm as [ -> | -> ]; by left.
    - apply GE. intros e' ev Hin Hev H1 H2. unfold isInterface. assert (HN : forall e'' ev'', g_evt (p_graph s) !! e'' = Some ev'' -> ev_obj ev'' = o -> ev_type ev'' = PRESENTATION -> ev_id ev'' <> n).
      { intros e'' ev'' He'' Hob'' Hty''. destruct (gi_e _ (pi_g _ _ _ _ (lv_i _ _ L)) _ _ He'') as (ob2 & Hob2 & Hin2). rewrite Hob'' in Hob2. assert (ob2 = ob) as -> by congruence. by eapply Hr. }
      destruct Hm as [ -> | -> ]; by right. }
  destruct (ob_kind ob) eqn:Ek.
  - destruct (bool_decide (o = c)) eqn:Ed; [apply GE; intros; done|]. apply bool_decide_eq_false in Ed. unfold cacheById. p1. p1.
    destruct (List.find (hasId n) (List.concat (map (tagged s) ["port"]))) as [pe|] eqn:Ef; [|apply GE; intros; done].
    apply find_some in Ef as [Ef Eid]. cbn in Ef. rewrite app_nil_r in Ef. apply elem_of_list_In, tagged_in in Ef as (m & Hm & Hpe & Htp). unfold hasId in Eid. destruct (attr pe "id") as [j|] eqn:Ej; [|done]. apply String.eqb_eq in Eid as ->.
    assert (Hmn : m ∈ nodesOf "port" s) by (unfold nodesOf; apply elem_of_list_In, filter_In; split; [by apply elem_of_list_In|unfold isTag; rewrite Hpe; by apply String.eqb_eq]).
    destruct (lv_ports _ _ L m Hmn) as (p & x' & (pe' & u & ue & Hpe' & Htpe & Hpa & Hpu & Hue & Hut & Hua & Hxt & Hpt) & Hx' & Hp). assert (pe' = pe) as -> by congruence. clear Hpe'.
    p1. apply pw_parent. intros u' ue' Hu' Hue'. assert (u' = u) as -> by congruence. assert (ue' = ue) as -> by congruence.
    p1. eapply (pw_mono _ (fun c' s' => s' = s /\ objectOf (p_graph s) x' c' /\ exists cb, g_obj (p_graph s) !! c' = Some cb /\ ob_kind cb = KContext)).
    { rewrite Hut. destruct (String.eqb_spec (x_tag x') "body") as [Hb|Hb].
      - p1. p1. p1. split; [done|]. match goal with Hz : g_root (p_graph s) = Some ?r |- _ => rename Hz into Hr; rename r into cr end. split.
        + split; try (rewrite Hb; intros; discriminate); [done| |]; [intros [Hz _]|intros r [Hz _]]; rewrite Hb in Hz; discriminate Hz.
        + destruct (pi_root _ _ _ _ (lv_i _ _ L)) as (r' & rb & H1 & _ & H2 & _ & H3). assert (r' = cr) as -> by congruence. eauto.
      - destruct Hxt as [Hxt|Hxt]; [done|]. p1. apply pw_attr. intros j Hj. p1. apply pw_lift. unfold glookupId. w1. replace (p_set_graph (p_graph s) s) with s by (by destruct s). p1. p1. p1. apply pw_gobj. intros cb Hcb. p1. p1. p1. split; [done|].
        match goal with Hz : bool_decide (ob_kind cb = KContext) = true |- _ => apply bool_decide_eq_true in Hz; rename Hz into Hk end. match goal with Hz : g_byid (p_graph s) !! j = Some ?r |- _ => apply (gi_byid _ (pi_g _ _ _ _ (lv_i _ _ L))) in Hz as (_ & cb' & Hcb' & Hid) end.
        assert (cb' = cb) as -> by congruence. split; [|eauto]. split; try (rewrite Hxt; intros; discriminate).
        + rewrite Hxt. intros [Hz|Hz]; discriminate Hz.
        + intros _. exists cb. split; [done|]. split; [done|]. by rewrite <- Hua, Hj, Hid.
        + intros [Hz _]. rewrite Hxt in Hz. discriminate Hz.
        + intros r [Hz _]. rewrite Hxt in Hz. discriminate Hz. }
    intros c' s' [-> (Hoc & cb & Hcb & Hkb)]. cbv beta. p1. apply pw_gobj. intros cb' Hcb'. assert (cb' = cb) as -> by congruence. p1. p1.
    match goal with Hz : String.eqb (ob_id cb) (ob_id ob) = true |- _ => apply String.eqb_eq in Hz; rename Hz into Hid end. assert (c' = o) as -> by (by eapply context_id).
    eapply pw_mono; [apply (IH o pe p s L); [by rewrite Htp|done]|]. intros r s' [-> Hd]. split; [done|]. eapply Ds_port; try done. by rewrite <- Hpa.
  - apply GE. intros; done.
  - apply MS. by left.
  - apply MS. by right.
Qed.
Lemma designates_type g x c b r : GInv g -> designates g x c b r -> exists ev, g_evt g !! r = Some ev /\ (ev_type ev = PRESENTATION \/ ev_type ev = ATTRIBUTION).
Proof.
  intros I D. induction D as [c b i o ob Hi Hc Ho Hn|c b i o ob n e ev Hi Hc Ho Hn Hin Hev Hob Hid HI|c b i o ob n x' p e Hi Hc Ho Hk Hne Hn Hx Hox Hp Hpt Hpi D IH].
  - destruct (oi_lambda _ _ _ (gi_o _ I _ _ Ho)) as (ev & Hev & Hl & _). exists ev. split; [done|]. left. unfold isLambda in Hl. apply andb_true_iff in Hl as [Hl _]. by apply bool_decide_eq_true in Hl.
  - exists ev. split; [done|]. unfold isInterface in HI. destruct (ob_kind ob); tauto.
  - exact IH.
Qed.

(** PortPop.v -- C49: what closing a composition adds to its object. *)
From Verif Require Import BuildInv BuildOps BuildSpec BuildFacts Frame ParserFrame ParserEnd LtabBody.
From Verif Require Export PortIface PortElts.
Open Scope string_scope.
Open Scope list_scope.

Definition assigns {A} (l : list (string * A)) : list (string * A) := foldl (fun acc q => passign (fst q) (snd q) acc) [] l.
Lemma assigns_snoc {A} (l : list (string * A)) q : assigns (l ++ [q]) = passign (fst q) (snd q) (assigns l).
Proof. unfold assigns. by rewrite foldl_app. Qed.
(** Object [c] gets the ports [es] and the switchPorts [sw]. *)
Definition onC {A} (o c : oid) (l : list A) : list A := if decide (o = c) then l else [].
Definition gh (c : oid) (es : list eid) (sw : list (string * list eid)) (g g' : graph) : Prop := (g_next g <= g_next g')%positive /\
  forall o ob', g_obj g' !! o = Some ob' -> exists ob, g_obj g !! o = Some ob /\ ob_rules ob' = ob_rules ob /\
    (forall A, ob_ports ob = noRepeat [] A -> ob_ports ob' = noRepeat [] (A ++ onC o c es)) /\ (forall A, ob_swports ob = assigns A -> ob_swports ob' = assigns (A ++ onC o c sw)).
Lemma onC_nil {A} o c : onC o c ([] : list A) = []. Proof. unfold onC. by destruct (decide _). Qed.
Lemma onC_app {A} o c (l l' : list A) : onC o c (l ++ l') = onC o c l ++ onC o c l'. Proof. unfold onC. by destruct (decide _). Qed.
Lemma gh_nh c g g' : nh g g' -> gh c [] [] g g'.
Proof. intros [H0 H]. split; [done|]. intros o ob' Ho. destruct (H _ _ Ho) as (ob & H1 & E). unfold hang in E. injection E as E1 E2 E3. exists ob. split; [done|]. split; [done|]. rewrite !onC_nil. split; intros A; rewrite app_nil_r; congruence. Qed.
Lemma gh_trans c es sw es' sw' a b d : gh c es sw a b -> gh c es' sw' b d -> gh c (es ++ es') (sw ++ sw') a d.
Proof.
  intros [A0 A] [B0 B]. split; [lia|]. intros o ob' Ho. destruct (B _ _ Ho) as (ob1 & H1 & R1 & P1 & S1). destruct (A _ _ H1) as (ob2 & H2 & R2 & P2 & S2). exists ob2. split; [done|]. split; [congruence|]. rewrite !onC_app.
  split; intros L HL; rewrite app_assoc; [apply P1, P2, HL|apply S1, S2, HL].
Qed.
Lemma gh_addPort g c e : pwp (addPort c e) (fun _ g' => gh c [e] [] g g') g.
Proof.
  unfold addPort. apply wp_oupd. intros ob Ho. split; [cbn; lia|]. intros o ob'. cbn. destruct (decide (c = o)) as [<-|Hn].
  - rewrite lookup_insert. intros [= <-]. exists ob. split; [done|]. split; [by destruct (bool_decide _)|]. unfold onC. destruct (decide (c = c)) as [_|]; [|done]. split.
    + intros A HA. pose proof (noRepeat_in A [] e) as N. rewrite <- HA in N. rewrite noRepeat_snoc, <- HA. case_bool_decide as D; destruct (decide _) as [D'|D']; [done| | |done].
      * exfalso. apply D'. apply N. by right.
      * exfalso. apply D. apply N in D' as [D'|D']; [by apply elem_of_nil in D'|done].
    + intros A HA. rewrite app_nil_r. by destruct (bool_decide _).
  - rewrite lookup_insert_ne by done. intros H. exists ob'. unfold onC. destruct (decide (o = c)) as [->|_]; [done|]. split; [done|]. split; [done|]. split; intros A; by rewrite app_nil_r.
Qed.
Lemma gh_addSwitchPort g c i l : pwp (addSwitchPort c i l) (fun _ g' => gh c [] [(i, l)] g g') g.
Proof.
  unfold addSwitchPort. w1. unfold addPresentationLabel. eapply wp_mono; [apply nh_addEvent|]. intros [] g1 N1. cbv beta. apply wp_oupd. intros ob Ho.
  apply (gh_trans c [] [] [] [(i, l)] g g1); [by apply gh_nh|]. split; [cbn; lia|]. intros o ob'. cbn. destruct (decide (c = o)) as [<-|Hn].
  - rewrite lookup_insert. intros [= <-]. exists ob. split; [done|]. split; [done|]. unfold onC. destruct (decide (c = c)) as [_|]; [|done]. split; intros A HA; [rewrite app_nil_r; exact HA|]. rewrite assigns_snoc. cbn. by rewrite HA.
  - rewrite lookup_insert_ne by done. intros H. exists ob'. unfold onC. destruct (decide (o = c)) as [->|_]; [done|]. split; [done|]. split; [done|]. split; intros A; by rewrite app_nil_r.
Qed.

(** ** Steps while a composition is closed. *)
Record mv0 (s s' : pst) : Prop := mkM0 { m0_l : lq s s'; m0_o : p_order s' = p_order s; m0_g : gg s s'; m0_n : ns s s'; m0_f : fr s s'; m0_c : cfr s s' }.
Record lively (x : xml) (s : pst) : Prop := mkLy { ly_z : live0 x s; ly_o : ordOk s; ly_u : uqi s }.
Lemma mv0_trans a b c : mv0 a b -> mv0 b c -> mv0 a c.
Proof.
  intros [A1 A2 A3 A4 A5 A6] [B1 B2 B3 B4 B5 B6]. split; [exact (pr_trans _ _ _ A1 B1)|congruence|by eapply gg_trans|exact (pr_trans _ _ _ A4 B4)|by eapply fr_trans|by eapply cfr_trans].
Qed.
Lemma mv0_refl s : GInv (p_graph s) -> mv0 s s.
Proof. intros I. split; [apply pr_refl|done|by apply gg_refl|apply pr_refl|apply fr_refl|apply cfr_refl]. Qed.
Lemma mv0_lively x s s' : lively x s -> mv0 s s' -> lively x s'.
Proof.
  intros [L O U] M. pose proof (pi_g _ _ _ _ (lz_i _ _ L)) as I. assert (C' : cinv s') by (eapply cfr_cinv; [apply M|apply L]). destruct (m0_l _ _ M) as [LF _].
  pose proof (fr_unique _ _ (m0_f _ _ M)) as EU. split; [split; [done| | |]| |].
  - rewrite EU. eapply gq_pinv; [apply L|apply M|apply M].
  - rewrite EU. eapply tinv_tr; [exact I|apply L|done|eapply gsm_tm; apply (m0_g _ _ M)|apply M|apply (m0_g _ _ M)].
  - intros m Hm. assert (EN : nodesOf "port" s' = nodesOf "port" s) by (rewrite (nodes_new none "port" s s' []); [by rewrite app_nil_r|exact LF|done|rewrite app_nil_r; apply M]). rewrite EN in Hm. destruct (lz_ports _ _ L m Hm) as (p & x' & Hp & H). exists p, x'. split; [|done]. eapply portAt_lf; [apply L|exact LF|done].
  - eapply ordOk_lf; [exact LF|exact O].
  - eapply uqi_step; [exact LF|done|apply M|exact O|by rewrite EU|exact U].
Qed.
Lemma mv0_tm s s' : mv0 s s' -> tm (p_graph s) (p_graph s'). Proof. intros M. eapply gsm_tm. apply (m0_g _ _ M). Qed.
Lemma mv0_graph s g' : gsm [] (p_graph s) g' -> nk (p_graph s) g' -> mv0 s (p_set_graph g' s).
Proof. intros G N. split; [split; [by apply lf_same|done]|done|by split|exact N|by split|apply cfr_graph]. Qed.
(** ** The element found by its id is that of the document. *)
Lemma found t i y m s : uqi s -> idTag t = true -> x_tag y = t -> aget "id" (x_attrs y) = Some i -> nodeAs s y m -> forall pe, List.find (hasId i) (List.concat (map (tagged s) [t])) = Some pe -> p_cache s !! m = Some pe /\ el_tag pe = t /\ forall k, attr pe k = aget k (x_attrs y).
Proof.
  intros [_ U] Ht Hy Hi (e & He & Het & _ & Ha) pe Ef. apply find_some in Ef as [Ef Eid]. cbn in Ef. rewrite app_nil_r in Ef. apply elem_of_list_In, tagged_in in Ef as (m' & Hm & Hpe & Htp). unfold hasId in Eid. destruct (attr pe "id") as [j|] eqn:Ej; [|done]. apply String.eqb_eq in Eid as ->.
  assert (m = m') as <-. { apply (U m m' e pe i); try done; [by rewrite Het, Hy|by rewrite Htp|by rewrite Ha]. } assert (pe = e) as -> by congruence. done.
Qed.
Definition listed (s : pst) (y : xml) (i : string) : Prop := aget "id" (x_attrs y) = Some i /\ exists m, nodeAs s y m.
Lemma interface_evt0 x k c e b s : lively x s -> el_tag e <> "bindRule" -> (forall n, attr e n = aget n (x_attrs b)) ->
  pw (resolveInterface k c e) (fun r s' => s' = s /\ leadsTo (p_graph s) x c b r /\ is_Some (g_evt (p_graph s) !! r)) s.
Proof.
  intros L Ht Ha. eapply pw_mono; [apply pw_conj; [apply (interface0 x k c e b); [apply L|done|done]|apply interface_evt; apply (lz_i _ _ (ly_z _ _ L))]|]. intros r s' [[-> H] [_ He]]. done.
Qed.
Lemma ports_loop x k c : forall Y l s, lively x s -> Forall2 (listed s) Y l -> (forall y, y ∈ Y -> x_tag y = "port") ->
  pw (peach (fun i => let* pe := cacheById ["port"] i in let* pe := pof pe "Parser.cpp:3616" in let* r := resolveInterface k c pe in lift (addPort c r)) l)
    (fun _ s' => mv0 s s' /\ exists es, Forall2 (leadsTo (p_graph s') x c) Y es /\ gh c es [] (p_graph s) (p_graph s')) s.
Proof.
  induction Y as [|y Y IH]; intros l s L F HY; inversion F as [|? i ? l' Hy F']; subst; cbn [peach].
  { p1. split; [apply mv0_refl; apply (lz_i _ _ (ly_z _ _ L))|]. exists []. split; [constructor|]. apply gh_nh, nh_refl. }
  pose proof (pi_g _ _ _ _ (lz_i _ _ (ly_z _ _ L))) as I. destruct Hy as [Hi (m & Hm)].
  p1. eapply (pw_mono _ (fun _ s' => mv0 s s' /\ exists e, leadsTo (p_graph s') x c y e /\ gh c [e] [] (p_graph s) (p_graph s'))).
  { unfold cacheById. p1. p1. p1. p1. match goal with Hz : List.find _ _ = Some ?pe |- _ => destruct (found "port" i y m s (ly_u _ _ L) eq_refl (HY y ltac:(left)) Hi Hm _ Hz) as (_ & Hpt & Hpa) end.
    p1. eapply pw_mono; [apply (interface_evt0 x k c _ y s L); [by rewrite Hpt|done]|]. intros r s' [-> [Hl He]]. cbv beta. apply pw_lift. eapply wp_mono; [apply wp_conj; [apply gsm_addPort; [done|exact He]|apply wp_conj; [apply nk_addPort|apply gh_addPort]]|].
    intros [] g' (G & N & HG). split; [by apply mv0_graph|]. exists r. split; [|done]. eapply leadsTo_tm; [eapply gsm_tm; exact G|done]. }
  intros [] s1 [M1 (e & He & G1)]. cbv beta. pose proof (mv0_lively _ _ _ L M1) as L1.
  eapply pw_mono; [apply IH; [done| |]|].
  - eapply Forall2_impl; [exact F'|]. intros z j [H1 (m' & H2)]. split; [done|]. exists m'. eapply nodeAs_lf; [apply (ly_z _ _ L)|apply (m0_l _ _ M1)|done].
  - intros z Hz. apply HY. by right.
  - intros [] s2 [M2 (es & F2 & G2)]. split; [by eapply mv0_trans|]. exists (e :: es). split; [constructor; [|done]|exact (gh_trans c [e] [] es [] _ _ _ G1 G2)]. eapply leadsTo_tm; [by apply mv0_tm|done].
Qed.
Definition listedS (s : pst) (y : xml) (i : string) : Prop := aget "id" (x_attrs y) = Some i /\ exists m, swpAt s y m.
Lemma maps_loop x k c : forall Y l s, lively x s -> Forall2 (nodeAs s) Y l -> (forall y, y ∈ Y -> x_tag y = "mapping") ->
  pw (pmap (fun m => let* me := cacheIndex m "element" in resolveInterface k c me) l) (fun es s' => s' = s /\ Forall2 (leadsTo (p_graph s) x c) Y es /\ forall e, e ∈ es -> is_Some (g_evt (p_graph s) !! e)) s.
Proof.
  induction Y as [|y Y IH]; intros l s L F HY; inversion F as [|? m ? l' Hy F']; subst; cbn [pmap].
  { p1. split; [done|]. split; [constructor|]. intros e He. by apply elem_of_nil in He. }
  destruct Hy as (e & He & Ht & _ & Ha). p1. p1. apply pw_index. intros e' He'. assert (e' = e) as -> by congruence. eapply pw_mono; [apply (interface_evt0 x k c e y s L); [rewrite Ht, (HY y ltac:(left)); done|done]|]. intros r s' [-> [Hl Hr]]. cbv beta.
  p1. eapply pw_mono; [apply IH; [done|done|]|]. { intros z Hz. apply HY. by right. } intros es s' [-> [F2 H2]]. cbv beta. p1. split; [done|]. split; [by constructor|]. intros z Hz. apply elem_of_cons in Hz as [->|Hz]; [done|by apply H2].
Qed.
Lemma switchPorts_loop x k c : forall Y l s, lively x s -> (exists ob, g_obj (p_graph s) !! c = Some ob /\ isComp (ob_kind ob) = true) -> Forall2 (listedS s) Y l -> (forall y, y ∈ Y -> x_tag y = "switchPort") ->
  pw (peach (fun i => let* pe := cacheById ["switchPort"] i in let* pe := pof pe "Parser.cpp:3807" in let* ms := udata (el_maps pe) in
    let* evts := pmap (fun m => let* me := cacheIndex m "element" in resolveInterface k c me) ms in lift (addSwitchPort c i evts)) l)
    (fun _ s' => mv0 s s' /\ p_cache s' = p_cache s /\ exists sw, Forall2 (fun y q => aget "id" (x_attrs y) = Some (fst q) /\ Forall2 (leadsTo (p_graph s') x c) (mappingsOf y) (snd q)) Y sw /\ gh c [] sw (p_graph s) (p_graph s')) s.
Proof.
  induction Y as [|y Y IH]; intros l s L Hc F HY; inversion F as [|? i ? l' Hy F']; subst; cbn [peach].
  { p1. split; [apply mv0_refl; apply (lz_i _ _ (ly_z _ _ L))|]. split; [done|]. exists []. split; [constructor|]. apply gh_nh, nh_refl. }
  pose proof (pi_g _ _ _ _ (lz_i _ _ (ly_z _ _ L))) as I. destruct Hy as [Hi (m & Hm & e & ms & He & Hms & HF)].
  p1. eapply (pw_mono _ (fun _ s' => mv0 s s' /\ p_cache s' = p_cache s /\ exists es, Forall2 (leadsTo (p_graph s') x c) (mappingsOf y) es /\ gh c [] [(i, es)] (p_graph s) (p_graph s'))).
  { unfold cacheById. p1. p1. p1. p1. match goal with Hz : List.find _ _ = Some ?pe |- _ => destruct (found "switchPort" i y m s (ly_u _ _ L) eq_refl (HY y ltac:(left)) Hi Hm _ Hz) as (Hpe & Hpt & Hpa); assert (pe = e) as -> by congruence end.
    p1. apply pw_udata. intros ms' Hms'. assert (ms' = ms) as -> by congruence. p1. eapply pw_mono; [apply (maps_loop x k c (mappingsOf y) ms s L HF)|]. { intros z Hz. unfold mappingsOf in Hz. apply elem_of_list_In, filter_In in Hz as [_ Hz]. by apply String.eqb_eq in Hz. }
    intros es s' [-> [F2 H2]]. cbv beta. apply pw_lift. eapply wp_mono; [apply wp_conj; [by apply gsm_addSwitchPort|apply wp_conj; [by apply nk_addSwitchPort|apply gh_addSwitchPort]]|].
    intros [] g' (G & N & HG). split; [by apply mv0_graph|]. split; [done|]. exists es. split; [|done]. eapply Forall2_impl; [exact F2|]. intros. eapply leadsTo_tm; [eapply gsm_tm; exact G|done]. }
  intros [] s1 [M1 (Ec & es & He1 & G1)]. cbv beta. pose proof (mv0_lively _ _ _ L M1) as L1.
  eapply pw_mono; [apply IH; [done| | |]|].
  - destruct Hc as (ob & Hob & Hk). destruct (nk_kind _ _ (m0_n _ _ M1) _ _ Hob) as (ob' & Hob' & Ek). exists ob'. split; [done|]. by rewrite Ek.
  - eapply Forall2_impl; [exact F'|]. intros z j [H1 (m' & H2)]. split; [done|]. exists m'. unfold swpAt, nodeAs in *. by rewrite Ec.
  - intros z Hz. apply HY. by right.
  - intros [] s2 [M2 (Ec2 & sw & F2 & G2)]. split; [by eapply mv0_trans|]. split; [congruence|]. exists ((i, es) :: sw). split; [constructor; [|done]|exact (gh_trans c [] [(i, es)] [] sw _ _ _ G1 G2)]. split; [done|]. eapply Forall2_impl; [exact He1|]. intros. eapply leadsTo_tm; [by apply mv0_tm|done].
Qed.
(** ** Closing a context or the body. *)
Lemma pop_context x y k n c rest s : lively x s -> compAt s y (x_kids y) n -> x_tag y = "body" \/ x_tag y = "context" -> p_objs s = c :: rest ->
  pw (popContext k n) (fun _ s' => (c < g_next (p_graph s))%positive /\ exists es, Forall2 (leadsTo (p_graph s') x c) (List.filter (tagIs "port") (x_kids y)) es /\ gh c es [] (p_graph s) (p_graph s')) s.
Proof.
  intros L CA Hy Hob. unfold popContext. p1. apply pw_peek_top. intros o r ob Hr Hco _. rewrite Hob in Hr. injection Hr as <- _. pose proof (gi_obj _ (pi_g _ _ _ _ (lz_i _ _ (ly_z _ _ L))) _ _ Hco) as Hlt. p1. apply pw_index. intros e He. destruct (ca_ports _ _ _ _ CA Hy) as (e' & l & He' & Hl & HF). assert (e' = e) as -> by congruence.
  p1. apply pw_udata. intros l' Hl'. assert (l' = l) as -> by congruence. p1. eapply pw_mono; [apply (ports_loop x k c _ l s L HF)|].
  { intros z Hz. apply elem_of_list_In, filter_In in Hz as [_ Hz]. by apply String.eqb_eq in Hz. }
  intros [] s1 [_ (es & F & G)]. cbv beta. eapply pw_mono; [apply kq_opop|]. intros [] s2 (_ & EG & _). split; [done|]. exists es. by rewrite EG.
Qed.
(** ** Closing a switch. *)
Lemma ownTarget_tm g g' y c i o : tm g g' -> ownTarget g y c i o -> ownTarget g' y c i o.
Proof. intros T H Hex. destruct (H Hex) as (cb & Hcb & Hin). destruct (gx_obj _ _ (tm_ext _ _ T) _ _ Hcb) as (cb' & Hcb' & _ & _ & _ & _ & Hch & _). exists cb'. split; [done|]. by apply Hch. Qed.
Definition target (y : xml) : option string := aget (if tagIs "bindRule" y then "constituent" else "component") (x_attrs y).
Definition ruleTo (g : graph) (s : pst) (c : oid) (sw y : xml) (r : nid * option oid) : Prop := nodeAs s y (fst r) /\ exists o i, snd r = Some o /\ target y = Some i /\ componentOf g c i o /\ ownTarget g sw c i o.
Lemma rules_loop x sw c cb : forall Y l s, lively x s -> g_obj (p_graph s) !! c = Some cb -> ob_kind cb = KSwitch -> (forall z, z ∈ x_kids sw -> inPlace (p_graph s) c z) -> Forall2 (fun y r => snd r = None /\ nodeAs s y (fst r)) Y l ->
  pw (pmap (fun r : nid * option oid => let* be := cacheIndex (fst r) "element" in let* o := resolveComponent c be in pret (fst r, Some o)) l) (fun l' s' => s' = s /\ Forall2 (ruleTo (p_graph s) s c sw) Y l') s.
Proof.
  induction Y as [|y Y IH]; intros l s L Hcb Kcb HP F; inversion F as [|? r ? l' Hy F']; subst; cbn [pmap].
  { p1. split; [done|]. constructor. }
  destruct Hy as [_ (e & He & Ht & Hd & Ha)]. p1. p1. apply pw_index. intros e' He'. assert (e' = e) as -> by congruence. p1. eapply pw_mono; [apply pw_conj; [apply (component0 x); apply L|apply (component_own x c cb sw); [apply L|done..]]|]. intros o s' [[-> (i & Hi & Hc)] Hown]. specialize (Hown _ Hi). cbv beta. p1. p1. eapply pw_mono; [by apply IH|].
  intros ys s' [-> F2]. cbv beta. p1. split; [done|]. constructor; [|done]. split; [exists e; done|]. exists o, i. split; [done|]. split; [|by split]. unfold target, tagIs. by rewrite <- Ht, <- Ha.
Qed.
Lemma pop_switch x y k n c rest s : lively x s -> compAt s y (x_kids y) n -> x_tag y = "switch" -> p_objs s = c :: rest -> (forall z, z ∈ x_kids y -> inPlace (p_graph s) c z) ->
  pw (popSwitch k n) (fun _ s' => (c < g_next (p_graph s))%positive /\ exists sw, Forall2 (fun y q => aget "id" (x_attrs y) = Some (fst q) /\ Forall2 (leadsTo (p_graph s') x c) (mappingsOf y) (snd q)) (List.filter (tagIs "switchPort") (x_kids y)) sw /\ gh c [] sw (p_graph s) (p_graph s') /\
     exists e l, p_cache s' !! n = Some e /\ el_rules e = Some l /\ Forall2 (ruleTo (p_graph s') s' c y) (List.filter isRuleTag (x_kids y)) l) s.
Proof.
  intros L CA Hy Hob HPl. unfold popSwitch. p1. apply pw_peek_top. intros o r ob Hr Hco Hks. rewrite Hob in Hr. injection Hr as <- _. pose proof (gi_obj _ (pi_g _ _ _ _ (lz_i _ _ (ly_z _ _ L))) _ _ Hco) as Hlt. p1. apply pw_index. intros e He. destruct (ca_swports _ _ _ _ CA Hy) as (e' & l & He' & Hl & HF). assert (e' = e) as -> by congruence.
  destruct (ca_rules _ _ _ _ CA Hy) as (e' & lr & He'' & Hlr & HR). assert (e' = e) as -> by congruence. clear He' He''.
  p1. apply pw_udata. intros l' Hl'. assert (l' = lr) as -> by congruence. p1. eapply pw_mono; [apply (rules_loop x y c ob (List.filter isRuleTag (x_kids y)) lr s L Hco (proj1 (bool_decide_eq_true _) Hks) HPl HR)|]. intros rs s' [-> HRs]. cbv beta. p1. apply pw_eupd. intros e1 He1. assert (e1 = e) as -> by congruence. match goal with |- pw _ _ ?x => set (s1 := x) end.
  assert (M1 : mv0 s s1).
  { split; [split; [eapply lf_upd; [exact He|done|by right]|done]|done|split; [apply gsm_refl; apply (lz_i _ _ (ly_z _ _ L))|done]|apply nk_refl|by split|by apply (cfr_upd s n e)]. }
  pose proof (mv0_lively _ _ _ L M1) as L1. assert (NA : forall z m, nodeAs s z m -> nodeAs s1 z m) by (intros; eapply nodeAs_lf; [apply (ly_z _ _ L)|apply (m0_l _ _ M1)|done]).
  p1. apply pw_udata. intros l' Hl''. assert (l' = l) as -> by congruence. p1. eapply pw_mono; [apply (switchPorts_loop x k c (List.filter (tagIs "switchPort") (x_kids y)) l s1 L1)|].
  - exists ob. split; [exact Hco|]. unfold isSwitch in Hks. apply bool_decide_eq_true in Hks. by rewrite Hks.
  - eapply Forall2_impl; [exact HF|]. intros z i [H1 (m & [H2 (e2 & l2 & He2 & Hl2 & HF2)] & Hlt0)]. split; [done|]. exists m. split; [by apply NA|]. exists e2, l2. split; [unfold s1; cbn; rewrite lookup_insert_ne by (clear -Hlt0; lia); done|]. split; [done|]. eapply Forall2_impl; [exact HF2|]. intros. by apply NA.
  - intros z Hz. apply elem_of_list_In, filter_In in Hz as [_ Hz]. by apply String.eqb_eq in Hz.
  - intros [] s2 [M2 (Ec2 & sw & F & G)]. cbv beta. assert (W : forall s3, p_graph s3 = p_graph s2 -> p_cache s3 = p_cache s2 -> exists sw, Forall2 (fun y q => aget "id" (x_attrs y) = Some (fst q) /\ Forall2 (leadsTo (p_graph s3) x c) (mappingsOf y) (snd q)) (List.filter (tagIs "switchPort") (x_kids y)) sw /\ gh c [] sw (p_graph s) (p_graph s3) /\
     exists e l, p_cache s3 !! n = Some e /\ el_rules e = Some l /\ Forall2 (ruleTo (p_graph s3) s3 c y) (List.filter isRuleTag (x_kids y)) l).
    { intros s3 E1 E2. exists sw. rewrite E1. split; [done|]. split; [exact G|]. rewrite E2, Ec2. exists (el_set_rules rs e), rs. split; [unfold s1; cbn; by rewrite lookup_insert|]. split; [done|]. eapply Forall2_impl; [exact HRs|]. intros z q [H1 (o & i & H2 & H3 & H4 & H5)].
      split; [apply NA in H1; unfold nodeAs in *; by rewrite E2, Ec2|]. exists o, i. split; [done|]. split; [done|]. split; [eapply componentOf_tm; [apply (mv0_tm _ _ M2)|done]|eapply ownTarget_tm; [apply (mv0_tm _ _ M2)|done]]. }
    unfold opop. apply pw_mod. split; [done|]. by apply W.
Qed.

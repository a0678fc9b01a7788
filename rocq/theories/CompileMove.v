(** CompileMove.v -- C42: what is compiled stays compiled while the document grows. *)
From Verif Require Import BuildInv BuildOps BuildSpec BuildFacts Frame ParserFrame ParserEnd.
From Verif Require Export CompileIface.
Open Scope string_scope.
Open Scope list_scope.

(** ** Meaning is kept. *)
Record gm (g g' : graph) : Prop := mkGm { gm_inv : GInv g; gm_tm : tm g g'; gm_nk : nk g g' }.
Lemma gm_trans a b c : gm a b -> gm b c -> gm a c.
Proof. intros [A1 A2 A3] [B1 B2 B3]. split; [done|by eapply tm_trans|by eapply nk_trans]. Qed.
Lemma goesBy_tm ob ob' i : ob_id ob' = ob_id ob -> ob_aliases ob ⊆ ob_aliases ob' -> goesBy ob i -> goesBy ob' i.
Proof. intros E A [H|[p H]]; [left; congruence|right; exists p; by apply A]. Qed.
Lemma componentOf_gm g g' c i o : gm g g' -> componentOf g c i o -> componentOf g' c i o.
Proof.
  intros [_ T _] (cb & ob & Hc & Ho & Hg & H). destruct (tm_obj _ _ _ _ T Hc) as (cb' & Hc' & _ & _ & _ & Hch & _). destruct (tm_obj _ _ _ _ T Ho) as (ob' & Ho' & Hk & Hi & _ & _ & _ & Ha).
  exists cb', ob'. split; [done|]. split; [done|]. split; [by eapply goesBy_tm|]. destruct H as [H|[H|H]]; [by left|right; left; by apply Hch|right; right; by rewrite Hk].
Qed.
Lemma isInterface_gm g g' o ob n ev : gm g g' -> g_obj g !! o = Some ob -> isInterface g (ob_kind ob) o n ev -> isInterface g' (ob_kind ob) o n ev.
Proof.
  intros [I T N] Ho H. unfold isInterface in *.
  assert (M : aMedia (ob_kind ob) -> ev_type ev = PRESENTATION \/ (ev_type ev = ATTRIBUTION /\ forall e' ev', g_evt g !! e' = Some ev' -> ev_obj ev' = o -> ev_type ev' = PRESENTATION -> ev_id ev' <> n) ->
     ev_type ev = PRESENTATION \/ (ev_type ev = ATTRIBUTION /\ forall e' ev', g_evt g' !! e' = Some ev' -> ev_obj ev' = o -> ev_type ev' = PRESENTATION -> ev_id ev' <> n)).
  { intros Hm [H1|[H1 H2]]; [by left|right]. split; [done|]. intros e' ev' He' Hob Hty Hid. destruct (nk_evt _ _ N _ _ He' Hty) as [H3|[H3|(ob' & H3 & H4)]].
    - by eapply H2.
    - destruct (oi_lambda _ _ _ (gi_o _ I _ _ Ho)) as (lv & Hl & Hil & Hin). destruct (oi_events _ _ _ (gi_o _ I _ _ Ho) _ Hin) as (lv' & Hl' & Hlo). assert (lv' = lv) as -> by congruence.
      unfold isLambda in Hil. apply andb_true_iff in Hil as [Ht Hd]. apply bool_decide_eq_true in Ht. apply String.eqb_eq in Hd. eapply H2; [exact Hl|done|done|congruence].
    - rewrite Hob in H3. destruct (tm_obj _ _ _ _ T Ho) as (ob2 & Ho2 & Hk & _). assert (ob2 = ob') as -> by congruence. rewrite Hk in H4. destruct Hm as [Hm|Hm]; rewrite Hm in H4; discriminate H4. }
  destruct (ob_kind ob) eqn:Ek; try done; apply M; try done; [by left|by right].
Qed.
Lemma designates_gm g g' x c b e : gm g g' -> designates g x c b e -> designates g' x c b e.
Proof.
  intros G D. induction D as [c b i o ob Hi Hc Ho Hn|c b i o ob n e ev Hi Hc Ho Hn Hin Hev Hob Hid HI|c b i o ob n x' p e Hi Hc Ho Hk Hne Hn Hx Hox Hp Hpt Hpi D IH].
  - destruct (gx_obj _ _ (tm_ext _ _ (gm_tm _ _ G)) _ _ Ho) as (ob' & Ho' & _ & _ & El & _). rewrite <- El. eapply Ds_whole; try done. by eapply componentOf_gm.
  - destruct (tm_obj _ _ _ _ (gm_tm _ _ G) Ho) as (ob' & Ho' & Hk & _ & He & _). eapply (Ds_interface _ _ _ _ _ _ ob'); try done; [by eapply componentOf_gm|by apply He|by apply (gx_evt _ _ (tm_ext _ _ (gm_tm _ _ G)))|]. rewrite Hk. by eapply isInterface_gm.
  - destruct (tm_obj _ _ _ _ (gm_tm _ _ G) Ho) as (ob' & Ho' & Hk' & _). eapply (Ds_port _ _ _ _ _ _ ob'); try done; [by eapply componentOf_gm|congruence|]. eapply objectOf_tm; [apply G|done].
Qed.
Lemma nameOf_gm g g' e w : gm g g' -> nameOf g e w -> nameOf g' e w.
Proof.
  intros G (ev & ob & He & Ho & Hw). destruct (tm_obj _ _ _ _ (gm_tm _ _ G) Ho) as (ob' & Ho' & _ & Hi & _). exists ev, ob'. split; [by apply (gx_evt _ _ (tm_ext _ _ (gm_tm _ _ G)))|]. split; [done|]. by rewrite Hi.
Qed.
Lemma bound_gm g g' x c cx y f : gm g g' -> bound g x c cx y f -> bound g' x c cx y f.
Proof.
  intros G B m. specialize (B m). destruct (f m) as [w|]; [|done]. destruct B as (Hf & b & e & n & Hb & Hd & Hn & Hw). split; [done|]. exists b, e, n. split; [done|]. split; [by eapply designates_gm|]. split; [by eapply nameOf_gm|done].
Qed.
Lemma compiledBind_gm g g' x c y f b r a : gm g g' -> compiledBind g x c y f b r a -> compiledBind g' x c y f b r a.
Proof.
  intros G [(e & ev & ty & Hd & He & Hm & H) D1 D2]. split; [|done|done]. assert (X : forall e ev, g_evt g !! e = Some ev -> g_evt g' !! e = Some ev) by (apply (gx_evt _ _ (tm_ext _ _ (gm_tm _ _ G)))).
  exists e, ev, ty. split; [by eapply designates_gm|]. split; [by apply X|]. split; [done|]. destruct ty; [done|done| |].
  - destruct H as (H1 & H2 & ev' & H3 & H4). split; [done|]. split; [done|]. exists ev'. split; [by apply X|done].
  - destruct H as (H1 & ev' & H3 & H4). split; [done|]. exists ev'. split; [by apply X|done].
Qed.
Lemma compiledBy_gm g g' x c cx y f t b a : gm g g' -> compiledBy g x c cx y f t b a -> compiledBy g' x c cx y f t b a.
Proof. intros G (A & r & Hr & H & H'). exists A, r. split; [done|]. split; [by eapply compiledBind_gm|done]. Qed.
Lemma tested_gm g g' x c cx y t : gm g g' -> tested g x c cx y t -> tested g' x c cx y t.
Proof.
  intros G B m. specialize (B m). destruct (lastBind _ m) as [b|]; [|done]. destruct B as (e & n & Hd & Hn & Hw). exists e, n. split; [by eapply designates_gm|]. split; [by eapply nameOf_gm|done].
Qed.
Lemma compiledLink_gm g g' x p q : gm g g' -> compiledLink g x p q -> compiledLink g' x p q.
Proof.
  intros G [Ho H]. split; [eapply objectOf_tm; [apply G|done]|]. intros cx H1 H2 H3. destruct (H cx H1 H2 H3) as (f & t & Hb & Ht & F1 & F2 & F3). exists f, t. split; [by eapply bound_gm|]. split; [by eapply tested_gm|].
  split; [eapply Forall2_impl; [exact F1|]; intros; by eapply compiledBy_gm|]. split; [eapply Forall2_impl; [exact F2|]; intros; by eapply compiledBy_gm|done].
Qed.

(** ** Steps of the parser. *)
Record mv (s s' : pst) : Prop := mkMv { mv_l : lq s s'; mv_o : p_order s' = p_order s; mv_g : gg s s'; mv_n : ns s s'; mv_f : fr s s'; mv_c : cfr s s'; mv_x : cq s s' }.
Lemma mv_refl s : GInv (p_graph s) -> mv s s.
Proof. intros I. split; [apply pr_refl|done|by apply gg_refl|apply pr_refl|apply fr_refl|apply cfr_refl|apply cf_refl]. Qed.
Lemma mv_trans a b c : mv a b -> mv b c -> mv a c.
Proof.
  intros [A1 A2 A3 A4 A5 A6 A7] [B1 B2 B3 B4 B5 B6 B7]. split; [exact (pr_trans _ _ _ A1 B1)|congruence|by eapply gg_trans|exact (pr_trans _ _ _ A4 B4)|by eapply fr_trans|by eapply cfr_trans|exact (pr_trans _ _ _ A7 B7)].
Qed.
Lemma mv_gm s s' : GInv (p_graph s) -> mv s s' -> gm (p_graph s) (p_graph s').
Proof. intros I M. split; [done|eapply gsm_tm; apply (mv_g _ _ M)|apply M]. Qed.
Lemma mv_nodes t s s' : ordOk s -> mv s s' -> nodesOf t s' = nodesOf t s.
Proof. intros O M. rewrite (nodes_new none t s s' []); [by rewrite app_nil_r|apply (mv_l _ _ M)|done|]. rewrite app_nil_r. apply M. Qed.
Lemma mv_live x s s' : live x s -> mv s s' -> live x s'.
Proof.
  intros L M. pose proof (pi_g _ _ _ _ (lv_i _ _ L)) as I. assert (C' : cinv s') by (eapply cfr_cinv; [apply M|apply L]). destruct (mv_l _ _ M) as [LF _].
  pose proof (fr_unique _ _ (mv_f _ _ M)) as EU. split; [done| | | | | |].
  - rewrite EU. eapply gq_pinv; [apply L|apply M|apply M].
  - rewrite EU. eapply tinv_tr; [exact I|apply L|done|eapply gsm_tm; apply (mv_g _ _ M)|apply M|apply (mv_g _ _ M)].
  - eapply uq_step; [exact LF|done|apply M|apply L|by rewrite EU|apply L].
  - eapply ordOk_lf; [exact LF|apply L].
  - intros m Hm. rewrite (mv_nodes _ s s') in Hm; [|apply L|done]. destruct (lv_ports _ _ L m Hm) as (p & x' & Hp & H). exists p, x'. split; [|done]. eapply portAt_lf; [apply L|exact LF|done].
  - intros cx H1 H2. destruct (lv_conns _ _ L cx H1 H2) as (m & Hm & Hg). exists m. split; [eapply connAt_lf; [apply L|exact LF| |done]; intros []|]. eapply (connG_step none); [apply L|apply M|exact LF|intros []|apply below_none|reflexivity|exact Hg].
Qed.
Lemma mv_link s s' p m : live p s -> forall x, mv s s' -> linkN 1 s x m -> linkN 1 s' x m.
Proof. intros L x M H. eapply (linkN_step none 1 1 s); [apply L|apply (mv_l _ _ M)|intros n []|eapply gsm_tm; apply (mv_g _ _ M)|lia|done]. Qed.
Definition km {A} (m : P A) : Prop := forall s, GInv (p_graph s) -> pw m (fun _ s' => mv s s') s.
Lemma km_make {A} (m : P A) : kl m -> kw m -> kg m -> kn m -> keep m -> kc m -> kx m -> km m.
Proof.
  intros A1 A2 A3 A4 A5 A6 A7 s I. pose proof (A1 s) as B1. pose proof (A2 s) as B2. pose proof (A3 s I) as B3. pose proof (A4 s) as B4. pose proof (A5 s) as B5. pose proof (A6 s) as B6. pose proof (A7 s) as B7.
  unfold pw in *. destruct (m s); try done.
Qed.
Lemma km_quiet {A} (m : P A) : kq m -> kl m -> kw m -> keep m -> kx m -> km m.
Proof. intros Q A1 A2 A3 A4. apply km_make; try done; [by apply kq_kg|by apply kn_quiet|]. intros s. eapply pw_mono; [apply Q|]. intros a s' H. apply H. Qed.
Lemma km_media d : km (solveMedia d). Proof. apply km_make; [apply kl_media|apply kw_media|apply kg_media|apply kn_media|apply keep_media|apply kc_media|apply kx_media]. Qed.
Lemma km_switch k d : km (solveSwitch k d). Proof. apply km_make; [apply kl_switch|apply kw_switch|apply kg_switch|apply kn_switch|apply keep_switch|apply kc_switch|apply kx_switch]. Qed.
Lemma km_link k d : km (solveLink k d). Proof. apply km_make; [apply kl_link|apply kw_link|apply kg_link|apply kn_link|apply keep_link|apply kc_link|apply kx_link]. Qed.

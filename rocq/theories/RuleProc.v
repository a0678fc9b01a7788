(** RuleProc.v -- C50: the rules of every element of a document. *)
From Verif Require Import BuildOps ParserFrame DecSpec DecFacts PredSpec.
From Verif Require Export RuleElts PortProc.
Open Scope string_scope.
Open Scope list_scope.

Definition ruleTags : list string := ["ncl"; "head"; "ruleBase"; "rule"; "compositeRule"].
Definition ruleTagOk (x : string * syn) : bool := (negb (mem (fst x) ruleTags) || forallb (fun t => mem t ruleTags) (sy_parents (snd x))) && (negb (mem (fst x) ["rule"; "compositeRule"]) || forallb (fun t => mem t ["ruleBase"; "rule"; "compositeRule"]) (sy_parents (snd x))).
Lemma ruleTagOk_all : forallb ruleTagOk syntax = true. Proof. vm_compute. reflexivity. Qed.
Lemma ruleTag_kid t c : negb (mem t ruleTags) = true -> possibleChild t c = true -> negb (mem c ruleTags) = true.
Proof.
  intros Ht H. unfold possibleChild, synOf in H. destruct (look c syntax) as [sy|] eqn:Es; [|done]. apply look_some in Es. pose proof (forall_elem _ _ _ ruleTagOk_all Es) as F. unfold ruleTagOk in F. cbn [fst snd] in F. apply andb_true_iff in F as [F _].
  destruct (mem c ruleTags) eqn:Em; [|done]. apply orb_true_iff in F as [F|F]; [discriminate F|]. apply mem_spec in H. pose proof (forall_elem _ _ _ F H) as F'. cbv beta in F'. by rewrite F' in Ht.
Qed.
Lemma isRule_mem x : isRule x = mem (x_tag x) ["rule"; "compositeRule"].
Proof. unfold isRule, tagIs, mem. cbn [existsb]. rewrite orb_false_r. f_equal; first [done|apply String.eqb_sym]. Qed.
Lemma rule_home x y : isRule x = false -> isRule y = true -> possibleChild (x_tag x) (x_tag y) = true -> x_tag x = "ruleBase".
Proof.
  intros Hx Hy H. unfold possibleChild, synOf in H. destruct (look (x_tag y) syntax) as [sy|] eqn:Es; [|done]. apply look_some in Es. pose proof (forall_elem _ _ _ ruleTagOk_all Es) as F. unfold ruleTagOk in F. cbn [fst snd] in F. apply andb_true_iff in F as [_ F].
  rewrite <- isRule_mem, Hy in F. cbn [negb orb] in F. apply mem_spec in H. pose proof (forall_elem _ _ _ F H) as F'. cbv beta in F'. apply mem_spec in F'. unfold isRule, tagIs in Hx. repeat (apply elem_of_cons in F' as [F'|F']; [rewrite F' in Hx |- *; done|]). by apply elem_of_nil in F'.
Qed.
Lemma process_rules E k : forall up x s, cinv s -> Par s up -> p_alias s = [] -> ordOk s -> (isRule x = true -> exists u ue, up = Some (u, "ruleBase") /\ p_cache s !! u = Some ue) -> x_tag x <> "ncl" -> pw (processNode E k up x) (fun _ s' => rulesN (p_next s) s' (elementsOf x)) s.
Proof.
  induction k as [|k IH]; intros up x s C Hp Ha O Hup Hnl; [apply pw_nofuel|]. destruct (isRule x) eqn:Hx.
  { destruct (Hup eq_refl) as (u & ue & -> & Hue). destruct (Hp _ _ eq_refl) as [Hlt Ht]. specialize (Ht _ Hue).
    eapply pw_mono; [apply (rule_ok E (S k) u "ruleBase" x s ue 1%positive CAnd []); [|done]|]; [|intros [] s' [_ H]; exact H]. split; [done|]. split; [done|]. split; [done|]. split; [done|]. intros Hz. by rewrite Ht in Hz. }
  destruct (mem (x_tag x) ruleTags) eqn:Eb.
  2: { eapply pw_mono; [apply (process_closed (fun t => negb (mem t ruleTags))); [apply ruleTag_kid|done|done|intros c; apply ruleTag_kid; by rewrite Eb]|]. intros [] s' H y Hy Ht. rewrite elements_eq in Hy. apply elem_of_cons in Hy as [->|Hy]; [congruence|]. specialize (H _ Hy).
    exfalso. rewrite isRule_mem in Ht. apply mem_spec in Ht. repeat (apply elem_of_cons in Ht as [Ht|Ht]; [rewrite Ht in H; discriminate H|]). by apply elem_of_nil in Ht. }
  assert (Ex : x_tag x = "head" \/ x_tag x = "ruleBase"). { apply mem_spec in Eb. unfold isRule, tagIs in Hx. unfold ruleTags in Eb. repeat (apply elem_of_cons in Eb as [Eb|Eb]; [rewrite Eb in Hx, Hnl |- *; auto; done|]). by apply elem_of_nil in Eb. }
  apply process_rule2; [done|done|]. intros sy attrs s1 K1 Hn. set (e0 := newElt _ _ _ _).
  assert (Es : predPush (sy_push sy) = false /\ cqPush (sy_push sy) = true /\ sy_push sy <> PuImport /\ sy_pop sy = PoNone /\ (x_tag x = "ruleBase" -> sy_cache sy = true)). { pose proof (ck_syn _ _ _ _ _ _ _ K1) as Es. destruct Ex as [Ex|Ex]; rewrite Ex in Es |- *; vm_compute in Es; injection Es as <-; done. }
  destruct Es as (Hnp & Hni & Hni2 & Epo & Ech). rewrite Epo.
  assert (G1 : grows s (p_set_next (Pos.succ (p_next s1)) s1)) by exact (checked_grows _ _ _ _ _ _ _ K1).
  eapply pw_mono; [apply pw_conj; [apply (push_pred E (pushImport E (processNode E k)) (sy_push sy) e0); [intros; apply import_shape|done]|apply (grows_push E (processNode E k)); intros up' x' s'; eapply pw_mono; [apply process_ids|]; intros [] s'' (J1 & J2 & _); by split]|]. intros e s3 [Ep G3]. cbv beta. change (el_pred e0) with (@None pid) in Ep.
  eapply pw_mono; [apply pw_conj; [apply keep_when, keep_cacheAdd|]|].
  { instantiate (1 := fun _ s4 => forall m em, p_cache s4 !! m = Some em -> p_cache s3 !! m = None -> el_pred em = None). destruct (sy_cache sy); cbn [pwhen].
    - eapply pw_mono; [apply cacheAdd_eq|]. intros [] s4 (_ & _ & E4 & _) m em Hm Hno. rewrite E4 in Hm. destruct (decide (el_node e = m)) as [<-|Hne]; [rewrite lookup_insert in Hm; congruence|rewrite lookup_insert_ne in Hm by done; congruence].
    - p1. intros m em Hm Hno. congruence. }
  intros [] s4 [F4 D4] P4 Pr4 M4.
  assert (Hnn : forall em, p_cache s4 !! p_next s = Some em -> el_pred em = None).
  { intros em Hem. destruct (sy_cache sy) eqn:Ec.
    - destruct (mi_elt _ _ _ _ _ _ _ M4 Ec) as (He & _). congruence.
    - destruct (po_c _ _ P4 _ _ Hem) as (_ & _ & Hin). exfalso. rewrite (mi_order _ _ _ _ _ _ _ M4) in Hin by done. rewrite Ec, app_nil_r in Hin. specialize (O _ Hin). lia. }
  assert (Hrb : x_tag x = "ruleBase" -> is_Some (p_cache s4 !! p_next s)) by (intros Hz; destruct (mi_elt _ _ _ _ _ _ _ M4 (Ech Hz)) as (He & _); eauto).
  assert (G4 : grows s s4) by (eapply grows_trans; [exact G1|]; eapply grows_trans; [exact G3|by apply grows_fr]).
  assert (Hlt : (p_next s < p_next s4)%positive) by (destruct (Pr4 _ _ eq_refl); done).
  eapply pw_mono; [apply (kids_rule E k _ _ _ s4 (fun l s' => cinv s' /\ p_alias s' = [] /\ ordOk s' /\ (p_next s4 <= p_next s')%positive /\ (forall em, p_cache s' !! p_next s = Some em -> el_pred em = None) /\ (x_tag x = "ruleBase" -> is_Some (p_cache s' !! p_next s)) /\ exists p, x_kids x = p ++ l /\ rulesN (p_next s4) s' (flat_map elementsOf p))); [apply P4|done| |]|].
  - split; [apply P4|]. split; [by rewrite (proj1 G4)|]. split; [eapply ordOk_lf; [apply M4|done]|]. split; [lia|]. split; [done|]. split; [done|]. exists []. split; [done|]. intros y Hy. by apply elem_of_nil in Hy.
  - intros y l' s' [p0 Hp0] C' Hp' (_ & A' & O' & Nx' & Z' & Rb' & p & Hpl & H').
    assert (Hck := ck_kids _ _ _ _ _ _ _ K1 y ltac:(rewrite Hp0; apply in_mid)).
    assert (Hup' : isRule y = true -> exists u ue, Some (p_next s, x_tag x) = Some (u, "ruleBase") /\ p_cache s' !! u = Some ue). { intros Hy. pose proof (rule_home x y Hx Hy Hck) as Hz. destruct (Rb' Hz) as [ue Hue]. exists (p_next s), ue. by rewrite Hz. }
    assert (Hyn : x_tag y <> "ncl"). { intros Hy'. rewrite Hy' in Hck. by apply (ncl_orphan (x_tag x)). }
    eapply pw_mono; [apply pw_conj; [by apply process_post|apply pw_conj; [apply process_ids|apply pw_conj; [by apply process_lf|apply pw_conj; [by apply process_cf|by apply IH]]]]|].
    intros [] s'' [[P'' _] [(J1 & _) [[L'' O''] [F'' H'']]]]. split; [apply P''|]. split; [congruence|]. split; [by eapply ordOk_lf|]. split; [pose proof (CompileCells.cf_next _ _ _ F''); lia|].
    split; [intros em Hem; destruct (lf_back _ _ _ _ _ L'' Hem) as (e' & He' & _); [lia|]; destruct (cf_old _ _ _ F'' _ _ He') as (e'' & He'' & Ee); assert (em = e'') as -> by congruence; rewrite Ee; by apply Z'|].
    split; [intros Hz; destruct (Rb' Hz) as [ue Hue]; destruct (cf_old _ _ _ F'' _ _ Hue) as (ue' & Hue' & _); eauto|]. exists (p ++ [y]). split; [by rewrite <- app_assoc|].
    intros z Hz Hzr. rewrite flat_map_app in Hz. cbn [flat_map] in Hz. rewrite app_nil_r in Hz. apply elem_of_app in Hz as [Hz|Hz].
    + destruct (H' z Hz Hzr) as [m Hm]. exists m. eapply ruleN_step; [exact C'|exact L''|exact F''| |reflexivity|exact Hm]. intros m' em pm Hm' Hem Hpm. unfold upX in Hm'. cbn in Hm'. injection Hm' as <-. rewrite (Z' _ Hem) in Hpm. discriminate Hpm.
    + destruct (H'' z Hz Hzr) as [m Hm]. exists m. eapply ruleN_low; [|exact Hm]. lia.
  - intros [] s5 (C5 & A5 & O5 & Nx5 & Z5 & Rb5 & p & Hpl & H5). cbv beta in *. rewrite app_nil_r in Hpl. subst p. cbn [pop]. p1.
    intros z Hz Hzr. rewrite elements_eq in Hz. apply elem_of_cons in Hz as [->|Hz]; [congruence|].
    destruct (H5 z Hz Hzr) as [m Hm]. exists m. eapply ruleN_low; [|exact Hm]. lia.
Qed.

(** FactsPlayer.v -- C28, C30 and C35 in the form stated in Props_Player.v. *)
From Coq Require Import Sorting.Sorted.
From Verif Require Import StartFacts StartMedia StartSpec PlayerFacts Wf Witness StrFacts.
Open Scope string_scope.
Open Scope list_scope.

Lemma known_ext base e : In e (map fst knownTypes) -> extension (base ++ "." ++ e) e.
Proof.
  intros Hin.
  assert (G : forallb (fun e => negb (String.eqb e "") && forallb (fun c => negb (Ascii.eqb c ".")) (list_ascii_of_string e))%bool (map fst knownTypes) = true) by (vm_compute; reflexivity).
  pose proof (proj1 (List.forallb_forall _ _) G _ Hin) as Hx. apply andb_prop in Hx as [H1 H2].
  split; [intros ->; discriminate|]. split; [|by exists base]. intros Hd.
  pose proof (proj1 (List.forallb_forall _ _) H2 _ Hd) as Hy. discriminate.
Qed.
Lemma prefix_app p t : String.prefix p (p ++ t)%string = true.
Proof. induction p as [|c p IH]; [by destruct t|]. rewrite sapp_cons. cbn. by destruct (ascii_dec c c). Qed.
Lemma f_C28_stop (D : doc) W H a b : (0 <= W <= 2147483647)%Z -> (0 <= H <= 2147483647)%Z ->
  reset_attrs (d_ext D) W H a = DOk b -> agrees (d_ext D) W H (fun _ => None) b.
Proof.
  intros HW HH E. apply (reset_fresh D) in E; [|done..]. subst b.
  apply (agrees_all D W H ["height"; "left"; "top"; "width"] (fun _ => None) (fun _ => None)); try done.
  - repeat (constructor; [|repeat constructor; apply compare_lex; reflexivity]). constructor.
  - repeat apply ps_skip; try done. by apply ps_nil.
  - intros k Hk. set_solver.
Qed.
Lemma f_C30 X type uri device m c : mimeOf type uri m ->
  (choose_player X type uri device = CClass c <-> suits (x_cef X) (remoteAsked type uri device) uri m c).
Proof.
  intros Hm. rewrite (mimeOf_fun _ _ _ _ Hm (effective_mimeOf type uri)).
  apply (choose_suits (mkDoc ∅ ∅ [] [] 1%positive 1%positive X)).
Qed.
Lemma f_C35 D : wf_doc D -> timesFit D -> forall o ob s n b s', d_obj D !! o = Some ob -> is_media (ob_kind ob) = true ->
  screen s -> evState s (ob_lambda ob) = SLEEPING ->
  tr D n (ob_lambda ob) START s = Ok b s' -> b = true /\ mediaStarted D s s' o ob.
Proof.
  intros [rank WF] TF o ob s n b s' Ho Hm HS Hs E.
  eapply (start_media D rank WF n s b s' TF HS o ob); try done.
  destruct (ob_kind ob); try done; auto.
Qed.
Lemma f_C36 D : wf_doc D -> forall o ob s n b s', d_obj D !! o = Some ob -> ob_kind ob = KContext ->
  evState s (ob_lambda ob) = SLEEPING ->
  tr D n (ob_lambda ob) START s = Ok b s' -> b = true /\ contextStarted D s s' o ob.
Proof. intros [rank WF] o ob s n b s'. apply (start_context D rank WF). Qed.
Lemma f_C30_ext X base e m : In (e, m) knownTypes ->
  forall c, plainKind m c -> choose_player X "" (base ++ "." ++ e) "" = CClass c.
Proof.
  intros Hin c Hc. apply (f_C30 X "" (base ++ "." ++ e)%string "" m).
  - apply mime_known; [done|]. exists e. split; [|done]. apply known_ext. exact (in_map fst _ _ Hin).
  - destruct c; cbn [suits plainKind] in *; tauto.
Qed.
Lemma f_C30_refuted : (exists e m, In (e, m) knownTypes /\ forall X base, exists c, choose_player X "" (base ++ "." ++ e) "" = CAbort c) /\
  (forall X type uri device, choose_player X type uri device <> CClass PSvg).
Proof.
  split.
  - exists "css", "text/css". assert (Hin : In ("css", "text/css") knownTypes) by (vm_compute; tauto).
    split; [done|]. intros X base. destruct (choose_player X "" (base ++ "." ++ "css") "") as [c|a] eqn:E; [|by exists a].
    exfalso. assert (Hm : mimeOf "" (base ++ "." ++ "css") "text/css").
    { apply mime_known; [done|]. exists "css". split; [|done]. apply known_ext. exact (in_map fst _ _ Hin). }
    apply (f_C30 _ _ _ _ _ _ Hm) in E.
    assert (B : forall p, begins p "text/css" -> String.prefix p "text/css" = true).
    { intros p Hp. destruct (String.prefix p "text/css") eqn:Ep; [done|]. destruct Hp as [t Ht]. rewrite Ht in Ep. rewrite prefix_app in Ep. discriminate. }
    assert (R : ~ remoteAsked "" (base ++ "." ++ "css") "").
    { intros [R|R]; [done|]. discriminate (mimeOf_fun _ _ _ _ Hm R). }
    destruct c; cbn [suits plainKind] in E; try discriminate; try contradiction;
      repeat match goal with
      | E : _ \/ _ |- _ => destruct E
      | E : _ /\ _ |- _ => destruct E
      | E : begins _ _ |- _ => apply B in E; discriminate
      end; try discriminate; try contradiction; try tauto.
    all: try (destruct base; discriminate).
  - intros X type uri device E. destruct (mime_unique type uri) as (m & Hm & _).
    by apply (f_C30 _ _ _ _ _ _ Hm) in E.
Qed.

Lemma f_C36_refuted : exists D s o ob s' p pe, wf_doc D /\ reach D s /\ d_obj D !! o = Some ob /\ ob_kind ob = KContext /\
  evState s (ob_lambda ob) = SLEEPING /\ tr D 60 (ob_lambda ob) START s = Ok true s' /\
  ob_ports ob = [p] /\ d_evt D !! p = Some pe /\ ev_type pe = PRESENTATION /\ o_delayed (ostOf s' o) = [].
Proof.
  destruct (check_reach demo demo0 (play ++ [CTr 106 START; CTr 105 STOP]) (fun s => stb s 105 SLEEPING &&
    run_is (tr demo 60 105 START s) (fun b s' => b && bool_decide (o_delayed (ostOf s' 5) = [])))%bool) as (s & Hr & Hs);
    [apply demo_init|vm_compute; reflexivity|].
  unfold stb in Hs. splitb Hs. match goal with HH : run_is _ _ = true |- _ => apply run_is_ok in HH as (b & s' & E & Hs') end.
  splitb Hs'. rewrite Hs' in E. exists demo, s, 5%positive. eexists. exists s', 106%positive. eexists.
  split; [exact demo_wf|]. split; [exact Hr|]. split; [vm_compute; reflexivity|]. cbn [ob_kind ob_lambda ob_ports]. split; [reflexivity|].
  split; [hyp|]. split; [exact E|]. split; [reflexivity|]. split; [vm_compute; reflexivity|]. split; [reflexivity|]. hyp.
Qed.

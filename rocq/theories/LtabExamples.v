(** LtabExamples.v -- sample tables for C47 and C48. *)
From Verif Require Export FactsLtab.
From Verif Require Import BuildFacts Examples Formatter Player.
Open Scope string_scope.
Open Scope list_scope.

(** {x1, x2, ...}, and values under names. *)
Fixpoint rowFrom (n : Z) (xs : list lval) : list (lkey * lval) := match xs with [] => [] | x :: r => (KInt n, x) :: rowFrom (n + 1) r end.
Definition row (xs : list lval) : lval := VTab (rowFrom 1 xs).
Definition named (xs : list (string * lval)) : lval := VTab (map (fun x => (KStr (fst x), snd x)) xs).
Definition E0 : lenv := mkLenv "" (fun _ => false) (fun _ => false) (fun s => s) (fun s d => ("file:" ++ s)%string).
Definition ltabRun (v : lval) := parseLtab E0 (fun x => x) "" (Some v).
(** A table with all that the format has. *)
Definition table1 : lval :=
  row [VStr "context"; VStr "main"; VTab []; row [VStr "m@lambda"; VStr "c@lambda"; VStr "m@LAMBDA"];
    row [row [VStr "media"; VStr "m"; named [("src", VStr "a.png"); ("left", VNum "10"); ("transIn", named [("type", VStr "fade"); ("dur", VStr "1s")])];
              row [row [VStr "intro"; VStr "1s"; VStr "5s"]; row [VStr "rest"; VStr "5s"]]];
         row [VStr "context"; VStr "c"; VTab []; row [VStr "n.volume"]; row [row [VStr "media"; VStr "n"; named [("volume", VStr "1")]]]];
         row [VStr "switch"; VStr "s"; row [row [VStr "media"; VStr "x"]; row [VStr "media"; VStr "y"]];
              row [row [VStr "y"; row [VStr "and"; row [VStr "lang"; VStr "=="; VStr "pt"]; row [VStr "not"; row [VBool false]]]]; row [VStr "x"; row [VBool true]]]]];
    row [row [row [row [VStr "start"; VStr "m@intro"; row [VStr "$x"; VStr "<="; VNum "3"]]];
              row [row [VStr "SET"; VStr "m.left"; VNum "20"; named [("delay", VStr "1s"); ("duration", VStr "2s")]]; row [VStr "stop"; VStr "c@lambda"]]]]].
(** A link to a key: no such event exists. *)
Definition table2 : lval :=
  row [VStr "context"; VStr "main"; VTab []; row [VStr "m@lambda"]; row [row [VStr "media"; VStr "m"]];
    row [row [row [row [VStr "start"; VStr "m@lambda"]]; row [row [VStr "start"; VStr "m<RED>"]]]]].
Definition isOk (r : outcome graph (option unit)) : bool := match r with Ok (Some _) _ => true | _ => false end.
Definition f0 : fmt := mkF false None false "" 800 600.
(** Checking that no link of the document refers to nothing. *)
Definition noNullb (g : graph) : bool :=
  forallb (fun o => match g_obj g !! o with Some ob => forallb (fun k => forallb (fun a => negb (bool_decide (ac_evt a = nullEvt))) (fst k ++ snd k)) (ob_links ob) | None => true end) (g_objs g).
Lemma noNullb_ok g : noNullb g = true -> noNull g.
Proof.
  unfold noNullb. intros H o ob cs acts a H1 H2 H3 H4. rewrite forallb_forall in H. specialize (H o (proj1 (elem_of_list_In _ _) H1)). rewrite H2 in H.
  rewrite forallb_forall in H. specialize (H _ (proj1 (elem_of_list_In _ _) H3)). rewrite forallb_forall in H. specialize (H a). cbn in H. rewrite <- elem_of_list_In, elem_of_app in H.
  specialize (H H4). apply negb_true_iff in H. by apply bool_decide_eq_false in H.
Qed.
Definition objs (g : graph) : list obj := omap (fun o => g_obj g !! o) (g_objs g).
Lemma w_table1 : exists g, ltabRun table1 = Ok (Some tt) g /\ noNull g /\ map ob_id (objs g) = ["__root__"; "__settings__"; "m"; "c"; "n"; "s"; "x"; "y"] /\
  map (fun ob => length (ob_links ob)) (objs g) = [1; 0; 0; 0; 0; 0; 0; 0] /\ map (fun ob => length (ob_ports ob)) (objs g) = [2; 0; 0; 1; 0; 0; 0; 0] /\
  map (fun ob => length (ob_rules ob)) (objs g) = [0; 0; 0; 0; 0; 2; 0; 0] /\
  map (fun e => (ev_id <$> g_evt g !! e)) (default [] (ob_events <$> objs g !! 2)) = [Some "@lambda"; Some "uri"; Some "left"; Some "transIn"; Some "intro"; Some "rest"].
Proof.
  assert (R : match ltabRun table1 with Ok (Some tt) g => noNullb g && bool_decide (map ob_id (objs g) = ["__root__"; "__settings__"; "m"; "c"; "n"; "s"; "x"; "y"]) &&
    bool_decide (map (fun ob => length (ob_links ob)) (objs g) = [1; 0; 0; 0; 0; 0; 0; 0]) && bool_decide (map (fun ob => length (ob_ports ob)) (objs g) = [2; 0; 0; 1; 0; 0; 0; 0]) &&
    bool_decide (map (fun ob => length (ob_rules ob)) (objs g) = [0; 0; 0; 0; 0; 2; 0; 0]) &&
    bool_decide (map (fun e => (ev_id <$> g_evt g !! e)) (default [] (ob_events <$> objs g !! 2)) = [Some "@lambda"; Some "uri"; Some "left"; Some "transIn"; Some "intro"; Some "rest"]) | _ => false end = true) by (vm_compute; reflexivity).
  destruct (ltabRun table1) as [[[]|] g| |]; try discriminate R. exists g.
  repeat (apply andb_true_iff in R as [R ?]). repeat match goal with H : bool_decide _ = true |- _ => apply bool_decide_eq_true in H end. split; [done|]. split; [by apply noNullb_ok|]. done.
Qed.
Lemma w_table2 : exists g, ltabRun table2 = Ok (Some tt) g /\ ~ noNull g.
Proof.
  assert (R : match ltabRun table2 with Ok (Some tt) g => bool_decide (1%positive ∈ g_objs g) && match g_obj g !! 1%positive with Some ob => bool_decide ((map ac_evt ∘ snd) <$> ob_links ob = [[1%positive]]) | _ => false end | _ => false end = true) by (vm_compute; reflexivity).
  destruct (ltabRun table2) as [[[]|] g| |]; try discriminate R. exists g. split; [done|]. intros N. apply andb_true_iff in R as [R1 R2]. apply bool_decide_eq_true in R1.
  destruct (g_obj g !! 1%positive) as [ob|] eqn:E; [|discriminate R2]. apply bool_decide_eq_true in R2. destruct (ob_links ob) as [|[cs acts] k] eqn:L; [done|]. destruct k; [|done]. cbn in R2. destruct acts as [|a r]; [done|].
  injection R2 as R2 _. apply (N 1%positive ob cs (a :: r) a); try done; [rewrite L; left|right; left].
Qed.
Lemma w_table2_run : exists f, fstart 40 (ltabFile E0 id noext table2) f0 = Ok true f /\ ftick 40 1000 f = Crash (CUB "dangling event").
Proof.
  assert (R : match fstart 40 (ltabFile E0 id noext table2) f0 with Ok true f => match ftick 40 1000 f with Crash (CUB s) => String.eqb s "dangling event" | _ => false end | _ => false end = true) by (vm_compute; reflexivity).
  destruct (fstart 40 (ltabFile E0 id noext table2) f0) as [[] f| |]; try discriminate R. exists f. split; [done|]. destruct (ftick 40 1000 f) as [|[]|]; try discriminate R. apply String.eqb_eq in R. by subst.
Qed.

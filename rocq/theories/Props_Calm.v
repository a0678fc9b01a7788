(** Props_Calm.v -- C34 for documents as the parser reads them. *)
From Verif Require Import SafeCheck FactsSafe FactsParsed Builder Examples ParseDoc Parser.
Open Scope string_scope.
Open Scope list_scope.

(** [calmParse]: whatever the window and the focus, the document read from [x] is accepted by
    the checker of SafeCheck.v, which decides a sufficient condition for the documents of
    C34_player_partial; its file is then one of that theorem's. *)
Theorem C34_parsed_partial E k addr X x : settingsPlain x -> calmParse E k addr X x -> calmFile (fileOf E k addr X x).
Proof. exact (f_calm_file E k addr X x). Qed.
Print Assumptions C34_parsed_partial.

(** A document with a descriptor, imported and local connectors, an anchor, a statement, a
    settings element, a reused medium, a nested context and links that start, stop and set
    properties of media and of the settings. *)
Definition docCalm : xml := el "ncl" [("id", "doc")] [
  el "head" [] [
    el "descriptorBase" [] [el "descriptor" [("id", "ds"); ("explicitDur", "8s"); ("freeze", "true")] [el "descriptorParam" [("name", "transparency"); ("value", "30%")] []]];
    el "connectorBase" [] [
      el "importBase" [("alias", "b"); ("documentURI", "base.ncl")] [];
      el "causalConnector" [("id", "onBeginStartSet")] [
        el "connectorParam" [("name", "v")] [];
        el "compoundCondition" [("operator", "and")] [
          el "simpleCondition" [("role", "onBegin")] [];
          el "assessmentStatement" [("comparator", "eq")] [el "attributeAssessment" [("role", "var")] []; el "valueAssessment" [("value", "1")] []]];
        el "compoundAction" [("operator", "seq")] [
          el "simpleAction" [("role", "start"); ("max", "unbounded")] [];
          el "simpleAction" [("role", "set"); ("value", "$v")] []]];
      el "causalConnector" [("id", "onKeyStop")] [
        el "simpleCondition" [("role", "onSelection"); ("key", "RED")] [];
        el "simpleAction" [("role", "stop"); ("max", "unbounded")] []]]];
  el "body" [("id", "bd")] [
    el "port" [("id", "p0"); ("component", "a")] [];
    el "media" [("id", "a"); ("src", "a.mp4"); ("descriptor", "ds")] [
      el "area" [("id", "ar"); ("begin", "1s"); ("end", "3s")] [];
      el "property" [("name", "soundLevel"); ("value", "1")] []; el "property" [("name", "bounds")] []];
    el "media" [("id", "st"); ("type", "application/x-ginga-settings")] [el "property" [("name", "lang"); ("value", "pt")] []];
    el "media" [("id", "b"); ("src", "b.png")] [];
    el "media" [("id", "b2"); ("refer", "b")] [];
    el "context" [("id", "c")] [el "port" [("id", "cp"); ("component", "d")] []; el "media" [("id", "d"); ("src", "d.txt")] []];
    el "link" [("xconnector", "onBeginStartSet")] [
      el "bind" [("role", "onBegin"); ("component", "a"); ("interface", "ar")] [];
      el "bind" [("role", "var"); ("component", "a"); ("interface", "soundLevel")] [];
      el "bind" [("role", "start"); ("component", "c")] [];
      el "bind" [("role", "start"); ("component", "b2")] [];
      el "bind" [("role", "set"); ("component", "st"); ("interface", "lang")] [el "bindParam" [("name", "v"); ("value", "en")] []];
      el "bind" [("role", "set"); ("component", "a"); ("interface", "bounds")] [el "bindParam" [("name", "v"); ("value", "10%,10%,50%,50%")] []]];
    el "link" [("xconnector", "onKeyStop")] [
      el "bind" [("role", "onSelection"); ("component", "a")] [];
      el "bind" [("role", "stop"); ("component", "c")] [];
      el "bind" [("role", "stop"); ("component", "a"); ("interface", "ar")] []];
    el "link" [("xconnector", "b#onEndStart")] [
      el "bind" [("role", "onEnd"); ("component", "a")] [];
      el "bind" [("role", "start"); ("component", "c")] [el "bindParam" [("name", "d"); ("value", "2s")] []]]]].
Definition checkOf (X : Player.ext) (w h : Z) (r : pres unit) : bool :=
  match r with POk _ s => rulesOwnb (p_graph s) && calmb (docOf (p_graph s) X) && calmInitb (docOf (p_graph s) X) (stOf (p_graph s) w h) | _ => false end.
Lemma docCalm_check fo w h : checkOf noext (Zpos w) (Zpos h) (parse env0 30 id fo 0 (Zpos w) (Zpos h) docCalm) = true.
Proof. vm_compute. reflexivity. Qed.
Lemma parse_sizes E k addr fo z w h x s : parse E k addr fo z w h x = POk tt s -> exists w' h', w = Zpos w' /\ h = Zpos h'.
Proof.
  unfold parse. destruct w as [|w|w]; [intros H; discriminate H| |intros H; discriminate H].
  destruct h as [|h|h]; [intros H; discriminate H| |intros H; discriminate H]. intros _. by exists w, h.
Qed.
Lemma docCalm_calm : calmParse env0 30 id noext docCalm.
Proof.
  intros fo w h s H. destruct (parse_sizes _ _ _ _ _ _ _ _ _ H) as (w' & h' & -> & ->).
  pose proof (docCalm_check fo w' h') as C. rewrite H in C. clear H. unfold checkOf in C.
  apply andb_true_iff in C as [C C3]. apply andb_true_iff in C as [C1 C2]. split; [by apply rulesOwnb_ok|]. by split.
Qed.
(** It is started, plays, and the anchor starts the context and the media of the link. *)
Definition occId (f : fmt) (i : string) : bool :=
  match f_doc f with Some (D, s) => existsb (fun x => String.eqb (ob_id (snd x)) i && bool_decide (evState s (ob_lambda (snd x)) = OCCURRING)) (map_to_list (d_obj D)) | None => false end.
Definition readId (f : fmt) (i k : string) : option string :=
  match f_doc f with Some (D, s) => match List.filter (fun x => String.eqb (ob_id (snd x)) i) (map_to_list (d_obj D)) with x :: _ => readProp s (fst x) k | [] => None end | None => None end.
Definition init1 : fmt := mkF false None false "" 800 600.
Definition runP : option (list bool * option string) :=
  match fstart 40 (fileOf env0 30 id noext docCalm) init1 with Ok true f1 =>
  match ftick 40 0 f1 with Ok true f2 =>
  match ftick 40 1500000000 f2 with Ok true f3 =>
  match ftick 40 1 f3 with Ok true f4 =>
  match fkey 40 "RED" true f4 with Ok _ f5 =>
    Some (map (occId f4) ["a"; "b"; "c"; "d"] ++ map (occId f5) ["a"; "b"; "c"; "d"], readId f5 "__settings__" "lang")
  | _ => None end | _ => None end | _ => None end | _ => None end | _ => None end.
Example C34_parsed_nonvacuous : settingsPlain docCalm /\ calmParse env0 30 id noext docCalm /\
  runP = Some ([true; true; true; true; true; true; false; false], Some "en").
Proof. split; [apply plainb_ok; vm_compute; reflexivity|]. split; [exact docCalm_calm|vm_compute; reflexivity]. Qed.

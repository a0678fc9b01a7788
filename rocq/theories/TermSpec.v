(** TermSpec.v -- what can trigger what (C11). *)
From Verif Require Export InterSpec.
From stdpp Require Export relations.
Open Scope string_scope.
Open Scope list_scope.

(** A node of the trigger graph: a transition of an event. *)
Notation node := (eid * trans)%type.
Inductive causes (D : doc) : node -> node -> Prop :=
  | ca_link c cb conds acts k x :       (* a link: condition [k], action [x], which is not
                                           always delayed *)
      d_obj D !! c = Some cb -> (conds, acts) ∈ ob_links cb -> k ∈ conds -> x ∈ acts ->
      (exists s, immediate D s x = true) ->
      causes D (ac_evt k, ac_tr k) (ac_evt x, ac_tr x)
  | ca_echo a b :                       (* from a component of a switch to its port *)
      isEcho D a b -> causes D (ac_evt a, ac_tr a) (ac_evt b, ac_tr b)
  | ca_hold e ev ob t o mb e' ev' :     (* pausing or resuming an object pauses or resumes
                                           the anchors of the media in it *)
      t = PAUSE \/ t = RESUME -> d_evt D !! e = Some ev -> d_obj D !! ev_obj ev = Some ob ->
      isLambda ev = true \/ ob_kind ob = KSwitch ->
      inside D (ev_obj ev) o -> d_obj D !! o = Some mb -> is_media (ob_kind mb) = true ->
      e' ∈ ob_events mb -> d_evt D !! e' = Some ev' -> ev_type ev' = PRESENTATION -> isLambda ev' = false ->
      causes D (e, t) (e', t).
(** No trigger cycle at all. *)
Definition noCycle (D : doc) : Prop := forall y, ~ tc (causes D) y y.
(** No trigger cycle can be reached from transition [x]. *)
Definition acyclicFrom (D : doc) (x : node) : Prop :=
  forall y, rtc (causes D) x y -> ~ tc (causes D) y y.

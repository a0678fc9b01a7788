(** LinkSpec.v -- what links are supposed to do: which links fire when an action
    has succeeded, and the tree of actions (the cascade) it causes. *)
From Verif Require Export PredSpec.
Open Scope string_scope.
Open Scope list_scope.

(** The contexts whose links react to action [a], in state [s]. *)
Inductive listens (D : doc) (s : st) (a : action) : oid -> Prop :=
  | ls_parent ev ob p pb :           (* the parent context, if it occurs *)
      d_evt D !! ac_evt a = Some ev -> d_obj D !! ev_obj ev = Some ob ->
      ob_parent ob = Some p -> d_obj D !! p = Some pb -> ob_kind pb = KContext ->
      evState s (ob_lambda pb) = OCCURRING ->
      listens D s a p
  | ls_grand ev ob p pb g gb port pe :  (* the parent of that context, through a port *)
      d_evt D !! ac_evt a = Some ev -> d_obj D !! ev_obj ev = Some ob ->
      ob_parent ob = Some p -> d_obj D !! p = Some pb -> ob_kind pb = KContext ->
      evState s (ob_lambda pb) = OCCURRING ->
      ob_parent pb = Some g -> d_obj D !! g = Some gb -> ob_kind gb = KContext ->
      evState s (ob_lambda gb) = OCCURRING ->
      port ∈ ob_ports pb -> d_evt D !! port = Some pe -> ev_obj pe = ev_obj ev ->
      listens D s a g
  | ls_self ev ob :                  (* the context itself *)
      d_evt D !! ac_evt a = Some ev -> d_obj D !! ev_obj ev = Some ob ->
      ob_kind ob = KContext ->
      listens D s a (ev_obj ev)
  | ls_alias ev ob i c cb :          (* contexts in which the object has an alias *)
      d_evt D !! ac_evt a = Some ev -> d_obj D !! ev_obj ev = Some ob ->
      ob_kind ob <> KContext -> (i, Some c) ∈ ob_aliases ob ->
      d_obj D !! c = Some cb -> ob_kind cb = KContext ->
      listens D s a c.

(** A link of a context, with one of its conditions. *)
Record firing : Type := mkFiring { f_ctx : oid; f_conds : list action; f_acts : list action; f_cond : action }.
(** Condition [f_cond f] is satisfied by the success of [a], in state [s]. *)
Definition satisfied (D : doc) (s : st) (a : action) (f : firing) : Prop :=
  listens D s a (f_ctx f) /\ o_links_on (ostOf s (f_ctx f)) = true /\
  (exists cb, d_obj D !! f_ctx f = Some cb /\ (f_conds f, f_acts f) ∈ ob_links cb) /\
  f_cond f ∈ f_conds f /\ ac_evt (f_cond f) = ac_evt a /\ ac_tr (f_cond f) = ac_tr a /\
  holdsOpt D s (ac_pred (f_cond f)).

(** The delay of an action: a time, or a reference to a property that holds one. *)
Definition delayOf (D : doc) (s : st) (x : action) : option N :=
  match try_parse_time (valueOf (evalPropertyRef D s) (ac_delay x)) with TOk d => Some d | _ => None end.
Definition immediate (D : doc) (s : st) (x : action) : bool :=
  match delayOf D s x with Some d => ((d =? 0) || (d =? TIME_NONE))%N | None => false end.
(** The queue entry of a delayed action of context [c]. *)
Definition entry (D : doc) (s : st) (c : oid) (x : action) : action * N :=
  (mkAct (ac_evt x) (ac_tr x) None (ac_value x) "" "",
   tadd (o_time (ostOf s c)) (default 0%N (delayOf D s x))).

(** [s'] is [s] except for actions added to queues. *)
Record sameButQueues (s s' : st) : Prop := mkSame {
  sq_ev : s_ev s' = s_ev s;
  sq_ob : forall o, os_set_delayed [] (ostOf s' o) = os_set_delayed [] (ostOf s o);
  sq_focus : s_focus s' = s_focus s; sq_next : s_next s' = s_next s;
  sq_w : s_w s' = s_w s; sq_h : s_h s' = s_h s;
  sq_log : exists h, s_log s' = h ++ s_log s /\ forall x, x ∈ h -> exists o a d, x = OSched o a d }.

(** The cascade of an action: the action, whether it succeeded, and what it caused.
    s0: state when it begins; s1: when its transition is done; s2: when links are
    looked at (differs from s1 only if the parent is a switch, which first echoes
    the action on its ports); s3: when the delayed actions have been queued. *)
Inductive tree : Type :=
  Node (a : action) (ok : bool) (s0 s1 s2 s3 : st) (echoes subs : list tree).
Definition root (t : tree) : action := match t with Node a _ _ _ _ _ _ _ => a end.

(** [Cascade D s ts s']: the cascades [ts] are carried out one after the other, from
    [s] to [s'], each one completely before the next one begins. *)
Inductive Cascade (D : doc) : st -> list tree -> st -> Prop :=
  | C_nil s : Cascade D s [] s
  | C_fail n a s s1 ts s' :
      attempt D (tr D n) a s = Ok false s1 ->
      Cascade D s1 ts s' ->
      Cascade D s (Node a false s s1 s1 s1 [] [] :: ts) s'
  | C_ok n a s s1 s2 s3 s4 echoes subs ts s' :
      attempt D (tr D n) a s = Ok true s1 ->
      Cascade D s1 echoes s2 ->
      sameButQueues s2 s3 ->
      Cascade D s3 subs s4 ->
      Cascade D s4 ts s' ->
      Cascade D s (Node a true s s1 s2 s3 echoes subs :: ts) s'.

(** Node [n] belongs to cascade [t]. *)
Inductive within (n : tree) : tree -> Prop :=
  | w_here : within n n
  | w_sub a ok s0 s1 s2 s3 echoes subs t :
      t ∈ echoes \/ t ∈ subs -> within n t -> within n (Node a ok s0 s1 s2 s3 echoes subs).

(** The echo of an action on the port of a switch. *)
Definition isEcho (D : doc) (a b : action) : Prop :=
  exists ev ob p pb name mapped m me le,
    d_evt D !! ac_evt a = Some ev /\ d_obj D !! ev_obj ev = Some ob /\ ob_parent ob = Some p /\
    d_obj D !! p = Some pb /\ ob_kind pb = KSwitch /\ (name, mapped) ∈ ob_swports pb /\ m ∈ mapped /\
    d_evt D !! m = Some me /\ ev_obj me = ev_obj ev /\ ac_evt b ∈ ob_events pb /\
    d_evt D !! ac_evt b = Some le /\ ev_type le = PRESENTATION /\ ev_id le = name /\ ac_tr b = ac_tr a.

(** ** The three properties of a node. *)
(** Whatever follows was caused by a satisfied link, or is an echo. *)
Definition sound (D : doc) (n : tree) : Prop :=
  match n with Node a ok s0 s1 s2 s3 echoes subs =>
    (ok = false -> echoes = [] /\ subs = []) /\
    (forall t, t ∈ echoes -> isEcho D a (root t)) /\
    (forall t, t ∈ subs -> exists f, satisfied D s2 a f /\ root t ∈ f_acts f /\ immediate D s2 (root t) = true) /\
    (forall c ax, ax ∈ o_delayed (ostOf s3 c) -> ax ∈ o_delayed (ostOf s2 c) \/
       exists f x, satisfied D s2 a f /\ f_ctx f = c /\ x ∈ f_acts f /\ immediate D s2 x = false /\ ax = entry D s2 c x)
  end.
(** Every action of every satisfied link follows, at once or in the queue. *)
Definition complete (D : doc) (n : tree) : Prop :=
  match n with Node a ok s0 s1 s2 s3 echoes subs =>
    ok = true -> forall f x, satisfied D s2 a f -> x ∈ f_acts f ->
      if immediate D s2 x then exists t, t ∈ subs /\ root t = x
      else entry D s2 (f_ctx f) x ∈ o_delayed (ostOf s3 (f_ctx f))
  end.
(** The immediate actions come link by link, in document order within a link, and
    the delayed actions are queued in exactly the opposite order. *)
Definition ordered (D : doc) (n : tree) : Prop :=
  match n with Node a ok s0 s1 s2 s3 echoes subs =>
    exists fs, (forall f, f ∈ fs -> satisfied D s2 a f) /\
      map root subs = concat (map (fun f => List.filter (immediate D s2) (f_acts f)) fs) /\
      forall c, o_delayed (ostOf s3 c) = o_delayed (ostOf s2 c) ++
        rev (map (entry D s2 c) (concat (map (fun f => List.filter (fun x => negb (immediate D s2 x)) (f_acts f))
               (List.filter (fun f => bool_decide (f_ctx f = c)) fs))))
  end.

(** ** Switch ports.
    The names of the ports of switch [pb] on which an action on object [o], a component
    of the switch, is repeated: one for each mapping to [o], in document order. *)
Definition mappedTo (D : doc) (o : oid) (m : eid) : bool :=
  match d_evt D !! m with Some me => bool_decide (ev_obj me = o) | None => false end.
Definition repeatedOn (D : doc) (o : oid) (ports : list (string * list eid)) : list string :=
  concat (map (fun sp => map (fun _ => fst sp) (List.filter (mappedTo D o) (snd sp))) ports).
(** Action [b] is action [a], on the port of that name. *)
Definition portEcho (D : doc) (pb : obj) (a : action) (name : string) (b : action) : Prop :=
  ac_evt b ∈ ob_events pb /\
  (exists le, d_evt D !! ac_evt b = Some le /\ ev_type le = PRESENTATION /\ ev_id le = name) /\
  ac_tr b = ac_tr a /\ ac_pred b = ac_pred a /\ ac_value b = ac_value a /\ ac_dur b = ac_dur a /\ ac_delay b = ac_delay a.
(** A successful action on a component of a switch is repeated on the ports of the
    switch that are mapped to the component, and on no other; an action on anything else
    is not repeated. *)
Definition echoed (D : doc) (n : tree) : Prop :=
  match n with Node a ok s0 s1 s2 s3 echoes subs =>
    ok = true -> forall ev ob, d_evt D !! ac_evt a = Some ev -> d_obj D !! ev_obj ev = Some ob ->
    (forall p pb, ob_parent ob = Some p -> d_obj D !! p = Some pb -> ob_kind pb = KSwitch -> ob_parent pb <> None ->
       Forall2 (fun name t => portEcho D pb a name (root t)) (repeatedOn D (ev_obj ev) (ob_swports pb)) echoes) /\
    ((forall p pb, ob_parent ob = Some p -> d_obj D !! p = Some pb -> ob_kind pb <> KSwitch) -> echoes = [])
  end.

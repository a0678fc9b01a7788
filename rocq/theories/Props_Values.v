(** Props_Values.v -- C31 (parameters of links) and C32 (nested regions).
    Vocabulary: ValuesSpec.v. *)
From Verif Require Import ParseSpec FactsValues ValuesSpec Parser ParseDoc.
Open Scope string_scope.
Open Scope list_scope.

(** C31.  An attribute of a connector denotes itself if it is no reference; otherwise the
    parameter of that name the bind gives or, failing that, the link gives, and the property
    bound to that role if this is again a reference; the empty string if there is none. *)
Theorem C31_parameters : forall binds links props ref v,
  denotes (fun n => sget n binds) (fun n => sget n links) (fun n => sget n props) ref v <-> resolveParameter ref binds links props = v.
Proof. exact f_C31. Qed.
Print Assumptions C31_parameters.
Example C31_nonvacuous :
  denotes (fun n => sget n [("d", "3s")]) (fun n => sget n [("d", "4s"); ("e", "$get"); ("f", "$no")]) (fun n => sget n [("get", "$m.top")]) "$d" "3s" /\
  denotes (fun n => sget n [("d", "3s")]) (fun n => sget n [("d", "4s"); ("e", "$get"); ("f", "$no")]) (fun n => sget n [("get", "$m.top")]) "$e" "$m.top" /\
  denotes (fun n => sget n [("d", "3s")]) (fun n => sget n [("d", "4s"); ("e", "$get"); ("f", "$no")]) (fun n => sget n [("get", "$m.top")]) "$f" "$no" /\
  denotes (fun n => sget n [("d", "3s")]) (fun n => sget n [("d", "4s"); ("e", "$get"); ("f", "$no")]) (fun n => sget n [("get", "$m.top")]) "$x" "" /\
  denotes (fun n => sget n [("d", "3s")]) (fun n => sget n [("d", "4s"); ("e", "$get"); ("f", "$no")]) (fun n => sget n [("get", "$m.top")]) "x" "x".
Proof. repeat split; apply C31_parameters; vm_compute; reflexivity. Qed.

(** C32 (partial).  A region given by whole percentages, with its size and one side of each
    axis, the two adding up to at most 100%, lies in the rectangle of its parent up to one
    pixel, and entirely if the sizes of the parent are multiples of 100.
    [regionRect odd par a] is the rectangle the parser computes from the attributes [a] in the
    rectangle [par]; [pushRegion] makes it the rectangle in which inner regions are placed. *)
Theorem C32_region_in_parent_partial : forall odd par a s r s',
  (0 <= r_w par <= 2147483647)%Z -> (0 <= r_h par <= 2147483647)%Z ->
  forall side1 side2 l w t h,
  (side1 = "left" /\ sget "right" a = None \/ side1 = "right" /\ sget "left" a = None) ->
  (side2 = "top" /\ sget "bottom" a = None \/ side2 = "bottom" /\ sget "top" a = None) ->
  pct side1 a l -> pct "width" a w -> pct side2 a t -> pct "height" a h -> (l + w <= 100)%N -> (t + h <= 100)%N ->
  regionRect odd par a s = POk r s' -> insideBy 1 r par /\ ((r_w par mod 100 = 0)%Z -> (r_h par mod 100 = 0)%Z -> insideBy 0 r par).
Proof. exact f_C32_ok. Qed.
Print Assumptions C32_region_in_parent_partial.
Theorem C32_pushed : forall E e s e' s' par, head (p_rects s) = Some par -> pushRegion E e s = POk e' s' ->
  exists r s1, regionRect (pe_odd E) par (el_attrs e) s = POk r s1 /\ p_rects s' = r :: p_rects s.
Proof. exact f_C32_pushed. Qed.
Print Assumptions C32_pushed.
Definition at100 (a : smapT) : pres rect := regionRect (fun _ => 0%Z) (mkRect 10 0 100 101) a (initial id "" 0 800 600).
Example C32_nonvacuous : exists r s', at100 [("height", "50%"); ("right", "20%"); ("top", "50%"); ("width", "30%")] = POk r s' /\ r = mkRect 60 51 30 51.
Proof. eexists _, _. split; [vm_compute; reflexivity|reflexivity]. Qed.
(** Refuted in general: a region without width keeps that of its parent, wherever it starts,
    and one whose left, width and right add up to exactly 100% may lie outside its parent. *)
Theorem C32_refuted :
  (exists r s', at100 [("left", "25%")] = POk r s' /\ r_x r = 35%Z /\ (r_x r + r_w r = 10 + 100 + 25)%Z) /\
  (exists r s', at100 [("left", "60%"); ("right", "20%"); ("width", "20%")] = POk r s' /\ (10 + 100 < r_x r)%Z).
Proof. exact w_C32. Qed.
Print Assumptions C32_refuted.

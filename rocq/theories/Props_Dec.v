(** Props_Dec.v -- C26 for decimal literals, and C46: integers and booleans.
    Vocabulary: ParseSpec.v, DecSpec.v. *)
From Verif Require Import DecSpec Num DecFacts.
From Coq Require Import Lqa.
Open Scope string_scope.
Open Scope list_scope.

(** C26.  A decimal literal, with fraction and exponent, is read as the number of seconds it
    denotes, up to one nanosecond and the rounding of the machine's numbers (2^-51).  Missing:
    numbers over 292 years and positive ones under 2^-900. *)
Theorem C26_decimals_partial : forall s q,
  decimalOf s q -> (q == 0 \/ 1 # 2 ^ 900 <= q)%Q -> (q * 1000000000 <= 9223372036854775808)%Q ->
  exists t, try_parse_time (s ++ "s") = TOk t /\ try_parse_time s = TOk t /\
    (Qabs (inject_Z (Z.of_N t) - q * 1000000000) <= 1 + q * 1000000000 * (1 # 2251799813685248))%Q.
Proof. exact f_C26_decimal. Qed.
Print Assumptions C26_decimals_partial.
Example C26_decimals_nonvacuous : decimalOf "12.50e-1" (5 # 4) /\ try_parse_time "12.50e-1s" = TOk 1250000000 /\ decimalOf ("3." ++ "e+2") 300.
Proof.
  split; [|split; [vm_compute; reflexivity|]].
  - exists [1; 2]%N, ".50", [5; 0]%N, "e-1", (-1)%Z. split; [split; [discriminate|repeat constructor]|]. split; [split; [repeat constructor|right; reflexivity]|]. split; [|split; [reflexivity|vm_compute; reflexivity]].
    right. exists "e", "-", [1]%N. split; [by left|]. split; [split; [discriminate|repeat constructor]|]. split; [reflexivity|]. right. split; reflexivity.
  - exists [3]%N, ".", [], "e+2", 2%Z. split; [split; [discriminate|repeat constructor]|]. split; [split; [constructor|right; reflexivity]|]. split; [|split; [reflexivity|vm_compute; reflexivity]].
    right. exists "e", "+", [2]%N. split; [by left|]. split; [split; [discriminate|repeat constructor]|]. split; [reflexivity|]. left. split; [by right|reflexivity].
Qed.

(** C46.  An integer property value is the integer at its start, brought into the range of
    int; a value with no integer at its start is the one case of failure. *)
Theorem C46_integer : forall s z, free NUL s -> integerAt s z -> xstrtoint s = Some (Z.max (-2147483648) (Z.min 2147483647 z)).
Proof. exact f_integer. Qed.
Print Assumptions C46_integer.
Theorem C46_integer_failure : forall s, free NUL s -> xstrtoint s = None <-> forall z, ~ integerAt s z.
Proof. exact f_integer_only. Qed.
Print Assumptions C46_integer_failure.
(** A boolean is the word true or false, in any case, and nothing else. *)
Theorem C46_boolean : forall s b, free NUL s -> try_parse_bool s = Some b <-> sameWord s (if b then "true" else "false").
Proof. exact f_boolean. Qed.
Print Assumptions C46_boolean.
Example C46_nonvacuous : integerAt " -007px" (-7) /\ xstrtoint " -007px" = Some (-7)%Z /\ xstrtoint "99999999999999999999" = Some 2147483647%Z /\ xstrtoint "-2147483649" = Some (-2147483648)%Z /\
  xstrtoint "- 1" = None /\ sameWord "FaLsE" "false" /\ try_parse_bool "FaLsE" = Some false /\ try_parse_bool "true " = None.
Proof.
  split.
  { exists " ", "-", [0; 0; 7]%N, "px". split; [reflexivity|]. split; [repeat constructor|]. split; [split; [discriminate|repeat constructor]|]. split; [intros c r [= <- _] H; vm_compute in H; destruct H as [_ H]; by apply H|]. right. split; reflexivity. }
  do 4 (split; [vm_compute; reflexivity|]). split; [|split; vm_compute; reflexivity].
  repeat (apply List.Forall2_cons; [first [by left|right; left; split; [reflexivity|split; vm_compute; discriminate]]|]). constructor.
Qed.

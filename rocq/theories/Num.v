(** Num.v -- decimal literals, binary64 rounding, time and percent parsing. *)
From Verif Require Export Str.
Open Scope string_scope.

(** ** strtod on decimal literals.
    C's [strtod] (used through g_strtod / g_ascii_strtod): leading isspace
    characters, sign, digits with an optional point, optional exponent; returns
    0 with the end pointer at the start when there is no number.
    Simplifications: the C locale is assumed; "inf", "nan" and hexadecimal
    literals are outside the model ([LUnmodelled]). *)

(** isspace() in the C locale (includes \v, unlike g_ascii_isspace). *)
Definition c_isspace (c : ascii) : bool :=
  let n := N_of_ascii c in (N.eqb n 32 || (N.leb 9 n && N.leb n 13))%N.
Definition digit_val (c : ascii) : option N :=
  let n := N_of_ascii c in
  if (N.leb 48 n && N.leb n 57)%N then Some (n - 48)%N else None.

Fixpoint skip_space (s : string) : string :=
  match s with
  | String c s' => if c_isspace c then skip_space s' else s
  | EmptyString => EmptyString
  end.

(** Read a maximal run of digits: accumulated value, number of digits, rest. *)
Fixpoint read_digits (acc : N) (cnt : N) (s : string) : N * N * string :=
  match s with
  | String c s' => match digit_val c with
                   | Some d => read_digits (acc * 10 + d) (cnt + 1) s'
                   | None => (acc, cnt, s)
                   end
  | EmptyString => (acc, cnt, s)
  end.

Inductive lit : Type :=
  | LNum (neg : bool) (num : N) (den : positive) (rest : string)  (* exact value +-num/den *)
  | LNone                                                         (* no number at the start *)
  | LUnmodelled.

Definition read_sign (s : string) : bool * string :=
  match s with
  | String "-" s' => (true, s')
  | String "+" s' => (false, s')
  | _ => (false, s)
  end.

(** An exponent part is consumed only if it contains at least one digit. *)
Definition read_exp (s : string) : Z * string :=
  match s with
  | String c s' =>
    if (Ascii.eqb c "e" || Ascii.eqb c "E")%char then
      let '(neg, s1) := read_sign s' in
      let '(v, n, s2) := read_digits 0 0 s1 in
      if N.eqb n 0 then (0%Z, s)
      else ((if neg then - Z.of_N v else Z.of_N v)%Z, s2)
    else (0%Z, s)
  | EmptyString => (0%Z, s)
  end.

Definition special_start (s : string) : bool :=
  match s with
  | String c s' =>
    let l := tolower c in
    (Ascii.eqb l "i" && match s' with String d _ => Ascii.eqb (tolower d) "n" | _ => false end)
    || (Ascii.eqb l "n" && match s' with String d _ => Ascii.eqb (tolower d) "a" | _ => false end)
    || (Ascii.eqb c "0" && match s' with String d _ => Ascii.eqb (tolower d) "x" | _ => false end)
  | EmptyString => false
  end%char.

Definition pow10N (n : N) : N := (10 ^ n)%N.
Definition pow10P (n : N) : positive := match (10 ^ n)%N with N0 => 1 | Npos p => p end.

Definition strtod (s0 : string) : lit :=
  let s := skip_space s0 in
  let '(neg, s1) := read_sign s in
  if special_start s1 then LUnmodelled
  else
    let '(v1, n1, s2) := read_digits 0 0 s1 in
    let '(v2, n2, s3) :=
      match s2 with
      | String "." s2' => let '(v, n, r) := read_digits v1 0 s2' in
                          if (N.eqb n1 0 && N.eqb n 0)%N then (v1, 0%N, s2) else (v, n, r)
      | _ => (v1, 0%N, s2)
      end in
    if (N.eqb n1 0 && N.eqb n2 0)%N then LNone
    else
      let '(e, s4) := read_exp s3 in
      let x := (e - Z.of_N n2)%Z in
      if (0 <=? x)%Z then LNum neg (v2 * pow10N (Z.to_N x))%N 1 s4
      else LNum neg v2 (pow10P (Z.to_N (- x))) s4.

(** ** Rounding a non-negative rational n/d to binary64, ties to even.
    The result is again a rational (m * 2^e).  Overflow to infinity is not
    represented: a value above the binary64 range stays a huge rational, and is
    only ever compared against 2^63/2^64 below, where infinity behaves alike. *)
Definition div_even (a : N) (b : positive) : N :=
  let q := (a / Npos b)%N in
  let r := (a mod Npos b)%N in
  match (2 * r ?= Npos b)%N with
  | Lt => q
  | Gt => (q + 1)%N
  | Eq => if N.even q then q else (q + 1)%N
  end.
Definition pow2P (e : Z) : positive := match (2 ^ Z.to_N e)%N with N0 => 1 | Npos p => p end.
(** n/(d*2^e) rounded to an integer m, returned as the rational m*2^e. *)
Definition round_at (e : Z) (n : N) (d : positive) : N * positive :=
  if (0 <=? e)%Z then ((div_even n (d * pow2P e) * 2 ^ Z.to_N e)%N, 1%positive)
  else (div_even (n * 2 ^ Z.to_N (- e)) d, pow2P (- e)).
Definition f64_exp (n : N) (d : positive) : Z :=
  let e0 := (Z.of_N (N.log2 n) - Z.of_N (N.log2 (Npos d)) - 52)%Z in
  (* is n/d < 2^52 * 2^e0 ? *)
  let small := if (0 <=? e0)%Z then (n <? Npos d * 2 ^ (52 + Z.to_N e0))%N
               else (n * 2 ^ Z.to_N (- e0) <? Npos d * 2 ^ 52)%N in
  Z.max (-1074) (if small then e0 - 1 else e0)%Z.
Definition f64 (n : N) (d : positive) : N * positive :=
  match n with
  | N0 => (0%N, 1%positive)
  | _ => round_at (f64_exp n d) n d
  end.

(** ** Signed binary64 values, as rationals z/d.  Every arithmetic operation
    rounds its exact result. *)
Definition fl : Type := (Z * positive)%type.
Definition rnd (x : fl) : fl :=
  let '(n, d) := f64 (Z.abs_N (fst x)) (snd x) in ((Z.sgn (fst x) * Z.of_N n)%Z, d).
Definition fmul (x y : fl) : fl := rnd ((fst x * fst y)%Z, (snd x * snd y)%positive).
Definition fadd (x y : fl) : fl :=
  rnd ((fst x * Zpos (snd y) + fst y * Zpos (snd x))%Z, (snd x * snd y)%positive).
Definition fdiv100 (x : fl) : fl := rnd (fst x, (snd x * 100)%positive).
Definition fint (z : Z) : fl := (z, 1%positive).
Definition ftrunc (x : fl) : Z := Z.quot (fst x) (Zpos (snd x)).
(** lround: nearest integer, halves away from zero. *)
Definition flround (x : fl) : Z :=
  (Z.sgn (fst x) * ((2 * Z.abs (fst x) + Zpos (snd x)) / (2 * Zpos (snd x))))%Z.

(** strtod as a value and the unparsed rest; when no number starts the string
    the value is 0 and nothing is consumed. *)
Definition strtod_val (s : string) : option (fl * string) :=
  match strtod s with
  | LNum neg n d r => Some (rnd ((if neg then - Z.of_N n else Z.of_N n)%Z, d), r)
  | LNone => Some (fint 0, s)
  | LUnmodelled => None
  end.

(** ** try_parse_time, aux-ginga.cpp:193-229. *)
Inductive tres : Type :=
  | TOk (t : N)
  | TFail          (* returns false *)
  | TUB            (* double -> guint64 cast out of range, line 223 *)
  | TUnmodelled.   (* inf / nan / hexadecimal literal *)

(** (Time)(secs * GINGA_SECOND), line 223. *)
Definition to_time (secs : fl) : tres :=
  let q := ftrunc (fmul secs (fint 1000000000)) in
  if ((0 <=? q) && (q <? 18446744073709551616))%Z then TOk (Z.to_N q) else TUB.

Definition try_parse_time (s : string) : tres :=
  let dup := chomp (cstr s) in
  match strtod_val dup with
  | None => TUnmodelled
  | Some (secs, e) =>
    if (is_empty e || String.eqb e "s")%bool then to_time secs          (* 205-206 *)
    else match e with
    | String ":" e1 =>                                                  (* 208-211 *)
      match strtod_val e1 with
      | None => TUnmodelled
      | Some (m, e2) =>
        let secs2 := fadd (fmul (fint 3600) secs) (fmul (fint 60) m) in (* 212 *)
        match e2 with
        | String ":" e3 =>                                              (* 213-216 *)
          match strtod_val e3 with
          | None => TUnmodelled
          | Some (x, e4) =>
            if is_empty e4 then to_time (fadd secs2 x) else TFail       (* 217-219 *)
          end
        | _ => TFail
        end
      end
    | _ => TFail
    end
  end.

(** parse_time, aux-ginga.cpp:231-243: ERROR on failure. *)
Definition parse_time {S} (s : string) : M S N :=
  match try_parse_time s with
  | TOk t => ret t
  | TFail => crashm (CError "aux-ginga.cpp:243 parse_time")
  | TUB => crashm (CUB "aux-ginga.cpp:223 cast")
  | TUnmodelled => crashm (CUB "unmodelled numeral")
  end.

(** try_parse_bool / parse_bool, aux-ginga.cpp:71-88, 241. *)
Definition try_parse_bool (s : string) : option bool :=
  if xstrcaseeq s "true" then Some true
  else if xstrcaseeq s "false" then Some false else None.

(** ** parse_percent / parse_pixel, aux-ginga.cpp:271-299, 430-445. *)
(** (int) of a long: two's complement wrap (implementation-defined in C++). *)
Definition to_int (z : Z) : Z :=
  let m := (z mod 4294967296)%Z in if (m <? 2147483648)%Z then m else (m - 4294967296)%Z.
Definition clamp (x lo hi : Z) : Z :=           (* glib CLAMP *)
  if (x >? hi)%Z then hi else if (x <? lo)%Z then lo else x.
(** [odd s] is (int) lround of what strtod makes of a literal outside the decimal
    grammar (inf, nan, hexadecimal): left arbitrary. *)
Definition parse_percent (odd : string -> Z) (s : string) (base lo hi : Z) : Z :=
  let result := match strtod_val (cstr s) with
                | None => to_int (odd s)
                | Some (x, String "%" _) => to_int (flround (fmul (fdiv100 x) (fint base)))
                | Some (x, _) => to_int (flround x)
                end in
  clamp result lo hi.
Definition parse_pixel (odd : string -> Z) (s : string) : Z := parse_percent odd s 255 0 255.

(** ** xstrtoint, aux-ginga.cpp:332-346, 380-388: g_ascii_strtoll base 10 saturating
    to 64 bits, assertion when nothing was parsed ([None]), clamp to int. *)
Fixpoint skip_gspace (s : string) : string :=
  match s with
  | String c s' => if g_isspace c then skip_gspace s' else s
  | EmptyString => EmptyString
  end.
Definition strtoll10 (s : string) : option Z :=
  let '(neg, s1) := read_sign (skip_gspace (cstr s)) in
  let '(v, n, _) := read_digits 0 0 s1 in
  if N.eqb n 0 then None
  else Some (clamp (if neg then - Z.of_N v else Z.of_N v)
                   (-9223372036854775808) 9223372036854775807)%Z.
Definition xstrtoint (s : string) : option Z :=
  match strtoll10 s with
  | None => None
  | Some x => Some (clamp x (-2147483648) 2147483647)
  end.

(** ** Lists and tables, aux-ginga.cpp:120-185. *)
Definition try_parse_list (s : string) (sep : ascii) (mn mx : nat) : option (list string) :=
  let items := xstrsplit s sep in
  let n := List.length items in
  if (Nat.ltb n mn || Nat.ltb mx n)%bool then None else Some (map xstrstrip items).

Inductive tabres : Type := TabOk (m : list (string * string)) | TabFail | TabUB.

Definition quoted (v : string) : bool :=
  match v, str_back v with
  | String a _, Some b => (Ascii.eqb a "'" && Ascii.eqb b "'")
                          || (Ascii.eqb a """" && Ascii.eqb b """")
  | _, _ => false
  end%char%bool.

(** One iteration of the loop 162-181. [front()] of an empty string is UB (175). *)
Definition table_item (it : string) : option (option (string * string)) :=
  match try_parse_list it "=" 2 2 with
  | Some [k; v] =>
    let key := xstrstrip k in
    let val := xstrstrip v in
    if is_empty val then None
    else if quoted val then Some (Some (key, str_inner val)) else Some None
  | _ => Some None
  end.
Fixpoint table_items (l : list string) (acc : list (string * string)) : tabres :=
  match l with
  | [] => TabOk (rev acc)
  | it :: l' => match table_item it with
                | None => TabUB
                | Some None => TabFail
                | Some (Some kv) => table_items l' (kv :: acc)
                end
  end.
(** The result lists the assignments tab[key]=val in order (later ones win). *)
Definition try_parse_table (s : string) : tabres :=
  let str := xstrstrip s in
  match str, str_back str with
  | String a _, Some b =>
    if (Ascii.eqb a "{" && Ascii.eqb b "}")%char%bool
    then table_items (xstrsplit (str_inner str) ",") []
    else TabFail
  | _, _ => TabUB                                       (* front() of "", line 158 *)
  end.

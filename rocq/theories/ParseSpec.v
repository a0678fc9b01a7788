(** ParseSpec.v -- what C24-C27 mean: characters, lists joined by a separator,
    white space, printed tables, decimal numerals.  Nothing here refers to the
    parsing functions of the model. *)
From Verif Require Export Base.
Open Scope string_scope.
Open Scope list_scope.

(** Characters of a string. *)
Definition chars (s : string) : list ascii := list_ascii_of_string s.
Definition free (c : ascii) (s : string) : Prop := ~ In c (chars s).
Definition NUL : ascii := "000"%char.

(** White space: blank, tab, newline, form feed, carriage return. *)
Definition white (c : ascii) : Prop :=
  In (N_of_ascii c) [32; 9; 10; 12; 13]%N.
Definition blank (s : string) : Prop := Forall white (chars s).
(** [t] is [s] without its leading and trailing white space. *)
Definition stripped (s t : string) : Prop :=
  exists l r, s = (l ++ t ++ r)%string /\ blank l /\ blank r /\
    (forall c u, t = String c u -> ~ white c) /\
    (forall c u, t = (u ++ String c "")%string -> ~ white c).

(** "a,b,c" *)
Definition sep_join (sep : ascii) (items : list string) : string :=
  String.concat (String sep "") items.

(** {k1='v1',k2='v2'} *)
Definition print_pair (kv : string * string) : string :=
  (fst kv ++ "='" ++ snd kv ++ "'")%string.
Definition print_table (t : list (string * string)) : string :=
  ("{" ++ sep_join "," (map print_pair t) ++ "}")%string.
(** Keys and values that a table can hold. *)
Definition plain (s : string) : Prop := free "," s /\ free "=" s /\ free NUL s.
Definition plain_pair (kv : string * string) : Prop :=
  plain (fst kv) /\ plain (snd kv) /\ stripped (fst kv) (fst kv).

(** Decimal numerals. *)
Definition digit (d : N) : ascii := ascii_of_N (48 + d).
Definition digits (ds : list N) : Prop := ds <> [] /\ Forall (fun d => d < 10)%N ds.
Definition numeral (ds : list N) : string := string_of_list_ascii (map digit ds).
Definition value (ds : list N) : N := fold_left (fun a d => 10 * a + d)%N ds 0%N.

(** The grammar of numbers: white space, sign, digits with an optional point, an
    optional exponent. *)
Definition isDigit (c : ascii) : Prop := (48 <= N_of_ascii c <= 57)%N.
Definition allDigits (s : string) : Prop := Forall isDigit (chars s).
Definition signStr (s : string) : Prop := s = "" \/ s = "+" \/ s = "-".
Definition cwhite (c : ascii) : Prop := In (N_of_ascii c) [32; 9; 10; 11; 12; 13]%N.
Definition exponent (s : string) : Prop :=
  s = "" \/
  exists e sg ds, (e = "e" \/ e = "E") /\ signStr sg /\ allDigits ds /\ ds <> "" /\ s = (e ++ sg ++ ds)%string.
Definition isNumber (s : string) : Prop :=
  exists w sg a b x, s = (w ++ sg ++ a ++ b ++ x)%string /\
    Forall cwhite (chars w) /\ signStr sg /\ exponent x /\ allDigits a /\
    (b = "" /\ a <> "" \/
     exists f, b = (String "." f) /\ allDigits f /\ (a <> "" \/ f <> "")).
Definition numberOrNothing (s : string) : Prop := s = "" \/ isNumber s.
(** The strings accepted as times. *)
Definition timeString (s : string) : Prop :=
  (exists a, numberOrNothing a /\ (s = a \/ s = (a ++ "s")%string)) \/
  (exists a b c, numberOrNothing a /\ numberOrNothing b /\ numberOrNothing c /\
     s = (a ++ ":" ++ b ++ ":" ++ c)%string).

(** Str.v -- byte strings: std::string helpers of lib/aux-ginga.cpp. *)
From Verif Require Export Base.
Open Scope string_scope.

(** std::string is a byte string; [c_str()] users stop at the first NUL. *)
Fixpoint cstr (s : string) : string :=
  match s with
  | EmptyString => EmptyString
  | String c s' => if Ascii.eqb c "000"%char then EmptyString else String c (cstr s')
  end.

(** s[0] on a C++ string: the NUL character when empty. *)
Definition char0 (s : string) : ascii :=
  match s with EmptyString => "000"%char | String c _ => c end.

(** std::string::operator< : lexicographic on unsigned bytes. *)
Definition str_lt (a b : string) : bool := String.ltb a b.
Definition str_le (a b : string) : bool := String.leb a b.

(** glib's g_ascii_isspace: space, \t, \n, \f, \r (not \v). *)
Definition g_isspace (c : ascii) : bool :=
  match N_of_ascii c with
  | 32%N | 9%N | 10%N | 12%N | 13%N => true
  | _ => false
  end.

Fixpoint chug (s : string) : string :=
  match s with
  | String c s' => if g_isspace c then chug s' else s
  | EmptyString => EmptyString
  end.
Definition srev (s : string) : string :=
  string_of_list_ascii (rev (list_ascii_of_string s)).
(** g_strchomp: drop trailing white space. *)
Definition chomp (s : string) : string := srev (chug (srev s)).
(** xstrstrip, aux-ginga.cpp:536-543 (g_strstrip = chug of chomp, on c_str). *)
Definition xstrstrip (s : string) : string := chug (chomp (cstr s)).

(** xstrsplit, aux-ginga.cpp:551-562: repeated std::getline.  [getline] yields a
    token for every separator met and one more for a non-empty remainder; an
    empty remainder yields nothing. *)
Fixpoint split_go (sep : ascii) (tok : string) (s : string) : list string :=
  match s with
  | EmptyString => match tok with EmptyString => [] | _ => [srev tok] end
  | String c s' => if Ascii.eqb c sep then srev tok :: split_go sep "" s'
                   else split_go sep (String c tok) s'
  end.
Definition xstrsplit (s : string) (sep : ascii) : list string := split_go sep "" s.

(** g_ascii_tolower / xstrcasecmp = 0, aux-ginga.cpp:453-457. *)
Definition tolower (c : ascii) : ascii :=
  let n := N_of_ascii c in
  if (N.leb 65 n && N.leb n 90)%N then ascii_of_N (n + 32) else c.
Fixpoint smap (f : ascii -> ascii) (s : string) : string :=
  match s with EmptyString => EmptyString | String c s' => String (f c) (smap f s') end.
Definition xstrcaseeq (a b : string) : bool :=
  String.eqb (smap tolower (cstr a)) (smap tolower (cstr b)).

(** xstrhasprefix, aux-ginga.cpp:465-469. *)
Definition xstrhasprefix (s p : string) : bool := String.prefix (cstr p) (cstr s).
(** xstrhassuffix, aux-ginga.cpp:477-481. *)
Definition xstrhassuffix (s p : string) : bool := String.prefix (srev (cstr p)) (srev (cstr s)).

(** Split at the first occurrence of a character (std::string::find + substr):
    [None] is npos. *)
Fixpoint find_char (c : ascii) (s : string) : option (string * string) :=
  match s with
  | EmptyString => None
  | String d s' => if Ascii.eqb d c then Some ("", s')
                   else match find_char c s' with
                        | Some (a, b) => Some (String d a, b)
                        | None => None
                        end
  end.

(** Split at the last occurrence (std::string::find_last_of). *)
Definition find_last_char (c : ascii) (s : string) : option (string * string) :=
  match find_char c (srev s) with
  | Some (a, b) => Some (srev b, srev a)
  | None => None
  end.

Definition is_empty (s : string) : bool := match s with EmptyString => true | _ => false end.
Fixpoint str_back (s : string) : option ascii :=
  match s with
  | EmptyString => None
  | String c EmptyString => Some c
  | String _ s' => str_back s'
  end.
(** std::string::substr(1, length-2) for a non-empty string: for length 1 the
    count wraps to a huge number and substr(1, huge) is "". *)
Definition str_inner (s : string) : string :=
  match s with
  | EmptyString => EmptyString
  | String _ s' => match s' with
                   | EmptyString => EmptyString
                   | _ => String.substring 0 (String.length s' - 1) s'
                   end
  end.

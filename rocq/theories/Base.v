(** Base.v -- characters, strings and the std string operations used by ftml.

    A Rust [char] is a Unicode scalar value, modelled as [N]; a Rust [&str]/[String] is the list of
    its characters.  Byte offsets are [nat]s computed from UTF-8 lengths.  Operations of [std] that
    panic return [None].  No file of /repo is modelled here, only the part of Rust's std library
    that the modelled code calls (std::str, std::char); each definition names the std item. *)
From Coq Require Export Ascii String.
From Coq Require Export List NArith Arith Lia Bool.
Export ListNotations.

Notation char := N (only parsing).
Notation str := (list N) (only parsing).

(** String literals: [lit "abc"]. *)
Fixpoint lit (s : String.string) : str :=
  match s with
  | String.EmptyString => []
  | String.String a s' => Ascii.N_of_ascii a :: lit s'
  end.
Arguments lit s%string.

(** [char::len_utf8]. *)
Definition utf8_len (c : char) : nat :=
  if (c <? 128)%N then 1 else if (c <? 2048)%N then 2 else if (c <? 65536)%N then 3 else 4.

(** [char::len_utf16]. *)
Definition utf16_len (c : char) : nat := if (c <? 65536)%N then 1 else 2.

(** [str::len]: length in bytes. *)
Fixpoint blen (s : str) : nat :=
  match s with [] => 0 | c :: s' => utf8_len c + blen s' end.

(** Number of UTF-16 code units of a string ([str::encode_utf16().count()]). *)
Fixpoint len16 (s : str) : nat :=
  match s with [] => 0 | c :: s' => utf16_len c + len16 s' end.

(** [str::split_at] / slicing: [None] when the offset is not a character boundary or is out of
    range (Rust panics). *)
Fixpoint bsplit (s : str) (off : nat) : option (str * str) :=
  match off with
  | 0 => Some ([], s)
  | _ => match s with
         | [] => None
         | c :: s' =>
             if off <? utf8_len c then None
             else match bsplit s' (off - utf8_len c) with
                  | Some (a, b) => Some (c :: a, b)
                  | None => None
                  end
         end
  end.

(** [&s[a..b]]. *)
Definition bslice (s : str) (a b : nat) : option str :=
  if b <? a then None else
  match bsplit s a with
  | Some (_, r) => match bsplit r (b - a) with Some (m, _) => Some m | None => None end
  | None => None
  end.

(** [String::replace_range(a..b, r)]. *)
Definition replace_range (s : str) (a b : nat) (r : str) : option str :=
  if b <? a then None else
  match bsplit s a with
  | Some (pre, rest) =>
      match bsplit rest (b - a) with
      | Some (_, post) => Some (pre ++ r ++ post)
      | None => None
      end
  | None => None
  end.

(** Equality of characters and strings. *)
Definition ceqb (a b : char) : bool := N.eqb a b.
Global Arguments ceqb : simpl never.
Fixpoint seqb (a b : str) : bool :=
  match a, b with
  | [], [] => true
  | x :: a', y :: b' => ceqb x y && seqb a' b'
  | _, _ => false
  end.

(** [char::is_whitespace] (Unicode White_Space), also the meaning of [\s] in the regex crate. *)
Definition is_ws (c : char) : bool :=
  ((9 <=? c) && (c <=? 13) || (c =? 32) || (c =? 133) || (c =? 160) || (c =? 5760)
   || (8192 <=? c) && (c <=? 8202) || (c =? 8232) || (c =? 8233) || (c =? 8239)
   || (c =? 8287) || (c =? 12288))%N.

Definition is_upper (c : char) : bool := ((65 <=? c) && (c <=? 90))%N.
Definition is_lower (c : char) : bool := ((97 <=? c) && (c <=? 122))%N.
Definition is_digit (c : char) : bool := ((48 <=? c) && (c <=? 57))%N.
Definition is_alpha (c : char) : bool := is_upper c || is_lower c.
Definition is_alnum (c : char) : bool := is_alpha c || is_digit c.

(** [char::to_ascii_lowercase], [str::to_ascii_lowercase]. *)
Definition lower (c : char) : char := if is_upper c then (c + 32)%N else c.
Definition slower (s : str) : str := map lower s.

(** [str::eq_ignore_ascii_case]. *)
Definition eq_nocase (a b : str) : bool := seqb (slower a) (slower b).

(** [str::strip_prefix] with a string pattern. *)
Fixpoint strip_prefix (p s : str) : option str :=
  match p with
  | [] => Some s
  | x :: p' => match s with
               | [] => None
               | y :: s' => if ceqb x y then strip_prefix p' s' else None
               end
  end.

(** [str::starts_with]. *)
Definition starts_with (p s : str) : bool :=
  match strip_prefix p s with Some _ => true | None => false end.

(** [str::ends_with]. *)
Definition ends_with (p s : str) : bool := starts_with (rev p) (rev s).

(** [str::split(char)]: always at least one piece. *)
Fixpoint split_char (d : char) (s : str) : list str :=
  match s with
  | [] => [[]]
  | c :: s' =>
      if ceqb c d then [] :: split_char d s'
      else match split_char d s' with
           | [] => [[c]]
           | w :: ws => (c :: w) :: ws
           end
  end.

(** [str::split_once(char)]. *)
Fixpoint split_once (d : char) (s : str) : option (str * str) :=
  match s with
  | [] => None
  | c :: s' =>
      if ceqb c d then Some ([], s')
      else match split_once d s' with
           | Some (a, b) => Some (c :: a, b)
           | None => None
           end
  end.

(** [str::find(char)]: byte offset of the first occurrence. *)
Fixpoint find_char (d : char) (s : str) : option nat :=
  match s with
  | [] => None
  | c :: s' => if ceqb c d then Some 0
               else match find_char d s' with Some i => Some (utf8_len c + i) | None => None end
  end.
(** [&s[i..]]. *)
Definition bfrom (s : str) (i : nat) : option str :=
  match bsplit s i with Some (_, r) => Some r | None => None end.

(** [str::splitn(2, char)]. *)
Definition splitn2 (d : char) (s : str) : list str :=
  match split_once d s with Some (a, b) => [a; b] | None => [s] end.

(** [str::replace(p, r)] for a non-empty pattern: left to right, non-overlapping. *)
Fixpoint str_replace_aux (p r s : str) (skip : nat) : str :=
  match s with
  | [] => []
  | c :: s' => match skip with
               | S k => str_replace_aux p r s' k
               | 0 => if starts_with p s then r ++ str_replace_aux p r s' (length p - 1)
                      else c :: str_replace_aux p r s' 0
               end
  end.
Definition str_replace (p r s : str) : str := str_replace_aux p r s 0.

(** [[&str]::join(sep)]. *)
Fixpoint join (sep : str) (l : list str) : str :=
  match l with
  | [] => []
  | [x] => x
  | x :: l' => x ++ sep ++ join sep l'
  end.

(** [str::trim_start] / [trim_end] / [trim] and [split_whitespace]. *)
Fixpoint drop_while (f : char -> bool) (s : str) : str :=
  match s with
  | [] => []
  | c :: s' => if f c then drop_while f s' else s
  end.
Fixpoint take_while (f : char -> bool) (s : str) : str :=
  match s with
  | [] => []
  | c :: s' => if f c then c :: take_while f s' else []
  end.
Definition trim_start (s : str) : str := drop_while is_ws s.
Definition trim_end (s : str) : str := rev (drop_while is_ws (rev s)).
Definition trim (s : str) : str := trim_end (trim_start s).

(** [str::split_whitespace]: maximal runs of non-whitespace characters. *)
Fixpoint split_ws_aux (cur : str) (s : str) : list str :=
  match s with
  | [] => match cur with [] => [] | _ => [rev cur] end
  | c :: s' =>
      if is_ws c then match cur with [] => split_ws_aux [] s' | _ => rev cur :: split_ws_aux [] s' end
      else split_ws_aux (c :: cur) s'
  end.
Definition split_ws (s : str) : list str := split_ws_aux [] s.

Fixpoint smem (x : str) (l : list str) : bool :=
  match l with [] => false | y :: l' => seqb x y || smem x l' end.
Definition cmem (c : char) (s : str) : bool := existsb (ceqb c) s.

(** Substring relation used in specifications. *)
Definition substr (p s : str) : Prop := exists a b, s = a ++ p ++ b.

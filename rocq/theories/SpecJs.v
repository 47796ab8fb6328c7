(** SpecJs.v -- strings as JavaScript has them. *)
From Verif Require Import Base.

(** A string is a list of 16-bit code units: a character above U+FFFF is a surrogate pair. *)
Definition js_char (c : char) : list N :=
  if (c <? 65536)%N then [c] else [(55296 + (c - 65536) / 1024)%N; (56320 + (c - 65536) mod 1024)%N].
Definition js_string (s : str) : list N := flat_map js_char s.
(** String.prototype.slice for 0 <= start <= end <= length. *)
Definition js_slice (s : list N) (start fin : nat) : list N := firstn (fin - start) (skipn start s).

(** SpecLetters.v -- the letters of a text (C69). *)
From Verif Require Import Base.

(** Letters and digits: the ASCII ones and every character from U+0080 on that is neither white
    space nor punctuation: not in the block of general punctuation U+2000-U+206F (dashes,
    typographic quotes, the ellipsis), and not a guillemet. *)
Definition letter (c : char) : bool :=
  ((48 <=? c) && (c <=? 57) || (65 <=? c) && (c <=? 90) || (97 <=? c) && (c <=? 122) ||
   (128 <=? c) && negb ((8192 <=? c) && (c <=? 8303)) && negb (c =? 171) && negb (c =? 187) && negb (is_ws c))%N.
Definition letters (s : str) : str := filter letter s.
(** The characters markup that can nest starts with, and how often they occur. *)
Definition opening (c : char) : bool := cmem c (lit "*#:=>+/_^,~-{").
Definition openings (s : str) : nat := length (filter opening s).
(** Texts without brackets, tables, colours and double parentheses, where each colon after a space
    is followed by a space. *)
Definition bracketless (s : str) : Prop :=
  ~ substr (lit "[") s /\ ~ substr (lit "||") s /\ ~ substr (lit "##") s /\ ~ substr (lit "((") s /\
  forall a space c b, s = a ++ [space; 58%N; c] ++ b -> In space [32; 9]%N -> is_ws c = true.
(** ... with no heading but on the first line, or with little markup. *)
Definition few_headings (s : str) : Prop :=
  (~ substr [10; 43]%N s /\ ~ substr [13; 43]%N s) \/ openings s <= 99.

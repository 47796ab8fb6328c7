(** SpecPreproc.v -- specification vocabulary for the preprocessor properties (C01-C08).
    Independent of the model: only characters, lists and [is_ws] (Unicode whitespace). *)
From Coq Require Import Relations.
From Verif Require Import Base.

(** Characters the preprocessor never reacts to: everything except NUL, TAB, CR, the two leading
    non-standard spaces U+00A0 and U+2007, full stop, comma, backquote and backslash. *)
Definition plain (c : char) : Prop :=
  ~ In c [0; 9; 13; 160; 8199; 46; 44; 96; 92]%N.

(** A line: plain characters, no newline, at least one visible character. *)
Definition tidy_line (l : str) : Prop :=
  Forall plain l /\ ~ In 10%N l /\ exists c, In c l /\ is_ws c = false.

(** Lines separated by one newline or by one blank line. *)
Inductive tidy : str -> Prop :=
| tidy_one l : tidy_line l -> tidy l
| tidy_cons l sep t : tidy_line l -> (sep = [10%N] \/ sep = [10%N; 10%N]) -> tidy t -> tidy (l ++ sep ++ t).

(** One typographic rewriting step somewhere in the text. *)
Inductive tstep : str -> str -> Prop :=
| ts_double a m b : ~ In 10%N m -> tstep (a ++ [96;96]%N ++ m ++ [39;39]%N ++ b) (a ++ [8220%N] ++ m ++ [8221%N] ++ b)
| ts_low a m b : ~ In 10%N m -> tstep (a ++ [44;44]%N ++ m ++ [39;39]%N ++ b) (a ++ [8222%N] ++ m ++ [8221%N] ++ b)
| ts_single a m b : ~ In 10%N m -> tstep (a ++ [96]%N ++ m ++ [39]%N ++ b) (a ++ [8216%N] ++ m ++ [8217%N] ++ b)
| ts_ellipsis a d b :
    d = lit "..." \/ d = lit ". . ." ->
    (forall a', a <> a' ++ lit ".") -> (forall b', b <> lit "." ++ b') ->
    tstep (a ++ d ++ b) (a ++ [8230%N] ++ b).
Definition tsteps : str -> str -> Prop := clos_refl_trans str tstep.

(** The text with quotes, commas, dots, spaces and the typographic characters deleted. *)
Definition erased (c : char) : bool :=
  existsb (N.eqb c) [96; 39; 44; 46; 32; 8216; 8217; 8220; 8221; 8222; 8230]%N.
Definition erase (s : str) : str := filter (fun c => negb (erased c)) s.

(** The texts preprocessing leaves alone: no NUL, TAB or CR; no line that starts with U+00A0 or
    U+2007; nothing blank (line feeds included) that fills up lines; no backslash before a line feed;
    no line feed at either end; and nothing for typography to rewrite. *)
Definition line_start (a : str) : Prop := a = [] \/ exists a', a = a' ++ [10%N].
Definition line_end (b : str) : Prop := b = [] \/ exists b', b = 10%N :: b'.
Record settled (s : str) : Prop := {
  st_control : forall c, In c [0; 9; 13]%N -> ~ In c s;
  st_indent : forall a c b, s = a ++ c :: b -> line_start a -> ~ In c [160; 8199]%N;
  st_blank : forall a w b, s = a ++ w ++ b -> line_start a -> line_end b -> w <> [] -> ~ Forall (fun c => is_ws c = true) w;
  st_joined : ~ substr [92; 10]%N s;
  st_first : forall r, s <> 10%N :: r;
  st_last : forall r, s <> r ++ [10%N];
  st_typography : forall t, ~ tstep s t
}.
(** A text without its white space. *)
Definition visible (s : str) : str := filter (fun c => negb (is_ws c)) s.

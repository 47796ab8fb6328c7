(** SpecPipeline.v -- which pages of formatted text the preprocessor has nothing to do on (C64). *)
From Verif Require Import Base SpecPreproc SpecWriting.

(** Words with something visible, no NUL, no tabs, no backslashes and no backquotes; not starting with
    U+00A0 or U+2007; no doubled apostrophe and no three dots. *)
Definition finished_words (s : str) : Prop :=
  (forall c, In c s -> ~ In c [0; 9; 92; 96]%N) /\ (exists c, In c s /\ is_ws c = false) /\
  (forall c r, s = c :: r -> ~ In c [160; 8199]%N) /\
  ~ substr (lit "''") s /\ ~ substr (lit "...") s /\ ~ substr (lit ". . .") s.
(** At most one blank line in a row, and no line feed at the end. *)
Definition finished (ps : page) : Prop :=
  (forall s, In (IWords s) (page_items ps) -> finished_words s) /\
  (forall k, In (IBreak k) (page_items ps) -> k <= 2) /\
  (forall r, source ps <> r ++ [10%N]).

(** SpecPage.v -- vocabulary for statements about whole parsed pages. *)
From Verif Require Import Base Strings Links Attr Lexer Tree PState Parse SpecParse.

(** The parse of a text under the settings of [E]: [toks] are the tokens of the text. *)
Definition parsed (E : env) (toks : list xtoken) (t : tree) : Prop :=
  extract_all (en_text E) = Some toks /\ parse E toks = Parsed t.
(** Every list of elements the parse returns: the page, the footnotes, the bibliography entries. *)
Definition page_lists (t : tree) : list (list element) :=
  tr_elements t :: tr_footnotes t ++ flat_map (map snd) (tr_bibs t).
Definition on_page (t : tree) (x : element) : Prop := exists es, In es (page_lists t) /\ occurs_in x es.
(** [at_path es anc x]: going from the list [es] down through the elements [anc], each inside the
    one before, one reaches [x]. *)
Fixpoint at_path (es : list element) (anc : list element) (x : element) : Prop :=
  match anc with
  | [] => In x es
  | a :: anc' => In a es /\ at_path (children a) anc' x
  end.
(** The names of the named code blocks. *)
Definition names_of (l : list code_block) : list str :=
  flat_map (fun b => match cb_name b with Some n => [n] | None => [] end) l.
(** A parser state that stands somewhere in the token list, with a start-of-line flag that tells the
    truth about the token before it (at the very end of the page the flag is not used). *)
Definition flag_true (toks : list xtoken) (p : pstate) : Prop :=
  exists before, toks = before ++ cur p :: rem p /\
    (rem p <> [] -> (start_of_line p = true <-> at_line_start before)).
(** [tail l' l]: l' is what is left of l after dropping some tokens from the front. *)
Definition is_tail {A} (l' l : list A) : Prop := exists a, l = a ++ l'.

(** Parse.v -- model of src/parsing/consume.rs (the recursion) and of parse / parse_internal in
    src/parsing/mod.rs. *)
From Verif Require Import Base Strings Links Attr Lexer Depth Tree Text Toc PState Blocks Rules.

(** consume, src/parsing/consume.rs:38-108.  [n] bounds the nesting of calls; where it runs out the
    call first checks the recursion depth exactly as the code does, and only reports [RFuel] if
    that check passes.  The theorems show that with [n = MAX_RECURSION_DEPTH] it never passes. *)
Fixpoint consume_n (E : env) (n : nat) : M (success elements) :=
  match n with
  | 0 => depth_increment ;; (fun _ _ => RFuel)
  | S n' => consume_with (rules_for E (consume_n E n'))
  end.
Definition consume (E : env) : M (success elements) := consume_n E MAX_RECURSION_DEPTH.

(** Parser::new, src/parsing/parser.rs:94-123; [None] = the expect on an empty token list. *)
Definition parser_new (tokens : list xtoken) : option pstate :=
  match tokens with
  | t :: ts => Some (PST t ts "page" 0 APNone false false true)
  | [] => None
  end.
Definition shared_new : shared := SH [] [] [] [] [].

(** SyntaxTree with the error list of ParseOutcome, src/tree/mod.rs:67-128,
    src/parsing/outcome.rs:24-40. *)
Record tree : Type := TREE {
  tr_elements : elements; tr_toc : elements; tr_html : list str; tr_code : list code_block;
  tr_footnotes : list elements; tr_bibs : list bibliography; tr_length : nat; tr_errors : list perr }.
(** What [parse] can do. *)
Inductive parse_outcome : Type := Parsed (t : tree) | ParsePanic (w : panic_site) | ParseFuel.

(** parse, parse_internal: src/parsing/mod.rs:78-204. *)
Definition parse (E : env) (tokens : list xtoken) : parse_outcome :=
  match parser_new tokens with
  | None => ParsePanic (PanicUnreachable "no tokens")
  | Some p =>
      match gather_paragraphs (consume E) "page" None p shared_new with
      | ROk out p s =>
          match build_toc (sh_toc s) with
          | Some toc =>
              Parsed (TREE (su_item out ++ if has_footnote_block p then [] else [EFootnoteBlock None false])
                           toc (sh_html s) (sh_code s) (sh_footnotes s) (sh_bibs s)
                           (blen (en_text E)) (su_errors out))
          | None => ParsePanic PanicDepths
          end
      | RErr e _ s =>
          Parsed (TREE [EText (en_text E)] [] (sh_html s) (sh_code s) [] [] (blen (en_text E)) [e])
      | RPanic w => ParsePanic w
      | RFuel => ParseFuel
      end
  end.

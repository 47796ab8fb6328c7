(** SpecLexer.v -- specification vocabulary for the tokenizer properties. *)
From Verif Require Import Base Lexer.

(** Contiguous, non-empty tokens from byte [a] to byte [b]. *)
Inductive contiguous : nat -> list xtoken -> nat -> Prop :=
| ct_nil a : contiguous a [] a
| ct_cons a t ts b : t_start t = a -> t_end t = a + blen (t_slice t) -> t_slice t <> [] ->
    contiguous (t_end t) ts b -> contiguous a (t :: ts) b.

(** Newline sequences: LF, CRLF (never split) or CR. *)
Inductive newlines : nat -> str -> Prop :=
| nl_none : newlines 0 []
| nl_lf n s : newlines n s -> newlines (S n) (10%N :: s)
| nl_crlf n s : newlines n s -> newlines (S n) (13%N :: 10%N :: s)
| nl_cr n s : (forall u, s <> 10%N :: u) -> newlines n s -> newlines (S n) (13%N :: s).

(** Inside of a string literal: characters other than quote, backslash and newlines, or a backslash
    followed by any character but a newline. *)
Inductive string_body : str -> Prop :=
| sb_nil : string_body []
| sb_char c s : ~ In c [10; 13; 34; 92]%N -> string_body s -> string_body (c :: s)
| sb_esc c s : ~ In c [10; 13]%N -> string_body s -> string_body (92%N :: c :: s).

(** The symbols, each with its only spelling. *)
Definition symbols : list (token * str) :=
  [ (TRaw, lit "@@"); (TLeftRaw, lit "@<"); (TRightRaw, lit ">@"); (TLeftComment, lit "[!--");
    (TRightComment, lit "--]"); (TLeftBracket, lit "["); (TLeftBracketAnchor, lit "[#");
    (TLeftBracketStar, lit "[*"); (TLeftBlock, lit "[["); (TLeftBlockEnd, lit "[[/");
    (TLeftBlockAnchor, lit "[[#"); (TLeftBlockStar, lit "[[*"); (TLeftMath, lit "[[$");
    (TLeftLink, lit "[[["); (TLeftLinkStar, lit "[[[*"); (TRightBracket, lit "]");
    (TRightBlock, lit "]]"); (TRightMath, lit "$]]"); (TRightLink, lit "]]]");
    (TLeftParentheses, lit "(("); (TRightParentheses, lit "))"); (TDoubleDash, lit "--");
    (TDoubleTilde, lit "~~"); (TLeftDoubleAngle, lit "<<"); (TPipe, lit "|"); (TEquals, lit "=");
    (TColon, lit ":"); (TUnderscore, lit "_"); (TBold, lit "**"); (TItalics, lit "//");
    (TUnderline, lit "__"); (TSuperscript, lit "^^"); (TSubscript, lit ",,"); (TColor, lit "##");
    (TLeftMonospace, lit "{{"); (TRightMonospace, lit "}}"); (TBulletItem, lit "*");
    (TNumberedItem, lit "#"); (TTableColumn, lit "||"); (TTableColumnLeft, lit "||<");
    (TTableColumnRight, lit "||>"); (TTableColumnCenter, lit "||="); (TTableColumnTitle, lit "||~") ].

(** What the text of a token of each kind looks like.  There is no clause for Email: see C12. *)
Inductive shape : token -> str -> Prop :=
| sh_symbol t s : In (t, s) symbols -> shape t s
| sh_identifier s : s <> [] -> Forall (fun c => is_alnum c = true) s -> shape TIdentifier s
| sh_url scheme s : In scheme [lit "http"; lit "https"; lit "ftp"] -> s <> [] ->
    Forall (fun c => ~ In c [10; 13; 32; 124; 91; 93]%N) s -> shape TUrl (scheme ++ lit "://" ++ s)
| sh_variable s : s <> [] -> Forall (fun c => is_alnum c = true) s -> shape TVariable (lit "{$" ++ s ++ lit "}")
| sh_string s : string_body s -> shape TString ([34%N] ++ s ++ [34%N])
| sh_float_both n : 3 <= n -> shape TClearFloatBoth (repeat 126%N n)
| sh_float_left n : 3 <= n -> shape TClearFloatLeft (repeat 126%N n ++ [60%N])
| sh_float_right n : 3 <= n -> shape TClearFloatRight (repeat 126%N n ++ [62%N])
| sh_triple_dash n : 3 <= n -> shape TTripleDash (repeat 45%N n)
| sh_quote n : 1 <= n -> shape TQuote (repeat 62%N n)
| sh_heading n : 1 <= n <= 6 -> shape THeading (repeat 43%N n)
| sh_heading_star n : 1 <= n <= 6 -> shape THeading (repeat 43%N n ++ [42%N])
| sh_line_break s : newlines 1 s -> shape TLineBreak s
| sh_paragraph_break n s : 2 <= n -> newlines n s -> shape TParagraphBreak s
| sh_whitespace s : s <> [] -> Forall (fun c => In c [32; 9]%N) s -> shape TWhitespace s
| sh_other c : is_alnum c = false -> ~ In c (lit "[]|=:_>+*# " ++ [9; 10; 13]%N) -> shape TOther [c].

(** Token kinds that are as long as they can be: no token of the second kind directly follows one of
    the first. *)
Definition never_adjacent : list (token * token) :=
  [ (TIdentifier, TIdentifier); (TIdentifier, TUrl); (TWhitespace, TWhitespace); (TLineBreak, TLineBreak);
    (TLineBreak, TParagraphBreak); (TParagraphBreak, TLineBreak); (TParagraphBreak, TParagraphBreak);
    (TQuote, TQuote); (TTripleDash, TTripleDash); (TTripleDash, TDoubleDash) ].

(** Characters whose doubling is a token of its own (or starts one): two of them in a row are never
    read as two tokens. *)
Definition doubled : str := lit "@*/_^,#{}~-<()|".

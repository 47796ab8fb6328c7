(** Lexer.v -- model of src/parsing/lexer.pest, src/parsing/token/mod.rs, src/tokenizer.rs and
    src/text.rs. *)
From Verif Require Import Base Strings Peg.

(** Token, src/parsing/token/mod.rs:73-171. *)
Inductive token : Type :=
| TLeftBracket | TLeftBracketAnchor | TLeftBracketStar | TRightBracket | TLeftBlock | TLeftBlockEnd
| TLeftBlockAnchor | TLeftBlockStar | TLeftMath | TLeftParentheses | TRightBlock | TRightMath
| TRightParentheses | TDoubleDash | TTripleDash | TDoubleTilde | TLeftDoubleAngle | TClearFloatBoth
| TClearFloatLeft | TClearFloatRight | TPipe | TEquals | TColon | TUnderscore | TQuote | THeading
| TLineBreak | TParagraphBreak | TWhitespace
| TBold | TItalics | TUnderline | TSuperscript | TSubscript | TLeftMonospace | TRightMonospace | TColor
| TRaw | TLeftRaw | TRightRaw
| TBulletItem | TNumberedItem
| TLeftLink | TLeftLinkStar | TRightLink
| TTableColumn | TTableColumnLeft | TTableColumnRight | TTableColumnCenter | TTableColumnTitle
| TIdentifier | TEmail | TUrl | TVariable | TString
| TLeftComment | TRightComment | TInputStart | TInputEnd | TOther.
Definition token_eq_dec : forall a b : token, {a = b} + {a <> b}.
Proof. decide equality. Defined.
Definition tok_eqb (a b : token) : bool := if token_eq_dec a b then true else false.
(** The rules of src/parsing/lexer.pest (pest's generated Rule enum). *)
Inductive rule : Type :=
| R_left_comment | R_right_comment | R_left_bracket | R_left_bracket_anchor | R_left_bracket_star |
R_right_bracket | R_left_parens | R_right_parens | R_left_block | R_left_block_end |
R_left_block_anchor | R_left_block_star | R_left_math | R_right_block | R_right_math | R_color |
R_double_dash | R_triple_dash | R_double_tilde | R_left_double_angle | R_clear_float |
R_clear_float_left | R_clear_float_right | R_pipe | R_colon | R_underscore | R_equals | R_quote |
R_heading | R_line_break | R_paragraph_break | R_space | R_bold | R_italics | R_underline |
R_superscript | R_subscript | R_left_monospace | R_right_monospace | R_raw | R_left_raw |
R_right_raw | R_bullet_item | R_numbered_item | R_left_link | R_left_link_star | R_right_link |
R_table_column | R_table_column_left | R_table_column_right | R_table_column_center |
R_table_column_title | R_identifier | R_email | R_url | R_variable | R_string | R_other | R_EOI |
R_char | R_document | R_token.
(** Token::get_from_rule, src/parsing/token/mod.rs:224-304; [None] is the panic. *)
Definition get_from_rule (r : rule) : option token :=
  match r with
  | R_left_comment => Some TLeftComment | R_right_comment => Some TRightComment
  | R_left_bracket => Some TLeftBracket | R_left_bracket_anchor => Some TLeftBracketAnchor
  | R_left_bracket_star => Some TLeftBracketStar | R_right_bracket => Some TRightBracket
  | R_left_parens => Some TLeftParentheses | R_right_parens => Some TRightParentheses
  | R_left_block => Some TLeftBlock | R_left_block_end => Some TLeftBlockEnd
  | R_left_block_anchor => Some TLeftBlockAnchor | R_left_block_star => Some TLeftBlockStar
  | R_left_math => Some TLeftMath | R_right_block => Some TRightBlock
  | R_right_math => Some TRightMath | R_color => Some TColor | R_double_dash => Some TDoubleDash
  | R_triple_dash => Some TTripleDash | R_double_tilde => Some TDoubleTilde
  | R_left_double_angle => Some TLeftDoubleAngle | R_clear_float => Some TClearFloatBoth
  | R_clear_float_left => Some TClearFloatLeft | R_clear_float_right => Some TClearFloatRight
  | R_pipe => Some TPipe | R_colon => Some TColon | R_underscore => Some TUnderscore
  | R_equals => Some TEquals | R_quote => Some TQuote | R_heading => Some THeading
  | R_line_break => Some TLineBreak | R_paragraph_break => Some TParagraphBreak
  | R_space => Some TWhitespace | R_bold => Some TBold | R_italics => Some TItalics
  | R_underline => Some TUnderline | R_superscript => Some TSuperscript
  | R_subscript => Some TSubscript | R_left_monospace => Some TLeftMonospace
  | R_right_monospace => Some TRightMonospace | R_raw => Some TRaw | R_left_raw => Some TLeftRaw
  | R_right_raw => Some TRightRaw | R_bullet_item => Some TBulletItem
  | R_numbered_item => Some TNumberedItem | R_left_link => Some TLeftLink
  | R_left_link_star => Some TLeftLinkStar | R_right_link => Some TRightLink
  | R_table_column => Some TTableColumn | R_table_column_left => Some TTableColumnLeft
  | R_table_column_right => Some TTableColumnRight
  | R_table_column_center => Some TTableColumnCenter
  | R_table_column_title => Some TTableColumnTitle | R_identifier => Some TIdentifier
  | R_email => Some TEmail | R_url => Some TUrl | R_variable => Some TVariable
  | R_string => Some TString | R_other => Some TOther | R_EOI => Some TInputEnd
  | R_char | R_document | R_token => None
  end.

(** ExtractedToken, src/parsing/token/mod.rs:44-49. *)
Record xtoken : Type := XT { t_token : token; t_slice : str; t_start : nat; t_end : nat }.

Section Grammar.
Notation peg := (Peg.peg rule).
Definition TK (r : rule) (s : String.string) : peg := PAtom r (PStr (lit s)).
(** src/parsing/lexer.pest:117-133 *)
Definition g_identifier : peg := PAtom R_identifier (PPlus (PAlt ASCII_ALPHANUMERIC ASCII_DIGIT)).
Definition g_nonspace : peg := PSeq (PNot (PAlts [PStr [32%N]; PStr [9%N]; NEWLINE])) ANY.
Definition g_email : peg :=
  PAtom R_email (PSeqs [PPlus g_nonspace; PStr [64%N]; PPlus g_nonspace; PStr [46%N]; PPlus g_nonspace]).
Definition g_url : peg :=
  PAtom R_url (PSeqs [PAlt (PSeq (PStr (lit "http")) (POpt (PStr (lit "s")))) (PStr (lit "ftp"));
                    PStr (lit "://");
                    PPlus (PSeq (PNot (PAlts [NEWLINE; PStr [32%N]; PStr [124%N]; PStr [91%N]; PStr [93%N]])) ANY)]).
(** src/parsing/lexer.pest:139-184 *)
Definition g_clear_float : peg := PAtom R_clear_float (PMin 3 (PStr [126%N])).
Definition g_clear_float_left : peg := PAtom R_clear_float_left (PSeq (PMin 3 (PStr [126%N])) (PStr [60%N])).
Definition g_clear_float_right : peg := PAtom R_clear_float_right (PSeq (PMin 3 (PStr [126%N])) (PStr [62%N])).
Definition g_triple_dash : peg := PAtom R_triple_dash (PMin 3 (PStr [45%N])).
Definition g_double_dash : peg := PAtom R_double_dash (PTimes 2 (PStr [45%N])).
Definition g_double_tilde : peg := PAtom R_double_tilde (PTimes 2 (PStr [126%N])).
Definition g_quote : peg := PAtom R_quote (PPlus (PStr [62%N])).
Definition g_heading : peg :=
  PAtom R_heading (PSeq (PSeq (PStr [43%N]) (PUpTo 5 (PStr [43%N])))
                      (POpt (PSeq (PStr [42%N]) (PNot (PStr [42%N]))))).
(** src/parsing/lexer.pest:201-202 *)
Definition g_bullet_item : peg := PAtom R_bullet_item (PSeq (PStr [42%N]) (PNot (PStr [42%N]))).
Definition g_numbered_item : peg := PAtom R_numbered_item (PSeq (PStr [35%N]) (PNot (PStr [35%N]))).
(** src/parsing/lexer.pest:218 *)
Definition g_variable : peg := PAtom R_variable (PSeqs [PStr (lit "{$"); g_identifier; PStr (lit "}")]).
(** src/parsing/lexer.pest:224-229 *)
Definition g_char : peg :=
  PAlt (PSeq (PNot (PAlts [NEWLINE; PStr [34%N]; PStr [92%N]])) ANY)
       (PSeqs [PStr [92%N]; PNot NEWLINE; ANY]).
Definition g_string : peg := PAtom R_string (PSeqs [PStr [34%N]; PStar g_char; PStr [34%N]]).
(** src/parsing/lexer.pest:235-244 *)
Definition g_line_break : peg := PAtom R_line_break NEWLINE.
Definition g_paragraph_break : peg := PAtom R_paragraph_break (PMin 2 NEWLINE).
Definition g_space : peg := PAtom R_space (PPlus (PAlt (PStr [32%N]) (PStr [9%N]))).
Definition g_other : peg := PAtom R_other ANY.

(** The alternatives of [token], src/parsing/lexer.pest:36-109, in order. *)
Definition token_alts : list peg :=
  [ TK R_raw "@@"; TK R_left_raw "@<"; TK R_right_raw ">@"; TK R_left_comment "[!--"; TK R_right_comment "--]";
    g_url; g_identifier; g_email; g_variable; g_string;
    PSeq (TK R_left_bracket "[") (TK R_left_link "[[["); PSeq (TK R_right_link "]]]") (TK R_right_bracket "]");
    TK R_left_link_star "[[[*"; TK R_left_link "[[["; TK R_left_math "[[$"; TK R_left_block_anchor "[[#";
    TK R_left_block_star "[[*"; TK R_left_block_end "[[/"; TK R_left_block "[["; TK R_left_bracket_anchor "[#";
    TK R_left_bracket_star "[*"; TK R_left_bracket "["; TK R_left_parens "((";
    TK R_right_link "]]]"; TK R_right_math "$]]"; TK R_right_block "]]"; TK R_right_bracket "]"; TK R_right_parens "))";
    TK R_bold "**"; TK R_italics "//"; TK R_underline "__"; TK R_superscript "^^"; TK R_subscript ",,"; TK R_color "##";
    TK R_left_monospace "{{"; TK R_right_monospace "}}";
    TK R_table_column_title "||~"; TK R_table_column_left "||<"; TK R_table_column_right "||>";
    TK R_table_column_center "||="; TK R_table_column "||";
    g_clear_float_left; g_clear_float_right; g_clear_float; g_triple_dash; g_double_dash;
    g_double_tilde; TK R_left_double_angle "<<"; TK R_pipe "|"; TK R_equals "="; TK R_colon ":"; TK R_underscore "_";
    g_quote; g_heading; g_bullet_item; g_numbered_item;
    g_paragraph_break; g_line_break; g_space; g_other ].
Definition g_token : peg := PAlts token_alts.
(** src/parsing/lexer.pest:31; SOI is always true at the start. *)
Definition g_document : peg := PSeq (PStar g_token) (PRule R_EOI PEnd).
End Grammar.

(** Token::convert_pair, src/parsing/token/mod.rs:208-221. *)
Definition convert_pair (p : pair rule) : option xtoken :=
  match get_from_rule (p_rule p) with
  | Some t => Some (XT t (p_slice p) (p_start p) (p_end p))
  | None => None
  end.
Fixpoint convert_pairs (ps : list (pair rule)) : option (list xtoken) :=
  match ps with
  | [] => Some []
  | p :: ps' => match convert_pair p, convert_pairs ps' with
                | Some t, Some ts => Some (t :: ts)
                | _, _ => None
                end
  end.
(** Token::extract_all, src/parsing/token/mod.rs:178-205; [None] is a panic. *)
Definition extract_all (text : str) : option (list xtoken) :=
  match run g_document 0 text with
  | Some (pairs, _, _) => match convert_pairs pairs with
                          | Some ts => Some (XT TInputStart [] 0 0 :: ts)
                          | None => None
                          end
  | None => Some [XT TOther text 0 (blen text)]
  end.
(** tokenize, src/tokenizer.rs:50-60: the tokens and the text. *)
Record tokenization : Type := Tokenization { tz_tokens : list xtoken; tz_text : str }.
Definition tokenize (text : str) : option tokenization :=
  match extract_all text with Some ts => Some (Tokenization ts text) | None => None end.

(** FullText::slice_impl, src/text.rs:94-103, then slice and slice_partial, src/text.rs:60-92;
    [None] is a panic. *)
Definition slice_impl (text : str) (start fin : nat) : option str :=
  if fin <? start then None else bslice text start fin.
Definition full_slice (text : str) (a b : xtoken) : option str := slice_impl text (t_start a) (t_end b).
Definition partial_slice (text : str) (a b : xtoken) : option str := slice_impl text (t_start a) (t_start b).

(** ExtractedToken::to_utf16_indices, src/parsing/token/mod.rs:51-67; [None] is a panic. *)
Definition to_utf16_indices (m : utf16_map) (t : xtoken) : option xtoken :=
  match get_index m (t_start t), get_index m (t_end t) with
  | Some a, Some b => Some (XT (t_token t) (t_slice t) a b)
  | _, _ => None
  end.

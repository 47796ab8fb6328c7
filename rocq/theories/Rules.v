(** Rules.v -- model of src/parsing/rule/impls/*.rs (every rule but the blocks, which are in
    Blocks.v) and of the rule map, src/parsing/rule/mapping.rs.
    In the citations RI stands for src/parsing/rule/impls. *)
From Verif Require Import Base Strings Links Attr Lexer Depth Tree Text PState Blocks.

(** Heading::try_from, src/tree/heading.rs:51-72, with HeadingLevel::try_from, lines 85-150. *)
Definition heading_try_from (value : str) : option heading :=
  match rev value with
  | [] => None
  | c :: _ =>
      let mk toc len := if (1 <=? len) && (len <=? 6) then Some (HD len toc) else None in
      if ceqb c 43 then mk true (blen value)
      else if ceqb c 42 then mk false (blen value - 1)
      else None
  end.
(** HEX_COLOR and hexify_color, RI/color.rs:25-26, 80-88. *)
Definition is_hex (c : char) : bool :=
  is_digit c || ((65 <=? c) && (c <=? 70))%N || ((97 <=? c) && (c <=? 102))%N.
Definition hexify_color (color : str) : str :=
  if forallb is_hex color && ((length color =? 3) || (length color =? 6))
  then 35%N :: color else color.
(** url_valid, RI/link_single.rs:120-138. *)
Definition url_valid (url : str) : bool :=
  match url with [] => false | _ => starts_with [47%N] url || is_url url end.
(** strip_category, RI/link_triple.rs:200-225.  The slices are at the position of a colon. *)
Definition after_colon (s : str) : option str :=
  match split_once 58 s with Some (_, r) => Some r | None => None end.
Fixpoint strip_category_n (n : nat) (url : str) : option str :=
  match n with
  | 0 => None
  | S n' =>
      match url with
      | c :: rest =>
          if ceqb c 58 then
            match after_colon rest with
            | Some r => let r := trim_start r in
                        Some (match strip_category_n n' r with Some x => x | None => r end)
            | None => None
            end
          else match after_colon url with Some r => Some (trim_start r) | None => None end
      | [] => None
      end
  end.
Definition strip_category (url : str) : option str := strip_category_n (S (length url)) url.
(** The capture of the regex \{\$(.+)\} in a slice, RI/variable.rs:24, 38-47.  Simplified to the
    one case the lexer produces: the whole slice is an opening, a non-empty text without line
    feeds, and a closing brace; any other slice is reported as the panic of [expect] (a theorem
    shows this is never reached). *)
Definition variable_name (slice : str) : option str :=
  match strip_prefix (lit "{$") slice with
  | Some r => match rev r with
              | c :: m => if ceqb c 125 && negb (cmem 10 m) && match m with [] => false | _ => true end
                          then Some (rev m) else None
              | [] => None
              end
  | None => None
  end.

Section Rules.
Variable E : env.
Variable consume : M (success elements).
Let text := en_text E.

Definition tok_lb : condition_ := IsToken TLineBreak.
Definition tok_pb : condition_ := IsToken TParagraphBreak.
Definition tok_end : condition_ := IsToken TInputEnd.

(** push_table_of_contents_entry, src/parsing/parser.rs:220-233. *)
Definition push_toc (level : nat) (es : elements) : M unit := fun p s =>
  match text_render (en_site E) (en_date_format E) es with
  | Some name => ROk tt p (SH (sh_toc s ++ [(level - 1, name)]) (sh_html s) (sh_code s) (sh_footnotes s) (sh_bibs s))
  | None => RPanic PanicTextRender
  end.

(** RI/anchor.rs:37-68. *)
Definition rule_anchor : M (success elements) :=
  check_step TLeftBlockAnchor ;;
  get_token TWhitespace RuleFailed ;;
  let! name := collect_text text [IsToken TRightBlock] [IsToken TWhitespace; tok_pb; tok_lb] None in
  ok_derived [EAnchorName (if en_isolate E then isolate_ids name else name)] [].
(** RI/bibcite.rs:29-68. *)
Definition rule_bibcite : M (success elements) :=
  check_step TLeftParentheses ;;
  let! c := gets cur in
  if negb (tok_eqb (t_token c) TIdentifier) && negb (eq_nocase (t_slice c) (lit "bibcite"))
  then fail RuleFailed else
  step ;;
  let! ws := gets (is_tok TWhitespace) in
  if negb ws then fail RuleFailed else
  step ;;
  let! label := collect_text text [IsToken TRightParentheses] [IsToken TWhitespace; tok_pb; tok_lb] None in
  ok_derived [EBibliographyCite label false] [].

(** build_blockquote_element, RI/blockquote.rs:106-132. *)
Fixpoint push_all (st : pstack) (es : elements) (safe : bool) : pstack :=
  match es with [] => st | e :: es' => push_all (push_element st e safe) es' safe end.
Definition blockquote_of (st : pstack) : element :=
  EContainer CBlockquote [] (into_elements (pop_line_break st)).
Fixpoint blockquote_item (st : pstack) (it : depth_item unit (elements * bool)) {struct it} : pstack :=
  match it with
  | DItem (es, safe) => push_all st es safe
  | DList _ items =>
      let inner := (fix go (st : pstack) (l : list (depth_item unit (elements * bool))) : pstack :=
         match l with [] => st | x :: l' => go (blockquote_item st x) l' end) ps_new items in
      push_element (pop_line_break st) (blockquote_of inner) false
  end.
Fixpoint blockquote_items (st : pstack) (l : list (depth_item unit (elements * bool))) : pstack :=
  match l with [] => st | x :: l' => blockquote_items (blockquote_item st x) l' end.
Definition build_blockquote (l : list (depth_item unit (elements * bool))) : element :=
  blockquote_of (blockquote_items ps_new l).
Definition MAX_BLOCKQUOTE_DEPTH : nat := 30. (* RI/blockquote.rs:26 *)
(** RI/blockquote.rs:34-104. *)
Definition rule_blockquote : M (success elements) :=
  let! (depths, errs) := looping (fun '(depths, errs) =>
    let! c := gets cur in
    if tok_eqb (t_token c) TQuote then
      let depth := blen (t_slice c) in
      step ;;
      get_optional_space ;;
      if MAX_BLOCKQUOTE_DEPTH <? depth then fail BlockquoteDepthExceeded else
      let! out := collect_consume consume [tok_lb; tok_pb; tok_end] [] None in
      ret (inl (depths ++ [(depth - 1, tt, (su_item out ++ [ELineBreak], su_safe out))], errs ++ su_errors out))
    else ret (inr (depths, errs))) ([], []) in
  match depths with
  | [] => fail RuleFailed
  | _ => let! lists := or_panic PanicDepths (process_depths (fun _ _ => true) tt depths) in
         ok_flag false (map (fun l => build_blockquote (snd l)) lists) errs
  end.

(** The formatting rules: RI/bold.rs:29-46, italics.rs:29-46, underline.rs:29-46,
    superscript.rs:29-46, subscript.rs:29-46, strikethrough.rs:35-70. *)
Definition rule_format (ct : container_type) (t : token) : M (success elements) :=
  check_step t ;;
  collect_container consume ct [IsToken t] [tok_pb; IsPair t TWhitespace; IsPair TWhitespace t] None.
(** RI/monospace.rs:29-48. *)
Definition rule_monospace : M (success elements) :=
  check_step TLeftMonospace ;;
  collect_container consume CMonospace [IsToken TRightMonospace]
    [tok_pb; IsPair TLeftMonospace TWhitespace; IsPair TWhitespace TRightMonospace] None.
(** RI/center.rs:30-63. *)
Definition rule_center : M (success elements) :=
  check_step TEquals ;;
  get_token TWhitespace RuleFailed ;;
  collect_container consume (CAlign AlCenter) [tok_end; tok_lb; tok_pb] [] None.
(** RI/clear_float.rs:30-47. *)
Definition rule_clear_float : M (success elements) :=
  let! t := gets cur_tok in
  let! cf := match t with
             | TClearFloatBoth => ret CFBoth
             | TClearFloatLeft => ret CFLeft
             | TClearFloatRight => ret CFRight
             | _ => fail RuleFailed
             end in
  get_optional_line_break ;;
  ok_derived [EClearFloat cf] [].
(** RI/color.rs:35-78. *)
Definition rule_color : M (success elements) :=
  check_step TColor ;;
  let! color := collect_text text [IsToken TPipe] [tok_pb; tok_lb] None in
  let! out := collect_consume consume [IsToken TColor] [tok_pb] None in
  ok_flag (su_safe out) [EColor (hexify_color color) (su_item out)] (su_errors out).
(** RI/comment.rs:29-66. *)
Definition rule_comment : M (success elements) :=
  check_step TLeftComment ;;
  looping (fun _ : unit =>
    let! t := gets cur_tok in
    match t with
    | TRightComment => step ;; ret (inr tt)
    | TInputEnd => fail EndOfInput
    | _ => step ;; ret (inl tt)
    end) tt ;;
  ok_derived [] [].
(** RI/dash.rs:29-37. *)
Definition rule_dash : M (success elements) := ok_derived [EText [8212%N]] [].
(** RI/double_angle.rs:29-51. *)
Definition rule_double_angle : M (success elements) :=
  let! c := gets cur in
  match t_token c with
  | TLeftDoubleAngle => ok_derived [EText [171%N]] []
  | TQuote => if seqb (t_slice c) (lit ">>") then ok_derived [EText [187%N]] [] else fail RuleFailed
  | _ => panic (PanicUnreachable "double-angle")
  end.
(** RI/email.rs:29-37, text.rs:29-38, null.rs:29-36, url.rs:30-46, variable.rs:33-48. *)
Definition rule_email : M (success elements) := let! c := gets cur in ok_derived [EEmail (t_slice c)] [].
Definition rule_text : M (success elements) := let! c := gets cur in ok_derived [EText (t_slice c)] [].
Definition rule_null : M (success elements) := ok_derived [] [].
Definition rule_url : M (success elements) :=
  let! c := gets cur in
  ok_derived [ELink LTDirect (LUrl (t_slice c)) None (LabelUrl None) None] [].
Definition rule_variable : M (success elements) :=
  let! c := gets cur in
  let! v := or_panic (PanicUnreachable "variable") (variable_name (t_slice c)) in
  ok_derived [EVariable v] [].

(** skip_newline, RI/definition_list.rs:37-51. *)
Definition rule_def_skip : M (success elements) :=
  let! b := gets (fun p => is_tok TLineBreak p && next_is 0 TColon p && next_is 1 TWhitespace p) in
  if b : bool then ok_derived [] [] else fail RuleFailed.
(** parse_item, RI/definition_list.rs:97-178. *)
Definition def_item_parse : M (success (def_item * bool)) :=
  let! sol := gets start_of_line in
  if negb sol then fail RuleFailed else
  let! b := gets (fun p => is_tok TColon p && next_is 0 TWhitespace p) in
  if negb b then fail RuleFailed else
  step_n 2 ;;
  let! start := gets cur in
  let! key := collect_consume consume [IsPair TWhitespace TColon] [tok_pb; tok_lb] None in
  let! fin := gets cur in
  step_n 2 ;;
  let! key_string := or_panic PanicSlice (partial_slice text start fin) in
  let! value := collect_consume_keep consume [tok_pb; tok_lb; tok_end] [] None in
  let '(value_elements, last) := su_item value in
  let! should_break := match t_token last with
                       | TParagraphBreak | TInputEnd => ret true
                       | TLineBreak => ret false
                       | _ => panic (PanicUnreachable "definition-list")
                       end in
  ok_flag false (DF (trim key_string) (strip_whitespace (su_item key)) (strip_whitespace value_elements), should_break)
          (su_errors key ++ su_errors value).
(** parse_definition_list, RI/definition_list.rs:53-95: the collected errors are not returned. *)
Definition rule_def_list : M (success elements) :=
  let! first := def_item_parse in
  let '(item, at_end) := su_item first in
  let! items := (if at_end : bool then ret [item] else
    looping (fun items =>
      let! r := on_clone def_item_parse in
      match r with
      | inl out => let '(item, at_end) := su_item out in
                   if at_end : bool then ret (inr (items ++ [item])) else ret (inl (items ++ [item]))
      | inr _ => ret (inr items)
      end) [item]) in
  ok_derived [EDefinitionList items] [].

(** RI/header.rs:30-98.  The recursive call is on the same parser and its error is dropped.  The
    recursion is bounded by the number of remaining tokens, as for loops. *)
Definition header_step (t : token) : M xtoken :=
  let! c := gets cur in
  if tok_eqb (t_token c) t then step ;; ret c else fail RuleFailed.
Fixpoint header_n (n : nat) : M (success elements) :=
  match n with
  | 0 => fun _ _ => RFuel
  | S n' =>
      let! c := header_step THeading in
      let! h := or_panic PanicHeading (heading_try_from (t_slice c)) in
      header_step TWhitespace ;;
      let! out := collect_container consume (CHeader h) [tok_end; tok_lb; tok_pb] [] None in
      (if hd_has_toc h then
         match su_item out with
         | [EContainer _ _ es] => push_toc (hd_level h) es
         | _ => panic (PanicUnreachable "header")
         end
       else ret tt) ;;
      let! r := attempt (header_n n') in
      match r with
      | inl more => ok_flag false (su_item out ++ su_item more) (su_errors out ++ su_errors more)
      | inr _ => ok_flag false (su_item out) (su_errors out)
      end
  end.
Definition rule_header : M (success elements) := fun p s => header_n (S (length (rem p))) p s.
(** RI/horizontal_rule.rs:29-36. *)
Definition rule_horizontal_rule : M (success elements) :=
  check_step TTripleDash ;;
  get_optional_line_break ;;
  ok_derived [EHorizontalRule] [].
(** line_break, RI/line_break.rs:35-93. *)
Definition rule_line_break : M (success elements) :=
  let! skip := evaluate_fn (
    step ;;
    get_optional_space ;;
    gets (is_any [TQuote; TBulletItem; TNumberedItem; THeading; TEquals; TTripleDash; TClearFloatLeft;
                  TClearFloatRight; TClearFloatBoth; TTableColumn; TTableColumnLeft; TTableColumnRight;
                  TTableColumnCenter; TTableColumnTitle])) in
  if skip : bool then ok_derived [] [] else ok_derived [ELineBreak] [].
(** RI/link_anchor.rs:37-93. *)
Definition rule_link_anchor : M (success elements) :=
  check_step TLeftBracketAnchor ;;
  let! url := collect_text text [IsToken TWhitespace] [IsToken TRightBracket; tok_pb; tok_lb] None in
  let url := match url with [] => lit "javascript:;" | _ => 35%N :: en_normalize E url end in
  let! label := collect_text text [IsToken TRightBracket] [tok_pb; tok_lb] None in
  ok_derived [ELink LTAnchor (LUrl url) None (LabelText (trim label)) None] [].
(** RI/link_single.rs:46-118. *)
Definition rule_link_single (t : token) (target : option anchor_target) : M (success elements) :=
  check_step t ;;
  let! url := collect_text text [IsToken TWhitespace] [IsToken TRightBracket; tok_pb; tok_lb] None in
  if negb (url_valid url) then fail InvalidUrl else
  let! label := collect_text text [IsToken TRightBracket] [tok_pb; tok_lb] None in
  let! extra := or_panic PanicLink (link_parse_extra url) in
  ok_derived [ELink LTDirect (LUrl url) extra (LabelText (trim label)) target] [].
(** build_same and the end of build_separate, RI/link_triple.rs:110-190. *)
Definition build_link (url : str) (label : link_label) (target : option anchor_target) : M (success elements) :=
  match link_parse_interwiki (en_interwiki E) url with
  | Good (link, ltype) =>
      let! extra := or_panic PanicLink (link_parse_extra url) in
      ok_derived [ELink ltype link extra label target] []
  | Bad => fail RuleFailed
  | Panic => panic PanicLink
  end.
(** RI/link_triple.rs:44-190. *)
Definition rule_link_triple (t : token) (target : option anchor_target) : M (success elements) :=
  check_step t ;;
  let! (url, last) := collect_text_keep text [IsToken TPipe; IsToken TRightLink] [tok_pb; tok_lb] None in
  match trim url with
  | [] => fail RuleFailed
  | url =>
      match t_token last with
      | TRightLink => build_link url (LabelUrl (strip_category url)) target
      | TPipe =>
          let! label := collect_text text [IsToken TRightLink] [tok_pb; tok_lb] None in
          build_link url (match trim label with [] => LabelPage | l => LabelText l end) target
      | _ => panic (PanicUnreachable "link-triple")
      end
  end.

(** build_list_element, RI/list.rs:138-160. *)
Fixpoint build_list_item (it : depth_item list_type elements) : list_item :=
  match it with
  | DItem es => LIElements [] es
  | DList lt items => LISubList (EList lt [] (map build_list_item items))
  end.
Definition build_list (l : list_type * list (depth_item list_type elements)) : element :=
  EList (fst l) [] (map build_list_item (snd l)).
(** [PartialEq] for ListType. *)
Definition list_type_eqb (a b : list_type) : bool :=
  match a, b with LBullet, LBullet | LNumbered, LNumbered | LGeneric, LGeneric => true | _, _ => false end.
Definition MAX_LIST_DEPTH : nat := 20. (* RI/list.rs:25 *)
(** get_list_type, RI/list.rs:27-33. *)
Definition get_list_type (t : token) : option list_type :=
  match t with TBulletItem => Some LBullet | TNumberedItem => Some LNumbered | _ => None end.
(** RI/list.rs:41-136.  [paragraph_safe] starts false and is only combined with [&&]. *)
Definition rule_list : M (success elements) :=
  let! (depths, errs) := looping (fun '(depths, errs) =>
    let! c := gets cur in
    let! depth := match t_token c with
                  | TWhitespace => step ;; ret (Some (blen (t_slice c)))
                  | TBulletItem | TNumberedItem => ret (Some 0)
                  | _ => ret None
                  end in
    match depth with
    | None => ret (inr (depths, errs))
    | Some depth =>
        if MAX_LIST_DEPTH <? depth then fail ListDepthExceeded else
        let! t := gets cur_tok in
        match get_list_type t with
        | None => ret (inr (depths, errs))
        | Some lt =>
            step ;;
            let! ws := gets (is_tok TWhitespace) in
            if negb ws then ret (inr (depths, errs)) else
            step ;;
            let! out := collect_consume consume [tok_lb; tok_end; tok_pb] [] None in
            ret (inl (depths ++ [(depth, lt, su_item out)], errs ++ su_errors out))
        end
    end) ([], []) in
  match depths with
  | [] => fail RuleFailed
  | _ => let! lists := or_panic PanicDepths (process_depths list_type_eqb LGeneric depths) in
         ok_flag false (map build_list lists) errs
  end.
(** RI/math.rs:29-49. *)
Definition rule_math : M (success elements) :=
  check_step TLeftMath ;;
  let! source := collect_text text [IsToken TRightMath] [tok_pb; tok_lb] None in
  ok_derived [EMathInline (trim source)] [].

(** The loop of RI/raw.rs:117-170. *)
Definition raw_loop (ending : token) (start : xtoken) : M (success elements) :=
  looping (fun fin =>
    let! t := gets cur_tok in
    let next := let! fin := step in ret (inl fin) in
    match t with
    | TRightRaw | TRaw =>
        if tok_eqb t ending then
          let! slice := or_panic PanicSlice (partial_slice text start fin) in
          step ;;
          let! out := ok_derived [ERaw slice] [] in ret (inr out)
        else next
    | TLineBreak | TParagraphBreak => fail RuleFailed
    | TInputEnd => fail EndOfInput
    | _ => next
    end) start.
(** RI/raw.rs:35-170. *)
Definition rule_raw : M (success elements) :=
  let! t := gets cur_tok in
  let general ending := let! start := step in raw_loop ending start in
  match t with
  | TRaw =>
      let! next_1 := look_ahead_err 0 in
      let! next_2 := look_ahead_err 1 in
      match t_token next_1, t_token next_2 with
      | TRaw, TRaw => step_n 3 ;; ok_derived [ERaw (lit "@@")] []
      | TRaw, TOther =>
          if seqb (t_slice next_2) (lit "@") then step_n 3 ;; ok_derived [ERaw (lit "@")] []
          else step_n 2 ;; ok_derived [ERaw []] []
      | TRaw, _ => step_n 2 ;; ok_derived [ERaw []] []
      | (TLineBreak | TParagraphBreak), TRaw => fail RuleFailed
      | _, TRaw => step_n 3 ;; ok_derived [ERaw (t_slice next_1)] []
      | _, _ => general TRaw
      end
  | TLeftRaw => general TRightRaw
  | _ => panic (PanicUnreachable "raw")
  end.

(** *** RI/table.rs *)
Definition is_column (t : token) : bool :=
  match t with
  | TTableColumn | TTableColumnTitle | TTableColumnLeft | TTableColumnCenter | TTableColumnRight => true
  | _ => false
  end.
(** parse_cell_start, RI/table.rs:206-255; [span] is the number of columns so far. *)
Definition parse_cell_start : M (option (option alignment * bool * nat)) :=
  looping (fun span =>
    let! t := gets cur_tok in
    let stop align header := step ;; ret (inr (Some (align, header, S span))) in
    match t with
    | TTableColumnTitle => stop None true
    | TTableColumnLeft => stop (Some AlLeft) false
    | TTableColumnCenter => stop (Some AlCenter) false
    | TTableColumnRight => stop (Some AlRight) false
    | TTableColumn => step ;; ret (inl (S span))
    | _ => match span with 0 => ret (inr None) | _ => ret (inr (Some (None, false, span))) end
    end) 0.
(** How a cell ends, RI/table.rs:98-172: the next cell, the next row, the end of the table after
    this cell, or the invalid termination of [finish_table!]. *)
Inductive cell_end : Type := NextCell | NextRow | EndTable | Invalid.
(** The loop for the elements of a cell, RI/table.rs:98-172: the elements and errors so far. *)
Definition table_cell_loop : M (elements * list perr * cell_end) :=
  looping (fun '(es, errs) =>
    let! t := gets cur_tok in
    let! next := gets (fun p => option_map t_token (look_ahead 0 p)) in
    let plain :=
      let! out := consume in ret (inl (es ++ su_item out, errs ++ su_errors out)) in
    match is_column t, next with
    | true, Some next =>
        match next with
        | TParagraphBreak | TInputEnd => step ;; ret (inr (es, errs, EndTable))
        | TLineBreak => step_n 2 ;; ret (inr (es, errs, NextRow))
        | _ => ret (inr (es, errs, NextCell))
        end
    | _, _ =>
        match t with
        | TWhitespace =>
            if match es with [] => true | _ => false end then step ;; ret (inl (es, errs))
            else if match next with Some n => is_column n | None => false end then step ;; ret (inl (es, errs))
            else plain
        | TLineBreak | TParagraphBreak | TInputEnd => ret (inr (es, errs, Invalid))
        | _ => plain
        end
    end) ([], []).
(** One cell, RI/table.rs:78-175: [None] = finish_table!. *)
Definition table_one_cell : M (list perr * option (table_cell * cell_end)) :=
  let! start := parse_cell_start in
  match start with
  | None => ret ([], None)
  | Some (align, header, span) =>
      let! (es, errs, how) := table_cell_loop in
      match how with
      | Invalid => ret (errs, None)
      | _ => ret (errs, Some (TC header (N.of_nat span) align [] es, how))
      end
  end.
(** One row, RI/table.rs:49-178: [None] = finish_table!; otherwise the row and whether the table
    ends with it. *)
Definition table_one_row : M (list perr * option (table_row * bool)) :=
  looping (fun '(cells, errs) =>
    let! (errs', r) := table_one_cell in
    let errs := errs ++ errs' in
    match r with
    | None => ret (inr (errs, None))
    | Some (cell, how) =>
        let cells := cells ++ [cell] in
        match how with
        | NextCell => ret (inl (cells, errs))
        | NextRow => ret (inr (errs, Some (TR [] cells, false)))
        | _ => ret (inr (errs, Some (TR [] cells, true)))
        end
    end) ([], []).
(** RI/table.rs:39-193. *)
Definition rule_table : M (success elements) :=
  let! (rows, errs) := looping (fun '(rows, errs) =>
    let! (errs', r) := table_one_row in
    let errs := errs ++ errs' in
    match r with
    | None => match rows with [] => fail RuleFailed | _ => ret (inr (rows, errs)) end
    | Some (row, true) => ret (inr (rows ++ [row], errs))
    | Some (row, false) => ret (inl (rows ++ [row], errs))
    end) ([], []) in
  ok_flag false [ETable (snd (attr_insert [] (lit "class") (lit "wj-table"))) rows] errs.
(** RI/underscore_line_break.rs:29-64. *)
Definition rule_underscore_line_break : M (success elements) :=
  let! ws := gets (fun p => is_tok TWhitespace p && next_is 0 TUnderscore p) in
  let! us := gets (fun p => is_tok TUnderscore p && match look_ahead 0 p with Some _ => true | None => false end
                            && start_of_line p) in
  (if ws : bool then step ;; ret tt else if us : bool then ret tt else fail RuleFailed) ;;
  let! b := gets (fun p => is_tok TUnderscore p && (next_is 0 TLineBreak p || next_is 0 TParagraphBreak p)) in
  if negb b then fail RuleFailed else
  step_n 2 ;;
  ok_derived [ELineBreak] [].

(** *** RULE_MAP, src/parsing/rule/mapping.rs:34-115, with each rule's name and position. *)
Definition R_text : rule_def := RULE "text" AnyPosition rule_text.
Definition R_bibcite : rule_def := RULE "bibcite" AnyPosition rule_bibcite.
Definition R_clear_float_ : rule_def := RULE "clear-float" StartOfLine rule_clear_float.
Definition R_double_angle : rule_def := RULE "double-angle" AnyPosition rule_double_angle.
Definition R_list : rule_def := RULE "list" StartOfLine rule_list.
Definition R_table : rule_def := RULE "table" StartOfLine rule_table.
Definition R_raw_ : rule_def := RULE "raw" AnyPosition rule_raw.
Definition R_null : rule_def := RULE "null" AnyPosition rule_null.
Definition R_usl : rule_def := RULE "underscore-line-break" AnyPosition rule_underscore_line_break.
Definition rules_for (t : token) : list rule_def :=
  match t with
  | TLeftBracket => [RULE "link-single" AnyPosition (rule_link_single TLeftBracket None); R_text]
  | TLeftBracketAnchor => [RULE "link-anchor" AnyPosition rule_link_anchor]
  | TLeftBracketStar =>
      [RULE "link-single-new-tab" AnyPosition (rule_link_single TLeftBracketStar (Some ATNewTab))]
  | TRightBracket => [R_text]
  | TLeftBlock => [RULE "block" AnyPosition (parse_block E consume false)]
  | TLeftBlockEnd => []
  | TLeftBlockAnchor => [RULE "anchor" AnyPosition rule_anchor]
  | TLeftBlockStar => [RULE "block-star" AnyPosition (parse_block E consume true)]
  | TRightBlock => []
  | TLeftParentheses => [R_bibcite; R_text]
  | TRightParentheses => [R_bibcite; R_text]
  | TLeftMath => [RULE "math" AnyPosition rule_math]
  | TRightMath => []
  | TDoubleDash => [RULE "strikethrough-dash" AnyPosition (rule_format CStrikethrough TDoubleDash);
                    RULE "dash" AnyPosition rule_dash]
  | TTripleDash => [RULE "horizontal-rule" StartOfLine rule_horizontal_rule]
  | TDoubleTilde => [RULE "strikethrough-tilde" AnyPosition (rule_format CStrikethrough TDoubleTilde)]
  | TLeftDoubleAngle => [R_double_angle]
  | TClearFloatBoth | TClearFloatLeft | TClearFloatRight => [R_clear_float_]
  | TPipe => [R_text]
  | TEquals => [RULE "center" StartOfLine rule_center; R_text]
  | TColon => [RULE "definition-list" StartOfLine rule_def_list; R_text]
  | TUnderscore => [R_usl; R_text]
  | TQuote => [RULE "blockquote" StartOfLine rule_blockquote; R_double_angle; R_text]
  | THeading => [RULE "header" StartOfLine rule_header; R_text]
  | TWhitespace => [R_usl; R_list; R_text]
  | TBold => [RULE "bold" AnyPosition (rule_format CBold TBold)]
  | TItalics => [RULE "italics" AnyPosition (rule_format CItalics TItalics)]
  | TUnderline => [RULE "underline" AnyPosition (rule_format CUnderline TUnderline)]
  | TSuperscript => [RULE "superscript" AnyPosition (rule_format CSuperscript TSuperscript)]
  | TSubscript => [RULE "subscript" AnyPosition (rule_format CSubscript TSubscript)]
  | TLeftMonospace => [RULE "monospace" AnyPosition rule_monospace]
  | TRightMonospace => []
  | TColor => [RULE "color" AnyPosition rule_color]
  | TRaw | TLeftRaw => [R_raw_]
  | TRightRaw => []
  | TBulletItem | TNumberedItem => [R_list; R_text]
  | TLeftLink => [RULE "link-triple" AnyPosition (rule_link_triple TLeftLink None)]
  | TLeftLinkStar => [RULE "link-triple-new-tab" AnyPosition (rule_link_triple TLeftLinkStar (Some ATNewTab))]
  | TRightLink => []
  | TTableColumn | TTableColumnLeft | TTableColumnRight | TTableColumnCenter | TTableColumnTitle => [R_table]
  | TIdentifier => [R_text]
  | TEmail => [RULE "email" AnyPosition rule_email]
  | TUrl => [RULE "url" AnyPosition rule_url]
  | TVariable => [RULE "variable" AnyPosition rule_variable; R_text]
  | TString => [R_text]
  | TLineBreak => [RULE "block-skip" AnyPosition (block_skip E consume);
                   RULE "definition-list-skip-newline" AnyPosition rule_def_skip;
                   RULE "line-break" AnyPosition rule_line_break]
  | TParagraphBreak => [RULE "line-break-paragraph" AnyPosition rule_line_break]
  | TInputStart | TInputEnd => [R_null]
  | TLeftComment => [RULE "comment" AnyPosition rule_comment]
  | TRightComment => []
  | TOther => [R_text]
  end.
End Rules.

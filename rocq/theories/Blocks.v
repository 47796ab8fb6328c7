(** Blocks.v -- model of src/parsing/rule/impls/block: the block head and body parsers, every
    block, the modules and the block rules.

    The assertions on the star and score flags at the top of each block hold by the checks of
    parse_block and are left out; the assertion on the block name is modelled.
    In the citations BLK stands for src/parsing/rule/impls/block. *)
From Verif Require Import Base Strings Links Attr Lexer Depth Tree Text PState.

(** [str::strip_suffix('_')], with the flag saying whether it was there. *)
Definition strip_score (s : str) : str * bool :=
  match rev s with c :: r => if ceqb c 95 then (rev r, true) else (s, false) | [] => (s, false) end.

(** [u32::from_str_radix]: an optional plus sign, at least one digit, no overflow. *)
Definition digit_value (c : char) : option N :=
  if is_digit c then Some (c - 48)%N
  else if is_upper c then Some (c - 55)%N
  else if is_lower c then Some (c - 87)%N
  else None.
Fixpoint radix_loop (radix acc : N) (s : str) : option N :=
  match s with
  | [] => Some acc
  | c :: s' => match digit_value c with
               | Some d => if (d <? radix)%N
                           then let acc' := (acc * radix + d)%N in
                                if (acc' <? 4294967296)%N then radix_loop radix acc' s' else None
                           else None
               | None => None
               end
  end.
Definition u32_from_str_radix (radix : N) (s : str) : option N :=
  let s := match strip_prefix [43%N] s with Some r => r | None => s end in
  match s with [] => None | _ => radix_loop radix 0 s end.
(** [str::parse::<NonZeroU32>]. *)
Definition parse_nonzero_u32 (s : str) : option N :=
  match u32_from_str_radix 10 s with Some 0%N => None | r => r end.
(** [char::from_u32]. *)
Definition char_from_u32 (n : N) : option char :=
  if (n <? 55296)%N || ((57344 <=? n) && (n <? 1114112))%N then Some n else None.

(** BlockRule, BLK/mod.rs:43-91; the parse function is in [block_table] below. *)
Record block_rule : Type := BR {
  br_name : rule_name; br_names : list str; br_star : bool; br_score : bool; br_newlines : bool }.

Section Blocks.
Variable E : env.
Variable consume : M (success elements).
Let text := en_text E.

(** *** BLK/parser.rs *)
(** get_block_name_internal, BLK/parser.rs:58-86. *)
Definition get_block_name_internal (kind : error_kind) : M (str * bool) :=
  let! (name, last) := collect_text_keep text
     [IsToken TWhitespace; IsToken TLineBreak; IsToken TParagraphBreak; IsToken TRightBlock] [] (Some kind) in
  match t_token last with
  | TWhitespace | TLineBreak | TParagraphBreak => ret (trim name, true)
  | TRightBlock => ret (trim name, false)
  | _ => panic (PanicUnreachable "get_block_name")
  end.
(** get_block_name, BLK/parser.rs:40-56. *)
Definition get_block_name (flag_star : bool) : M (str * bool) :=
  get_optional_token (if flag_star then TLeftBlockStar else TLeftBlock) ;;
  get_optional_space ;;
  get_block_name_internal BlockMissingName.
(** get_end_block, BLK/parser.rs:88-102. *)
Definition get_end_block : M str :=
  get_token TLeftBlockEnd BlockExpectedEnd ;;
  get_optional_space ;;
  let! (name, in_head) := get_block_name false in
  (if in_head : bool then get_optional_space ;; get_token TRightBlock BlockExpectedEnd ;; ret tt
   else ret tt) ;;
  ret name.
(** verify_end_block, BLK/parser.rs:107-139. *)
Definition verify_end_block (first : bool) (br : block_rule) : M (option xtoken) :=
  save_evaluate_fn (
    (if br_newlines br && negb first then get_optional_line_break else ret tt) ;;
    let! name := get_end_block in
    ret (existsb (eq_nocase (fst (strip_score name))) (br_names br))).
(** get_body_generic with the closure of get_body_text, BLK/parser.rs:146-181, 191-201.  The
    [debug_assert!] on the names holds of every rule of the table. *)
Definition get_body_text (br : block_rule) : M str :=
  let! start := gets cur in
  let! fin := looping (fun first =>
    let! at_end := verify_end_block first br in
    match at_end with
    | Some fin => ret (inr fin)
    | None => step ;; ret (inl false)
    end) true in
  or_panic PanicSlice (partial_slice text start fin).
(** get_body_elements_paragraphs, BLK/parser.rs:222-240. *)
Definition get_body_paragraphs (br : block_rule) : M (success elements) :=
  let! rule := gets rule_ in
  gather_paragraphs consume rule
    (Some (fun first => let! r := verify_end_block first br in
                        ret match r with Some _ => true | None => false end)).
(** get_body_elements_no_paragraphs, BLK/parser.rs:242-264. *)
Definition get_body_no_paragraphs (br : block_rule) : M (success elements) :=
  looping (fun '(all, errs, safe, first) =>
    let! r := verify_end_block first br in
    match r with
    | Some _ => ret (inr (PSu all errs safe))
    | None =>
        let! old := gets rem in
        let! out := consume in
        step_if_same old ;;
        ret (inl (all ++ su_item out, errs ++ su_errors out, safe && su_safe out, false))
    end) ([], [], true, true).
(** get_body_elements, BLK/parser.rs:203-220. *)
Definition get_body_elements (br : block_rule) (as_paragraphs : bool) : M (success elements) :=
  if as_paragraphs then get_body_paragraphs br else get_body_no_paragraphs br.

(** get_head_block, BLK/parser.rs:424-445. *)
Definition get_head_block (br : block_rule) (in_head : bool) : M unit :=
  (if in_head then get_token TRightBlock BlockMissingCloseBrackets ;; ret tt else ret tt) ;;
  let! at_end := gets (is_tok TInputEnd) in
  if negb at_end && br_newlines br then get_optional_line_break else ret tt.
(** ARGUMENT_KEY.is_match, BLK/parser.rs:34: some character is in the class. *)
Definition key_char (c : char) : bool := is_alnum c || ceqb c 95 || ceqb c 45.
Definition is_key_slice (s : str) : bool := existsb key_char s.
(** The key of an argument, BLK/parser.rs:288-330: [None] ends the arguments. *)
Definition get_argument_key : M (option str) :=
  let! start := gets cur in
  let! finished := looping (fun _ : unit =>
    let! c := gets cur in
    match t_token c with
    | TRightBlock => ret (inr true)
    | TWhitespace | TLineBreak | TParagraphBreak | TEquals => ret (inr false)
    | _ => if is_key_slice (t_slice c) then step ;; ret (inl tt) else fail BlockMalformedArguments
    end) tt in
  if finished : bool then ret None
  else let! fin := gets cur in
       let! key := or_panic PanicSlice (partial_slice text start fin) in ret (Some key).
(** get_head_map, BLK/parser.rs:267-351. *)
Definition get_head_map (br : block_rule) (in_head : bool) : M arguments :=
  let! map := (if in_head then
      looping (fun map : arguments =>
        get_optional_spaces_any ;;
        let! key := get_argument_key in
        match key with
        | None => ret (inr map)
        | Some key =>
            get_optional_space ;;
            get_token TEquals BlockMalformedArguments ;;
            get_optional_space ;;
            let! raw := get_token TString BlockMalformedArguments in
            let! value := or_panic PanicString (parse_string raw) in
            ret (inl (args_insert map key value))
        end) []
    else ret []) in
  get_head_block br in_head ;;
  ret map.
(** get_head_name_map, BLK/parser.rs:353-373. *)
Definition get_head_name_map (br : block_rule) (in_head : bool) : M (str * arguments) :=
  if negb in_head then fail BlockMissingName else
  let! (subname, in_head) := get_block_name_internal ModuleMissingName in
  let! args := get_head_map br in_head in
  ret (subname, args).
(** get_head_value, BLK/parser.rs:375-410. *)
Definition get_head_value {T} (br : block_rule) (in_head : bool) (convert : option str -> M T) : M T :=
  let! argument := (if in_head then
      let! s := collect_text text [IsToken TRightBlock] [IsToken TParagraphBreak; IsToken TLineBreak]
                  (Some BlockMalformedArguments) in ret (Some s)
    else ret None) in
  let! value := convert argument in
  get_head_block br false ;;
  ret value.
(** get_head_none, BLK/parser.rs:412-421. *)
Definition get_head_none (br : block_rule) (in_head : bool) : M unit :=
  get_optional_space ;; get_head_block br in_head.

(** *** Helpers used by many blocks. *)
(** assert_generic_name, assert_block_name: BLK/blocks/mod.rs:28-51 (debug builds only). *)
Definition assert_name (names : list str) (name : str) : M unit :=
  if en_debug E && negb (existsb (eq_nocase name) names) then panic PanicBlockName else ret tt.
Definition assert_block_name (br : block_rule) (name : str) : M unit := assert_name (br_names br) name.
(** Arguments::to_attribute_map(parser.settings()), BLK/arguments.rs:112-118. *)
Definition attrs (args : arguments) : M btmap :=
  or_panic PanicAttributes (to_attribute_map (en_word E) (en_normalize E) (en_isolate E) args).
(** Arguments::get_bool, BLK/arguments.rs:60-72; get_value for NonZeroU32, lines 74-86. *)
Definition get_bool (args : arguments) (key : str) : M (option bool * arguments) :=
  let '(v, args) := args_get args key in
  match v with
  | Some v => match parse_boolean v with Some b => ret (Some b, args) | None => fail BlockMalformedArguments end
  | None => ret (None, args)
  end.
Definition get_u32 (args : arguments) (key : str) : M (option N * arguments) :=
  let '(v, args) := args_get args key in
  match v with
  | Some v => match parse_nonzero_u32 v with Some b => ret (Some b, args) | None => fail BlockMalformedArguments end
  | None => ret (None, args)
  end.
Definition unwrap_or {A} (o : option A) (d : A) : A := match o with Some a => a | None => d end.
(** check_page_syntax, src/parsing/parser.rs:211-217. *)
Definition check_page_syntax : M unit := if en_page_syntax E then ret tt else fail NotSupportedMode.
(** A value argument that must be present, as in user.rs:43-47. *)
Definition required (f : str -> str) (v : option str) : M str :=
  match v with Some s => ret (f s) | None => fail BlockMissingArguments end.
(** The body shared by the simple container blocks: head map, body, container (bold.rs:32-57 and the
    same in the other files).  [paragraphs] = body in paragraphs; [derived] = the safety flag is
    computed from the container instead of from its contents. *)
Definition container_block (br : block_rule) (ct : container_type) (paragraphs derived : bool)
    (post : elements -> elements) (name : str) (in_head : bool) : M (success elements) :=
  assert_block_name br name ;;
  let! args := get_head_map br in_head in
  let! out := get_body_elements br paragraphs in
  let! attributes := attrs args in
  let es := [EContainer ct attributes (post (su_item out))] in
  if derived then ok_derived es (su_errors out) else ok_flag (su_safe out) es (su_errors out).
Definition same (es : elements) : elements := es.

(** Block parse functions take the block's own rule, the name, the star and score flags and
    whether we are still in the head (BlockParseFn, BLK/mod.rs:126-140). *)
Notation block_fn := (block_rule -> str -> bool -> bool -> bool -> M (success elements)).

(** parse_alignment_block, BLK/blocks/align.rs:58-90. *)
Definition blk_align (a : alignment) : block_fn := fun br name _ _ in_head =>
  assert_block_name br name ;;
  get_head_none br in_head ;;
  let! out := get_body_elements br true in
  ok_derived [EContainer (CAlign a) [] (su_item out)] (su_errors out).
(** BLK/blocks/anchor.rs:34-73. *)
Definition blk_anchor : block_fn := fun br name star score in_head =>
  assert_block_name br name ;;
  let! args := get_head_map br in_head in
  let! attributes := attrs args in
  let! out := get_body_elements br false in
  let es := if score then strip_newlines (su_item out) else su_item out in
  ok_flag (su_safe out) [EAnchor (if star then Some ATNewTab else None) attributes es] (su_errors out).
(** BLK/blocks/bibcite.rs:32-62. *)
Definition blk_bibcite : block_fn := fun br name _ score in_head =>
  assert_block_name br name ;;
  let! label := get_head_value br in_head (required trim) in
  ok_derived [EBibliographyCite label (negb score)] [].
(** The loop of BLK/blocks/bibliography.rs:65-93. *)
Fixpoint bib_items (items : list def_item) (b : bibliography) : bibliography :=
  match items with [] => b | d :: items' => bib_items items' (bib_add b (df_key_string d) (df_value d)) end.
Fixpoint bib_loop (es : elements) (b : bibliography) : option bibliography :=
  match es with
  | [] => Some b
  | EDefinitionList items :: es' => bib_loop es' (bib_items items b)
  | e :: es' => if is_whitespace e then bib_loop es' b else None
  end.
(** BLK/blocks/bibliography.rs:33-99. *)
Definition blk_bibliography : block_fn := fun br name _ _ in_head =>
  assert_block_name br name ;;
  let! args := get_head_map br in_head in
  let '(title, args) := args_get args (lit "title") in
  let! (hide, args) := get_bool args (lit "hide") in
  let! out := get_body_elements br false in
  match bib_loop (su_item out) [] with
  | Some b => let! index := push_bibliography b in
              ok_derived [EBibliographyBlock index title (unwrap_or hide false)] (su_errors out)
  | None => fail BibliographyContainsNonDefinitionList
  end.
(** BLK/blocks/blockquote.rs:32-57. *)
Definition blk_blockquote : block_fn := fun br name _ _ in_head =>
  container_block br CBlockquote true true same name in_head.
(** The inline and plain container blocks: BLK/blocks/bold.rs:32-57, del.rs:32-58, hidden.rs:32-57,
    ins.rs:32-58, invisible.rs:32-57, italics.rs:32-57, mark.rs:32-58, monospace.rs:32-57,
    strikethrough.rs:32-58, subscript.rs:32-57, superscript.rs:32-57, underline.rs:32-57. *)
Definition blk_container (ct : container_type) : block_fn := fun br name _ _ in_head =>
  container_block br ct false false same name in_head.
(** strip_entity, BLK/blocks/char.rs:126-138. *)
Definition strip_entity (s : str) : str :=
  let s := trim s in
  let s := match strip_prefix [38%N] s with Some r => r | None => s end in
  match rev s with c :: r => if ceqb c 59 then rev r else s | [] => s end.
(** get_char, BLK/blocks/char.rs:114-122. *)
Definition get_char (value : str) (radix : N) : option str :=
  match u32_from_str_radix radix value with
  | Some n => match char_from_u32 n with Some c => Some [c] | None => None end
  | None => None
  end.
(** find_entity, BLK/blocks/char.rs:84-106. *)
Definition find_entity (entity : str) : option str :=
  match en_entity E entity with
  | Some r => Some r
  | None =>
      match match strip_prefix (lit "#x") entity with Some v => get_char v 16 | None => None end with
      | Some r => Some r
      | None => match strip_prefix (lit "#") entity with Some v => get_char v 10 | None => None end
      end
  end.
(** BLK/blocks/char.rs:50-81. *)
Definition blk_char : block_fn := fun br name _ _ in_head =>
  assert_block_name br name ;;
  let! s := get_head_value br in_head (fun v =>
    match v with
    | None => fail BlockMissingArguments
    | Some arg => match find_entity (strip_entity arg) with
                  | Some s => ret s
                  | None => fail BlockMalformedArguments
                  end
    end) in
  ok_derived [EText s] [].
(** BLK/blocks/checkbox.rs:32-52. *)
Definition blk_checkbox : block_fn := fun br name star _ in_head =>
  assert_block_name br name ;;
  let! args := get_head_map br in_head in
  get_optional_space ;;
  let! attributes := attrs args in
  ok_derived [ECheckBox star attributes] [].
(** BLK/blocks/code.rs:34-72. *)
Definition blk_code : block_fn := fun br name _ _ in_head =>
  assert_block_name br name ;;
  let! args := get_head_map br in_head in
  let '(language, args) := args_get args (lit "type") in
  let language := option_map slower language in
  let '(cname, args) := args_get args (lit "name") in
  let cname := option_map (en_normalize E) cname in
  let! code := get_body_text br in
  let! added := push_code_block (CB code cname) in
  if added : bool then ok_derived [ECode code language] [] else fail CodeNonUniqueName.
(** parse_hide_location, BLK/blocks/collapsible.rs:79-97. *)
Fixpoint lookup_nocase {A} (names : list (str * A)) (s : str) : option A :=
  match names with
  | [] => None
  | (n, v) :: names' => if eq_nocase n s then Some v else lookup_nocase names' s
  end.
Definition HIDE_NAMES : list (str * (bool * bool)) :=
  [ (lit "top", (true, false)); (lit "bottom", (false, true)); (lit "both", (true, true));
    (lit "neither", (false, false)); (lit "none", (false, false)) ].
Definition parse_hide_location (s : str) : option (bool * bool) := lookup_nocase HIDE_NAMES (trim s).
(** BLK/blocks/collapsible.rs:33-77. *)
Definition blk_collapsible : block_fn := fun br name _ _ in_head =>
  assert_block_name br name ;;
  let! args := get_head_map br in_head in
  let '(show_text, args) := args_get args (lit "show") in
  let '(hide_text, args) := args_get args (lit "hide") in
  let! (folded, args) := get_bool args (lit "folded") in
  let start_open := negb (unwrap_or folded true) in
  let '(loc, args) := args_get args (lit "hideLocation") in
  let! (show_top, show_bottom) :=
     match loc with
     | Some v => match parse_hide_location v with Some r => ret r | None => fail BlockMalformedArguments end
     | None => ret (true, false)
     end in
  let! out := get_body_elements br true in
  let! attributes := attrs args in
  ok_derived [ECollapsible (su_item out) attributes start_open show_text hide_text show_top show_bottom]
             (su_errors out).
(** BLK/blocks/date.rs:40-94; parse_date, parse_timezone and add_timezone are the environment's. *)
Definition blk_date : block_fn := fun br name _ _ in_head =>
  assert_block_name br name ;;
  let! (value, args) := get_head_name_map br in_head in
  let '(format, args) := args_get args (lit "format") in
  let '(tz, args) := args_get args (lit "tz") in
  let! (hover, args) := get_bool args (lit "hover") in
  match en_date E value with
  | None => fail BlockMalformedArguments
  | Some date =>
      let! date := match tz with
                   | None => ret date
                   | Some arg => match en_tz E arg with
                                 | None => fail BlockMalformedArguments
                                 | Some offset => match en_date_tz E date offset with
                                                  | Some d => ret d
                                                  | None => fail BlockMalformedArguments
                                                  end
                                 end
                   end in
      ok_derived [EDate date format (unwrap_or hover true)] []
  end.
(** BLK/blocks/div.rs:32-63. *)
Definition blk_div : block_fn := fun br name _ score in_head =>
  container_block br CDiv (negb score) true same name in_head.
(** build_embed, BLK/blocks/embed.rs:56-98. *)
Definition build_embed (name : str) (args : arguments) : M embed :=
  let video mk := match fst (args_get args (lit "video")) with
                  | Some v => ret (mk v)
                  | None => fail BlockMissingArguments
                  end in
  if eq_nocase (lit "youtube") name then video EmYoutube
  else if eq_nocase (lit "vimeo") name then video EmVimeo
  else fail NoSuchEmbed.
(** BLK/blocks/embed.rs:38-54. *)
Definition blk_embed : block_fn := fun br name _ _ in_head =>
  assert_block_name br name ;;
  let! (name, args) := get_head_name_map br in_head in
  let! e := build_embed name args in
  ok_derived [EEmbed e] [].
(** BLK/blocks/equation_ref.rs:32-55. *)
Definition blk_equation_ref : block_fn := fun br name _ _ in_head =>
  assert_block_name br name ;;
  let! name := get_head_value br in_head (required trim) in
  ok_derived [EEquationReference name] [].
(** The ParserWrap of footnotes, BLK/blocks/footnote.rs:127-165: sets the flag, clears it on drop. *)
Definition wrap_footnote {A} (m : M A) : M A := fun p s =>
  match m (with_footnote true p) s with
  | ROk a q s' => ROk a (with_footnote false q) s'
  | RErr e q s' => RErr e (with_footnote false q) s'
  | RPanic w => RPanic w
  | RFuel => RFuel
  end.
(** A lone paragraph is unwrapped, BLK/blocks/footnote.rs:76-89. *)
Definition unwrap_paragraph (es : elements) : elements :=
  match es with [EContainer CParagraph _ inner] => inner | _ => es end.
(** parse_footnote_ref, BLK/blocks/footnote.rs:42-95. *)
Definition blk_footnote : block_fn := fun br name _ _ in_head =>
  let! nested := gets in_footnote in
  if nested : bool then fail FootnotesNested
  else wrap_footnote (
    assert_block_name br name ;;
    get_head_none br in_head ;;
    let! out := get_body_elements br true in
    push_footnote (unwrap_paragraph (su_item out)) ;;
    ok_derived [EFootnote] (su_errors out)).
(** parse_footnote_block, BLK/blocks/footnote.rs:97-125. *)
Definition blk_footnote_block : block_fn := fun br name _ _ in_head =>
  assert_block_name br name ;;
  let! args := get_head_map br in_head in
  let '(title, args) := args_get args (lit "title") in
  let! (hide, args) := get_bool args (lit "hide") in
  match args with
  | [] => modify with_footnote_block ;;
          ok_derived [EFootnoteBlock title (unwrap_or hide false)] []
  | _ => fail BlockMalformedArguments
  end.
(** BLK/blocks/html.rs:32-52. *)
Definition blk_html : block_fn := fun br name _ _ in_head =>
  assert_block_name br name ;;
  get_head_none br in_head ;;
  let! html := get_body_text br in
  push_html_block html ;;
  ok_derived [EHtml html] [].
(** check_ifcategory, BLK/blocks/ifcategory.rs:93-101. *)
Definition check_ifcategory (cs : list condition) : bool :=
  cond_check cs [unwrap_or (en_category E) (lit "_default")].
(** BLK/blocks/ifcategory.rs:34-91. *)
Definition blk_ifcategory : block_fn := fun br name _ _ in_head =>
  assert_block_name br name ;;
  let! cs := get_head_value br in_head (fun v =>
    match v with
    | None => fail BlockMissingArguments
    | Some spec => ret (map (fun c => match c_type c with
                                      | Required => Cond Present (c_value c)
                                      | _ => c
                                      end) (cond_parse spec))
    end) in
  let! out := get_body_elements br false in
  ok_flag (su_safe out) (if check_ifcategory cs then su_item out else []) (su_errors out).
(** BLK/blocks/iframe.rs:33-57. *)
Definition blk_iframe : block_fn := fun br name _ _ in_head =>
  assert_block_name br name ;;
  let! (url, args) := get_head_name_map br in_head in
  if negb (is_url url) then fail BlockMalformedArguments else
  let! attributes := attrs args in
  ok_derived [EIframe attributes url] [].
(** BLK/blocks/iftags.rs:34-80. *)
Definition blk_iftags : block_fn := fun br name _ _ in_head =>
  assert_block_name br name ;;
  let! cs := get_head_value br in_head (fun v =>
    match v with None => fail BlockMissingArguments | Some spec => ret (cond_parse spec) end) in
  let! out := get_body_elements br false in
  ok_flag (su_safe out) (if cond_check cs (en_tags E) then su_item out else []) (su_errors out).
(** FloatAlignment::parse, src/tree/align.rs:74-86, 100-113: the regex ^[fF]?([<=>]). *)
Definition float_alignment_parse (name : str) : option float_alignment :=
  match name with
  | c :: r =>
      if ceqb c 61 then Some (FA AlCenter false)
      else if ceqb c 60 then Some (FA AlLeft false)
      else if ceqb c 62 then Some (FA AlRight false)
      else if ceqb c 102 || ceqb c 70 then
        match r with
        | d :: _ => if ceqb d 60 then Some (FA AlLeft true)
                    else if ceqb d 62 then Some (FA AlRight true) else None
        | [] => None
        end
      else None
  | [] => None
  end.
(** ImageSource::parse, src/tree/image.rs:48-80. *)
Definition image_source_parse (source : str) : option image_source :=
  if is_url source then Some (ISUrl source)
  else
    let source := match strip_prefix [47%N] source with Some r => r | None => source end in
    match split_char 47 source with
    | [a] => Some (ISFile1 a)
    | [a; b] => Some (ISFile2 a b)
    | [a; b; c] => Some (ISFile3 a b c)
    | _ => None
    end.
(** LinkLocation::parse never fails; the other outcomes are panics. *)
Definition good_or_panic {A} (w : panic_site) (o : outcome A) : M A :=
  match o with Good a => ret a | _ => panic w end.
(** BLK/blocks/image.rs:33-64. *)
Definition blk_image : block_fn := fun br name _ _ in_head =>
  assert_block_name br name ;;
  let! (source, args) := get_head_name_map br in_head in
  let '(link, args) := args_get args (lit "link") in
  let! link := match link with
               | Some l => let! r := good_or_panic PanicLink (link_parse l) in ret (Some r)
               | None => ret None
               end in
  match image_source_parse source with
  | None => fail BlockMalformedArguments
  | Some source =>
      let! attributes := attrs args in
      ok_derived [EImage source link (float_alignment_parse name) attributes] []
  end.
(** BLK/blocks/include_elements.rs:40-128; include_page (lines 105-128) is a stub in the code,
    with no errors, no footnote block and empty tables, so append_shared_items does nothing.
    The hash map of the variables is kept as the argument list. *)
Definition blk_include_elements : block_fn := fun br name _ _ in_head =>
  check_page_syntax ;;
  assert_block_name br name ;;
  let! (page_name, variables) := get_head_name_map br in_head in
  match pr_parse page_name with
  | Good r => ok_derived [EInclude false variables r [EText (lit "<INCLUDED PAGE (ELEMENTS)>")]] []
  | Bad => fail BlockMalformedArguments
  | Panic => panic PanicLink
  end.
(** BLK/blocks/include_wikidot.rs:41-57. *)
Definition blk_include : block_fn := fun br name _ _ _ =>
  check_page_syntax ;;
  assert_block_name br name ;;
  fail InvalidInclude.
(** BLK/blocks/later.rs:41-52. *)
Definition blk_later : block_fn := fun br name _ _ in_head =>
  assert_block_name br name ;;
  get_head_none br in_head ;;
  ok_derived [EText (lit "later.")] [].
(** BLK/blocks/lines.rs:33-69. *)
Definition blk_lines : block_fn := fun br name _ _ in_head =>
  assert_block_name br name ;;
  let! count := get_head_value br in_head (fun v =>
    match v with
    | None => fail BlockMissingArguments
    | Some arg => match parse_nonzero_u32 (trim arg) with
                  | Some n => if (100 <? n)%N then fail BlockMalformedArguments else ret n
                  | None => fail BlockMalformedArguments
                  end
    end) in
  ok_derived [ELineBreaks count] [].
(** The loop of BLK/blocks/list.rs:137-165. *)
Fixpoint list_items (es : elements) : option (list list_item) :=
  match es with
  | [] => Some []
  | EPartial (PListItem i) :: es' => option_map (cons i) (list_items es')
  | EList lt a items :: es' => option_map (cons (LISubList (EList lt a items))) (list_items es')
  | e :: es' => if is_whitespace e then list_items es' else None
  end.
(** parse_list_block, BLK/blocks/list.rs:90-177. *)
Definition blk_list (lt : list_type) : block_fn := fun br name _ score in_head =>
  wrap APListItem (
    assert_block_name br name ;;
    let! args := get_head_map br in_head in
    let! attributes := attrs args in
    let! out := get_body_elements br false in
    let es := if score then strip_newlines (su_item out) else su_item out in
    match es with
    | [] => fail ListEmpty
    | _ => match list_items es with
           | Some items => ok_flag false [EList lt attributes items] (su_errors out)
           | None => fail ListContainsNonItem
           end
    end).
(** parse_list_item, BLK/blocks/list.rs:181-217. *)
Definition blk_li : block_fn := fun br name _ score in_head =>
  assert_block_name br name ;;
  let! args := get_head_map br in_head in
  let! attributes := attrs args in
  let! out := get_body_elements br false in
  let es := if score then strip_newlines (su_item out) else su_item out in
  ok_flag false [EPartial (PListItem (LIElements attributes es))] (su_errors out).
(** BLK/blocks/math.rs:32-59. *)
Definition blk_math : block_fn := fun br name _ _ in_head =>
  assert_block_name br name ;;
  let! mname := get_head_value br in_head (fun v => ret (option_map trim v)) in
  let! source := get_body_text br in
  match trim source with
  | [] => fail RuleFailed
  | latex => ok_derived [EMath mname latex] []
  end.
(** BLK/blocks/paragraph.rs:33-62. *)
Definition set_paragraph_attributes (attributes : btmap) (e : element) : element :=
  match e with EContainer CParagraph _ es => EContainer CParagraph attributes es | _ => e end.
Definition blk_paragraph : block_fn := fun br name _ _ in_head =>
  assert_block_name br name ;;
  let! args := get_head_map br in_head in
  let! attributes := attrs args in
  let! out := get_body_elements br true in
  ok_derived (map (set_paragraph_attributes attributes) (su_item out)) (su_errors out).
(** BLK/blocks/radio.rs:32-55. *)
Definition blk_radio : block_fn := fun br name star _ in_head =>
  assert_block_name br name ;;
  let! (rname, args) := get_head_name_map br in_head in
  get_optional_space ;;
  let! attributes := attrs args in
  ok_derived [ERadioButton rname star attributes] [].
(** The conversion of BLK/blocks/ruby.rs:74-96. *)
Definition ruby_convert (e : element) : element :=
  match e with EPartial (PRubyText a es) => EContainer CRubyText a es | _ => e end.
Definition is_partial (e : element) : bool := match e with EPartial _ => true | _ => false end.
(** parse_block of BLK/blocks/ruby.rs:55-120. *)
Definition blk_ruby : block_fn := fun br name _ _ in_head =>
  assert_block_name br name ;;
  wrap APRuby (
    let! args := get_head_map br in_head in
    let! out := get_body_elements br false in
    let es := map ruby_convert (su_item out) in
    if en_debug E && existsb is_partial es then panic PanicLeftoverPartial else
    let! attributes := attrs args in
    ok_flag (su_safe out) [EContainer CRuby attributes (strip_whitespace es)] (su_errors out)).
(** parse_text of BLK/blocks/ruby.rs:124-150. *)
Definition blk_rt : block_fn := fun br name _ _ in_head =>
  assert_block_name br name ;;
  let! args := get_head_map br in_head in
  let! out := get_body_elements br false in
  let! attributes := attrs args in
  ok_flag (su_safe out) [EPartial (PRubyText attributes (strip_whitespace (su_item out)))] (su_errors out).
(** parse_shortcut of BLK/blocks/ruby.rs:154-194. *)
Definition blk_rb : block_fn := fun br name _ _ in_head =>
  assert_block_name br name ;;
  let! (base, ruby) := get_head_value br in_head (fun v =>
    match v with
    | None => fail BlockMissingArguments
    | Some v => match split_char 124 v with
                | [base; ruby] => ret (trim base, trim ruby)
                | _ => fail BlockMalformedArguments
                end
    end) in
  ok_derived [EContainer CRuby [] [EText base; EContainer CRubyText [] [EText ruby]]] [].
(** BLK/blocks/size.rs:34-66. *)
Definition blk_size : block_fn := fun br name _ _ in_head =>
  assert_block_name br name ;;
  let! size := get_head_value br in_head (required (fun s => lit "font-size: " ++ s ++ lit ";")) in
  let! out := get_body_elements br false in
  ok_flag (su_safe out) [EContainer CSize (snd (attr_insert [] (lit "style") size)) (su_item out)] (su_errors out).
(** BLK/blocks/span.rs:33-65. *)
Definition blk_span : block_fn := fun br name _ score in_head =>
  container_block br CSpan false false (if score then strip_newlines else same) name in_head.
(** parse_block of BLK/blocks/table.rs:73-109. *)
Definition table_block (br : block_rule) (name : str) (in_head : bool) : M (elements * btmap * list perr) :=
  assert_block_name br name ;;
  let! args := get_head_map br in_head in
  let! attributes := attrs args in
  let! out := get_body_elements br false in
  ret (su_item out, attributes, su_errors out).
(** extract_table_items!, BLK/blocks/table.rs:111-132. *)
Fixpoint extract_items {A} (f : partial -> option A) (es : elements) : option (list A) :=
  match es with
  | [] => Some []
  | e :: es' =>
      match (match e with EPartial p => f p | _ => None end) with
      | Some a => option_map (cons a) (extract_items f es')
      | None => if is_whitespace e then extract_items f es' else None
      end
  end.
(** parse_table, BLK/blocks/table.rs:136-165. *)
Definition blk_table : block_fn := fun br name _ _ in_head =>
  wrap APTableRow (
    let! (es, attributes, errs) := table_block br name in_head in
    match extract_items (fun p => match p with PTableRow r => Some r | _ => None end) es with
    | Some rows => ok_flag false [ETable attributes rows] errs
    | None => fail TableContainsNonRow
    end).
(** parse_row, BLK/blocks/table.rs:169-200. *)
Definition blk_row : block_fn := fun br name _ _ in_head =>
  wrap APTableCell (
    let! (es, attributes, errs) := table_block br name in_head in
    match extract_items (fun p => match p with PTableCell c => Some c | _ => None end) es with
    | Some cells => ok_flag false [EPartial (PTableRow (TR attributes cells))] errs
    | None => fail TableRowContainsNonCell
    end).
(** parse_cell, BLK/blocks/table.rs:254-279. *)
Definition make_cell (header : bool) (es : elements) (attributes : btmap) (errs : list perr) : M (success elements) :=
  let span := match bt_get attributes (lit "colspan") with
              | Some v => unwrap_or (parse_nonzero_u32 v) 1%N
              | None => 1%N
              end in
  ok_flag false [EPartial (PTableCell (TC header span None (bt_remove attributes (lit "colspan")) (strip_whitespace es)))] errs.
(** parse_cell_regular, BLK/blocks/table.rs:204-226. *)
Definition blk_cell : block_fn := fun br name _ _ in_head =>
  let! (es, attributes, errs) := table_block br name in_head in
  make_cell false es attributes errs.
(** parse_cell_header, BLK/blocks/table.rs:228-252. *)
Definition blk_hcell : block_fn := fun br name _ _ in_head =>
  wrap APTableCell (
    let! (es, attributes, errs) := table_block br name in_head in
    make_cell true es attributes errs).
(** parse_tabview, BLK/blocks/tabs.rs:43-83. *)
Definition blk_tabview : block_fn := fun br name _ _ in_head =>
  wrap APTab (
    assert_block_name br name ;;
    get_head_none br in_head ;;
    let! out := get_body_elements br false in
    match extract_items (fun p => match p with PTab t => Some t | _ => None end) (su_item out) with
    | None => fail TabViewContainsNonTab
    | Some [] => fail TabViewEmpty
    | Some tabs => ok_flag false [ETabView tabs] (su_errors out)
    end).
(** parse_tab, BLK/blocks/tabs.rs:85-112. *)
Definition blk_tab : block_fn := fun br name _ _ in_head =>
  assert_block_name br name ;;
  let! label := get_head_value br in_head (required (fun s => s)) in
  let! out := get_body_elements br true in
  ok_flag false [EPartial (PTab (TB label (su_item out)))] (su_errors out).
(** BLK/blocks/target.rs:34-65. *)
Definition blk_target : block_fn := fun br name _ _ in_head =>
  assert_block_name br name ;;
  let! tname := get_head_value br in_head (required trim) in
  if match tname with [] => true | _ => cmem 32 tname end then fail BlockMissingArguments
  else ok_derived [EAnchorName (if en_isolate E then isolate_ids tname else tname)] [].
(** BLK/blocks/toc.rs:33-51. *)
Definition blk_toc : block_fn := fun br name _ _ in_head =>
  check_page_syntax ;;
  assert_block_name br name ;;
  let! args := get_head_map br in_head in
  let! attributes := attrs args in
  ok_flag false [ETableOfContents attributes (option_map fa_align (float_alignment_parse name))] [].
(** BLK/blocks/user.rs:32-55. *)
Definition blk_user : block_fn := fun br name star _ in_head =>
  assert_block_name br name ;;
  let! uname := get_head_value br in_head (required trim) in
  ok_derived [EUser uname star] [].

(** *** Modules: BLK/blocks/module/mapping.rs:26-33, modules/*.rs.  The name assertions of the
    modules hold by the lookup. *)
Notation module_fn := (block_rule -> arguments -> M (success elements)).
(** BLK/blocks/module/modules/backlinks.rs:29-39. *)
Definition mod_backlinks : module_fn := fun _ args =>
  ok_flag false [EModule (MBacklinks (fst (args_get args (lit "page"))))] [].
(** BLK/blocks/module/modules/categories.rs:29-42. *)
Definition mod_categories : module_fn := fun _ args =>
  let! (hidden, args) := get_bool args (lit "includeHidden") in
  ok_flag false [EModule (MCategories (unwrap_or hidden false))] [].
(** BLK/blocks/module/modules/css.rs:29-40: the body is closed by the module block's names. *)
Definition mod_css : module_fn := fun br _ =>
  let! css := get_body_text br in ok_flag false [EStyle css] [].
(** BLK/blocks/module/modules/join.rs:29-44. *)
Definition mod_join : module_fn := fun _ args =>
  let '(button, args) := args_get args (lit "button") in
  let! attributes := attrs args in
  ok_flag false [EModule (MJoin button attributes)] [].
(** BLK/blocks/module/modules/page_tree.rs:29-46. *)
Definition mod_page_tree : module_fn := fun _ args =>
  let '(root, args) := args_get args (lit "root") in
  let! (depth, args) := get_u32 args (lit "depth") in
  let! (show_root, args) := get_bool args (lit "showRoot") in
  ok_flag false [EModule (MPageTree root (unwrap_or show_root false) depth)] [].
(** BLK/blocks/module/modules/rate.rs:29-37. *)
Definition mod_rate : module_fn := fun _ _ => ok_flag false [EModule MRate] [].
Definition MODULE_RULES : list (str * (rule_name * module_fn)) :=
  [ (lit "Backlinks", ("module-backlinks"%string, mod_backlinks));
    (lit "Categories", ("module-categories"%string, mod_categories));
    (lit "CSS", ("module-css"%string, mod_css));
    (lit "Join", ("module-join"%string, mod_join));
    (lit "PageTree", ("module-page-tree"%string, mod_page_tree));
    (lit "Rate", ("module-rate"%string, mod_rate)) ].
(** BLK/blocks/module/rule.rs:33-67. *)
Definition blk_module : block_fn := fun br name _ _ in_head =>
  check_page_syntax ;;
  assert_block_name br name ;;
  let! (subname, args) := get_head_name_map br in_head in
  match lookup_nocase MODULE_RULES subname with
  | None => fail NoSuchModule
  | Some (rname, f) =>
      set_rule rname ;;
      let! out := f br args in
      ok_flag (su_safe out) (su_item out) (su_errors out)
  end.

(** BLOCK_RULES, BLK/mapping.rs:26-87, with the fields of each rule (BLK/blocks/*.rs). *)
Definition blk (name : String.string) (names : list String.string) (star score newlines : bool)
    (f : block_fn) : block_rule * block_fn :=
  (BR name (map lit names) star score newlines, f).
Definition BLOCK_RULES : list (block_rule * block_fn) :=
  [ blk "block-align-center" ["="] false false true (blk_align AlCenter);
    blk "block-align-justify" ["=="] false false true (blk_align AlJustify);
    blk "block-align-left" ["<"] false false true (blk_align AlLeft);
    blk "block-align-right" [">"] false false true (blk_align AlRight);
    blk "block-anchor" ["a"; "anchor"] true true false blk_anchor;
    blk "block-bibcite" ["bibcite"] false true false blk_bibcite;
    blk "block-bibliography" ["bibliography"] false false true blk_bibliography;
    blk "block-blockquote" ["blockquote"; "quote"] false false true blk_blockquote;
    blk "block-bold" ["b"; "bold"; "strong"] false false false (blk_container CBold);
    blk "block-char" ["char"; "character"] false false false blk_char;
    blk "block-checkbox" ["checkbox"] true false false blk_checkbox;
    blk "block-code" ["code"] false false true blk_code;
    blk "block-collapsible" ["collapsible"] false false true blk_collapsible;
    blk "block-date" ["date"] false false false blk_date;
    blk "block-del" ["del"; "deletion"] false false false (blk_container CDeletion);
    blk "block-div" ["div"] false true true blk_div;
    blk "block-embed" ["embed"] false false true blk_embed;
    blk "block-equation-ref" ["equation"; "eref"; "eqref"] false false false blk_equation_ref;
    blk "block-footnote" ["footnote"] false false false blk_footnote;
    blk "block-footnote-block" ["footnoteblock"] false false true blk_footnote_block;
    blk "block-hidden" ["hidden"] false false true (blk_container CHidden);
    blk "block-html" ["html"] false false true blk_html;
    blk "block-ifcategory" ["ifcategory"] false false true blk_ifcategory;
    blk "block-iframe" ["iframe"] false false true blk_iframe;
    blk "block-iftags" ["iftags"] false false true blk_iftags;
    blk "block-image" ["image"; "=image"; "<image"; ">image"; "f<image"; "f>image"] false false false blk_image;
    blk "block-include-elements" ["include-elements"] false false true blk_include_elements;
    blk "block-include" ["include"] false false true blk_include;
    blk "block-ins" ["ins"; "insertion"] false false false (blk_container CInsertion);
    blk "block-invisible" ["invisible"] false false true (blk_container CInvisible);
    blk "block-italics" ["i"; "italics"; "em"; "emphasis"] false false false (blk_container CItalics);
    blk "block-later" ["later"] true false true blk_later;
    blk "block-list-item" ["li"] false true true blk_li;
    blk "block-lines" ["lines"; "newlines"] false false true blk_lines;
    blk "block-mark" ["mark"; "highlight"] false false false (blk_container CMark);
    blk "block-math" ["math"] false false true blk_math;
    blk "block-module" ["module"; "module654"] false false true blk_module;
    blk "block-monospace" ["tt"; "mono"; "monospace"] false false false (blk_container CMonospace);
    blk "block-list-ordered" ["ol"] false true true (blk_list LNumbered);
    blk "block-paragraph" ["p"; "paragraph"] false false true blk_paragraph;
    blk "block-radio" ["radio"; "radio-button"] true false false blk_radio;
    blk "block-ruby-short" ["rb"; "ruby2"] false false false blk_rb;
    blk "block-ruby-text" ["rt"; "rubytext"] false false true blk_rt;
    blk "block-ruby" ["ruby"] false false true blk_ruby;
    blk "block-size" ["size"] false false false blk_size;
    blk "block-span" ["span"] false true false blk_span;
    blk "block-strikethrough" ["s"; "strikethrough"] false false false (blk_container CStrikethrough);
    blk "block-subscript" ["sub"; "subscript"] false false false (blk_container CSubscript);
    blk "block-superscript" ["sup"; "super"; "superscript"] false false false (blk_container CSuperscript);
    blk "block-tab" ["tab"] false false true blk_tab;
    blk "block-table" ["table"] false false true blk_table;
    blk "block-table-cell-header" ["hcell"] false false true blk_hcell;
    blk "block-table-cell-regular" ["cell"] false false true blk_cell;
    blk "block-toc" ["toc"; "f<toc"; "f>toc"] false false true blk_toc;
    blk "block-table-row" ["row"] false false true blk_row;
    blk "block-tabview" ["tabview"; "tabs"] false false true blk_tabview;
    blk "block-target" ["target"; "anchortarget"] false false true blk_target;
    blk "block-list-unordered" ["ul"] false true true (blk_list LBullet);
    blk "block-underline" ["u"; "underline"] false false false (blk_container CUnderline);
    blk "block-user" ["user"] true false false blk_user ]%string.
(** get_block_rule_with_name, BLK/mapping.rs:94-100: the map has one entry per accepted name. *)
Fixpoint lookup_block (rules : list (block_rule * block_fn)) (name : str) : option (block_rule * block_fn) :=
  match rules with
  | [] => None
  | r :: rules' => if existsb (eq_nocase name) (br_names (fst r)) then Some r else lookup_block rules' name
  end.
Definition get_block_rule (name : str) : option (block_rule * block_fn) :=
  lookup_block BLOCK_RULES (fst (strip_score name)).

(** *** BLK/rule.rs *)
(** parse_block, BLK/rule.rs:87-141. *)
Definition parse_block (flag_star : bool) : M (success elements) :=
  set_rule (if flag_star then "block-star" else "block")%string ;;
  get_optional_space ;;
  let! (name, in_head) := get_block_name flag_star in
  let '(name, flag_score) := strip_score name in
  match get_block_rule name with
  | None => fail NoSuchBlock
  | Some (br, f) =>
      set_rule (br_name br) ;;
      if negb (br_star br) && flag_star then fail BlockDisallowsStar
      else if negb (br_score br) && flag_score then fail BlockDisallowsScore
      else get_optional_space ;;
           f br name flag_star flag_score in_head
  end.
(** block_skip, BLK/rule.rs:56-83. *)
Definition block_skip : M (success elements) :=
  let! current := step in
  let! result := evaluate_fn (
    if match t_token current with TLeftBlock | TLeftBlockStar => true | _ => false end then
      let! (name, _) := get_block_name false in
      ret match get_block_rule name with Some (br, _) => br_newlines br | None => false end
    else ret false) in
  if result : bool then ok_derived [] [] else fail RuleFailed.
End Blocks.

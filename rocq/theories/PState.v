(** PState.v -- model of src/parsing/parser.rs (the parser state and its operations),
    parser_wrap.rs, check_step.rs, result.rs, condition.rs, collect/*.rs, paragraph/mod.rs and of the
    [try_consume] of rule/mod.rs.

    A Rust function [fn(&mut Parser, ..) -> Result<T, ParseError>] is a state-passing function
    [M T]: the parser value (copied by [clone]) is a [pstate], the five [Rc<RefCell<..>>] tables
    shared by all clones are a [shared], which no clone can roll back.  On [Err] the mutated parser
    is returned too, since callers may go on using it.  Panics and running out of recursion fuel
    are separate outcomes.  Logging, lifetimes and allocation are not modelled. *)
From Verif Require Import Base Strings Links Attr Lexer Depth Tree Text.

(** ParseErrorKind, src/parsing/error.rs:104-222. *)
Inductive error_kind : Type :=
| RecursionDepthExceeded | EndOfInput | NoRulesMatch | RuleFailed | NotSupportedMode
| NotStartOfLine | InvalidInclude | ListEmpty | ListContainsNonItem | ListItemOutsideList
| ListDepthExceeded | TableContainsNonRow | TableRowContainsNonCell | TableRowOutsideTable
| TableCellOutsideTable | TabViewEmpty | TabViewContainsNonTab | TabOutsideTabView
| FootnotesNested | BlockquoteDepthExceeded | RubyTextOutsideRuby
| BibliographyContainsNonDefinitionList | CodeNonUniqueName | NoSuchBlock | BlockDisallowsStar
| BlockDisallowsScore | BlockMissingName | BlockMissingCloseBrackets | BlockMalformedArguments
| BlockMissingArguments | BlockExpectedEnd | BlockEndMismatch | NoSuchEmbed | NoSuchModule
| ModuleMissingName | NoSuchPage | NoSuchVariable | InvalidUrl.
Definition error_kind_eq_dec : forall a b : error_kind, {a = b} + {a <> b}.
Proof. decide equality. Defined.
Definition kind_eqb (a b : error_kind) : bool := if error_kind_eq_dec a b then true else false.

(** A rule is represented by its name (src/parsing/rule/mod.rs:33-45); the functions are in
    Rules.v. *)
Notation rule_name := String.string (only parsing).

(** ParseError, src/parsing/error.rs:33-44; [new] (lines 46-58) copies the token's kind and span. *)
Record perr : Type := PE { pe_kind : error_kind; pe_rule : rule_name; pe_token : token; pe_start : nat; pe_end : nat }.
Definition perr_new (k : error_kind) (r : rule_name) (t : xtoken) : perr :=
  PE k r (t_token t) (t_start t) (t_end t).

(** AcceptsPartial, src/tree/partial.rs:91-100. *)
Inductive accepts : Type := APNone | APListItem | APTableRow | APTableCell | APTab | APRuby.
(** AcceptsPartial::matches, src/tree/partial.rs:102-114. *)
Definition ap_matches (a : accepts) (p : partial) : bool :=
  match a, p with
  | APListItem, PListItem _ | APTableRow, PTableRow _ | APTableCell, PTableCell _
  | APTab, PTab _ | APRuby, PRubyText _ _ => true
  | _, _ => false
  end.
(** PartialElement::parse_error_kind, src/tree/partial.rs:60-69. *)
Definition partial_error_kind (p : partial) : error_kind :=
  match p with
  | PListItem _ => ListItemOutsideList
  | PTableRow _ => TableRowOutsideTable
  | PTableCell _ => TableCellOutsideTable
  | PTab _ => TabOutsideTabView
  | PRubyText _ _ => RubyTextOutsideRuby
  end.

(** CodeBlock, src/tree/code.rs:26-30. *)
Record code_block : Type := CB { cb_contents : str; cb_name : option str }.
(** Bibliography, src/tree/bibliography.rs:33. *)
Notation bibliography := (list (str * list element)).
(** Bibliography::get, src/tree/bibliography.rs:53-70 (one-indexed). *)
Fixpoint bib_get_from (i : nat) (b : bibliography) (label : str) : option (nat * list element) :=
  match b with
  | [] => None
  | (l, es) :: b' => if seqb label l then Some (i + 1, es) else bib_get_from (S i) b' label
  end.
Definition bib_get (b : bibliography) (label : str) : option (nat * list element) := bib_get_from 0 b label.
(** Bibliography::add, src/tree/bibliography.rs:40-51. *)
Definition bib_add (b : bibliography) (label : str) (es : list element) : bibliography :=
  match bib_get b label with Some _ => b | None => b ++ [(label, es)] end.
(** BibliographyList::get_reference, src/tree/bibliography.rs:107-117. *)
Fixpoint bibs_get (bs : list bibliography) (label : str) : option (nat * list element) :=
  match bs with
  | [] => None
  | b :: bs' => match bib_get b label with Some r => Some r | None => bibs_get bs' label end
  end.

(** The part of [Parser] that [clone] copies and that a parse can change,
    src/parsing/parser.rs:45-53, 82-86. *)
Record pstate : Type := PST {
  cur : xtoken; rem : list xtoken; rule_ : rule_name; depth : nat;
  accepts_partial : accepts; in_footnote : bool; has_footnote_block : bool; start_of_line : bool }.
(** The shared tables, src/parsing/parser.rs:55-79. *)
Record shared : Type := SH {
  sh_toc : list (nat * str); sh_html : list str; sh_code : list code_block;
  sh_footnotes : list (list element); sh_bibs : list bibliography }.

(** What the parser only reads: the full text, the settings and page information it consults, and
    the external libraries (regex word class, [wikidot_normalize], [entities], [time]).
    src/parsing/parser.rs:42-43, 48; src/settings/mod.rs; src/data/page_info.rs:28-66. *)
Record env : Type := ENV {
  en_text : str;
  en_page_syntax : bool;                      (* settings.enable_page_syntax *)
  en_isolate : bool;                          (* settings.isolate_user_ids *)
  en_interwiki : str -> option str;           (* settings.interwiki.prefixes.get *)
  en_site : str; en_tags : list str; en_category : option str;
  en_debug : bool;                            (* cfg!(debug_assertions) *)
  en_word : char -> bool;                     (* the regex class \w *)
  en_normalize : str -> str;                  (* wikidot_normalize::normalize *)
  en_entity : str -> option str;              (* the html entities table, src/parsing/rule/impls/block/blocks/char.rs *)
  en_date : str -> option date_item;          (* parse_date, blocks/date.rs *)
  en_tz : str -> option str;                  (* parse_timezone, blocks/date.rs *)
  en_date_tz : date_item -> str -> option date_item; (* DateItem::add_timezone *)
  en_date_format : date_item -> option str }. (* DateItem::format *)

(** The panic sites of the modelled code. *)
Inductive panic_site : Type :=
| PanicCheckStep       (* the assert of check_step *)
| PanicSlice           (* out of range or non-boundary string slice *)
| PanicPartialSafety   (* Element::paragraph_safe on a partial, tree/element/object.rs:430 *)
| PanicBlockName       (* assert_block_name / assert_module_name, debug builds only *)
| PanicTextRender      (* a panic of the text renderer, called for the table of contents *)
| PanicAttributes      (* slicing in AttributeMap / is_url code *)
| PanicString          (* parse_string *)
| PanicLink            (* LinkLocation parsing *)
| PanicDepths          (* process_depths and the conversions of its result *)
| PanicHeading         (* Heading::try_from(..).expect(..) *)
| PanicLeftoverPartial (* ruby.rs debug panic *)
| PanicUnreachable (where_ : String.string).

(** Outcomes. *)
Inductive res (A : Type) : Type :=
| ROk (a : A) (p : pstate) (s : shared)
| RErr (e : perr) (p : pstate) (s : shared)
| RPanic (w : panic_site)
| RFuel.
Arguments ROk {A}. Arguments RErr {A}. Arguments RPanic {A}. Arguments RFuel {A}.
Definition M (A : Type) : Type := pstate -> shared -> res A.

Definition ret {A} (a : A) : M A := fun p s => ROk a p s.
Definition bind {A B} (m : M A) (k : A -> M B) : M B := fun p s =>
  match m p s with
  | ROk a p' s' => k a p' s'
  | RErr e p' s' => RErr e p' s'
  | RPanic w => RPanic w
  | RFuel => RFuel
  end.
Notation "'let!' x := m 'in' k" := (bind m (fun x => k)) (at level 200, x pattern, k at level 200).
Notation "m ;; k" := (bind m (fun _ => k)) (at level 100, k at level 200, right associativity).
Definition panic {A} (w : panic_site) : M A := fun _ _ => RPanic w.
Definition raise {A} (e : perr) : M A := fun p s => RErr e p s.
Definition gets {A} (f : pstate -> A) : M A := fun p s => ROk (f p) p s.
Definition or_panic {A} (w : panic_site) (o : option A) : M A :=
  match o with Some a => ret a | None => panic w end.
(** Rust loops: [inl] continues with a new loop state, [inr] leaves with a result.  The bound is
    always the number of remaining tokens plus one, which is never reached. *)
Fixpoint loop {S A} (n : nat) (body : S -> M (S + A)) (st : S) : M A :=
  match n with
  | 0 => fun _ _ => RFuel
  | S n' => let! r := body st in match r with inl st' => loop n' body st' | inr a => ret a end
  end.
Definition looping {S A} (body : S -> M (S + A)) (st : S) : M A :=
  fun p s => loop (Datatypes.S (length (rem p))) body st p s.

(** make_err, src/parsing/parser.rs:567-571. *)
Definition make_err (k : error_kind) (p : pstate) : perr := perr_new k (rule_ p) (cur p).
Definition fail {A} (k : error_kind) : M A := fun p s => RErr (make_err k p) p s.
Definition cur_tok (p : pstate) : token := t_token (cur p).
Definition is_tok (t : token) (p : pstate) : bool := tok_eqb (cur_tok p) t.
Definition is_any (ts : list token) (p : pstate) : bool := existsb (tok_eqb (cur_tok p)) ts.

(** Setters, src/parsing/parser.rs:168-207. *)
Definition with_rule (r : rule_name) (p : pstate) : pstate :=
  PST (cur p) (rem p) r (depth p) (accepts_partial p) (in_footnote p) (has_footnote_block p) (start_of_line p).
Definition with_depth (d : nat) (p : pstate) : pstate :=
  PST (cur p) (rem p) (rule_ p) d (accepts_partial p) (in_footnote p) (has_footnote_block p) (start_of_line p).
Definition with_accepts (a : accepts) (p : pstate) : pstate :=
  PST (cur p) (rem p) (rule_ p) (depth p) a (in_footnote p) (has_footnote_block p) (start_of_line p).
Definition with_footnote (b : bool) (p : pstate) : pstate :=
  PST (cur p) (rem p) (rule_ p) (depth p) (accepts_partial p) b (has_footnote_block p) (start_of_line p).
Definition with_footnote_block (p : pstate) : pstate :=
  PST (cur p) (rem p) (rule_ p) (depth p) (accepts_partial p) (in_footnote p) true (start_of_line p).
Definition modify (f : pstate -> pstate) : M unit := fun p s => ROk tt (f p) s.
Definition set_rule (r : rule_name) : M unit := modify (with_rule r).

(** MAX_RECURSION_DEPTH, src/parsing/parser.rs:36. *)
Definition MAX_RECURSION_DEPTH : nat := 100.
(** depth_increment, depth_decrement, src/parsing/parser.rs:178-193. *)
Definition depth_increment : M unit :=
  modify (fun p => with_depth (depth p + 1) p) ;;
  let! d := gets depth in
  if MAX_RECURSION_DEPTH <? d then fail RecursionDepthExceeded else ret tt.
Definition depth_decrement : M unit := modify (fun p => with_depth (depth p - 1) p).

(** step, src/parsing/parser.rs:434-457. *)
Definition line_start_token (t : token) : bool :=
  match t with TInputStart | TLineBreak | TParagraphBreak => true | _ => false end.
Definition step : M xtoken := fun p s =>
  let sol := line_start_token (cur_tok p) in
  match rem p with
  | t :: r => ROk t (PST t r (rule_ p) (depth p) (accepts_partial p) (in_footnote p) (has_footnote_block p) sol) s
  | [] => let p' := PST (cur p) [] (rule_ p) (depth p) (accepts_partial p) (in_footnote p) (has_footnote_block p) sol in
          RErr (make_err EndOfInput p') p' s
  end.
(** step_n, src/parsing/parser.rs:459-469. *)
Fixpoint step_n (n : nat) : M unit :=
  match n with 0 => ret tt | S n' => step ;; step_n n' end.
(** look_ahead, src/parsing/parser.rs:473-478; look_ahead_err, lines 480-488. *)
Definition look_ahead (n : nat) (p : pstate) : option xtoken := nth_error (rem p) n.
Definition look_ahead_err (n : nat) : M xtoken := fun p s =>
  match look_ahead n p with Some t => ROk t p s | None => RErr (make_err EndOfInput p) p s end.
(** The token of [look_ahead], as in next_two_tokens and next_three_tokens,
    src/parsing/parser.rs:490-505. *)
Definition next_is (n : nat) (t : token) (p : pstate) : bool :=
  match look_ahead n p with Some x => tok_eqb (t_token x) t | None => false end.

(** update, src/parsing/parser.rs:416-427. *)
Definition update (p q : pstate) : pstate :=
  PST (cur q) (rem q) (rule_ p) (depth p) (accepts_partial q) (in_footnote q) (has_footnote_block q) (start_of_line q).
(** same_pointer, src/parsing/parser.rs:429-432: both slices are tails of one token list, so equal
    pointers mean equal lengths. *)
Definition same_pointer (old_remaining : list xtoken) (p : pstate) : bool :=
  length (rem p) =? length old_remaining.
Definition step_if_same (old_remaining : list xtoken) : M unit :=
  let! same := gets (same_pointer old_remaining) in if same then step ;; ret tt else ret tt.

(** evaluate_fn, src/parsing/parser.rs:380-387: runs on a clone; an error counts as false. *)
Definition evaluate_fn (f : M bool) : M bool := fun p s =>
  match f p s with
  | ROk b _ s' => ROk b p s'
  | RErr _ _ s' => ROk false p s'
  | RPanic w => RPanic w
  | RFuel => RFuel
  end.
(** save_evaluate_fn, src/parsing/parser.rs:389-403. *)
Definition save_evaluate_fn (f : M bool) : M (option xtoken) := fun p s =>
  match f p s with
  | ROk true q s' => ROk (Some (cur p)) (update p q) s'
  | ROk false _ s' | RErr _ _ s' => ROk None p s'
  | RPanic w => RPanic w
  | RFuel => RFuel
  end.
(** Running a function on the same parser and looking at its [Result]. *)
Definition attempt {A} (m : M A) : M (A + perr) := fun p s =>
  match m p s with
  | ROk a q s' => ROk (inl a) q s'
  | RErr e q s' => ROk (inr e) q s'
  | RPanic w => RPanic w
  | RFuel => RFuel
  end.
(** Running a function on a clone and [update]ing the parser only when it succeeded. *)
Definition on_clone {A} (m : M A) : M (A + perr) := fun p s =>
  match m p s with
  | ROk a q s' => ROk (inl a) (update p q) s'
  | RErr e _ s' => ROk (inr e) p s'
  | RPanic w => RPanic w
  | RFuel => RFuel
  end.

(** ParserWrap, src/parsing/parser_wrap.rs:30-69: the flag is restored on both ways out. *)
Definition wrap {A} (flag : accepts) (m : M A) : M A := fun p s =>
  match m (with_accepts flag p) s with
  | ROk a q s' => ROk a (with_accepts (accepts_partial p) q) s'
  | RErr e q s' => RErr e (with_accepts (accepts_partial p) q) s'
  | RPanic w => RPanic w
  | RFuel => RFuel
  end.

(** check_step, src/parsing/check_step.rs:32-43. *)
Definition check_step (t : token) : M xtoken :=
  let! c := gets cur in
  if tok_eqb (t_token c) t then step ;; ret c else panic PanicCheckStep.

(** get_token, src/parsing/parser.rs:508-523. *)
Definition get_token (t : token) (k : error_kind) : M str :=
  let! c := gets cur in
  if tok_eqb (t_token c) t then step ;; ret (t_slice c) else fail k.
(** get_optional_token, src/parsing/parser.rs:525-533; line break and space, lines 535-544. *)
Definition get_optional_token (t : token) : M unit :=
  let! b := gets (is_tok t) in if b then step ;; ret tt else ret tt.
Definition get_optional_line_break : M unit := get_optional_token TLineBreak.
Definition get_optional_space : M unit := get_optional_token TWhitespace.
(** get_optional_spaces_any, src/parsing/parser.rs:546-564. *)
Definition get_optional_spaces_any : M unit :=
  looping (fun _ : unit =>
    let! b := gets (is_any [TWhitespace; TLineBreak; TParagraphBreak; TEquals]) in
    if b then step ;; ret (inl tt) else ret (inr tt)) tt.

(** *** The shared tables. *)
(** push_footnote, src/parsing/parser.rs:251-253. *)
Definition push_footnote (es : list element) : M unit := fun p s =>
  ROk tt p (SH (sh_toc s) (sh_html s) (sh_code s) (sh_footnotes s ++ [es]) (sh_bibs s)).
(** push_html_block, src/parsing/parser.rs:261-263. *)
Definition push_html_block (h : str) : M unit := fun p s =>
  ROk tt p (SH (sh_toc s) (sh_html s ++ [h]) (sh_code s) (sh_footnotes s) (sh_bibs s)).
(** push_code_block, src/parsing/parser.rs:265-286: false = NonUniqueNameError. *)
Definition code_name_is (n : str) (b : code_block) : bool :=
  match cb_name b with Some m => seqb m n | None => false end.
Definition push_code_block (b : code_block) : M bool := fun p s =>
  if match cb_name b with Some n => existsb (code_name_is n) (sh_code s) | None => false end
  then ROk false p s
  else ROk true p (SH (sh_toc s) (sh_html s) (sh_code s ++ [b]) (sh_footnotes s) (sh_bibs s)).
(** push_bibliography, src/parsing/parser.rs:289-294. *)
Definition push_bibliography (b : bibliography) : M nat := fun p s =>
  ROk (length (sh_bibs s)) p (SH (sh_toc s) (sh_html s) (sh_code s) (sh_footnotes s) (sh_bibs s ++ [b])).

(** *** ParseSuccess: the item, the errors, the paragraph-safety flag (src/parsing/result.rs:30-45). *)
Record success (A : Type) : Type := PSu { su_item : A; su_errors : list perr; su_safe : bool }.
Arguments PSu {A}. Arguments su_item {A}. Arguments su_errors {A}. Arguments su_safe {A}.
Notation elements := (list element).
(** [ok!(safe; item, errors)], src/parsing/macros.rs:40-48. *)
Definition ok_flag {A} (safe : bool) (a : A) (errs : list perr) : M (success A) := ret (PSu a errs safe).
(** [ok!(item, errors)], src/parsing/macros.rs:28-39: the flag is computed from the elements
    (Elements::paragraph_safe, src/tree/element/collection.rs), panicking on a partial. *)
Definition ok_derived (es : elements) (errs : list perr) : M (success elements) :=
  let! b := or_panic PanicPartialSafety (all_paragraph_safe es) in ret (PSu es errs b).
(** check_partials, src/parsing/result.rs:114-129, with the parser's flag and position. *)
Fixpoint check_partials (es : elements) (p : pstate) : option perr :=
  match es with
  | [] => None
  | EPartial x :: es' =>
      if ap_matches (accepts_partial p) x then check_partials es' p
      else Some (make_err (partial_error_kind x) p)
  | _ :: es' => check_partials es' p
  end.

(** LineRequirement, src/parsing/rule/mod.rs:95-104. *)
Inductive line_requirement : Type := AnyPosition | StartOfLine.
(** Rule, src/parsing/rule/mod.rs:33-45. *)
Record rule_def : Type := RULE {
  rd_name : rule_name; rd_position : line_requirement; rd_fn : M (success elements) }.
(** try_consume, src/parsing/rule/mod.rs:53-82. *)
Definition try_consume (r : rule_def) : M (success elements) := fun p s =>
  if match rd_position r with AnyPosition => false | StartOfLine => negb (start_of_line p) end
  then RErr (make_err NotStartOfLine p) p s
  else match rd_fn r (with_rule (rd_name r) p) s with
       | ROk out q s' =>
           match check_partials (su_item out) p with
           | Some e => RErr e p s'
           | None => ROk out (update p q) s'
           end
       | RErr e _ s' => RErr e p s'
       | RPanic w => RPanic w
       | RFuel => RFuel
       end.

(** consume, src/parsing/consume.rs:38-108, for the rules of the current token. *)
Fixpoint consume_rules (rules : list rule_def) (errs : list perr) : M (success elements + list perr) :=
  match rules with
  | [] => ret (inr errs)
  | r :: rules' =>
      let! old := gets rem in
      let! res := attempt (try_consume r) in
      match res with
      | inl out =>
          step_if_same old ;;
          depth_decrement ;;
          ret (inl out)
      | inr e => consume_rules rules' (errs ++ [e])
      end
  end.
Definition consume_with (rules_for : token -> list rule_def) : M (success elements) :=
  depth_increment ;;
  let! current := gets cur in
  let! r := consume_rules (rules_for (t_token current)) [] in
  match r with
  | inl out => ret out
  | inr all_errors =>
      step ;;
      match rev all_errors with
      | e :: _ => if kind_eqb (pe_kind e) RecursionDepthExceeded then raise e else ret tt
      | [] => ret tt
      end ;;
      depth_decrement ;;
      ok_derived [EText (t_slice current)] (all_errors ++ [perr_new NoRulesMatch "fallback" current])
  end.

(** *** collect.  ParseCondition, src/parsing/condition.rs:24-55. *)
Inductive condition_ : Type := IsToken (t : token) | IsPair (a b : token).
(** evaluate, src/parsing/parser.rs:324-368; evaluate_any, lines 370-378. *)
Definition evaluate (c : condition_) (p : pstate) : bool :=
  match c with
  | IsToken t => is_tok t p
  | IsPair a b => is_tok a p && next_is 0 b p
  end.
Definition evaluate_any (cs : list condition_) (p : pstate) : bool := existsb (fun c => evaluate c p) cs.

(** collect, src/parsing/collect/generic.rs:62-125.  [process] threads the state captured by the
    closure. *)
Definition collect {S} (close invalid : list condition_) (kind : option error_kind)
    (process : S -> M (success S)) (init : S) : M (success (S * xtoken)) :=
  looping (fun '(st, errs, safe) =>
    let! closing := gets (evaluate_any close) in
    if closing then
      let! last := gets cur in
      (if tok_eqb (t_token last) TInputEnd then ret tt else step ;; ret tt) ;;
      ret (inr (PSu (st, last) errs safe))
    else
    let! bad := gets (evaluate_any invalid) in
    if bad then fail match kind with Some k => k | None => RuleFailed end
    else
    let! at_end := gets (is_tok TInputEnd) in
    if at_end then fail EndOfInput
    else
      let! old := gets rem in
      let! out := process st in
      step_if_same old ;;
      ret (inl (su_item out, errs ++ su_errors out, safe && su_safe out)))
    (init, [], true).

(** collect_text_keep, src/parsing/collect/text.rs:54-102.  The assertion that no errors were
    returned holds by construction. *)
Definition collect_text_keep (text : str) (close invalid : list condition_) (kind : option error_kind)
    : M (str * xtoken) :=
  let! start := gets cur in
  let! out := collect close invalid kind
                (fun _ : option xtoken => let! c := gets cur in ok_flag true (Some c) []) None in
  let '(fin, last) := su_item out in
  match fin with
  | Some fin => let! s := or_panic PanicSlice (full_slice text start fin) in ret (s, last)
  | None => ret ([], last)
  end.
(** collect_text, src/parsing/collect/text.rs:29-46. *)
Definition collect_text (text : str) (close invalid : list condition_) (kind : option error_kind) : M str :=
  let! r := collect_text_keep text close invalid kind in ret (fst r).

Section Consume.
(** The recursive call to [consume]. *)
Variable consume : M (success elements).

(** collect_consume_keep, src/parsing/collect/consume.rs:54-72. *)
Definition collect_consume_keep (close invalid : list condition_) (kind : option error_kind)
    : M (success (elements * xtoken)) :=
  collect close invalid kind
    (fun all : elements => let! out := consume in
       ret (PSu (all ++ su_item out) (su_errors out) (su_safe out))) [].
(** collect_consume, src/parsing/collect/consume.rs:29-46. *)
Definition collect_consume (close invalid : list condition_) (kind : option error_kind)
    : M (success elements) :=
  let! out := collect_consume_keep close invalid kind in
  ret (PSu (fst (su_item out)) (su_errors out) (su_safe out)).
(** collect_container, src/parsing/collect/container.rs:41-75. *)
Definition collect_container (ct : container_type) (close invalid : list condition_)
    (kind : option error_kind) : M (success elements) :=
  let! out := collect_consume close invalid kind in
  ok_flag (su_safe out && ct_paragraph_safe ct) [EContainer ct [] (su_item out)] (su_errors out).

(** gather_paragraphs, src/parsing/paragraph/mod.rs:51-128.  [close] is the optional closing
    condition, whose errors count as false; its argument is the captured [first], true until the
    first call (src/parsing/rule/impls/block/parser.rs:229-240). *)
Definition gather_paragraphs (rule : rule_name) (close : option (bool -> M bool)) : M (success elements) :=
  set_rule rule ;;
  let! (stack, errs) := looping (fun '(stack, errs, first) =>
    let! t := gets cur_tok in
    match t with
    | TInputEnd => match close with
                   | Some _ => fail EndOfInput
                   | None => ret (inr (stack, errs))
                   end
    | TParagraphBreak => step ;; ret (inl (end_paragraph stack, errs, first))
    | _ =>
        let! closed := match close with
                       | Some f => let! r := attempt (f first) in
                                   ret match r with inl b => b | inr _ => false end
                       | None => ret false
                       end in
        if closed then ret (inr (stack, errs))
        else let! out := consume in
             ret (inl (push_elements stack (su_item out) (su_safe out), errs ++ su_errors out, false))
    end) (ps_new, [], true) in
  let! (es, safe) := or_panic PanicPartialSafety (into_result stack) in
  ret (PSu es errs safe).
End Consume.

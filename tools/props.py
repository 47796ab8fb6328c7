# Source of properties.jsonl: (id, title, statement, quantifier, why, anchors)
import json
P = []
def p(id, title, statement, quantifier, why, *anchors):
    P.append(dict(id=id, title=title, statement=statement, quantifier=quantifier,
                  why_tests_cant=why, anchors=list(anchors)))

p("C01","Preprocessing removes every CR, TAB and NUL",
  "After preprocess(text) the text contains no carriage return, no tab and no NUL character, whatever the input was.",
  "every Unicode string passed to preprocess",
  "The substitutions run in a fixed order and rescan a string that is being edited in place; tests only sample a few combinations of characters.",
  "src/preproc/mod.rs: preprocess, Replacer::replace","src/preproc/whitespace.rs: substitute")
p("C02","Preprocessing leaves no leading or trailing newline",
  "After preprocess(text) the text neither begins nor ends with a newline.",
  "every Unicode string passed to preprocess",
  "Later substitutions could re-expose a newline at either end; only a proof over all strings excludes it.",
  "src/preproc/whitespace.rs: substitute, LEADING_NEWLINES, TRAILING_NEWLINES","src/preproc/typography.rs: substitute")
p("C03","Preprocessing leaves ordinary text alone",
  "If a text contains none of the characters the preprocessor acts on (control characters, whitespace other than single inner spaces, quotes, backquotes, commas, full stops, backslashes, non-breaking spaces) preprocess returns it unchanged.",
  "every string without trigger characters",
  "A frame property over all strings.",
  "src/preproc/mod.rs: preprocess")
p("C04","No backslash-newline survives preprocessing",
  "preprocess joins lines ending in a backslash: afterwards no backslash is directly followed by a newline.",
  "every Unicode string passed to preprocess",
  "The joining pass does not rescan text it has just joined, so the claim depends on arbitrary adjacency patterns.",
  "src/preproc/whitespace.rs: CONCAT_LINES","src/preproc/mod.rs: Replacer::replace")
p("C05","Runs of three or more newlines are compressed to two",
  "preprocess never leaves three consecutive newlines in the text.",
  "every Unicode string passed to preprocess",
  "Newline runs may be created by a later pass; needs all strings.",
  "src/preproc/whitespace.rs: WHITESPACE_ONLY_LINE, substitute")
p("C06","Preprocessing is idempotent",
  "preprocess(preprocess(s)) = preprocess(s).",
  "every Unicode string",
  "Quantifies over all strings.",
  "src/preproc/mod.rs: preprocess")
p("C07","Preprocessing always terminates without panicking",
  "preprocess returns for every input: every byte offset it resumes matching from is on a character boundary inside the current text and the number of replacements is bounded.",
  "every Unicode string, every replacer",
  "A while-let loop that edits its own subject: termination and boundary safety need an invariant, not examples.",
  "src/preproc/mod.rs: Replacer::replace","src/preproc/whitespace.rs: replace_leading_spaces")
p("C08","Typography preserves all text outside quote, dot and comma markup",
  "The typography pass only rewrites quote marks, commas, dots and the spaces between spaced dots: deleting those characters (and the typographic ones) from the input and the output gives the same string.",
  "every Unicode string",
  "Content preservation for every string and every overlap of matches.",
  "src/preproc/typography.rs: substitute")
p("C09","Tokens partition the text",
  "tokenize(text).tokens() begins with InputStart at 0..0, ends with InputEnd at len..len, and in between the spans are non-empty, contiguous and in order, each slice equal to text[span]; concatenating the slices gives the text.",
  "every Unicode string",
  "Holds for every text; the lexer has 60 ordered alternatives with two-token special cases.",
  "src/tokenizer.rs: tokenize","src/parsing/token/mod.rs: Token::extract_all, convert_pair","src/parsing/lexer.pest: document, token")
p("C10","Tokenizing never fails",
  "The lexer accepts every text: the raw-text fallback for lexer errors is never taken and no pest rule reaches the panic in rule-to-token mapping.",
  "every Unicode string",
  "A universal totality claim about a PEG.",
  "src/parsing/token/mod.rs: Token::extract_all, get_from_rule")
p("C11","Each token kind has the documented shape",
  "A LineBreak token is exactly one newline sequence, a ParagraphBreak is two or more, Whitespace is spaces and tabs only, Identifier is ASCII alphanumerics only, Heading is one to six plus signs with an optional star, and so on: the slice of a token determines and is determined by its kind's grammar.",
  "every token of every text",
  "Every text, including adversarial adjacent symbols.",
  "src/parsing/lexer.pest","src/parsing/token/mod.rs: Token")
p("C12","Email addresses are recognised as Email tokens",
  "A text such as user@example.com yields an Email token (the parser has a rule turning those into Element::Email).",
  "every text containing an email address",
  "PEG repetition is possessive, so whether the rule can ever match is a statement about all inputs.",
  "src/parsing/lexer.pest: email","src/parsing/rule/impls/email.rs")
p("C13","UTF-16 index map is exact",
  "For every character boundary b of a non-empty text, Utf16IndexMap::get_index(b) is the number of UTF-16 code units in text[..b]; for any other index it panics.",
  "every text and every index",
  "All texts, all mixtures of 1-4 byte characters.",
  "src/utf16.rs: Utf16IndexMap::new, get_index")
p("C14","Converting tokens and errors to UTF-16 indices never panics",
  "to_utf16_indices succeeds on every token produced by tokenize and every ParseError produced by parse for the map of the same text, keeping contiguity.",
  "every text, every token/error of it",
  "Includes the boundary cases of the empty text.",
  "src/parsing/token/mod.rs: to_utf16_indices","src/parsing/error.rs: to_utf16_indices","src/utf16.rs")
p("C15","Includes: disabled mode and no-include texts are untouched",
  "include() with page syntax disabled, or on a text with no parsable include block, returns the text unchanged and no pages.",
  "every text, settings and includer",
  "All texts and all includer behaviours.",
  "src/includes/mod.rs: include")
p("C16","Includes: only the include blocks are replaced",
  "On success the output of include() is the input with each include block replaced by its fetched content (variables substituted) or the no-such-include text, everything else byte-for-byte unchanged, and the page list is the pages of those blocks in order.",
  "every text and every includer answer",
  "Replacement happens backwards on recorded ranges; correctness depends on the ranges never overlapping for any text.",
  "src/includes/mod.rs: include","src/includes/grammar.pest: argument, value")
p("C17","Includes never panic",
  "include() returns Ok or Err for every text and every includer.",
  "every text and every includer answer",
  "The ranges replaced must stay inside the edited text for all inputs.",
  "src/includes/mod.rs: include")
p("C18","Include answers are validated",
  "If the includer returns a different number of pages than requested, or a page whose reference differs from the requested one, include() returns the invalid-return error and never substitutes it.",
  "every includer answer",
  "Universally quantified over the external includer.",
  "src/includes/mod.rs: include")
p("C19","Include variable substitution is single-pass and total",
  "Each {$name} whose name is bound is replaced by its value exactly once, values are not re-scanned, unbound variables and all other text stay as they are.",
  "every content string and every variable map",
  "Overlap and re-scan behaviour for all strings.",
  "src/includes/mod.rs: replace_variables, VARIABLE_REGEX")
p("C20","Include arguments: the first usable value wins",
  "For each key the value bound is that of the first argument with that key whose value is not the self reference {$key}; keys with no such argument are unbound.",
  "every list of arguments",
  "All argument lists.",
  "src/includes/parse.rs: process_pairs")
p("C21","Depth lists preserve items, order and depth",
  "process_depths keeps every item exactly once in the original order, nests each item exactly as deep as its depth value says inside a list of its own type, never produces an empty list and never panics; nested lists written down item by item are built again exactly.",
  "every sequence of (depth, type, item)",
  "All sequences and depth jumps.",
  "src/parsing/depth.rs: process_depths, DepthStack")
p("C22","Table of contents entries are numbered in order",
  "The table of contents links are #toc0..#toc(n-1) in heading order, one per recorded heading.",
  "every list of recorded headings",
  "All nestings.",
  "src/parsing/mod.rs: build_toc_list_element, Incrementer")
p("C23","Page references round-trip",
  "Parsing the display form of a parsed page reference gives it back; parse rejects exactly empty references and off-site references without a site or second colon.",
  "every string",
  "All strings with arbitrary colons and whitespace.",
  "src/data/page_ref.rs: PageRef::parse, Display")
p("C24","normalize_href never yields a dangerous URL",
  "The result of normalize_href is a URL with a whitelisted scheme, a fragment, the literal javascript:; no-op, #invalid-url, or a path beginning with a slash: never any other javascript: or data: URL.",
  "every string and every behaviour of the external slug normaliser",
  "Security property over all strings.",
  "src/url.rs: normalize_href, is_url, dangerous_scheme")
p("C25","Dangerous schemes are detected in every disguise",
  "dangerous_scheme is true for every text whose part before the first colon is javascript or data in any ASCII case, or contains anything but word characters and hyphens.",
  "every string",
  "All case variants and all insertions.",
  "src/url.rs: dangerous_scheme")
p("C26","Only safe attributes get into an attribute map",
  "AttributeMap::from_arguments keeps only attributes in the safe list or with a data-/aria- prefix followed by letters, digits and hyphens; names come out lower-cased; false boolean attributes are dropped, true ones have empty value; href and src are normalised.",
  "every argument map",
  "All attribute names; security property.",
  "src/tree/attribute/mod.rs: from_arguments, insert","src/tree/attribute/safe.rs: is_safe_attribute")
p("C27","No event-handler attribute is accepted",
  "No attribute whose name starts with on (any case) is accepted into an attribute map.",
  "every attribute name",
  "All names.",
  "src/tree/attribute/safe.rs: is_safe_attribute")
p("C28","User ids are isolated",
  "isolate_ids prefixes every whitespace-separated id with u- exactly when it is not already prefixed, separates them with single spaces, keeps their order, and is idempotent.",
  "every string",
  "All strings, all whitespace.",
  "src/id_prefix.rs: isolate_ids")
p("C29","HTML escaping is safe and lossless",
  "escape output contains no raw <, >, quote or NUL, every ampersand in it starts an entity, and decoding it gives back the input with NULs as spaces.",
  "every string",
  "All strings.",
  "src/render/html/escape.rs: escape, escape_char")
p("C30","HTML tags written by the builder are balanced and attributes are not duplicated or broken out of",
  "Each tag opened by the HTML builder is closed exactly once in nesting order unless it is a void tag; attribute values cannot terminate the quoted value; a key given by both renderer and user is emitted once with the renderer's value first.",
  "every attribute list, every nesting of builder calls",
  "All nestings and values.",
  "src/render/html/builder.rs: HtmlBuilderTag")
p("C31","Quoted strings decode correctly",
  "parse_string is the left inverse of quoting with escapes; input without surrounding quotes is returned unchanged; unknown escapes are kept verbatim.",
  "every string",
  "All strings of escapes.",
  "src/parsing/string.rs: parse_string")
p("C32","Boolean arguments",
  "parse_boolean accepts exactly the eight documented words, ignoring ASCII case and surrounding whitespace.",
  "every string",
  "All strings.",
  "src/parsing/boolean.rs: parse_boolean")
p("C33","Element conditions implement required, prohibited, present",
  "ElementCondition::check is true iff all required values are present, no prohibited value is present, and, if any plain values were listed, at least one of them is present; parse splits on spaces and recognises + and -.",
  "every condition list, tag list and specification string",
  "All lists in every order.",
  "src/parsing/element_condition.rs: ElementCondition::parse, check")
p("C34","Paragraph gathering neither loses nor reorders elements",
  "Flattening the paragraphs built from a sequence of pushed elements gives the sequence back minus line breaks at the start of a paragraph; there are never empty paragraphs, and paragraph-unsafe elements are never wrapped.",
  "every sequence of element pushes and paragraph breaks",
  "All sequences.",
  "src/parsing/paragraph/mod.rs: push_elements, gather_paragraphs","src/parsing/paragraph/stack.rs: ParagraphStack")
p("C35","Parsing terminates and always makes progress",
  "parse terminates on every text: it returns a tree (or panics, see C48) and never runs forever; each parsing step that succeeds moves the token position strictly forward.",
  "every token list produced by the tokenizer",
  "Backtracking rules and loops: needs a termination measure.",
  "src/parsing/consume.rs: consume","src/parsing/collect/generic.rs: collect","src/parsing/parser.rs: step")
p("C36","Failed rules leave no trace",
  "A rule that fails leaves no observable effect: the parse outcome is as if the rule had not been tried, including footnotes, code blocks, html blocks, headings and bibliographies.",
  "every text and every failing rule",
  "Depends on every possible nesting of speculative parses.",
  "src/parsing/rule/mod.rs: Rule::try_consume","src/parsing/parser.rs: Parser (Rc<RefCell> fields), update")
p("C37","Parse errors point into the text",
  "Every ParseError returned by parse has the span and kind of an actual token of the text.",
  "every text",
  "All texts, all error paths.",
  "src/parsing/error.rs: ParseError::new","src/parsing/parser.rs: make_err")
p("C38","Nesting is bounded",
  "Parsing never recurses deeper than 100 levels: at that depth every attempt gives a RecursionDepthExceeded error, and the parse still returns; the page is replaced by its raw text, with that single error, only for that reason.",
  "every text",
  "Arbitrarily deep nesting.",
  "src/parsing/parser.rs: depth_increment, MAX_RECURSION_DEPTH","src/parsing/consume.rs: consume")
p("C39","Partial elements never escape",
  "The syntax tree never contains a partial element (list item, table row/cell, tab, ruby text) outside of its enclosing block.",
  "every text",
  "All texts.",
  "src/parsing/result.rs: check_partials","src/parsing/rule/mod.rs: try_consume","src/tree/partial.rs")
p("C40","Named code blocks are unique",
  "Two code blocks collected from a page never have the same name.",
  "every sequence of code blocks",
  "All sequences.",
  "src/parsing/parser.rs: push_code_block, append_shared_items")
p("C41","Start-of-line flag",
  "While stepping through tokens, start_of_line is true exactly when the previous token is InputStart, LineBreak or ParagraphBreak (and initially).",
  "every token list, every step",
  "All histories of steps.",
  "src/parsing/parser.rs: step")
p("C42","Interwiki links",
  "InterwikiSettings::build splits at the first colon, rejects empty prefix or path and unknown prefixes, substitutes every $$ by the path and leaves no space in the result; it terminates.",
  "every link and every prefix table",
  "All strings.",
  "src/settings/interwiki.rs: InterwikiSettings::build")
p("C43","Links split into page and extra without loss",
  "For a link that is not a URL, fragment or absolute path, the page part used by LinkLocation::parse followed by LinkLocation::parse_extra is the original link.",
  "every link string",
  "All strings.",
  "src/tree/link.rs: LinkLocation::parse, parse_extra")
p("C44","Element-list whitespace stripping",
  "strip_newlines and strip_whitespace remove exactly the leading and trailing line breaks (whitespace elements) and keep everything between.",
  "every element list",
  "All lists.",
  "src/parsing/strip.rs")
p("C45","Non-empty vectors",
  "A NonEmptyVec always has at least one element under any sequence of pushes and pops, and behaves as a stack with an unremovable bottom.",
  "every sequence of operations",
  "All histories.",
  "src/non_empty_vec.rs: NonEmptyVec")
p("C46","Attribute maps do not depend on hash-map iteration order",
  "AttributeMap::from_arguments gives the same map whatever order the argument hash map is iterated in.",
  "every argument map and every permutation of its entries",
  "The hasher is randomised; a test sees one order.",
  "src/tree/attribute/mod.rs: AttributeMap::from_arguments")
p("C47","NullIncluder removes include blocks",
  "include() with NullIncluder returns the text with every include block removed, as its documentation says.",
  "every text",
  "All texts.",
  "src/includes/includer/null.rs: NullIncluder","src/includes/mod.rs: include")
p("C48","Parsing does not panic",
  "parse returns a tree for every text: no input makes it panic.",
  "every text and every page environment",
  "All texts; panics hide in rare combinations of rules.",
  "src/parsing/mod.rs: parse","src/parsing/check_step.rs: check_step","src/parsing/rule/impls/block/blocks/mod.rs: assert_block_name","src/tree/element/object.rs: paragraph_safe","src/render/text/elements.rs")
p("C49","Only safe attributes reach the tree",
  "Every attribute map of every element of a parsed page (also in footnotes and bibliographies) has only names of the safe list, no name twice, and href/src values that went through the URL normaliser.",
  "every text, every element of its tree",
  "All texts.",
  "src/tree/attribute/mod.rs: AttributeMap","src/parsing/rule/impls/block/arguments.rs: to_attribute_map","src/tree/attribute/safe.rs")
p("C50","Paragraphs contain only inline elements",
  "A paragraph element of a parsed page contains no element that may not stand in a paragraph (div, table, list, heading, another paragraph, ...), at any depth.",
  "every text, every paragraph of its tree",
  "All texts and nestings.",
  "src/parsing/paragraph/mod.rs: gather_paragraphs","src/tree/element/object.rs: paragraph_safe")
p("C51","Every footnote mark has its footnote",
  "The tree never contains more footnote marks than footnotes, and no footnote contains a footnote mark.",
  "every text",
  "All texts.",
  "src/parsing/rule/impls/block/blocks/footnote.rs: parse_footnote_ref","src/parsing/parser.rs: push_footnote")
p("C52","Text contents come from the source",
  "The contents of every text, raw, html, style, code and math element of a parsed page are a contiguous piece of the source (text elements may also be one of the parser's own fixed strings or an entity the author asked for).",
  "every text, every element of its tree",
  "All texts.",
  "src/parsing/parser.rs: get_source","src/parsing/rule/impls/text.rs","src/parsing/rule/impls/raw.rs")
p("C53","Bibliography blocks refer to existing bibliographies",
  "Every bibliography block element of a parsed page has an index for which a bibliography exists, and no bibliography has two entries with the same label.",
  "every text",
  "All texts.",
  "src/parsing/rule/impls/block/blocks/bibliography.rs","src/tree/bibliography.rs: Bibliography::add")
p("C54","Numeric fields are in range",
  "In a parsed page heading levels are 1 to 6, column spans are at least 1, line break counts are 1 to 100, iframe addresses are URLs, and the entries of the table of contents are nested at most 6 deep.",
  "every text, every element of its tree",
  "All texts.",
  "src/parsing/rule/impls/header.rs","src/parsing/rule/impls/block/blocks/lines.rs","src/parsing/rule/impls/table.rs","src/parsing/rule/impls/block/blocks/iframe.rs")
p("C55","Exactly one place for footnotes",
  "A page with its own footnote block gets no second one, and a page without one gets one at its end.",
  "every text",
  "All texts.",
  "src/parsing/mod.rs: parse","src/parsing/parser.rs: set_footnote_block")
p("C56","Rendering ends",
  "HtmlRender::render returns (or panics) on every parsed page: following footnotes, citations and the table of contents never goes on forever.",
  "every text, every page info and settings, every handle",
  "Footnotes, footnote blocks and bibliography entries can be inside one another in any arrangement.",
  "src/render/html/element/footnotes.rs: render_footnote, render_footnote_block","src/render/html/element/bibliography.rs","src/render/html/element/toc.rs")
p("C57","Rendering does not panic",
  "HtmlRender::render does not panic on any parsed page; where it can, exactly which element of the page is to blame.",
  "every text, every settings, debug and release builds",
  "All texts and all nestings of elements.",
  "src/render/html/element/mod.rs: render_element","src/render/html/context.rs","src/render/html/builder.rs","src/render/handle.rs: get_link_label")
p("C58","A browser reads the page as it was written",
  "The HTML of a parsed page, read by an HTML tokenizer, gives back exactly the tags, attributes and texts the renderer wrote, ends in the text state and has every tag closed in order; so no page text, attribute value or label can break out of its place.",
  "every text, every element, every attribute value",
  "All texts: injection is a question about every input.",
  "src/render/html/builder.rs: HtmlBuilder, HtmlBuilderTag","src/render/html/escape.rs: escape","src/render/html/attributes.rs: AddedAttributes")
p("C59","Only the renderer's tags and safe attributes",
  "Every start tag a browser finds in a rendered page is one of the renderer's fixed tags; each of its attributes is one the renderer writes itself or one of the safe list, no attribute is there twice, and no event handler attribute is there except the fixed one of the table of contents.",
  "every text, every tag of its HTML",
  "All texts.",
  "src/render/html/element","src/render/html/attributes.rs","src/tree/attribute/safe.rs")
p("C60","No scripts; frames only to URLs",
  "The HTML of a parsed page has no script tag, and the address of every frame is a URL with a whitelisted scheme, a path or a fragment.",
  "every text, every tag of its HTML",
  "All texts.",
  "src/render/html/element/embed.rs","src/render/html/element/iframe.rs","src/parsing/rule/impls/block/blocks/embed.rs")
p("C61","Links never run scripts",
  "The href of every tag of a rendered page is a URL with a whitelisted scheme, a fragment, a path or the literal javascript:; and nothing else, so a browser never sees another javascript: or data: URL.",
  "every text, every tag of its HTML, every page-name normaliser",
  "All texts, and all URL spellings a browser accepts.",
  "src/render/html/element/link.rs: render_link","src/url.rs: normalize_href, normalize_link","src/render/html/element/image.rs")
p("C62","Author ids stay apart from the page's own",
  "With isolate_user_ids set, every id (each word of every id attribute) a browser finds in a rendered page either begins with u- or is one the page gives out itself (table of contents, headings, bibliography items, random ids), and the two kinds never overlap: an author cannot take over an id of the page.",
  "every text, every id attribute of its HTML",
  "All texts, all ways to write an id (attributes, anchors, targets).",
  "src/id_prefix.rs: isolate_ids","src/tree/attribute/mod.rs: isolate_id","src/parsing/rule/impls/anchor.rs","src/parsing/rule/impls/block/blocks/target.rs","src/render/html/element/toc.rs")
p("C63","Meta tags read back",
  "HtmlMeta::render appends a text that a browser reads as exactly one meta tag with the given name and value, whatever they contain; the head of a page is one such tag per entry, and its description is the title and alternative title unchanged.",
  "every name and value, every list of entries, every page information",
  "All strings: escaping is a question about every input.",
  "src/render/html/meta.rs: HtmlMeta::render","src/render/html/context.rs: initial_metadata")
p("C64","Formatted text comes out as meant",
  "A page written as headings, paragraphs, rules, nested lists (bullets and numbers) and nested quotes, whose text is words, line breaks and nested emphasis (bold, italics, underline, superscript, subscript, both strikethroughs, monospace), where words avoid the documented special pairs, parses without errors, and its HTML is exactly the words, escaped, inside the right tags, lists, quotes, headings (with their ids) and paragraphs; its plain text is exactly the words; its table of contents has exactly the listed headings; it has no backlinks and no footnotes.",
  "every such page: any number of blocks, any words, any nesting up to the parser's limits, any number of blank lines, any settings",
  "The pages are unboundedly many and nested; the result depends on how tokens, rules, paragraphs, depth lists and renderer interact everywhere.",
  "src/tokenizer: tokenize","src/parsing/mod.rs: parse","src/parsing/paragraph/mod.rs: gather_paragraphs","src/parsing/rule/impls: header, list, blockquote, horizontal_rule, bold, italics, underline, superscript, subscript, strikethrough, monospace","src/parsing/depth.rs: process_depths","src/render/html/mod.rs: HtmlRender::render","src/render/text/mod.rs: TextRender::render")
p("C65","Plain text says what the page says",
  "TextRender gives the texts of the elements in reading order, each exactly once and nothing else (apart from line breaks): hidden containers contribute nothing, invisible ones one space per character, variables the innermost value, links their label; the result neither starts nor ends with a line break; and it panics exactly when an unfinished element or a page-title label of a URL is outside hidden containers, which cannot happen to a page whose source has no double opening bracket.",
  "every list of elements, every site and date format; every source text for the last part",
  "Trees are unboundedly deep and the claim is about every combination of containers.",
  "src/render/text/elements.rs: render_element","src/render/text/context.rs: TextContext","src/render/text/mod.rs: TextRender::render_partial","src/tree/variables.rs: VariableScopes")
p("C66","Nothing the document says is lost in HTML",
  "The text a browser reads from the rendered body contains, in order, the text of every element of the document: of each table cell, list item, tab (its label and contents), link, code block, hidden or collapsed part and variable, and of all footnotes, bibliography entries and headings where the page has such a block. If no element is of a kind that comes with text of its own (collapsible labels, numbers, error messages), the page has no other text.",
  "every parsed text, every rendering environment, every depth of blocks referring to one another",
  "a test shows the text of one page; dropping, reordering or doubling the text of one kind of element inside some other kind must be excluded for all trees",
  "src/render/html/element/mod.rs: render_element","src/render/html/element/*.rs","src/render/html/builder.rs: text, inner, contents")
p("C67","Headings and footnotes are numbered in order",
  "With true ids, the ids a browser finds on the headings of a page are toc0, toc1, toc2, ... in order, no two the same; the numbers on its footnote marks are 1, 2, 3, ... in order, wherever headings and marks stand. The table of contents links each heading by its id, and each mark shows the footnote written there.",
  "every parsed text, every rendering environment",
  "counters are threaded through every element, including contents rendered twice; a test fixes one nesting",
  "src/render/html/context.rs: next_toc_index, next_footnote_index","src/render/html/element/footnotes.rs: render_footnote","src/tree/heading.rs: html_tag","src/parsing/parser.rs: push_table_of_contents_entry, push_footnote")
p("C68","Backlinks are the links of the page",
  "The links a browser finds on a rendered page are those of its link elements in order, each with the element's address and a class that is truthful (in particular wj-link-missing exactly if the handle says the page does not exist), and the internal and external links recorded in the output are exactly what these lead to, one entry for each, in order; every link element anywhere in the document is among them, and nothing that is not a link to a page or address is recorded.",
  "every parsed text, every rendering environment, every answer of the handle about pages",
  "the record is threaded through every kind of element and through contents shown twice, with a cache of answers; a test fixes one page",
  "src/render/html/context.rs: add_link, page_exists","src/render/html/element/link.rs: render_link","src/data/backlinks.rs: Backlinks")
p("C69","No letters are lost by parsing",
  "For a page whose text has no brackets, tables, colours or double parentheses, the letters and digits of its plain text, and those a browser shows of its HTML, are those of the source, in the same order: whatever headings, lists, quotes, definitions, formatting, raw text and broken markup it has, parsing loses none, repeats none and adds none.",
  "every text of that kind, in every environment",
  "every rule backtracks and retries at each token, and each could drop or repeat what it read; a test shows a few texts",
  "src/parsing/consume.rs: consume","src/parsing/collect/generic.rs: collect","src/parsing/rule/impls/list.rs: try_consume_fn","src/parsing/rule/impls/definition_list.rs: parse_item","src/parsing/paragraph/mod.rs: gather_paragraphs")
p("C70","Only double brackets make blocks",
  "A page whose text has no double opening bracket has only text, formatting, links, lists, quotes, tables, definitions and rules: no images, frames, embeds, forms, modules, styles, stored HTML or code, footnotes, bibliographies, and no attributes but the class of a table.",
  "every text without [[, in every environment",
  "elements are made by seventy rules and blocks that call each other; no test shows that none of them makes a block out of anything else",
  "src/parsing/rule/mapping.rs: get_rules_for_token","src/parsing/rule/impls/block/mod.rs: parse_block")
p("C71","Preprocessing changes no letters",
  "preprocess keeps every letter and digit of its input, in order, and adds none: only white space, quotes, dots, commas and backslashes change.",
  "every input text",
  "preprocessing is twelve regex replacements in a row, each on the previous one's output",
  "src/preproc/mod.rs: preprocess","src/preproc/whitespace.rs: substitute","src/preproc/typography.rs: substitute")
p("C72","Pages without double brackets are inert",
  "A page whose text has no [[ can always be rendered to HTML, whatever the CSS and LaTeX libraries do, and a browser reads from it only the tags of text, headings, lists, tables, definitions, rules and links, closed in order, each attribute once; attributes are class, id, colspan, target, data-link-type, a safe href on links and a style on coloured text. So such a page has no scripts, event handlers, frames, images, forms or style sheets.",
  "every text without [[, every page and renderer setting",
  "it is about every text a user could write without double brackets, and about every tag and attribute of the output",
  "src/render/html/element: render_element","src/render/html/builder.rs: HtmlBuilderTag","src/url.rs: normalize_href","src/parsing/rule/impls: all rules")
p("C73","Positions handed to JavaScript select the same text",
  "The token and error positions the WASM interface returns, used to slice the text as a JavaScript (UTF-16) string, select exactly the text of that token, or of a token of the kind the error names; nothing else of the error changes.",
  "every text (tokens: every non-empty text), every page",
  "it depends on every mixture of one-, two-, three- and four-byte characters before the position",
  "src/wasm/tokenizer.rs: convert_tokens_utf16","src/wasm/parsing.rs: convert_errors_utf16","src/utf16.rs: Utf16IndexMap","src/parsing/error.rs: ParseError::to_utf16_indices")
p("C74","Blocks mean what they say",
  "A page made of paragraphs, of the blocks around text (bold, italics, underline, strikethrough, sub- and superscript, monospace, mark, insertion, deletion, span, hidden, invisible, anchor, size, under all their names and in any case, with attributes), of users, checkboxes, radio buttons, ruby texts, entities, equation references and links, and of the groups div, blockquote, collapsible and the four alignments, nested in any way up to 99 deep, is parsed without errors, and its HTML is exactly what the blocks stand for: the texts escaped, each block's element around exactly what was written inside it, the user's attributes without event handlers, merged with the element's own. Its plain text is the texts of the page, with paragraphs, divisions and quotations on lines of their own, hidden text left out and invisible text blank. The texts contain no other syntax, and a text at the start of a block without attributes does not start with a blank (which is lost).",
  "every such page, every nesting, every set of attributes, every renderer environment",
  "the tokens around a block, its head, its body and its end interact with everything inside and beside it, at every depth",
  "src/parsing/rule/impls/block/parser.rs","src/parsing/rule/impls/block/blocks/*.rs","src/parsing/paragraph/mod.rs: gather_paragraphs","src/parsing/lexer.pest","src/render/html/element/*.rs","src/render/html/builder.rs")
p("C75","Links lead where they say",
  "A link in three brackets leads to the page it names, on this site or on another, with the path and the anchor written after it, in a new tab exactly if there is an asterisk; it is marked missing exactly if the host says the page does not exist; it shows its caption, the title of the page if the caption is left empty, the name of the page if there is none; and the page is recorded as linked to. A link in one bracket leads to the http, https or ftp address or the local path it is written with, or to the place on this page after the number sign. This holds anywhere in a page of blocks, and the links recorded are exactly those of the page, in order.",
  "every page name, category, site, path, anchor, caption, address, everywhere in every page of blocks, every host",
  "the parts of a link are split from each other by characters that can stand anywhere, and names, paths and captions are free text",
  "src/parsing/rule/impls/link_triple.rs","src/parsing/rule/impls/link_single.rs","src/parsing/rule/impls/link_anchor.rs","src/tree/link.rs","src/data/page_ref.rs","src/url.rs","src/render/html/element/link.rs","src/render/html/context.rs: add_link, page_exists","src/render/handle.rs: get_link_label, build_url")
p("C76","Text in code and html blocks is not wikitext",
  "Any text in a [[code]] or [[html]] block that does not close the block and neither starts nor ends with a line break -- with markup, other blocks, closing tags of other blocks, comments, quotes, blank lines in it -- is stored exactly as it is and causes no error; the page shows a program exactly, escaped, under the name of its language, and only refers to an html document. This holds anywhere in a page of blocks, and the programs and documents stored are exactly those of the page, in order.",
  "every text, every language, everywhere in every page of blocks",
  "the text is read token by token and cut out of the source by positions, so any token of the grammar, in any order, could end it early or move its bounds",
  "src/parsing/rule/impls/block/parser.rs: get_body_text, verify_end_block","src/parsing/rule/impls/block/blocks/code.rs","src/parsing/rule/impls/block/blocks/html.rs","src/parsing/parser.rs: push_code_block, push_html_block","src/render/html/element/text.rs: render_code","src/render/html/element/iframe.rs: render_html","src/text.rs")
p("C77","Conditional text is there exactly when its conditions hold",
  "Text in [[iftags ...]] is shown, as if the two tags were not there, when every tag with a plus sign is a tag of the page, no tag with a minus sign is, and, if there are tags without a sign, one of them is; otherwise the page shows what it shows without that text, and a paragraph of nothing else is no paragraph. The same holds of [[ifcategory ...]] and the category of the page. This holds anywhere in a page of blocks, nested in each other and in other blocks, and causes no error.",
  "every list of conditions, every page of tags and category, every page of blocks",
  "the conditions are parsed from the text of the head and evaluated against the page while the blocks around them are being built, so any combination of signs, tags, nestings and neighbours could be treated differently",
  "src/parsing/element_condition.rs","src/parsing/condition.rs","src/parsing/check_step.rs","src/parsing/rule/impls/block/blocks/iftags.rs","src/parsing/rule/impls/block/blocks/ifcategory.rs","src/parsing/paragraph/mod.rs")
p("C78","Lists have the items, tables the cells they are written with",
  "A [[ul]] or [[ol]] block whose [[li]] items stand in lines of their own is shown as a list of exactly those items, in their order, each with its attributes and its contents; a [[table]] of [[row]] blocks of [[cell]] and [[hcell]] blocks is shown as a table of exactly those rows of exactly those cells, headings as headings and each over as many columns as its colspan says, with the attributes of the table, the rows and the cells. The contents may be any text with markup, lists and tables may be inside other blocks, and no error is reported.",
  "every list of items and every table of rows of cells (any number of each, also none, of any width and with any attributes and contents), anywhere in a page of blocks",
  "items, cells and rows are collected through partial elements while the parser skips line breaks between them and strips blanks inside, so any number of items and any mixture of contents could lose, merge or reorder one",
  "src/parsing/rule/impls/block/blocks/list.rs","src/parsing/rule/impls/block/blocks/table.rs","src/parsing/strip.rs","src/render/html/element/list.rs","src/render/html/element/table.rs")
p("C79","Tables drawn with bars have the cells that are drawn; lines of dashes and tildes are lines",
  "A table drawn with double bars is shown as a table of exactly the rows and cells that are drawn, in their order: a cell is a heading if a tilde follows its bars, is set to the side the mark <, = or > after its bars says, and spans as many columns as there are pairs of bars before it; its contents are those between the bars without the blanks around them. A line of at least three dashes is a line across the page, one of at least three tildes ends what floats beside the text, on the side an arrow after them says. The contents may be any text with markup, all of it may be inside other blocks, and no error is reported. (A row that is not closed by bars, however, is dropped without an error.)",
  "every table of rows of cells (any number of each, at least one, of any width, with any mark and contents) and every such line, anywhere in a page of blocks",
  "the rule counts bars, strips blanks at both ends of each cell, and decides by the next token whether a cell, a row or the table ends, so any number of rows and any mixture of contents could lose, merge or reorder one",
  "src/parsing/rule/impls/table.rs","src/parsing/rule/impls/horizontal_rule.rs","src/parsing/rule/impls/clear_float.rs","src/render/html/element/table.rs")
p("C80","Lines of text stay lines",
  "Lines of text that are written under each other are shown under each other, in their order: in HTML with a line break between each two, and in plain text as lines. The lines may have any inline markup in them, which may itself go over several lines; no line is lost, merged with another or made an empty one, and no error is reported. (A line break before conditional, hidden or invisible text, however, is lost.)",
  "every number of lines of text with markup (none of which starts with conditional, hidden or invisible text), in a paragraph, and inside inline blocks, lists, tables, quotations and divisions of a page of blocks",
  "a line break is read as part of a block, of its end, of a paragraph break or as text depending on the tokens around it, and each rule looks ahead for some of them, so any of them could take a line break that is not its own",
  "src/parsing/rule/impls/line_break.rs","src/parsing/paragraph/mod.rs","src/parsing/paragraph/stack.rs","src/parsing/parser.rs","src/parsing/rule/impls/block/parser.rs")
p("C81","An anchor block leads where it says",
  "An anchor block, [[a href=...]]...[[/a]] or [[anchor]] in any case, with an absolute address (that starts with one of the 19 known schemes, as https:// or mailto:), a place on the page (a number sign and a name) or javascript:; (which leads nowhere) is shown as a link whose href is exactly that address, escaped for HTML, with what stands in the block inside it: text, blocks, links, line breaks and anything else that stands within a paragraph. It opens in a new tab exactly if it is written with a star, [[*a href=...]]. No error is reported. (Its address, however, is not listed among those the page links to.)",
  "every such address of any characters but a carriage return, in any spelling of the block's name, around every inline contents up to 98 deep; and, as part of the blocks of C74, in every place of a page",
  "the address goes through quoting, tokens, unquoting, the list of safe attributes, the check for dangerous schemes, merging with the block's own class and escaping, and each of them may change it for some characters",
  "src/parsing/rule/impls/block/blocks/anchor.rs","src/parsing/rule/impls/block/arguments.rs","src/tree/attribute/mod.rs","src/tree/attribute/safe.rs","src/url.rs","src/render/html/element/link.rs","src/render/html/attributes.rs")
p("C82","A jump leads to the place it names",
  "Where a paragraph has places, [[# name]] or the blocks [[target name]] and [[anchortarget name]], and jumps, [#name caption], each place is shown where it stands as an element whose id is the name (isolated, if ids are), and a jump to that name, before or after it, has as its href a number sign and that very id. No error is reported and the rest of the paragraph is shown as if the places were not there, but for the line break before and the one after a block, which it takes. (It holds for names that normalising a page name leaves alone, and with ids not isolated; otherwise the id and the href differ.)",
  "every paragraph of any number of places with words as names among any inline markup up to 98 deep, and every jump in it",
  "the name goes two different ways, one through normalising and one through isolating ids, both written for other purposes, and meets again only in the browser",
  "src/parsing/rule/impls/anchor.rs","src/parsing/rule/impls/block/blocks/target.rs","src/parsing/rule/impls/block/rule.rs","src/parsing/rule/impls/link_anchor.rs","src/id_prefix.rs","src/render/html/element/link.rs","src/render/html/element/mod.rs")
if __name__ == "__main__":
    with open("/verif/properties.jsonl","w") as f:
        for x in P: f.write(json.dumps(x, ensure_ascii=False)+"\n")
    print(len(P))

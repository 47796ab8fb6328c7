# Formal model of scpwiki/ftml in Rocq (Coq 8.16.1)

## Trusted base

* Coq's kernel (8.16.1), `coqc`; no plugins beyond the standard distribution tactics.
* Axioms: none of our own.  `Print Assumptions` is printed under every property theorem
  (see the `Print Assumptions` lines in `rocq/theories/Prop*.v`); the expected answer is
  "Closed under the global context" everywhere.
* `vcheck` lists seven module parameters `Coq.ssr.ssrunder.Under_rel.*` of the standard library's
  ssreflect files (loaded through `Lia`/`Require` chains); no theorem here depends on them.
* The reading of the Rust source: the model is hand written from /repo; every definition cites the
  file and lines it models. The Rust code is not run here.
* External crates are not modelled line by line: `regex` is modelled by a leftmost-first
  backtracking semantics (`Regex.v`), `pest` by a PEG interpreter (`Peg.v`), std string functions by
  list functions (`Base.v`).  The semantics in `Peg.v` and `Regex.v` are therefore trusted.  `wikidot_normalize::normalize` is an arbitrary function parameter.

## Representation choices

* A Rust `char` is an `N` (Unicode scalar value), a `&str` is a `list N` of characters.  Byte
  offsets (spans, `captures_at` offsets, `replace_range` ranges) are kept in bytes, computed with
  the UTF-8 length of each character; slicing at a non-boundary or out-of-range offset is an explicit
  panic value (`None`).
* Panics (`expect`, index out of range, `assert!`) are explicit error values, theorems say when they
  cannot happen.
* `HashMap`/`BTreeMap` are association lists with the observable operations only.

## Plan per property

| id | what is modelled | how it is proved |
|----|------------------|------------------|
| C01,C02,C03 | all regex replacers of `preproc` run by the regex semantics + replace loop | characterise each replacer as a list function, compose |
| C04,C05,C06 | same | expected false for the code (no rescan, later passes): `_refuted` witness, plus the true restricted statement |
| C07 | replace loop with byte offsets and panic value | loop invariant: offset is a boundary, rest shrinks |
| C08 | typography replacers | erasure homomorphism preserved by each replace step |
| C09-C11 | PEG interpreter + the lexer grammar as data | induction over `token*` |
| C12 | same | expected false: possessive repetition; `_refuted` and "no Email token ever" |
| C13,C14 | `Utf16IndexMap` | induction over the text; empty text panics: `_refuted` |
| C15-C20 | include regex, include grammar, `include`, `replace_variables` | range arithmetic; overlap makes C16/C17 false: `_refuted` + proof under non-overlap |
| C21,C22 | `DepthStack`, `process_depths`, TOC builder | invariant over the stack |
| C23,C42,C43 | `PageRef`, interwiki, link | list lemmas |
| C24-C27 | `url.rs`, `attribute` | case analysis; the suffix regex is unanchored: `_refuted` for the C26 suffix rule |
| C28-C33 | pure helpers | list induction |
| C34,C44,C45 | paragraph stack, strip, NonEmptyVec | list induction / refinement |
| C35-C41 | parser state machine, `consume`, `collect`, rules | structural recursion on remaining depth and tokens; shared side tables are not rolled back: C36 `_refuted` |
| C47 | `NullIncluder` | direct; the documentation is wrong for every text with a block: `_refuted` |
| C48 | every `panic!`, `assert!`, `expect`, `unreachable!` of the parser is a `panic_site` value | same invariant; each site is either unreachable or has a `_refuted` witness |
| C49-C54 | the element invariant `element_ok` (SpecParse.v), true of every element of every list the parse returns | one invariant carried through all rules |
| C56 | the renderer with a bound on nested references | monotone in the bound; accessibility of the reference graph; circles refuted |
| C57 | every panic of the renderer is an `rpanic` value | one invariant over `h_elements` (footnote counter, scopes); witnesses for the reachable ones |
| C58-C61 | the builder calls as a tree (`dom`), a browser's tokenizer (`SpecReader.v`) | the tokenizer reads `dom_text d` as `dom_tokens d`; every node the renderer makes is `legit` (`RenderNames.v`) |
| C62 | ids: those the renderer writes itself (`own_id`) and those an author gives, isolated or not (`page_id`) | provenance of every attribute map (`attr_origin`, `stored_id`) carried by `element_ok`, then every `id` of a node is one of the two; collisions without isolation refuted |
| C63 | `HtmlMeta` | the meta tags are escaped void elements read back by the tokenizer |
| C64 | tokenizer, parser, both renderers together | SpecWriting.v: pages of blocks, how they are written and their intended output; WritingLex.v: the tokens of the items; WritingParse.v: emphasis by induction on nesting; DepthBuild.v: depth lists built from their reading; WritingBlocks.v: headings, lists, quotes and the whole page; WritingRender.v: HTML and plain text; PropWriting.v: the theorem and a checked sample page; SpecPipeline.v, PropPipeline.v: with includes and preprocessing in front |
| C65 | text renderer (`Text.v`) | `said` (SpecText.v) is the text in reading order; a compositional predicate `works` over the renderer's functions, induction on element size |
| C66 | the renderer, the browser's reader, `words` (SpecShown.v): the text of an element in page order | induction over elements: what each function writes between its tags contains that text, and equals it unless the element is `adorned`; read back by C58 |
| C67 | the renderer's counters, the browser's reader, `values_of` (SpecNumbers.v) | one induction over elements for any counter (what is read of the tags is the next numbers), two instances; counterexamples by evaluation |
| C68 | add_link, page_exists and its cache, render_link; `links_in`, `seen_links` (SpecBacklinks.v) | one induction over elements: links written = links recorded = link elements shown, cache invariant; counterexamples by evaluation |
| C69 | consume, collect, every rule a bracketless text can reach; `letters`, `bracketless`, `few_headings` (SpecLetters.v) | a Hoare logic over the parser: letters of what is made ++ letters of the tokens left = letters of the tokens at the start, for each rule, through the fuel of the recursion; counterexamples by evaluation |
| C70 | every rule and block; `bracket_free` (SpecBlockless.v) | `element_ok` (the invariant of every element) says for each kind which opening token the text must have; blocks are parsed only after such a token |
| C71 | preprocess; letters as in C69 | each replacement is a scan (C01-C08); each scan replaces letterless text by letterless text |
| C72 | the renderer on the elements of C70; `inert_tags`, `inert_attr` (SpecInert.v), the browser of SpecReader.v | C70 says which elements occur; induction over elements: every node written is a tag of the list with listed attributes; such a tree reads back as itself |
| C73 | convert_tokens_utf16, convert_errors_utf16 (Wasm.v); JavaScript strings (SpecJs.v) | C14 and C37; the empty text has no errors (evaluated for every environment) |
| C74 | lexer, parser, blocks, renderer; pages of blocks and their HTML (SpecBlocks.v) | the tokens of such a page (BlocksLex.v), the parser run on them block by block by induction on the page (BlocksParse.v, BlocksRun.v, BlocksGroup.v), the renderers on the resulting elements (BlocksRender.v, BlocksText.v) |
| C75 | link rules, page references, addresses, link rendering (SpecBlocks.v: page, address, page_href, inline_links) | corollaries of C74: the tokens of links (BlocksLex.v), page references, schemes and categories of the names (BlocksLinks.v), the link rules (BlocksRun.v), href, class and records (BlocksRender.v) |
| C76 | get_body_text, verify_end_block, blk_code, blk_html, render_code, render_html (SpecBlocks.v: Verbatim, good_text) | the lexer on any text before a line break does not depend on what comes after (VerbatimLex.v: every rule of the grammar is local), so the tokens of the text are those of the page; no token in it ends the block (BlocksVerbatim.v); shared state threaded through the groups (BlocksGroup.v) |
| C77 | condition parsing and evaluation, blk_iftags, blk_ifcategory, paragraphs (SpecBlocks.v: When, meets, holds) | corollaries of C74 extended by conditional text: the tokens of the conditions (BlocksLex.v), their value (BlocksRun.v), paragraphs of nothing (BlocksGroup.v) |
| C78 | blk_list, blk_li, list_items, blk_table, blk_row, blk_cell, blk_hcell, make_cell, extract_items, strip_whitespace, render_list, render_table (SpecBlocks.v: Items, Grid) | corollaries of C74 extended by lists and tables: the parser run line by line on them by induction on the items (BlocksTable.v), their HTML (BlocksRender.v), their text, which may add a line break at the very start (BlocksText.v) |
| C79 | rule_table, table_one_row, table_one_cell, table_cell_loop, parse_cell_start, rule_horizontal_rule, rule_clear_float, render_table, render_row, render_cell (SpecBlocks.v: Bars, Divider, Clear) | corollaries of C74 extended by tables drawn with bars and by lines: the table loops run cell by cell and row by row by induction (BlocksLines.v); blocks may take the line break after them, so the induction on blocks keeps what is left (BlocksGroup.v) |
| C80 | rule_line_break, push_element, gather loop of paragraphs, verify_end_block, get_optional_line_break, block_skip (SpecBlocks.v: Break, beside, left_of) | corollaries of C74 extended by line breaks as something a text consists of: the induction on inline elements keeps that the rest does not start with what takes the line break (BlocksRun.v: reading, quiet_at); a paragraph drops the line breaks before anything else (BlocksGroup.v: push_skips) |
| C81 | blk_anchor, attribute_insert with normalize_href, render_anchor (SpecBlocks.v: Anchored, starred, leads_away, good_attribute) | corollary of C74 extended by anchors as a further box and by href and src as attributes that normalisation leaves alone when they lead away (BlocksParse.v: attribute_facts); the block's own class is merged by the renderer (BlocksRender.v: paints_box) |
| C82 | rule_anchor, blk_target, block_skip, rule_link_anchor, isolate_ids, normalize, render of anchors and links (PropPlaces.v: places_source, place_html, good_line) | the steps of C74's paragraphs (inlines_run) joined with one step per place; then the painting of EAnchorName; refutations by running two pages |
| C55 | end of `parse` | the flag is set whenever a block element is in the result; a dropped block refutes the other direction |

## The parser model

`PState.v` is the parser state (`Parser`: current and remaining tokens, rule, depth, flags) and the
shared tables (`Rc<RefCell<..>>`: headings, html, code, footnotes, bibliographies), a state monad `M`
with errors and panics, `collect`, `gather_paragraphs`.  `Blocks.v` is the block rules and their
arguments, `Rules.v` all other rules and the token -> rules table, `Parse.v` is `consume` and
`parse`.  Loops run on the number of remaining tokens; `consume` recurses on the depth limit (the
recursion of `consume` through a rule increments the depth, so the limit is a structural bound);
the theorems C35 prove that neither bound is ever what stops the parser (`ROut` never happens).

Parameters (the record `env`): the text, page info, settings, the regex word class, the page-name
normaliser, entity table, lower-casing, date parsing: what the code takes from crates.

`ParseTests1..4.v` are generated from all 648 AST tests of the repository (`tools/conformance.py`):
the model produces exactly the tree and the errors of each `/repo/test/*.json`.  They are tests of
the model's fidelity, not part of the claims.

## The renderer model

`Render.v` is `HtmlRender::render` with the default handle (`src/render/handle.rs`): each
`render_*` function of `src/render/html/element` is a function into a state monad (the counters,
scopes, backlink lists and the page-exists cache of `HtmlContext`) that returns builder calls as a
tree of nodes (`Html.v`), written out by the same builder model as C30.  Panics are `rpanic`
values.  References (footnotes, bibliography entries, table of contents) are followed up to a bound
given as a number; C56 shows the bound does not matter once there is a result.
Parameters (record `renv`): site, page, settings, debug or release, page-name normaliser, whether
a page exists, random ids, the CSS minifier, the LaTeX converter, the date formatter.
`HtmlMeta` is at the end of Render.v (C63).  Not modelled: the `html-` feature gates, logging.

`RenderTests1..4.v` are the 636 HTML tests of the repository whose expected text does not depend on
external libraries, generated like the parser tests.

`SpecReader.v` is the part of the HTML standard's tokenizer that C58-C61 are stated with; it is a
specification, not a model of code in this repository, and is trusted as such.

(** ParseTests3.v -- generated by tools/conformance.py from the repository's AST tests (/repo/test/*.json):
    the modelled include, preprocess, tokenize and parse applied to each test's input give the tree
    and the errors the repository expects.  These are tests of the model, not proofs. *)
From Verif Require Import Base Strings Links Attr Preproc Includes Lexer Depth Tree Text Toc PState Blocks Rules Parse ParseTestEnv.
Example test_align_fail : run_test (lit "[[=]]
Pineapple
[[/<]]") = Parsed (TREE [(EContainer CParagraph [] [(EText (lit "[[")); (EText (lit "=")); (EText (lit "]]")); ELineBreak; (EText (lit "Pineapple")); ELineBreak; (EText (lit "[[/")); (EText (lit "<")); (EText (lit "]]"))]); (EFootnoteBlock None false)] [] [] [] [] [] 0 [(PE EndOfInput "block-align-center"%string TInputEnd 22 22); (PE NoRulesMatch "fallback"%string TLeftBlock 0 2); (PE NoRulesMatch "fallback"%string TRightBlock 3 5); (PE NoRulesMatch "fallback"%string TLeftBlockEnd 16 19); (PE NoRulesMatch "fallback"%string TRightBlock 20 22)]).
Proof. vm_compute. reflexivity. Qed.
Example test_anchor_alias_star_empty : run_test (lit "[[*anchor]][[/anchor]]") = Parsed (TREE [(EContainer CParagraph [] [(EAnchor (Some ATNewTab) [] [])]); (EFootnoteBlock None false)] [] [] [] [] [] 0 []).
Proof. vm_compute. reflexivity. Qed.
Example test_anchor_empty : run_test (lit "[[a]][[/a]]") = Parsed (TREE [(EContainer CParagraph [] [(EAnchor None [] [])]); (EFootnoteBlock None false)] [] [] [] [] [] 0 []).
Proof. vm_compute. reflexivity. Qed.
Example test_anchor_name_fail : run_test (lit "[[# apple") = Parsed (TREE [(EContainer CParagraph [] [(EText (lit "[[#")); (EText (lit " ")); (EText (lit "apple"))]); (EFootnoteBlock None false)] [] [] [] [] [] 0 [(PE EndOfInput "anchor"%string TInputEnd 9 9); (PE NoRulesMatch "fallback"%string TLeftBlockAnchor 0 3)]).
Proof. vm_compute. reflexivity. Qed.
Example test_anchor_name : run_test (lit "[[# apple]]") = Parsed (TREE [(EContainer CParagraph [] [(EAnchorName (lit "apple"))]); (EFootnoteBlock None false)] [] [] [] [] [] 0 []).
Proof. vm_compute. reflexivity. Qed.
Example test_anchor_xss_2 : run_test (lit "[[a href=""JAVASCRIPT:alert('XSS!')""]]My not-suspicious link[[/a]]") = Parsed (TREE [(EContainer CParagraph [] [(EAnchor None [((lit "href"), (lit "#invalid-url"))] [(EText (lit "My")); (EText (lit " ")); (EText (lit "not")); (EText (lit "-")); (EText (lit "suspicious")); (EText (lit " ")); (EText (lit "link"))])]); (EFootnoteBlock None false)] [] [] [] [] [] 0 []).
Proof. vm_compute. reflexivity. Qed.
Example test_anchor2_alias_star_empty : run_test (lit "[[*anchor_]][[/anchor]]") = Parsed (TREE [(EContainer CParagraph [] [(EAnchor (Some ATNewTab) [] [])]); (EFootnoteBlock None false)] [] [] [] [] [] 0 []).
Proof. vm_compute. reflexivity. Qed.
Example test_anchor2_empty : run_test (lit "[[a_]][[/a]]") = Parsed (TREE [(EContainer CParagraph [] [(EAnchor None [] [])]); (EFootnoteBlock None false)] [] [] [] [] [] 0 []).
Proof. vm_compute. reflexivity. Qed.
Example test_anchor2_star_empty : run_test (lit "[[*a_]][[/a]]") = Parsed (TREE [(EContainer CParagraph [] [(EAnchor (Some ATNewTab) [] [])]); (EFootnoteBlock None false)] [] [] [] [] [] 0 []).
Proof. vm_compute. reflexivity. Qed.
Example test_bibliography : run_test (lit "In 1970,((bibcite wwiii)) the final war for all humanity[[bibcite man]] was fought.
[[bibliography]]
: wwiii : A
: man : B
: woman : C
[[/bibliography]]") = Parsed (TREE [(EContainer CParagraph [] [(EText (lit "In")); (EText (lit " ")); (EText (lit "1970")); (EText (lit ",")); (EBibliographyCite (lit "wwiii") false); (EText (lit " ")); (EText (lit "the")); (EText (lit " ")); (EText (lit "final")); (EText (lit " ")); (EText (lit "war")); (EText (lit " ")); (EText (lit "for")); (EText (lit " ")); (EText (lit "all")); (EText (lit " ")); (EText (lit "humanity")); (EBibliographyCite (lit "man") true); (EText (lit " ")); (EText (lit "was")); (EText (lit " ")); (EText (lit "fought")); (EText (lit "."))]); (EBibliographyBlock 0 None false); (EFootnoteBlock None false)] [] [] [] [] [[((lit "wwiii"), [(EText (lit "A"))]); ((lit "man"), [(EText (lit "B"))]); ((lit "woman"), [(EText (lit "C"))])]] 0 []).
Proof. vm_compute. reflexivity. Qed.
Example test_blockquote_alias : run_test (lit "[[quote]]
Durian
[[/quote]]") = Parsed (TREE [(EContainer CBlockquote [] [(EContainer CParagraph [] [(EText (lit "Durian"))])]); (EFootnoteBlock None false)] [] [] [] [] [] 0 []).
Proof. vm_compute. reflexivity. Qed.
Example test_blockquote_id : run_test (lit "[[blockquote id=""my-quote""]]
Apple
[[/blockquote]]") = Parsed (TREE [(EContainer CBlockquote [((lit "id"), (lit "my-quote"))] [(EContainer CParagraph [] [(EText (lit "Apple"))])]); (EFootnoteBlock None false)] [] [] [] [] [] 0 []).
Proof. vm_compute. reflexivity. Qed.
Example test_blockquote_native_both : run_test (lit "> Apple") = Parsed (TREE [(EContainer CBlockquote [] [(EContainer CParagraph [] [(EText (lit "Apple"))])]); (EFootnoteBlock None false)] [] [] [] [] [] 0 []).
Proof. vm_compute. reflexivity. Qed.
Example test_blockquote_native_paragraph : run_test (lit "[

> Apple

]") = Parsed (TREE [(EContainer CParagraph [] [(EText (lit "["))]); (EContainer CBlockquote [] [(EContainer CParagraph [] [(EText (lit "Apple"))])]); (EContainer CParagraph [] [(EText (lit "]"))]); (EFootnoteBlock None false)] [] [] [] [] [] 0 []).
Proof. vm_compute. reflexivity. Qed.
Example test_blockquote_native_start : run_test (lit "[
> Apple") = Parsed (TREE [(EContainer CParagraph [] [(EText (lit "["))]); (EContainer CBlockquote [] [(EContainer CParagraph [] [(EText (lit "Apple"))])]); (EFootnoteBlock None false)] [] [] [] [] [] 0 []).
Proof. vm_compute. reflexivity. Qed.
Example test_blockquote_paragraphs : run_test (lit "[[blockquote]]
Apple

Banana
Cherry

Durian
[[/blockquote]]") = Parsed (TREE [(EContainer CBlockquote [] [(EContainer CParagraph [] [(EText (lit "Apple"))]); (EContainer CParagraph [] [(EText (lit "Banana")); ELineBreak; (EText (lit "Cherry"))]); (EContainer CParagraph [] [(EText (lit "Durian"))])]); (EFootnoteBlock None false)] [] [] [] [] [] 0 []).
Proof. vm_compute. reflexivity. Qed.
Example test_bold_block_alias_2 : run_test (lit "[[strong]]Test![[/strong]]") = Parsed (TREE [(EContainer CParagraph [] [(EContainer CBold [] [(EText (lit "Test")); (EText (lit "!"))])]); (EFootnoteBlock None false)] [] [] [] [] [] 0 []).
Proof. vm_compute. reflexivity. Qed.
Example test_bold_block_paragraph : run_test (lit "[[b]]Paragraph

Bold[[/b]]") = Parsed (TREE [(EContainer CParagraph [] [(EContainer CBold [] [(EText (lit "Paragraph")); ELineBreak; (EText (lit "Bold"))])]); (EFootnoteBlock None false)] [] [] [] [] [] 0 []).
Proof. vm_compute. reflexivity. Qed.
Example test_bold_fail : run_test (lit "**Fail Bold") = Parsed (TREE [(EContainer CParagraph [] [(EText (lit "**")); (EText (lit "Fail")); (EText (lit " ")); (EText (lit "Bold"))]); (EFootnoteBlock None false)] [] [] [] [] [] 0 [(PE EndOfInput "bold"%string TInputEnd 11 11); (PE NoRulesMatch "fallback"%string TBold 0 2)]).
Proof. vm_compute. reflexivity. Qed.
Example test_bold_not_heading : run_test (lit "You must be **18+**") = Parsed (TREE [(EContainer CParagraph [] [(EText (lit "You")); (EText (lit " ")); (EText (lit "must")); (EText (lit " ")); (EText (lit "be")); (EText (lit " ")); (EContainer CBold [] [(EText (lit "18")); (EText (lit "+"))])]); (EFootnoteBlock None false)] [] [] [] [] [] 0 []).
Proof. vm_compute. reflexivity. Qed.
Example test_center_formatting : run_test (lit "= **Banana** Cherry //Durian//") = Parsed (TREE [(EContainer (CAlign AlCenter) [] [(EContainer CBold [] [(EText (lit "Banana"))]); (EText (lit " ")); (EText (lit "Cherry")); (EText (lit " ")); (EContainer CItalics [] [(EText (lit "Durian"))])]); (EFootnoteBlock None false)] [] [] [] [] [] 0 []).
Proof. vm_compute. reflexivity. Qed.
Example test_char_decimal : run_test (lit "[[char #129408]] pineapple") = Parsed (TREE [(EContainer CParagraph [] [(EText [129408%N]); (EText (lit " ")); (EText (lit "pineapple"))]); (EFootnoteBlock None false)] [] [] [] [] [] 0 []).
Proof. vm_compute. reflexivity. Qed.
Example test_char2_alias : run_test (lit "[[character &gt;]] pineapple") = Parsed (TREE [(EContainer CParagraph [] [(EText (lit ">")); (EText (lit " ")); (EText (lit "pineapple"))]); (EFootnoteBlock None false)] [] [] [] [] [] 0 []).
Proof. vm_compute. reflexivity. Qed.
Example test_char2_name : run_test (lit "[[char &copy;]] pineapple") = Parsed (TREE [(EContainer CParagraph [] [(EText [169%N]); (EText (lit " ")); (EText (lit "pineapple"))]); (EFootnoteBlock None false)] [] [] [] [] [] 0 []).
Proof. vm_compute. reflexivity. Qed.
Example test_checkbox_star : run_test (lit "[[*checkbox]] Apple
[[checkbox]] Banana
[[*checkbox]] Cherry") = Parsed (TREE [(EContainer CParagraph [] [(ECheckBox true []); (EText (lit "Apple")); ELineBreak; (ECheckBox false []); (EText (lit "Banana")); ELineBreak; (ECheckBox true []); (EText (lit "Cherry"))]); (EFootnoteBlock None false)] [] [] [] [] [] 0 []).
Proof. vm_compute. reflexivity. Qed.
Example test_clear_float_2_fail : run_test (lit "~~
Clear float fail") = Parsed (TREE [(EContainer CParagraph [] [(EText (lit "~~")); ELineBreak; (EText (lit "Clear")); (EText (lit " ")); (EText (lit "float")); (EText (lit " ")); (EText (lit "fail"))]); (EFootnoteBlock None false)] [] [] [] [] [] 0 [(PE EndOfInput "strikethrough-tilde"%string TInputEnd 19 19); (PE NoRulesMatch "fallback"%string TDoubleTilde 0 2)]).
Proof. vm_compute. reflexivity. Qed.
Example test_clear_float_left : run_test (lit "~~~~<
Clear float left") = Parsed (TREE [(EClearFloat CFLeft); (EContainer CParagraph [] [(EText (lit "Clear")); (EText (lit " ")); (EText (lit "float")); (EText (lit " ")); (EText (lit "left"))]); (EFootnoteBlock None false)] [] [] [] [] [] 0 []).
Proof. vm_compute. reflexivity. Qed.
Example test_code_fail_arguments : run_test (lit "[[code type=css""]]") = Parsed (TREE [(EContainer CParagraph [] [(EText (lit "[[")); (EText (lit "code")); (EText (lit " ")); (EText (lit "type")); (EText (lit "=")); (EText (lit "css")); (EText (lit """")); (EText (lit "]]"))]); (EFootnoteBlock None false)] [] [] [] [] [] 0 [(PE BlockMalformedArguments "block-code"%string TIdentifier 12 15); (PE NoRulesMatch "fallback"%string TLeftBlock 0 2); (PE NoRulesMatch "fallback"%string TRightBlock 16 18)]).
Proof. vm_compute. reflexivity. Qed.
Example test_code_inline_empty : run_test (lit "[[code]][[/code]]") = Parsed (TREE [(ECode [] None); (EFootnoteBlock None false)] [] [] [(CB [] None)] [] [] 0 []).
Proof. vm_compute. reflexivity. Qed.
Example test_code_language : run_test (lit "[[code type=""css""]]
apple banana
[[/code]]") = Parsed (TREE [(ECode (lit "apple banana") (Some (lit "css"))); (EFootnoteBlock None false)] [] [] [(CB (lit "apple banana") None)] [] [] 0 []).
Proof. vm_compute. reflexivity. Qed.
Example test_code_uppercase : run_test (lit "[[CODE]]
text here
[[/CODE]]") = Parsed (TREE [(ECode (lit "text here") None); (EFootnoteBlock None false)] [] [] [(CB (lit "text here") None)] [] [] 0 []).
Proof. vm_compute. reflexivity. Qed.
Example test_collapsible_folded_yes : run_test (lit "[[collapsible folded = ""YES""]]
Cherry
[[/collapsible]]") = Parsed (TREE [(ECollapsible [(EContainer CParagraph [] [(EText (lit "Cherry"))])] [] false None None true false); (EFootnoteBlock None false)] [] [] [] [] [] 0 []).
Proof. vm_compute. reflexivity. Qed.
Example test_collapsible_location_neither : run_test (lit "[[collapsible hidelocation=""neither""]]
Cherry
[[/collapsible]]") = Parsed (TREE [(ECollapsible [(EContainer CParagraph [] [(EText (lit "Cherry"))])] [] false None None false false); (EFootnoteBlock None false)] [] [] [] [] [] 0 []).
Proof. vm_compute. reflexivity. Qed.
Example test_collapsible_nested : run_test (lit "[[collapsible]]
Apple
[[collapsible show=""+ More Fruit"" hide=""- Hide Fruit""]]
Banana
[[/collapsible]]
[[/collapsible]]") = Parsed (TREE [(ECollapsible [(EContainer CParagraph [] [(EText (lit "Apple"))]); (ECollapsible [(EContainer CParagraph [] [(EText (lit "Banana"))])] [] false (Some (lit "+ More Fruit")) (Some (lit "- Hide Fruit")) true false)] [] false None None true false); (EFootnoteBlock None false)] [] [] [] [] [] 0 []).
Proof. vm_compute. reflexivity. Qed.
Example test_collapsible : run_test (lit "[[collapsible]]
Apple
[[/collapsible]]") = Parsed (TREE [(ECollapsible [(EContainer CParagraph [] [(EText (lit "Apple"))])] [] false None None true false); (EFootnoteBlock None false)] [] [] [] [] [] 0 []).
Proof. vm_compute. reflexivity. Qed.
Example test_color_simple : run_test (lit "##blue|Text Here##") = Parsed (TREE [(EContainer CParagraph [] [(EColor (lit "blue") [(EText (lit "Text")); (EText (lit " ")); (EText (lit "Here"))])]); (EFootnoteBlock None false)] [] [] [] [] [] 0 []).
Proof. vm_compute. reflexivity. Qed.
Example test_comment_single : run_test (lit "Single [!-- stuff here --] Comment") = Parsed (TREE [(EContainer CParagraph [] [(EText (lit "Single")); (EText (lit " ")); (EText (lit " ")); (EText (lit "Comment"))]); (EFootnoteBlock None false)] [] [] [] [] [] 0 []).
Proof. vm_compute. reflexivity. Qed.
Example test_definition_list_input : run_test (lit ": Key : Value") = Parsed (TREE [(EDefinitionList [(DF (lit "Key") [(EText (lit "Key"))] [(EText (lit "Value"))])]); (EFootnoteBlock None false)] [] [] [] [] [] 0 []).
Proof. vm_compute. reflexivity. Qed.
Example test_del_alias : run_test (lit "Apple
[[deletion]]Banana[[/deletion]]") = Parsed (TREE [(EContainer CParagraph [] [(EText (lit "Apple")); ELineBreak; (EContainer CDeletion [] [(EText (lit "Banana"))])]); (EFootnoteBlock None false)] [] [] [] [] [] 0 []).
Proof. vm_compute. reflexivity. Qed.
Example test_del : run_test (lit "Apple
[[del]]Banana[[/del]]") = Parsed (TREE [(EContainer CParagraph [] [(EText (lit "Apple")); ELineBreak; (EContainer CDeletion [] [(EText (lit "Banana"))])]); (EFootnoteBlock None false)] [] [] [] [] [] 0 []).
Proof. vm_compute. reflexivity. Qed.
Example test_div_ending : run_test (lit "[[div]]
Banana
[[/div_]]") = Parsed (TREE [(EContainer CDiv [] [(EContainer CParagraph [] [(EText (lit "Banana"))])]); (EFootnoteBlock None false)] [] [] [] [] [] 0 []).
Proof. vm_compute. reflexivity. Qed.
Example test_div_multiline : run_test (lit "[[div]]
Apple
Banana
[[/div]]") = Parsed (TREE [(EContainer CDiv [] [(EContainer CParagraph [] [(EText (lit "Apple")); ELineBreak; (EText (lit "Banana"))])]); (EFootnoteBlock None false)] [] [] [] [] [] 0 []).
Proof. vm_compute. reflexivity. Qed.
Example test_div_style : run_test (lit "[[div style=""display: flex"" data-fruit=""red""]]
Apple
[[/div]]") = Parsed (TREE [(EContainer CDiv [((lit "data-fruit"), (lit "red")); ((lit "style"), (lit "display: flex"))] [(EContainer CParagraph [] [(EText (lit "Apple"))])]); (EFootnoteBlock None false)] [] [] [] [] [] 0 []).
Proof. vm_compute. reflexivity. Qed.
Example test_div2_empty : run_test (lit "[[div_]]
[[/div]]") = Parsed (TREE [(EContainer CDiv [] []); (EFootnoteBlock None false)] [] [] [] [] [] 0 []).
Proof. vm_compute. reflexivity. Qed.
Example test_div2_multiline : run_test (lit "[[div_]]
Apple
Banana
[[/div]]") = Parsed (TREE [(EContainer CDiv [] [(EText (lit "Apple")); ELineBreak; (EText (lit "Banana"))]); (EFootnoteBlock None false)] [] [] [] [] [] 0 []).
Proof. vm_compute. reflexivity. Qed.
Example test_div2 : run_test (lit "[[div_]]
Apple
[[/div]]") = Parsed (TREE [(EContainer CDiv [] [(EText (lit "Apple"))]); (EFootnoteBlock None false)] [] [] [] [] [] 0 []).
Proof. vm_compute. reflexivity. Qed.
Example test_double_angle_right : run_test (lit "Double >> Angle") = Parsed (TREE [(EContainer CParagraph [] [(EText (lit "Double")); (EText (lit " ")); (EText [187%N]); (EText (lit " ")); (EText (lit "Angle"))]); (EFootnoteBlock None false)] [] [] [] [] [] 0 []).
Proof. vm_compute. reflexivity. Qed.
Example test_embed_fail_name : run_test (lit "[[embed]]") = Parsed (TREE [(EContainer CParagraph [] [(EText (lit "[[")); (EText (lit "embed")); (EText (lit "]]"))]); (EFootnoteBlock None false)] [] [] [] [] [] 0 [(PE BlockMissingName "block-embed"%string TInputEnd 9 9); (PE NoRulesMatch "fallback"%string TLeftBlock 0 2); (PE NoRulesMatch "fallback"%string TRightBlock 7 9)]).
Proof. vm_compute. reflexivity. Qed.
Example test_empty : run_test [] = Parsed (TREE [(EFootnoteBlock None false)] [] [] [] [] [] 0 []).
Proof. vm_compute. reflexivity. Qed.
Example test_equation_reference : run_test (lit "Apple[[eref Fruit]]") = Parsed (TREE [(EContainer CParagraph [] [(EText (lit "Apple")); (EEquationReference (lit "Fruit"))]); (EFootnoteBlock None false)] [] [] [] [] [] 0 []).
Proof. vm_compute. reflexivity. Qed.
Example test_footnote_block_multiple : run_test (lit "Durian[[footnote]]Cherry[[/footnote]]

[[footnoteblock]]
[[footnoteblock]]
[[footnoteblock]]") = Parsed (TREE [(EContainer CParagraph [] [(EText (lit "Durian")); EFootnote]); (EFootnoteBlock None false); (EFootnoteBlock None false); (EFootnoteBlock None false)] [] [] [] [[(EText (lit "Cherry"))]] [] 0 []).
Proof. vm_compute. reflexivity. Qed.
Example test_footnote_ref_elements : run_test (lit "Apple[[footnote]]**Banana** //cherry ,,durian,,//[[/footnote]]") = Parsed (TREE [(EContainer CParagraph [] [(EText (lit "Apple")); EFootnote]); (EFootnoteBlock None false)] [] [] [] [[(EContainer CBold [] [(EText (lit "Banana"))]); (EText (lit " ")); (EContainer CItalics [] [(EText (lit "cherry")); (EText (lit " ")); (EContainer CSubscript [] [(EText (lit "durian"))])])]] [] 0 []).
Proof. vm_compute. reflexivity. Qed.
Example test_footnote_ref_paragraphs : run_test (lit "1[[footnote]]Apple

Banana[[/footnote]]
2[[footnote]]
Cherry
[[/footnote]]
3[[footnote]]

Durian

[[/footnote]]") = Parsed (TREE [(EContainer CParagraph [] [(EText (lit "1")); EFootnote; ELineBreak; (EText (lit "2")); EFootnote; ELineBreak; (EText (lit "3")); EFootnote]); (EFootnoteBlock None false)] [] [] [] [[(EContainer CParagraph [] [(EText (lit "Apple"))]); (EContainer CParagraph [] [(EText (lit "Banana"))])]; [(EText (lit "Cherry")); ELineBreak]; [(EText (lit "Durian"))]] [] 0 []).
Proof. vm_compute. reflexivity. Qed.
Example test_heading_1_toc : run_test (lit "+* My //header//") = Parsed (TREE [(EContainer (CHeader (HD 1 false)) [] [(EText (lit "My")); (EText (lit " ")); (EContainer CItalics [] [(EText (lit "header"))])]); (EFootnoteBlock None false)] [] [] [] [] [] 0 []).
Proof. vm_compute. reflexivity. Qed.
Example test_heading_3_toc : run_test (lit "+++* plain
+++ toc") = Parsed (TREE [(EContainer (CHeader (HD 3 false)) [] [(EText (lit "plain"))]); (EContainer (CHeader (HD 3 true)) [] [(EText (lit "toc"))]); (EFootnoteBlock None false)] [(EList LBullet [] [(LISubList (EList LBullet [] [(LISubList (EList LBullet [] [(LIElements [] [(ELink LTTableOfContents (LUrl (lit "#toc0")) None (LabelText (lit "toc")) None)])]))]))])] [] [] [] [] 0 []).
Proof. vm_compute. reflexivity. Qed.
Example test_heading_5_toc : run_test (lit "+++++ H5
+++++* H5!
++* H2!
+ H1

+++* H3!
++ H2 ++
") = Parsed (TREE [(EContainer (CHeader (HD 5 true)) [] [(EText (lit "H5"))]); (EContainer (CHeader (HD 5 false)) [] [(EText (lit "H5")); (EText (lit "!"))]); (EContainer (CHeader (HD 2 false)) [] [(EText (lit "H2")); (EText (lit "!"))]); (EContainer (CHeader (HD 1 true)) [] [(EText (lit "H1"))]); (EContainer (CHeader (HD 3 false)) [] [(EText (lit "H3")); (EText (lit "!"))]); (EContainer (CHeader (HD 2 true)) [] [(EText (lit "H2")); (EText (lit " ")); (EText (lit "++"))]); (EFootnoteBlock None false)] [(EList LBullet [] [(LISubList (EList LBullet [] [(LISubList (EList LBullet [] [(LISubList (EList LBullet [] [(LISubList (EList LBullet [] [(LIElements [] [(ELink LTTableOfContents (LUrl (lit "#toc0")) None (LabelText (lit "H5")) None)])]))]))]))])); (LIElements [] [(ELink LTTableOfContents (LUrl (lit "#toc1")) None (LabelText (lit "H1")) None)]); (LISubList (EList LBullet [] [(LIElements [] [(ELink LTTableOfContents (LUrl (lit "#toc2")) None (LabelText (lit "H2 ++")) None)])]))])] [] [] [] [] 0 []).
Proof. vm_compute. reflexivity. Qed.
Example test_heading_7_fail : run_test (lit "+++++++ Invalid header") = Parsed (TREE [(EContainer CParagraph [] [(EText (lit "++++++")); (EText (lit "+")); (EText (lit " ")); (EText (lit "Invalid")); (EText (lit " ")); (EText (lit "header"))]); (EFootnoteBlock None false)] [] [] [] [] [] 0 []).
Proof. vm_compute. reflexivity. Qed.
Example test_hidden_newlines : run_test (lit "[[hidden]]
[[div_]]
Hidden div
[[/div]]
[[/hidden]]") = Parsed (TREE [(EContainer CHidden [] [(EContainer CDiv [] [(EText (lit "Hidden")); (EText (lit " ")); (EText (lit "div"))])]); (EFootnoteBlock None false)] [] [] [] [] [] 0 []).
Proof. vm_compute. reflexivity. Qed.
Example test_hr_2_fail : run_test (lit "--
Fail hr") = Parsed (TREE [(EContainer CParagraph [] [(EText [8212%N]); ELineBreak; (EText (lit "Fail")); (EText (lit " ")); (EText (lit "hr"))]); (EFootnoteBlock None false)] [] [] [] [] [] 0 []).
Proof. vm_compute. reflexivity. Qed.
Example test_html_block : run_test (lit "[[html]]
[[div]]
test
[[/div]]
[[/html]]") = Parsed (TREE [(EHtml (lit "[[div]]
test
[[/div]]")); (EFootnoteBlock None false)] [] [(lit "[[div]]
test
[[/div]]")] [] [] [] 0 []).
Proof. vm_compute. reflexivity. Qed.
Example test_html_fail : run_test (lit "[[html]]
<div>Forgot to close the block") = Parsed (TREE [(EContainer CParagraph [] [(EText (lit "[[")); (EText (lit "html")); (EText (lit "]]")); ELineBreak; (EText (lit "<")); (EText (lit "div")); (EText (lit ">")); (EText (lit "Forgot")); (EText (lit " ")); (EText (lit "to")); (EText (lit " ")); (EText (lit "close")); (EText (lit " ")); (EText (lit "the")); (EText (lit " ")); (EText (lit "block"))]); (EFootnoteBlock None false)] [] [] [] [] [] 0 [(PE EndOfInput "block-html"%string TInputEnd 39 39); (PE NoRulesMatch "fallback"%string TLeftBlock 0 2); (PE NoRulesMatch "fallback"%string TRightBlock 6 8)]).
Proof. vm_compute. reflexivity. Qed.
Example test_html : run_test (lit "[[html]]
<p><div>My HTML <tt>code</tt> here!</div></p>
[[/html]]") = Parsed (TREE [(EHtml (lit "<p><div>My HTML <tt>code</tt> here!</div></p>")); (EFootnoteBlock None false)] [] [(lit "<p><div>My HTML <tt>code</tt> here!</div></p>")] [] [] [] 0 []).
Proof. vm_compute. reflexivity. Qed.
Example test_iframe_fail : run_test (lit "[[iframe https://example.com") = Parsed (TREE [(EContainer CParagraph [] [(EText (lit "[[")); (EText (lit "iframe")); (EText (lit " ")); (ELink LTDirect (LUrl (lit "https://example.com")) None (LabelUrl None) None)]); (EFootnoteBlock None false)] [] [] [] [] [] 0 [(PE EndOfInput "block-iframe"%string TInputEnd 28 28); (PE NoRulesMatch "fallback"%string TLeftBlock 0 2)]).
Proof. vm_compute. reflexivity. Qed.
Example test_iframe_xss : run_test (lit "[[iframe javascript:alert(1)]]") = Parsed (TREE [(EContainer CParagraph [] [(EText (lit "[[")); (EText (lit "iframe")); (EText (lit " ")); (EText (lit "javascript")); (EText (lit ":")); (EText (lit "alert")); (EText (lit "(")); (EText (lit "1")); (EText (lit ")")); (EText (lit "]]"))]); (EFootnoteBlock None false)] [] [] [] [] [] 0 [(PE BlockMalformedArguments "block-iframe"%string TInputEnd 30 30); (PE NoRulesMatch "fallback"%string TLeftBlock 0 2); (PE NoRulesMatch "fallback"%string TRightBlock 28 30)]).
Proof. vm_compute. reflexivity. Qed.
Example test_iftags : run_test (lit "[[iftags +fruit -admin component template]]
Apple
[[/iftags]]
[[IFTAGS component]]Banana[[/IFTAGS]]
[[iftags +xyz]]
Hidden
[[/iftags]]") = Parsed (TREE [(EContainer CParagraph [] [(EText (lit "Apple")); (EText (lit "Banana"))]); (EFootnoteBlock None false)] [] [] [] [] [] 0 []).
Proof. vm_compute. reflexivity. Qed.
Example test_image_file1 : run_test (lit "A [[image /my-picture.jpeg]] B") = Parsed (TREE [(EContainer CParagraph [] [(EText (lit "A")); (EText (lit " ")); (EImage (ISFile1 (lit "my-picture.jpeg")) None None []); (EText (lit " ")); (EText (lit "B"))]); (EFootnoteBlock None false)] [] [] [] [] [] 0 []).
Proof. vm_compute. reflexivity. Qed.
Example test_image_file3 : run_test (lit "A [[image /scp-wiki/some-other-page/my-picture.jpeg]] B") = Parsed (TREE [(EContainer CParagraph [] [(EText (lit "A")); (EText (lit " ")); (EImage (ISFile3 (lit "scp-wiki") (lit "some-other-page") (lit "my-picture.jpeg")) None None []); (EText (lit " ")); (EText (lit "B"))]); (EFootnoteBlock None false)] [] [] [] [] [] 0 []).
Proof. vm_compute. reflexivity. Qed.
Example test_image_float_right : run_test (lit "[[f>image landscape.png]]") = Parsed (TREE [(EContainer CParagraph [] [(EImage (ISFile1 (lit "landscape.png")) None (Some (FA AlRight true)) [])]); (EFootnoteBlock None false)] [] [] [] [] [] 0 []).
Proof. vm_compute. reflexivity. Qed.
Example test_image_link_page : run_test (lit "A [[image filename.png link=""SCP-001""]] B") = Parsed (TREE [(EContainer CParagraph [] [(EText (lit "A")); (EText (lit " ")); (EImage (ISFile1 (lit "filename.png")) (Some (LPage (PR None (lit "SCP-001")))) None []); (EText (lit " ")); (EText (lit "B"))]); (EFootnoteBlock None false)] [] [] [] [] [] 0 []).
Proof. vm_compute. reflexivity. Qed.
Example test_include_elements_fail : run_test (lit "[[include-elements ::invalid-page]]") = Parsed (TREE [(EContainer CParagraph [] [(EText (lit "[[")); (EText (lit "include")); (EText (lit "-")); (EText (lit "elements")); (EText (lit " ")); (EText (lit ":")); (EText (lit ":")); (EText (lit "invalid")); (EText (lit "-")); (EText (lit "page")); (EText (lit "]]"))]); (EFootnoteBlock None false)] [] [] [] [] [] 0 [(PE BlockMalformedArguments "block-include-elements"%string TInputEnd 35 35); (PE NoRulesMatch "fallback"%string TLeftBlock 0 2); (PE NoRulesMatch "fallback"%string TRightBlock 33 35)]).
Proof. vm_compute. reflexivity. Qed.
Example test_include_wikidot_error_star : run_test (lit "[[*include my-page]]") = Parsed (TREE [(EContainer CParagraph [] [(EText (lit "[[*")); (EText (lit "include")); (EText (lit " ")); (EText (lit "my")); (EText (lit "-")); (EText (lit "page")); (EText (lit "]]"))]); (EFootnoteBlock None false)] [] [] [] [] [] 0 [(PE BlockDisallowsStar "block-include"%string TIdentifier 11 13); (PE NoRulesMatch "fallback"%string TLeftBlockStar 0 3); (PE NoRulesMatch "fallback"%string TRightBlock 18 20)]).
Proof. vm_compute. reflexivity. Qed.
Example test_include_wikidot_offsite : run_test (lit "[[include :scp-wiki:theme:black-highlighter-theme]]") = Parsed (TREE [(EContainer CParagraph [] [(EText (lit "OFF")); (EText (lit "-")); (EText (lit "SITE")); (EText (lit " ")); (EText (lit "INCLUDED")); (EText (lit " ")); (EText (lit "PAGE"))]); (EFootnoteBlock None false)] [] [] [] [] [] 0 []).
Proof. vm_compute. reflexivity. Qed.
Example test_include_wikidot_parameters_newlines_after : run_test (lit "[[include component:fruit
 class=box |
 apple=1 |
 banana = 2 |]]") = Parsed (TREE [(EContainer CDiv [((lit "class"), (lit "box ")); ((lit "id"), (lit "fruit"))] [(EContainer CParagraph [] [(EText (lit "  "))]); (EList LBullet [] [(LIElements [] [(EText (lit "1")); (EText (lit "  "))]); (LIElements [] [(EText (lit "2")); (EText (lit "  "))])])]); (EFootnoteBlock None false)] [] [] [] [] [] 0 []).
Proof. vm_compute. reflexivity. Qed.
Example test_include_wikidot_parameters_override : run_test (lit "[[include component:fruit class={$class}|class = box | apple=1 | apple=X |apple=durian | banana = 2]]") = Parsed (TREE [(EContainer CDiv [((lit "class"), (lit "box ")); ((lit "id"), (lit "fruit"))] [(EContainer CParagraph [] [(EText (lit "  "))]); (EList LBullet [] [(LIElements [] [(EText (lit "1")); (EText (lit "  "))]); (LIElements [] [(EText (lit "2")); (EText (lit " "))])])]); (EFootnoteBlock None false)] [] [] [] [] [] 0 []).
Proof. vm_compute. reflexivity. Qed.
Example test_include_wikidot : run_test (lit "[[include my-page]]") = Parsed (TREE [(EContainer CParagraph [] [(EText (lit "INCLUDED")); (EText (lit " ")); (EText (lit "PAGE"))]); (EFootnoteBlock None false)] [] [] [] [] [] 0 []).
Proof. vm_compute. reflexivity. Qed.
Example test_ins_uppercase : run_test (lit "[[INs ID =  ""apple"" clASS =""fruit"" stylE=""color: red;""      ]]Apple[[/ INS  ]]") = Parsed (TREE [(EContainer CParagraph [] [(EContainer CInsertion [((lit "class"), (lit "fruit")); ((lit "id"), (lit "apple")); ((lit "style"), (lit "color: red;"))] [(EText (lit "Apple"))])]); (EFootnoteBlock None false)] [] [] [] [] [] 0 []).
Proof. vm_compute. reflexivity. Qed.
Example test_invisible_uppercase : run_test (lit "[[INVisible]]Invisible[[/inVISIBLE]] Text") = Parsed (TREE [(EContainer CParagraph [] [(EContainer CInvisible [] [(EText (lit "Invisible"))]); (EText (lit " ")); (EText (lit "Text"))]); (EFootnoteBlock None false)] [] [] [] [] [] 0 []).
Proof. vm_compute. reflexivity. Qed.
Example test_italics_block_alias_3 : run_test (lit "[[emphasis]]Test![[/emphasis]]") = Parsed (TREE [(EContainer CParagraph [] [(EContainer CItalics [] [(EText (lit "Test")); (EText (lit "!"))])]); (EFootnoteBlock None false)] [] [] [] [] [] 0 []).
Proof. vm_compute. reflexivity. Qed.
Example test_italics_block_paragraph : run_test (lit "[[i]]Paragraph

Italics[[/i]]") = Parsed (TREE [(EContainer CParagraph [] [(EContainer CItalics [] [(EText (lit "Paragraph")); ELineBreak; (EText (lit "Italics"))])]); (EFootnoteBlock None false)] [] [] [] [] [] 0 []).
Proof. vm_compute. reflexivity. Qed.
Example test_italics_fail : run_test (lit "//Fail Italics") = Parsed (TREE [(EContainer CParagraph [] [(EText (lit "//")); (EText (lit "Fail")); (EText (lit " ")); (EText (lit "Italics"))]); (EFootnoteBlock None false)] [] [] [] [] [] 0 [(PE EndOfInput "italics"%string TInputEnd 14 14); (PE NoRulesMatch "fallback"%string TItalics 0 2)]).
Proof. vm_compute. reflexivity. Qed.
Example test_line_breaks_error_invalid : run_test (lit "[[lines apple]]") = Parsed (TREE [(EContainer CParagraph [] [(EText (lit "[[")); (EText (lit "lines")); (EText (lit " ")); (EText (lit "apple")); (EText (lit "]]"))]); (EFootnoteBlock None false)] [] [] [] [] [] 0 [(PE BlockMalformedArguments "block-lines"%string TInputEnd 15 15); (PE NoRulesMatch "fallback"%string TLeftBlock 0 2); (PE NoRulesMatch "fallback"%string TRightBlock 13 15)]).
Proof. vm_compute. reflexivity. Qed.
Example test_line_breaks : run_test (lit "Apple
[[lines 3]]
Banana") = Parsed (TREE [(EContainer CParagraph [] [(EText (lit "Apple")); (ELineBreaks 3%N); (EText (lit "Banana"))]); (EFootnoteBlock None false)] [] [] [] [] [] 0 []).
Proof. vm_compute. reflexivity. Qed.
Example test_link_interwiki_alias : run_test (lit "[[[!wikipedia:Apple]]], [[[!wp:Apple]]]

[[[!duckduckgo:LMGTFY]]], [[[!ddg:LMGTFY]]]") = Parsed (TREE [(EContainer CParagraph [] [(ELink LTInterwiki (LUrl (lit "https://wikipedia.org/wiki/Apple")) None (LabelUrl (Some (lit "Apple"))) None); (EText (lit ",")); (EText (lit " ")); (ELink LTInterwiki (LUrl (lit "https://wikipedia.org/wiki/Apple")) None (LabelUrl (Some (lit "Apple"))) None)]); (EContainer CParagraph [] [(ELink LTInterwiki (LUrl (lit "https://duckduckgo.com/?q=LMGTFY")) None (LabelUrl (Some (lit "LMGTFY"))) None); (EText (lit ",")); (EText (lit " ")); (ELink LTInterwiki (LUrl (lit "https://duckduckgo.com/?q=LMGTFY")) None (LabelUrl (Some (lit "LMGTFY"))) None)]); (EFootnoteBlock None false)] [] [] [] [] [] 0 []).
Proof. vm_compute. reflexivity. Qed.
Example test_link_interwiki_label : run_test (lit "[[[!wikipedia:SCP Foundation|SCP Wiki]]]") = Parsed (TREE [(EContainer CParagraph [] [(ELink LTInterwiki (LUrl (lit "https://wikipedia.org/wiki/SCP%20Foundation")) None (LabelText (lit "SCP Wiki")) None)]); (EFootnoteBlock None false)] [] [] [] [] [] 0 []).
Proof. vm_compute. reflexivity. Qed.
Example test_link_single_fail_new_tab : run_test (lit "[* not a link ]") = Parsed (TREE [(EContainer CParagraph [] [(EText (lit "[*")); (EText (lit " ")); (EText (lit "not")); (EText (lit " ")); (EText (lit "a")); (EText (lit " ")); (EText (lit "link")); (EText (lit " ")); (EText (lit "]"))]); (EFootnoteBlock None false)] [] [] [] [] [] 0 [(PE InvalidUrl "link-single-new-tab"%string TIdentifier 3 6); (PE NoRulesMatch "fallback"%string TLeftBracketStar 0 2)]).
Proof. vm_compute. reflexivity. Qed.
Example test_link_single_fail_word : run_test (lit "[REDACTED]") = Parsed (TREE [(EContainer CParagraph [] [(EText (lit "[")); (EText (lit "REDACTED")); (EText (lit "]"))]); (EFootnoteBlock None false)] [] [] [] [] [] 0 []).
Proof. vm_compute. reflexivity. Qed.
Example test_link_single_url : run_test (lit "[/page Some page]") = Parsed (TREE [(EContainer CParagraph [] [(ELink LTDirect (LUrl (lit "/page")) None (LabelText (lit "Some page")) None)]); (EFootnoteBlock None false)] [] [] [] [] [] 0 []).
Proof. vm_compute. reflexivity. Qed.
Example test_link_triple_category_spaces : run_test (lit "[[[system: Recent Changes]]]") = Parsed (TREE [(EContainer CParagraph [] [(ELink LTPage (LPage (PR None (lit "system: Recent Changes"))) None (LabelUrl (Some (lit "Recent Changes"))) None)]); (EFootnoteBlock None false)] [] [] [] [] [] 0 []).
Proof. vm_compute. reflexivity. Qed.
Example test_link_triple_fail_brackets_left : run_test (lit "[[[some-page") = Parsed (TREE [(EContainer CParagraph [] [(EText (lit "[[[")); (EText (lit "some")); (EText (lit "-")); (EText (lit "page"))]); (EFootnoteBlock None false)] [] [] [] [] [] 0 [(PE EndOfInput "link-triple"%string TInputEnd 12 12); (PE NoRulesMatch "fallback"%string TLeftLink 0 3)]).
Proof. vm_compute. reflexivity. Qed.
Example test_link_triple_fail_title : run_test (lit "[[[|some-page]]]") = Parsed (TREE [(EContainer CParagraph [] [(EText (lit "[[[")); (EText (lit "|")); (EText (lit "some")); (EText (lit "-")); (EText (lit "page")); (EText (lit "]]]"))]); (EFootnoteBlock None false)] [] [] [] [] [] 0 [(PE RuleFailed "link-triple"%string TIdentifier 4 8); (PE NoRulesMatch "fallback"%string TLeftLink 0 3); (PE NoRulesMatch "fallback"%string TRightLink 13 16)]).
Proof. vm_compute. reflexivity. Qed.
Example test_link_triple_multi_anchor : run_test (lit "[[[home###|Home]]]") = Parsed (TREE [(EContainer CParagraph [] [(ELink LTPage (LPage (PR None (lit "home"))) (Some (lit "###")) (LabelText (lit "Home")) None)]); (EFootnoteBlock None false)] [] [] [] [] [] 0 []).
Proof. vm_compute. reflexivity. Qed.
Example test_link_triple_site_title : run_test (lit "[[[:scp-wiki:scp-series|]]]") = Parsed (TREE [(EContainer CParagraph [] [(ELink LTPage (LPage (PR (Some (lit "scp-wiki")) (lit "scp-series"))) None LabelPage None)]); (EFootnoteBlock None false)] [] [] [] [] [] 0 []).
Proof. vm_compute. reflexivity. Qed.
Example test_link_triple_subpath : run_test (lit "[[[example/edit|Edit page]]]") = Parsed (TREE [(EContainer CParagraph [] [(ELink LTPage (LPage (PR None (lit "example"))) (Some (lit "/edit")) (LabelText (lit "Edit page")) None)]); (EFootnoteBlock None false)] [] [] [] [] [] 0 []).
Proof. vm_compute. reflexivity. Qed.
Example test_link_triple_url : run_test (lit "[[[https://example.com/|Example]]]") = Parsed (TREE [(EContainer CParagraph [] [(ELink LTDirect (LUrl (lit "https://example.com/")) None (LabelText (lit "Example")) None)]); (EFootnoteBlock None false)] [] [] [] [] [] 0 []).
Proof. vm_compute. reflexivity. Qed.
Example test_link_url : run_test (lit "https://example.com/directory apple") = Parsed (TREE [(EContainer CParagraph [] [(ELink LTDirect (LUrl (lit "https://example.com/directory")) None (LabelUrl None) None); (EText (lit " ")); (EText (lit "apple"))]); (EFootnoteBlock None false)] [] [] [] [] [] 0 []).
Proof. vm_compute. reflexivity. Qed.
Example test_list_block_empty : run_test (lit "[[ul]][[li]][[/li]][[/ul]]") = Parsed (TREE [(EList LBullet [] [(LIElements [] [])]); (EFootnoteBlock None false)] [] [] [] [] [] 0 []).
Proof. vm_compute. reflexivity. Qed.
Example test_list_block_ol : run_test (lit "[[ol]] [[li]]A[[/li]] [[li]]B[[/li]] [[/ol]]") = Parsed (TREE [(EList LNumbered [] [(LIElements [] [(EText (lit "A"))]); (LIElements [] [(EText (lit "B"))])]); (EFootnoteBlock None false)] [] [] [] [] [] 0 []).
Proof. vm_compute. reflexivity. Qed.
Example test_list_bullet_both : run_test (lit "* A") = Parsed (TREE [(EList LBullet [] [(LIElements [] [(EText (lit "A"))])]); (EFootnoteBlock None false)] [] [] [] [] [] 0 []).
Proof. vm_compute. reflexivity. Qed.
Example test_list_bullet_elements_end : run_test (lit "[
* A 1") = Parsed (TREE [(EContainer CParagraph [] [(EText (lit "["))]); (EList LBullet [] [(LIElements [] [(EText (lit "A")); (EText (lit " ")); (EText (lit "1"))])]); (EFootnoteBlock None false)] [] [] [] [] [] 0 []).
Proof. vm_compute. reflexivity. Qed.
Example test_list_bullet_elements_multiple : run_test (lit "[
* A 1
* B 2
* C 3
]") = Parsed (TREE [(EContainer CParagraph [] [(EText (lit "["))]); (EList LBullet [] [(LIElements [] [(EText (lit "A")); (EText (lit " ")); (EText (lit "1"))]); (LIElements [] [(EText (lit "B")); (EText (lit " ")); (EText (lit "2"))]); (LIElements [] [(EText (lit "C")); (EText (lit " ")); (EText (lit "3"))])]); (EContainer CParagraph [] [(EText (lit "]"))]); (EFootnoteBlock None false)] [] [] [] [] [] 0 []).
Proof. vm_compute. reflexivity. Qed.
Example test_list_bullet_line_break : run_test (lit "* A _
B _
C
* D") = Parsed (TREE [(EList LBullet [] [(LIElements [] [(EText (lit "A")); ELineBreak; (EText (lit "B")); ELineBreak; (EText (lit "C"))]); (LIElements [] [(EText (lit "D"))])]); (EFootnoteBlock None false)] [] [] [] [] [] 0 []).
Proof. vm_compute. reflexivity. Qed.
Example test_list_bullet_multiple : run_test (lit "[
* A
* B
* C
]") = Parsed (TREE [(EContainer CParagraph [] [(EText (lit "["))]); (EList LBullet [] [(LIElements [] [(EText (lit "A"))]); (LIElements [] [(EText (lit "B"))]); (LIElements [] [(EText (lit "C"))])]); (EContainer CParagraph [] [(EText (lit "]"))]); (EFootnoteBlock None false)] [] [] [] [] [] 0 []).
Proof. vm_compute. reflexivity. Qed.
Example test_list_fail_depth : run_test (lit "                              * Very deep list item") = Parsed (TREE [(EContainer CParagraph [] [(EText (lit "                              ")); (EText (lit "*")); (EText (lit " ")); (EText (lit "Very")); (EText (lit " ")); (EText (lit "deep")); (EText (lit " ")); (EText (lit "list")); (EText (lit " ")); (EText (lit "item"))]); (EFootnoteBlock None false)] [] [] [] [] [] 0 []).
Proof. vm_compute. reflexivity. Qed.
Example test_list_numbered_both : run_test (lit "# A") = Parsed (TREE [(EList LNumbered [] [(LIElements [] [(EText (lit "A"))])]); (EFootnoteBlock None false)] [] [] [] [] [] 0 []).
Proof. vm_compute. reflexivity. Qed.
Example test_list_numbered_elements_end : run_test (lit "[
# A 1") = Parsed (TREE [(EContainer CParagraph [] [(EText (lit "["))]); (EList LNumbered [] [(LIElements [] [(EText (lit "A")); (EText (lit " ")); (EText (lit "1"))])]); (EFootnoteBlock None false)] [] [] [] [] [] 0 []).
Proof. vm_compute. reflexivity. Qed.
Example test_list_numbered_elements_multiple : run_test (lit "[
# A 1
# B 2
# C 3
]") = Parsed (TREE [(EContainer CParagraph [] [(EText (lit "["))]); (EList LNumbered [] [(LIElements [] [(EText (lit "A")); (EText (lit " ")); (EText (lit "1"))]); (LIElements [] [(EText (lit "B")); (EText (lit " ")); (EText (lit "2"))]); (LIElements [] [(EText (lit "C")); (EText (lit " ")); (EText (lit "3"))])]); (EContainer CParagraph [] [(EText (lit "]"))]); (EFootnoteBlock None false)] [] [] [] [] [] 0 []).
Proof. vm_compute. reflexivity. Qed.
Example test_list_numbered_line_break : run_test (lit "# A _
B _
C
# D") = Parsed (TREE [(EList LNumbered [] [(LIElements [] [(EText (lit "A")); ELineBreak; (EText (lit "B")); ELineBreak; (EText (lit "C"))]); (LIElements [] [(EText (lit "D"))])]); (EFootnoteBlock None false)] [] [] [] [] [] 0 []).
Proof. vm_compute. reflexivity. Qed.
Example test_list_numbered_multiple : run_test (lit "[
# A
# B
# C
]") = Parsed (TREE [(EContainer CParagraph [] [(EText (lit "["))]); (EList LNumbered [] [(LIElements [] [(EText (lit "A"))]); (LIElements [] [(EText (lit "B"))]); (LIElements [] [(EText (lit "C"))])]); (EContainer CParagraph [] [(EText (lit "]"))]); (EFootnoteBlock None false)] [] [] [] [] [] 0 []).
Proof. vm_compute. reflexivity. Qed.
Example test_mark_alias : run_test (lit "Apple [[highlight]]Banana[[/highlight]]") = Parsed (TREE [(EContainer CParagraph [] [(EText (lit "Apple")); (EText (lit " ")); (EContainer CMark [] [(EText (lit "Banana"))])]); (EFootnoteBlock None false)] [] [] [] [] [] 0 []).
Proof. vm_compute. reflexivity. Qed.
Example test_mark : run_test (lit "Apple [[mark]]Banana[[/mark]]") = Parsed (TREE [(EContainer CParagraph [] [(EText (lit "Apple")); (EText (lit " ")); (EContainer CMark [] [(EText (lit "Banana"))])]); (EFootnoteBlock None false)] [] [] [] [] [] 0 []).
Proof. vm_compute. reflexivity. Qed.
Example test_math_block_named : run_test (lit "[[math quadratic-formula]] x = \frac{-b \pm \sqrt{b^2 - 4ac}}{2a} [[/math]]") = Parsed (TREE [(EMath (Some (lit "quadratic-formula")) (lit "x = \frac{-b \pm \sqrt{b^2 - 4ac}}{2a}")); (EFootnoteBlock None false)] [] [] [] [] [] 0 []).
Proof. vm_compute. reflexivity. Qed.
Example test_math_inline_multiple : run_test (lit "Apple [[$ a^2 $]] Banana [[$ b^3 $]] Cherry [[$ c^4 $]] Pineapple") = Parsed (TREE [(EContainer CParagraph [] [(EText (lit "Apple")); (EText (lit " ")); (EMathInline (lit "a^2")); (EText (lit " ")); (EText (lit "Banana")); (EText (lit " ")); (EMathInline (lit "b^3")); (EText (lit " ")); (EText (lit "Cherry")); (EText (lit " ")); (EMathInline (lit "c^4")); (EText (lit " ")); (EText (lit "Pineapple"))]); (EFootnoteBlock None false)] [] [] [] [] [] 0 []).
Proof. vm_compute. reflexivity. Qed.
Example test_module_backlinks_uppercase : run_test (lit "[[ MODULE  BACKLINKS  ]]
Apple") = Parsed (TREE [(EModule (MBacklinks None)); (EContainer CParagraph [] [(EText (lit "Apple"))]); (EFootnoteBlock None false)] [] [] [] [] [] 0 []).
Proof. vm_compute. reflexivity. Qed.
Example test_module_categories_uppercase : run_test (lit "[[ MODULE CATEGORIES  ]]
Apple") = Parsed (TREE [(EModule (MCategories false)); (EContainer CParagraph [] [(EText (lit "Apple"))]); (EFootnoteBlock None false)] [] [] [] [] [] 0 []).
Proof. vm_compute. reflexivity. Qed.
Example test_module_invalid : run_test (lit "[[module NoSuchModuleWithThisName]]") = Parsed (TREE [(EContainer CParagraph [] [(EText (lit "[[")); (EText (lit "module")); (EText (lit " ")); (EText (lit "NoSuchModuleWithThisName")); (EText (lit "]]"))]); (EFootnoteBlock None false)] [] [] [] [] [] 0 [(PE NoSuchModule "block-module"%string TInputEnd 35 35); (PE NoRulesMatch "fallback"%string TLeftBlock 0 2); (PE NoRulesMatch "fallback"%string TRightBlock 33 35)]).
Proof. vm_compute. reflexivity. Qed.
Example test_module_join : run_test (lit "[[module Join]]
Apple") = Parsed (TREE [(EModule (MJoin None [])); (EContainer CParagraph [] [(EText (lit "Apple"))]); (EFootnoteBlock None false)] [] [] [] [] [] 0 []).
Proof. vm_compute. reflexivity. Qed.
Example test_module_pagetree_uppercase : run_test (lit "[[ MODULE pageTREE ROOT =""scp-series"" SHOWroot = ""yes""  dePTH =""3""]]
Apple") = Parsed (TREE [(EModule (MPageTree (Some (lit "scp-series")) true (Some 3%N))); (EContainer CParagraph [] [(EText (lit "Apple"))]); (EFootnoteBlock None false)] [] [] [] [] [] 0 []).
Proof. vm_compute. reflexivity. Qed.
Example test_monospace_block_alias_1 : run_test (lit "[[mono]]Test![[/mono]]") = Parsed (TREE [(EContainer CParagraph [] [(EContainer CMonospace [] [(EText (lit "Test")); (EText (lit "!"))])]); (EFootnoteBlock None false)] [] [] [] [] [] 0 []).
Proof. vm_compute. reflexivity. Qed.
Example test_monospace_block_italics : run_test (lit "[[tt]]Apple [[b]]Banana[[/b]][[/tt]] Cherry") = Parsed (TREE [(EContainer CParagraph [] [(EContainer CMonospace [] [(EText (lit "Apple")); (EText (lit " ")); (EContainer CBold [] [(EText (lit "Banana"))])]); (EText (lit " ")); (EText (lit "Cherry"))]); (EFootnoteBlock None false)] [] [] [] [] [] 0 []).
Proof. vm_compute. reflexivity. Qed.
Example test_monospace_fail_paragraph : run_test (lit "{{Fail

Monospace}}") = Parsed (TREE [(EContainer CParagraph [] [(EText (lit "{{")); (EText (lit "Fail"))]); (EContainer CParagraph [] [(EText (lit "Monospace")); (EText (lit "}}"))]); (EFootnoteBlock None false)] [] [] [] [] [] 0 [(PE RuleFailed "monospace"%string TParagraphBreak 6 8); (PE NoRulesMatch "fallback"%string TLeftMonospace 0 2); (PE NoRulesMatch "fallback"%string TRightMonospace 17 19)]).
Proof. vm_compute. reflexivity. Qed.
Example test_paragraph_block_attributes : run_test (lit "[[p class=""fruit""]]Apple

Banana

Cherry[[/p]]") = Parsed (TREE [(EContainer CParagraph [((lit "class"), (lit "fruit"))] [(EText (lit "Apple"))]); (EContainer CParagraph [((lit "class"), (lit "fruit"))] [(EText (lit "Banana"))]); (EContainer CParagraph [((lit "class"), (lit "fruit"))] [(EText (lit "Cherry"))]); (EFootnoteBlock None false)] [] [] [] [] [] 0 []).
Proof. vm_compute. reflexivity. Qed.
Example test_paragraph_block_id : run_test (lit "[[p id=""my-p""]]
Apple
[[/p]]") = Parsed (TREE [(EContainer CParagraph [((lit "id"), (lit "my-p"))] [(EText (lit "Apple"))]); (EFootnoteBlock None false)] [] [] [] [] [] 0 []).
Proof. vm_compute. reflexivity. Qed.
Example test_paragraph_block_style : run_test (lit "[[p style=""display: flex"" data-fruit=""red""]]
Apple
[[/p]]") = Parsed (TREE [(EContainer CParagraph [((lit "data-fruit"), (lit "red")); ((lit "style"), (lit "display: flex"))] [(EText (lit "Apple"))]); (EFootnoteBlock None false)] [] [] [] [] [] 0 []).
Proof. vm_compute. reflexivity. Qed.
Example test_radio_fail : run_test (lit "[[radio]] Nameless") = Parsed (TREE [(EContainer CParagraph [] [(EText (lit "[[")); (EText (lit "radio")); (EText (lit "]]")); (EText (lit " ")); (EText (lit "Nameless"))]); (EFootnoteBlock None false)] [] [] [] [] [] 0 [(PE BlockMissingName "block-radio"%string TIdentifier 10 18); (PE NoRulesMatch "fallback"%string TLeftBlock 0 2); (PE NoRulesMatch "fallback"%string TRightBlock 7 9)]).
Proof. vm_compute. reflexivity. Qed.
Example test_radio : run_test (lit "[[radio fruit]] Apple
[[radio fruit]] Banana
[[radio vegetable]] Celery
[[radio vegetable]] Zucchini") = Parsed (TREE [(EContainer CParagraph [] [(ERadioButton (lit "fruit") false []); (EText (lit "Apple")); ELineBreak; (ERadioButton (lit "fruit") false []); (EText (lit "Banana")); ELineBreak; (ERadioButton (lit "vegetable") false []); (EText (lit "Celery")); ELineBreak; (ERadioButton (lit "vegetable") false []); (EText (lit "Zucchini"))]); (EFootnoteBlock None false)] [] [] [] [] [] 0 []).
Proof. vm_compute. reflexivity. Qed.
Example test_raw_angles_content : run_test (lit "@<raw @@ content>@") = Parsed (TREE [(EContainer CParagraph [] [(ERaw (lit "raw @@ content"))]); (EFootnoteBlock None false)] [] [] [] [] [] 0 []).
Proof. vm_compute. reflexivity. Qed.
Example test_raw_fail_paragraph : run_test (lit "@@Fail

Raw@@") = Parsed (TREE [(EContainer CParagraph [] [(EText (lit "@@")); (EText (lit "Fail"))]); (EContainer CParagraph [] [(EText (lit "Raw")); (EText (lit "@@"))]); (EFootnoteBlock None false)] [] [] [] [] [] 0 [(PE RuleFailed "raw"%string TParagraphBreak 6 8); (PE NoRulesMatch "fallback"%string TRaw 0 2); (PE EndOfInput "raw"%string TRaw 11 13); (PE NoRulesMatch "fallback"%string TRaw 11 13)]).
Proof. vm_compute. reflexivity. Qed.
Example test_raw_test_2 : run_test (lit "Test @@@@@@ String") = Parsed (TREE [(EContainer CParagraph [] [(EText (lit "Test")); (EText (lit " ")); (ERaw (lit "@@")); (EText (lit " ")); (EText (lit "String"))]); (EFootnoteBlock None false)] [] [] [] [] [] 0 []).
Proof. vm_compute. reflexivity. Qed.
Example test_ruby_multiple : run_test [91%N; 91%N; 114%N; 117%N; 98%N; 121%N; 93%N; 93%N; 28450%N; 32%N; 91%N; 91%N; 114%N; 116%N; 93%N; 93%N; 107%N; 97%N; 110%N; 91%N; 91%N; 47%N; 114%N; 116%N; 93%N; 93%N; 32%N; 23383%N; 32%N; 91%N; 91%N; 114%N; 116%N; 93%N; 93%N; 106%N; 105%N; 91%N; 91%N; 47%N; 114%N; 116%N; 93%N; 93%N; 32%N; 91%N; 91%N; 47%N; 114%N; 117%N; 98%N; 121%N; 93%N; 93%N] = Parsed (TREE [(EContainer CParagraph [] [(EContainer CRuby [] [(EText [28450%N]); (EText (lit " ")); (EContainer CRubyText [] [(EText (lit "kan"))]); (EText (lit " ")); (EText [23383%N]); (EText (lit " ")); (EContainer CRubyText [] [(EText (lit "ji"))])])]); (EFootnoteBlock None false)] [] [] [] [] [] 0 []).
Proof. vm_compute. reflexivity. Qed.
Example test_ruby_spaces : run_test [91%N; 91%N; 114%N; 117%N; 98%N; 121%N; 93%N; 93%N; 32%N; 35486%N; 32%N; 91%N; 91%N; 114%N; 116%N; 93%N; 93%N; 32%N; 103%N; 111%N; 32%N; 91%N; 91%N; 47%N; 114%N; 116%N; 93%N; 93%N; 32%N; 91%N; 91%N; 47%N; 114%N; 117%N; 98%N; 121%N; 93%N; 93%N] = Parsed (TREE [(EContainer CParagraph [] [(EContainer CRuby [] [(EText [35486%N]); (EText (lit " ")); (EContainer CRubyText [] [(EText (lit "go"))])])]); (EFootnoteBlock None false)] [] [] [] [] [] 0 []).
Proof. vm_compute. reflexivity. Qed.
Example test_ruby2_fail_pipe_2 : run_test [91%N; 91%N; 114%N; 98%N; 32%N; 124%N; 35486%N; 124%N; 103%N; 111%N; 93%N; 93%N] = Parsed (TREE [(EContainer CParagraph [] [(EText (lit "[[")); (EText (lit "rb")); (EText (lit " ")); (EText (lit "|")); (EText [35486%N]); (EText (lit "|")); (EText (lit "go")); (EText (lit "]]"))]); (EFootnoteBlock None false)] [] [] [] [] [] 0 [(PE BlockMalformedArguments "block-ruby-short"%string TInputEnd 14 14); (PE NoRulesMatch "fallback"%string TLeftBlock 0 2); (PE NoRulesMatch "fallback"%string TRightBlock 12 14)]).
Proof. vm_compute. reflexivity. Qed.
Example test_ruby2_multiple : run_test [91%N; 91%N; 114%N; 98%N; 32%N; 28450%N; 124%N; 107%N; 97%N; 110%N; 93%N; 93%N; 32%N; 91%N; 91%N; 114%N; 98%N; 32%N; 23383%N; 124%N; 106%N; 105%N; 93%N; 93%N] = Parsed (TREE [(EContainer CParagraph [] [(EContainer CRuby [] [(EText [28450%N]); (EContainer CRubyText [] [(EText (lit "kan"))])]); (EText (lit " ")); (EContainer CRuby [] [(EText [23383%N]); (EContainer CRubyText [] [(EText (lit "ji"))])])]); (EFootnoteBlock None false)] [] [] [] [] [] 0 []).
Proof. vm_compute. reflexivity. Qed.
Example test_simple_space : run_test (lit " ") = Parsed (TREE [(EFootnoteBlock None false)] [] [] [] [] [] 0 []).
Proof. vm_compute. reflexivity. Qed.
Example test_size_symbol : run_test (lit "[[size 90%]]Apple[[/size]]") = Parsed (TREE [(EContainer CParagraph [] [(EContainer CSize [((lit "style"), (lit "font-size: 90%;"))] [(EText (lit "Apple"))])]); (EFootnoteBlock None false)] [] [] [] [] [] 0 []).
Proof. vm_compute. reflexivity. Qed.
Example test_span_empty : run_test (lit "[[span]][[/span]]") = Parsed (TREE [(EContainer CParagraph [] [(EContainer CSpan [] [])]); (EFootnoteBlock None false)] [] [] [] [] [] 0 []).
Proof. vm_compute. reflexivity. Qed.
Example test_span_style : run_test (lit "[[span id=""banana"" class=""fruit"" style=""color: yellow;"" data-fruit=""!red"" role=""button"" aria-pressed=""false""]]Banana[[/span]]") = Parsed (TREE [(EContainer CParagraph [] [(EContainer CSpan [((lit "aria-pressed"), (lit "false")); ((lit "class"), (lit "fruit")); ((lit "data-fruit"), (lit "!red")); ((lit "id"), (lit "banana")); ((lit "role"), (lit "button")); ((lit "style"), (lit "color: yellow;"))] [(EText (lit "Banana"))])]); (EFootnoteBlock None false)] [] [] [] [] [] 0 []).
Proof. vm_compute. reflexivity. Qed.
Example test_span2_newlines_2 : run_test (lit "[[span]]Banana
Cherry[[/span]]") = Parsed (TREE [(EContainer CParagraph [] [(EContainer CSpan [] [(EText (lit "Banana")); ELineBreak; (EText (lit "Cherry"))])]); (EFootnoteBlock None false)] [] [] [] [] [] 0 []).
Proof. vm_compute. reflexivity. Qed.
Example test_span2_uppercase : run_test (lit "[[SPAN_ ID =  ""apple"" clASS =""fruit"" stylE=""color: red;""      ]]Apple[[/ SPAN ]]") = Parsed (TREE [(EContainer CParagraph [] [(EContainer CSpan [((lit "class"), (lit "fruit")); ((lit "id"), (lit "apple")); ((lit "style"), (lit "color: red;"))] [(EText (lit "Apple"))])]); (EFootnoteBlock None false)] [] [] [] [] [] 0 []).
Proof. vm_compute. reflexivity. Qed.
Example test_strikethrough_block_fail : run_test (lit "[[s]]Fail Strikethrough") = Parsed (TREE [(EContainer CParagraph [] [(EText (lit "[[")); (EText (lit "s")); (EText (lit "]]")); (EText (lit "Fail")); (EText (lit " ")); (EText (lit "Strikethrough"))]); (EFootnoteBlock None false)] [] [] [] [] [] 0 [(PE EndOfInput "block-strikethrough"%string TInputEnd 23 23); (PE NoRulesMatch "fallback"%string TLeftBlock 0 2); (PE NoRulesMatch "fallback"%string TRightBlock 3 5)]).
Proof. vm_compute. reflexivity. Qed.
Example test_strikethrough_empty : run_test (lit "Empty ----") = Parsed (TREE [(EContainer CParagraph [] [(EText (lit "Empty")); (EText (lit " ")); (EText (lit "----"))]); (EFootnoteBlock None false)] [] [] [] [] [] 0 [(PE NotStartOfLine "page"%string TTripleDash 6 10); (PE NoRulesMatch "fallback"%string TTripleDash 6 10)]).
Proof. vm_compute. reflexivity. Qed.
Example test_string : run_test (lit "A ""string\nhere""!") = Parsed (TREE [(EContainer CParagraph [] [(EText (lit "A")); (EText (lit " ")); (EText (lit """string\nhere""")); (EText (lit "!"))]); (EFootnoteBlock None false)] [] [] [] [] [] 0 []).
Proof. vm_compute. reflexivity. Qed.
Example test_subscript_block_italics : run_test (lit "[[sub]]Apple [[b]]Banana[[/b]][[/sub]] Cherry") = Parsed (TREE [(EContainer CParagraph [] [(EContainer CSubscript [] [(EText (lit "Apple")); (EText (lit " ")); (EContainer CBold [] [(EText (lit "Banana"))])]); (EText (lit " ")); (EText (lit "Cherry"))]); (EFootnoteBlock None false)] [] [] [] [] [] 0 []).
Proof. vm_compute. reflexivity. Qed.
Example test_subscript_fail : run_test (lit ",,Fail Subscript") = Parsed (TREE [(EContainer CParagraph [] [(EText (lit ",,")); (EText (lit "Fail")); (EText (lit " ")); (EText (lit "Subscript"))]); (EFootnoteBlock None false)] [] [] [] [] [] 0 [(PE EndOfInput "subscript"%string TInputEnd 16 16); (PE NoRulesMatch "fallback"%string TSubscript 0 2)]).
Proof. vm_compute. reflexivity. Qed.
Example test_superscript_block_empty : run_test (lit "Empty [[sup]][[/sup]]") = Parsed (TREE [(EContainer CParagraph [] [(EText (lit "Empty")); (EText (lit " ")); (EContainer CSuperscript [] [])]); (EFootnoteBlock None false)] [] [] [] [] [] 0 []).
Proof. vm_compute. reflexivity. Qed.
Example test_superscript_block : run_test (lit "[[sup]]Superscript[[/sup]] Text") = Parsed (TREE [(EContainer CParagraph [] [(EContainer CSuperscript [] [(EText (lit "Superscript"))]); (EText (lit " ")); (EText (lit "Text"))]); (EFootnoteBlock None false)] [] [] [] [] [] 0 []).
Proof. vm_compute. reflexivity. Qed.
Example test_symbols : run_test (lit "`~!@#$%^&*()-=+[]{}\|") = Parsed (TREE [(EContainer CParagraph [] [(EText (lit "`")); (EText (lit "~")); (EText (lit "!")); (EText (lit "@")); (EText (lit "#")); (EText (lit "$")); (EText (lit "%")); (EText (lit "^")); (EText (lit "&")); (EText (lit "*")); (EText (lit "(")); (EText (lit ")")); (EText (lit "-")); (EText (lit "=")); (EText (lit "+")); (EText (lit "[")); (EText (lit "]")); (EText (lit "{")); (EText (lit "}")); (EText (lit "\")); (EText (lit "|"))]); (EFootnoteBlock None false)] [] [] [] [] [] 0 []).
Proof. vm_compute. reflexivity. Qed.
Example test_table_advanced_empty_table : run_test (lit "[[table]]
[[/table]]") = Parsed (TREE [(ETable [] []); (EFootnoteBlock None false)] [] [] [] [] [] 0 []).
Proof. vm_compute. reflexivity. Qed.
Example test_table_advanced_fail_table : run_test (lit "[[table]] Table content here [[/table]]") = Parsed (TREE [(EContainer CParagraph [] [(EText (lit "[[")); (EText (lit "table")); (EText (lit "]]")); (EText (lit " ")); (EText (lit "Table")); (EText (lit " ")); (EText (lit "content")); (EText (lit " ")); (EText (lit "here")); (EText (lit " ")); (EText (lit "[[/")); (EText (lit "table")); (EText (lit "]]"))]); (EFootnoteBlock None false)] [] [] [] [] [] 0 [(PE TableContainsNonRow "block-table"%string TInputEnd 39 39); (PE NoRulesMatch "fallback"%string TLeftBlock 0 2); (PE NoRulesMatch "fallback"%string TRightBlock 7 9); (PE NoRulesMatch "fallback"%string TLeftBlockEnd 29 32); (PE NoRulesMatch "fallback"%string TRightBlock 37 39)]).
Proof. vm_compute. reflexivity. Qed.
Example test_table_advanced_width : run_test (lit "[[table]][[row]][[cell colspan=""3""]]Three[[/cell]][[cell rowspan=""2""]]Two[[/cell]][[/row]][[row]][[cell]]A[[/cell]][[cell]]B[[/cell]][[cell]]C[[/cell]][[/row]][[/table]]") = Parsed (TREE [(ETable [] [(TR [] [(TC false 3%N None [] [(EText (lit "Three"))]); (TC false 1%N None [((lit "rowspan"), (lit "2"))] [(EText (lit "Two"))])]); (TR [] [(TC false 1%N None [] [(EText (lit "A"))]); (TC false 1%N None [] [(EText (lit "B"))]); (TC false 1%N None [] [(EText (lit "C"))])])]); (EFootnoteBlock None false)] [] [] [] [] [] 0 []).
Proof. vm_compute. reflexivity. Qed.
Example test_table_simple_fail_multiple : run_test (lit "|| durian ||~|| wide ||

||> blueberry
-----
|| eggplant  ||||") = Parsed (TREE [(ETable [((lit "class"), (lit "wj-table"))] [(TR [] [(TC false 1%N None [] [(EText (lit "durian"))]); (TC true 1%N None [] []); (TC false 1%N None [] [(EText (lit "wide"))])])]); (EContainer CParagraph [] [(EText (lit "||>")); (EText (lit " ")); (EText (lit "blueberry"))]); EHorizontalRule; (EContainer CParagraph [] [(EText (lit "||")); (EText (lit " ")); (EText (lit "eggplant")); (EText (lit "  ")); (EText (lit "||")); (EText (lit "||"))]); (EFootnoteBlock None false)] [] [] [] [] [] 0 [(PE RuleFailed "table"%string TLineBreak 38 39); (PE NoRulesMatch "fallback"%string TTableColumnRight 25 28); (PE RuleFailed "table"%string TInputEnd 62 62); (PE NoRulesMatch "fallback"%string TTableColumn 45 47); (PE NotStartOfLine "page"%string TTableColumn 58 60); (PE NoRulesMatch "fallback"%string TTableColumn 58 60); (PE NotStartOfLine "page"%string TTableColumn 60 62); (PE NoRulesMatch "fallback"%string TTableColumn 60 62)]).
Proof. vm_compute. reflexivity. Qed.
Example test_table_simple_line : run_test (lit "|| A _
B || C_ || _D ||") = Parsed (TREE [(ETable [((lit "class"), (lit "wj-table"))] [(TR [] [(TC false 1%N None [] [(EText (lit "A")); ELineBreak; (EText (lit "B"))]); (TC false 1%N None [] [(EText (lit "C")); (EText (lit "_"))]); (TC false 1%N None [] [(EText (lit "_")); (EText (lit "D"))])])]); (EFootnoteBlock None false)] [] [] [] [] [] 0 []).
Proof. vm_compute. reflexivity. Qed.
Example test_tabview_alias : run_test (lit "[[tabs]]
[[tab A]]
1
[[/tab]]
[[tab B]]
2
[[/tab]]
[[/tabs]]") = Parsed (TREE [(ETabView [(TB (lit "A") [(EContainer CParagraph [] [(EText (lit "1"))])]); (TB (lit "B") [(EContainer CParagraph [] [(EText (lit "2"))])])]); (EFootnoteBlock None false)] [] [] [] [] [] 0 []).
Proof. vm_compute. reflexivity. Qed.
Example test_tabview_inline : run_test (lit "[[tabview]] [[tab A]] 1 [[/tab]] [[tab B]] 2 [[/tab]] [[/tabview]]") = Parsed (TREE [(ETabView [(TB (lit "A") [(EContainer CParagraph [] [(EText (lit " ")); (EText (lit "1")); (EText (lit " "))])]); (TB (lit "B") [(EContainer CParagraph [] [(EText (lit " ")); (EText (lit "2")); (EText (lit " "))])])]); (EFootnoteBlock None false)] [] [] [] [] [] 0 []).
Proof. vm_compute. reflexivity. Qed.
Example test_tabview : run_test (lit "[[tabview]]
[[tab Apple]]
1

2

3
[[/tab]]
[[tab Banana Smoothie]]
Cherry
[[/tab]]
[[tab Empty]]
[[/tab]]
[[/tabview]]") = Parsed (TREE [(ETabView [(TB (lit "Apple") [(EContainer CParagraph [] [(EText (lit "1"))]); (EContainer CParagraph [] [(EText (lit "2"))]); (EContainer CParagraph [] [(EText (lit "3"))])]); (TB (lit "Banana Smoothie") [(EContainer CParagraph [] [(EText (lit "Cherry"))])]); (TB (lit "Empty") [])]); (EFootnoteBlock None false)] [] [] [] [] [] 0 []).
Proof. vm_compute. reflexivity. Qed.
Example test_target_fail_space : run_test (lit "[[target apple banana]]") = Parsed (TREE [(EContainer CParagraph [] [(EText (lit "[[")); (EText (lit "target")); (EText (lit " ")); (EText (lit "apple")); (EText (lit " ")); (EText (lit "banana")); (EText (lit "]]"))]); (EFootnoteBlock None false)] [] [] [] [] [] 0 [(PE BlockMissingArguments "block-target"%string TInputEnd 23 23); (PE NoRulesMatch "fallback"%string TLeftBlock 0 2); (PE NoRulesMatch "fallback"%string TRightBlock 21 23)]).
Proof. vm_compute. reflexivity. Qed.
Example test_target_space : run_test (lit "[[target   apple]]") = Parsed (TREE [(EContainer CParagraph [] [(EAnchorName (lit "apple"))]); (EFootnoteBlock None false)] [] [] [] [] [] 0 []).
Proof. vm_compute. reflexivity. Qed.
Example test_toc_fail : run_test (lit "+ A
[[>toc]]") = Parsed (TREE [(EContainer (CHeader (HD 1 true)) [] [(EText (lit "A"))]); (EContainer CParagraph [] [(EText (lit "[[")); (EText (lit ">")); (EText (lit "toc")); (EText (lit "]]"))]); (EFootnoteBlock None false)] [(EList LBullet [] [(LIElements [] [(ELink LTTableOfContents (LUrl (lit "#toc0")) None (LabelText (lit "A")) None)])])] [] [] [] [] 0 [(PE NoSuchBlock "block"%string TInputEnd 12 12); (PE NoRulesMatch "fallback"%string TLeftBlock 4 6); (PE NoRulesMatch "fallback"%string TRightBlock 10 12)]).
Proof. vm_compute. reflexivity. Qed.
Example test_underline_block_empty : run_test (lit "Empty [[u]][[/u]]") = Parsed (TREE [(EContainer CParagraph [] [(EText (lit "Empty")); (EText (lit " ")); (EContainer CUnderline [] [])]); (EFootnoteBlock None false)] [] [] [] [] [] 0 []).
Proof. vm_compute. reflexivity. Qed.
Example test_underline_block : run_test (lit "[[u]]Underline[[/u]] Text") = Parsed (TREE [(EContainer CParagraph [] [(EContainer CUnderline [] [(EText (lit "Underline"))]); (EText (lit " ")); (EText (lit "Text"))]); (EFootnoteBlock None false)] [] [] [] [] [] 0 []).
Proof. vm_compute. reflexivity. Qed.
Example test_underline : run_test (lit "__Underline__ Text") = Parsed (TREE [(EContainer CParagraph [] [(EContainer CUnderline [] [(EText (lit "Underline"))]); (EText (lit " ")); (EText (lit "Text"))]); (EFootnoteBlock None false)] [] [] [] [] [] 0 []).
Proof. vm_compute. reflexivity. Qed.
Example test_underscore_line_break : run_test (lit "Apple _
Banana") = Parsed (TREE [(EContainer CParagraph [] [(EText (lit "Apple")); ELineBreak; (EText (lit "Banana"))]); (EFootnoteBlock None false)] [] [] [] [] [] 0 []).
Proof. vm_compute. reflexivity. Qed.
Example test_user : run_test (lit "[[user admin]]
Apple") = Parsed (TREE [(EContainer CParagraph [] [(EUser (lit "admin") false); ELineBreak; (EText (lit "Apple"))]); (EFootnoteBlock None false)] [] [] [] [] [] 0 []).
Proof. vm_compute. reflexivity. Qed.

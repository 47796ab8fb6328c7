(** ParseTests2.v -- generated by tools/conformance.py from the repository's AST tests (/repo/test/*.json):
    the modelled include, preprocess, tokenize and parse applied to each test's input give the tree
    and the errors the repository expects.  These are tests of the model, not proofs. *)
From Verif Require Import Base Strings Links Attr Preproc Includes Lexer Depth Tree Text Toc PState Blocks Rules Parse ParseTestEnv.
Example test_align_deep : run_test (lit "[[=]]
Apple
[[>]]
Cherry
[[==]]
Durian
[[<]]Blueberry[[/<]]
[[/==]]
[[/>]]
[[/=]]") = Parsed (TREE [(EContainer (CAlign AlCenter) [] [(EContainer CParagraph [] [(EText (lit "Apple"))]); (EContainer (CAlign AlRight) [] [(EContainer CParagraph [] [(EText (lit "Cherry"))]); (EContainer (CAlign AlJustify) [] [(EContainer CParagraph [] [(EText (lit "Durian"))]); (EContainer (CAlign AlLeft) [] [(EContainer CParagraph [] [(EText (lit "Blueberry"))])])])])]); (EFootnoteBlock None false)] [] [] [] [] [] 0 []).
Proof. vm_compute. reflexivity. Qed.
Example test_align_right : run_test (lit "[[>]]
Cherry
[[/>]]") = Parsed (TREE [(EContainer (CAlign AlRight) [] [(EContainer CParagraph [] [(EText (lit "Cherry"))])]); (EFootnoteBlock None false)] [] [] [] [] [] 0 []).
Proof. vm_compute. reflexivity. Qed.
Example test_anchor_alias : run_test (lit "[[anchor href=""/some-page""]]My link[[/anchor]]") = Parsed (TREE [(EContainer CParagraph [] [(EAnchor None [((lit "href"), (lit "/some-page"))] [(EText (lit "My")); (EText (lit " ")); (EText (lit "link"))])]); (EFootnoteBlock None false)] [] [] [] [] [] 0 []).
Proof. vm_compute. reflexivity. Qed.
Example test_anchor_name_fail_space2 : run_test (lit "[[# apple banana]]") = Parsed (TREE [(EContainer CParagraph [] [(EText (lit "[[#")); (EText (lit " ")); (EText (lit "apple")); (EText (lit " ")); (EText (lit "banana")); (EText (lit "]]"))]); (EFootnoteBlock None false)] [] [] [] [] [] 0 [(PE RuleFailed "anchor"%string TWhitespace 9 10); (PE NoRulesMatch "fallback"%string TLeftBlockAnchor 0 3); (PE NoRulesMatch "fallback"%string TRightBlock 16 18)]).
Proof. vm_compute. reflexivity. Qed.
Example test_anchor_name_symbol : run_test (lit "[[# name|x[0-%]]") = Parsed (TREE [(EContainer CParagraph [] [(EAnchorName (lit "name|x[0-%"))]); (EFootnoteBlock None false)] [] [] [] [] [] 0 []).
Proof. vm_compute. reflexivity. Qed.
Example test_anchor_wrap : run_test (lit "[[a]]Internal **elements**[[/a]]") = Parsed (TREE [(EContainer CParagraph [] [(EAnchor None [] [(EText (lit "Internal")); (EText (lit " ")); (EContainer CBold [] [(EText (lit "elements"))])])]); (EFootnoteBlock None false)] [] [] [] [] [] 0 []).
Proof. vm_compute. reflexivity. Qed.
Example test_anchor : run_test (lit "[[a href=""/some-page""]]My link[[/a]]") = Parsed (TREE [(EContainer CParagraph [] [(EAnchor None [((lit "href"), (lit "/some-page"))] [(EText (lit "My")); (EText (lit " ")); (EText (lit "link"))])]); (EFootnoteBlock None false)] [] [] [] [] [] 0 []).
Proof. vm_compute. reflexivity. Qed.
Example test_anchor2_alias : run_test (lit "[[anchor_ href=""/some-page""]]My link[[/anchor]]") = Parsed (TREE [(EContainer CParagraph [] [(EAnchor None [((lit "href"), (lit "/some-page"))] [(EText (lit "My")); (EText (lit " ")); (EText (lit "link"))])]); (EFootnoteBlock None false)] [] [] [] [] [] 0 []).
Proof. vm_compute. reflexivity. Qed.
Example test_anchor2_paragraph : run_test (lit "[[a_]]Apple

Banana[[/a]]") = Parsed (TREE [(EContainer CParagraph [] [(EAnchor None [] [(EText (lit "Apple")); ELineBreak; (EText (lit "Banana"))])]); (EFootnoteBlock None false)] [] [] [] [] [] 0 []).
Proof. vm_compute. reflexivity. Qed.
Example test_anchor2 : run_test (lit "[[a_ href=""/some-page""]]My link[[/a]]") = Parsed (TREE [(EContainer CParagraph [] [(EAnchor None [((lit "href"), (lit "/some-page"))] [(EText (lit "My")); (EText (lit " ")); (EText (lit "link"))])]); (EFootnoteBlock None false)] [] [] [] [] [] 0 []).
Proof. vm_compute. reflexivity. Qed.
Example test_blockquote_alias_end : run_test (lit "[[blockquote]]
Durian
[[/quote]]") = Parsed (TREE [(EContainer CBlockquote [] [(EContainer CParagraph [] [(EText (lit "Durian"))])]); (EFootnoteBlock None false)] [] [] [] [] [] 0 []).
Proof. vm_compute. reflexivity. Qed.
Example test_blockquote_empty : run_test (lit "[[blockquote]]
[[/blockquote]]") = Parsed (TREE [(EContainer CBlockquote [] []); (EFootnoteBlock None false)] [] [] [] [] [] 0 []).
Proof. vm_compute. reflexivity. Qed.
Example test_blockquote_multiline : run_test (lit "[[blockquote]]
Apple
Banana
[[/blockquote]]") = Parsed (TREE [(EContainer CBlockquote [] [(EContainer CParagraph [] [(EText (lit "Apple")); ELineBreak; (EText (lit "Banana"))])]); (EFootnoteBlock None false)] [] [] [] [] [] 0 []).
Proof. vm_compute. reflexivity. Qed.
Example test_blockquote_native_multiple : run_test (lit "> Apple
> Banana
> Cherry") = Parsed (TREE [(EContainer CBlockquote [] [(EContainer CParagraph [] [(EText (lit "Apple")); ELineBreak; (EText (lit "Banana")); ELineBreak; (EText (lit "Cherry"))])]); (EFootnoteBlock None false)] [] [] [] [] [] 0 []).
Proof. vm_compute. reflexivity. Qed.
Example test_blockquote_native_spaces : run_test (lit ">Apple") = Parsed (TREE [(EContainer CBlockquote [] [(EContainer CParagraph [] [(EText (lit "Apple"))])]); (EFootnoteBlock None false)] [] [] [] [] [] 0 []).
Proof. vm_compute. reflexivity. Qed.
Example test_blockquote_nested : run_test (lit "[[blockquote]]
**Bold** Cherry
[[blockquote]]
Durian
[[/blockquote]]
[[/blockquote]]") = Parsed (TREE [(EContainer CBlockquote [] [(EContainer CParagraph [] [(EContainer CBold [] [(EText (lit "Bold"))]); (EText (lit " ")); (EText (lit "Cherry"))]); (EContainer CBlockquote [] [(EContainer CParagraph [] [(EText (lit "Durian"))])])]); (EFootnoteBlock None false)] [] [] [] [] [] 0 []).
Proof. vm_compute. reflexivity. Qed.
Example test_bold_block_alias_1 : run_test (lit "[[bold]]Test![[/bold]]") = Parsed (TREE [(EContainer CParagraph [] [(EContainer CBold [] [(EText (lit "Test")); (EText (lit "!"))])]); (EFootnoteBlock None false)] [] [] [] [] [] 0 []).
Proof. vm_compute. reflexivity. Qed.
Example test_bold_block_italics : run_test (lit "[[b]]Apple [[i]]Banana[[/i]][[/b]] Cherry") = Parsed (TREE [(EContainer CParagraph [] [(EContainer CBold [] [(EText (lit "Apple")); (EText (lit " ")); (EContainer CItalics [] [(EText (lit "Banana"))])]); (EText (lit " ")); (EText (lit "Cherry"))]); (EFootnoteBlock None false)] [] [] [] [] [] 0 []).
Proof. vm_compute. reflexivity. Qed.
Example test_bold_fail_paragraph : run_test (lit "**Fail

Bold**") = Parsed (TREE [(EContainer CParagraph [] [(EText (lit "**")); (EText (lit "Fail"))]); (EContainer CParagraph [] [(EText (lit "Bold")); (EText (lit "**"))]); (EFootnoteBlock None false)] [] [] [] [] [] 0 [(PE RuleFailed "bold"%string TParagraphBreak 6 8); (PE NoRulesMatch "fallback"%string TBold 0 2); (PE EndOfInput "bold"%string TInputEnd 14 14); (PE NoRulesMatch "fallback"%string TBold 12 14)]).
Proof. vm_compute. reflexivity. Qed.
Example test_bold_nested : run_test (lit "**Apple //Banana __Cherry__ Durian ^^Peach {{Melon ,,Blackberry,,}}^^// Mango** Pineapple") = Parsed (TREE [(EContainer CParagraph [] [(EContainer CBold [] [(EText (lit "Apple")); (EText (lit " ")); (EContainer CItalics [] [(EText (lit "Banana")); (EText (lit " ")); (EContainer CUnderline [] [(EText (lit "Cherry"))]); (EText (lit " ")); (EText (lit "Durian")); (EText (lit " ")); (EContainer CSuperscript [] [(EText (lit "Peach")); (EText (lit " ")); (EContainer CMonospace [] [(EText (lit "Melon")); (EText (lit " ")); (EContainer CSubscript [] [(EText (lit "Blackberry"))])])])]); (EText (lit " ")); (EText (lit "Mango"))]); (EText (lit " ")); (EText (lit "Pineapple"))]); (EFootnoteBlock None false)] [] [] [] [] [] 0 []).
Proof. vm_compute. reflexivity. Qed.
Example test_center_end : run_test (lit "
= Apple") = Parsed (TREE [(EContainer (CAlign AlCenter) [] [(EText (lit "Apple"))]); (EFootnoteBlock None false)] [] [] [] [] [] 0 []).
Proof. vm_compute. reflexivity. Qed.
Example test_char_alias : run_test (lit "[[character gt]] pineapple") = Parsed (TREE [(EContainer CParagraph [] [(EText (lit ">")); (EText (lit " ")); (EText (lit "pineapple"))]); (EFootnoteBlock None false)] [] [] [] [] [] 0 []).
Proof. vm_compute. reflexivity. Qed.
Example test_char : run_test (lit "[[char amp]] pineapple") = Parsed (TREE [(EContainer CParagraph [] [(EText (lit "&")); (EText (lit " ")); (EText (lit "pineapple"))]); (EFootnoteBlock None false)] [] [] [] [] [] 0 []).
Proof. vm_compute. reflexivity. Qed.
Example test_char2_leading : run_test (lit "[[char &amp]] pineapple") = Parsed (TREE [(EContainer CParagraph [] [(EText (lit "&")); (EText (lit " ")); (EText (lit "pineapple"))]); (EFootnoteBlock None false)] [] [] [] [] [] 0 []).
Proof. vm_compute. reflexivity. Qed.
Example test_checkbox_fail : run_test (lit "[[checkbox Broken") = Parsed (TREE [(EContainer CParagraph [] [(EText (lit "[[")); (EText (lit "checkbox")); (EText (lit " ")); (EText (lit "Broken"))]); (EFootnoteBlock None false)] [] [] [] [] [] 0 [(PE BlockMalformedArguments "block-checkbox"%string TInputEnd 17 17); (PE NoRulesMatch "fallback"%string TLeftBlock 0 2)]).
Proof. vm_compute. reflexivity. Qed.
Example test_checkbox : run_test (lit "[[checkbox]] Apple
[[checkbox]] Banana
[[checkbox]] Cherry") = Parsed (TREE [(EContainer CParagraph [] [(ECheckBox false []); (EText (lit "Apple")); ELineBreak; (ECheckBox false []); (EText (lit "Banana")); ELineBreak; (ECheckBox false []); (EText (lit "Cherry"))]); (EFootnoteBlock None false)] [] [] [] [] [] 0 []).
Proof. vm_compute. reflexivity. Qed.
Example test_clear_float_5 : run_test (lit "~~~~~
Clear float") = Parsed (TREE [(EClearFloat CFBoth); (EContainer CParagraph [] [(EText (lit "Clear")); (EText (lit " ")); (EText (lit "float"))]); (EFootnoteBlock None false)] [] [] [] [] [] 0 []).
Proof. vm_compute. reflexivity. Qed.
Example test_code_empty : run_test (lit "[[code]]
[[/code]]") = Parsed (TREE [(ECode [] None); (EFootnoteBlock None false)] [] [] [(CB [] None)] [] [] 0 []).
Proof. vm_compute. reflexivity. Qed.
Example test_code_fail : run_test (lit "[[code]]
no ending block") = Parsed (TREE [(EContainer CParagraph [] [(EText (lit "[[")); (EText (lit "code")); (EText (lit "]]")); ELineBreak; (EText (lit "no")); (EText (lit " ")); (EText (lit "ending")); (EText (lit " ")); (EText (lit "block"))]); (EFootnoteBlock None false)] [] [] [] [] [] 0 [(PE EndOfInput "block-code"%string TInputEnd 24 24); (PE NoRulesMatch "fallback"%string TLeftBlock 0 2); (PE NoRulesMatch "fallback"%string TRightBlock 6 8)]).
Proof. vm_compute. reflexivity. Qed.
Example test_code_language_spaces : run_test (lit "[[ code  type = ""css"" ]]
apple banana
[[/code]]") = Parsed (TREE [(ECode (lit "apple banana") (Some (lit "css"))); (EFootnoteBlock None false)] [] [] [(CB (lit "apple banana") None)] [] [] 0 []).
Proof. vm_compute. reflexivity. Qed.
Example test_code_spaces : run_test (lit "[[  code  ]]
text here
[[/ code ]]") = Parsed (TREE [(ECode (lit "text here") None); (EFootnoteBlock None false)] [] [] [(CB (lit "text here") None)] [] [] 0 []).
Proof. vm_compute. reflexivity. Qed.
Example test_collapsible_folded_no : run_test (lit "[[collapsible folded =""no""]]
Cherry
[[/collapsible]]") = Parsed (TREE [(ECollapsible [(EContainer CParagraph [] [(EText (lit "Cherry"))])] [] true None None true false); (EFootnoteBlock None false)] [] [] [] [] [] 0 []).
Proof. vm_compute. reflexivity. Qed.
Example test_collapsible_location_bottom : run_test (lit "[[collapsible hideLocation=""bottom""]]
Cherry
[[/collapsible]]") = Parsed (TREE [(ECollapsible [(EContainer CParagraph [] [(EText (lit "Cherry"))])] [] false None None false true); (EFootnoteBlock None false)] [] [] [] [] [] 0 []).
Proof. vm_compute. reflexivity. Qed.
Example test_collapsible_nested_deep : run_test (lit "[[collapsible]]
Apple
[[collapsible]]
Banana
[[collapsible]]
Cherry
[[/collapsible]]
[[/collapsible]]
[[/collapsible]]") = Parsed (TREE [(ECollapsible [(EContainer CParagraph [] [(EText (lit "Apple"))]); (ECollapsible [(EContainer CParagraph [] [(EText (lit "Banana"))]); (ECollapsible [(EContainer CParagraph [] [(EText (lit "Cherry"))])] [] false None None true false)] [] false None None true false)] [] false None None true false); (EFootnoteBlock None false)] [] [] [] [] [] 0 []).
Proof. vm_compute. reflexivity. Qed.
Example test_collapsible_uppercase : run_test (lit "[[ COLLapsiBLe  ID=""my-id"" CLASS = ""my-class""  ]]
Cherry
[[/collapsible]]") = Parsed (TREE [(ECollapsible [(EContainer CParagraph [] [(EText (lit "Cherry"))])] [((lit "class"), (lit "my-class")); ((lit "id"), (lit "my-id"))] false None None true false); (EFootnoteBlock None false)] [] [] [] [] [] 0 []).
Proof. vm_compute. reflexivity. Qed.
Example test_color_hex : run_test (lit "###ccc|CSS color!##") = Parsed (TREE [(EContainer CParagraph [] [(EColor (lit "#ccc") [(EText (lit "CSS")); (EText (lit " ")); (EText (lit "color")); (EText (lit "!"))])]); (EFootnoteBlock None false)] [] [] [] [] [] 0 []).
Proof. vm_compute. reflexivity. Qed.
Example test_comment_multiline : run_test (lit "Multiline [!-- stuff 
 here --] Comment") = Parsed (TREE [(EContainer CParagraph [] [(EText (lit "Multiline")); (EText (lit " ")); (EText (lit " ")); (EText (lit "Comment"))]); (EFootnoteBlock None false)] [] [] [] [] [] 0 []).
Proof. vm_compute. reflexivity. Qed.
Example test_definition_list_fail : run_test (lit ":Key:Value
: Key:Value") = Parsed (TREE [(EContainer CParagraph [] [(EText (lit ":")); (EText (lit "Key")); (EText (lit ":")); (EText (lit "Value")); (EText (lit ":")); (EText (lit " ")); (EText (lit "Key")); (EText (lit ":")); (EText (lit "Value"))]); (EFootnoteBlock None false)] [] [] [] [] [] 0 []).
Proof. vm_compute. reflexivity. Qed.
Example test_definition_list : run_test (lit "[
: Key 1 : Some value
: Key 2 : Value 2
]") = Parsed (TREE [(EContainer CParagraph [] [(EText (lit "["))]); (EDefinitionList [(DF (lit "Key 1") [(EText (lit "Key")); (EText (lit " ")); (EText (lit "1"))] [(EText (lit "Some")); (EText (lit " ")); (EText (lit "value"))]); (DF (lit "Key 2") [(EText (lit "Key")); (EText (lit " ")); (EText (lit "2"))] [(EText (lit "Value")); (EText (lit " ")); (EText (lit "2"))])]); (EContainer CParagraph [] [(EText (lit "]"))]); (EFootnoteBlock None false)] [] [] [] [] [] 0 []).
Proof. vm_compute. reflexivity. Qed.
Example test_del_uppercase : run_test (lit "[[DEl ID =  ""apple"" clASS =""fruit"" stylE=""color: red;""      ]]Apple[[/ DEL  ]]") = Parsed (TREE [(EContainer CParagraph [] [(EContainer CDeletion [((lit "class"), (lit "fruit")); ((lit "id"), (lit "apple")); ((lit "style"), (lit "color: red;"))] [(EText (lit "Apple"))])]); (EFootnoteBlock None false)] [] [] [] [] [] 0 []).
Proof. vm_compute. reflexivity. Qed.
Example test_div_empty : run_test (lit "[[div]]
[[/div]]") = Parsed (TREE [(EContainer CDiv [] []); (EFootnoteBlock None false)] [] [] [] [] [] 0 []).
Proof. vm_compute. reflexivity. Qed.
Example test_div_inline : run_test (lit "[[div]]Apple[[/div]]") = Parsed (TREE [(EContainer CDiv [] [(EContainer CParagraph [] [(EText (lit "Apple"))])]); (EFootnoteBlock None false)] [] [] [] [] [] 0 []).
Proof. vm_compute. reflexivity. Qed.
Example test_div_paragraphs : run_test (lit "[[div]]
Apple

Banana
Cherry

Durian
[[/div]]") = Parsed (TREE [(EContainer CDiv [] [(EContainer CParagraph [] [(EText (lit "Apple"))]); (EContainer CParagraph [] [(EText (lit "Banana")); ELineBreak; (EText (lit "Cherry"))]); (EContainer CParagraph [] [(EText (lit "Durian"))])]); (EFootnoteBlock None false)] [] [] [] [] [] 0 []).
Proof. vm_compute. reflexivity. Qed.
Example test_div2_empty_2 : run_test (lit "A
[[div_]]
[[/div]]
B") = Parsed (TREE [(EContainer CParagraph [] [(EText (lit "A"))]); (EContainer CDiv [] []); (EContainer CParagraph [] [(EText (lit "B"))]); (EFootnoteBlock None false)] [] [] [] [] [] 0 []).
Proof. vm_compute. reflexivity. Qed.
Example test_div2_inline : run_test (lit "[[div_]]Apple[[/div]]") = Parsed (TREE [(EContainer CDiv [] [(EText (lit "Apple"))]); (EFootnoteBlock None false)] [] [] [] [] [] 0 []).
Proof. vm_compute. reflexivity. Qed.
Example test_div2_style : run_test (lit "[[div_ style=""display: flex"" data-fruit=""red""]]
Apple
[[/div]]") = Parsed (TREE [(EContainer CDiv [((lit "data-fruit"), (lit "red")); ((lit "style"), (lit "display: flex"))] [(EText (lit "Apple"))]); (EFootnoteBlock None false)] [] [] [] [] [] 0 []).
Proof. vm_compute. reflexivity. Qed.
Example test_double_angle_right_multiple : run_test (lit "Double >> Angles >> Everywhere") = Parsed (TREE [(EContainer CParagraph [] [(EText (lit "Double")); (EText (lit " ")); (EText [187%N]); (EText (lit " ")); (EText (lit "Angles")); (EText (lit " ")); (EText [187%N]); (EText (lit " ")); (EText (lit "Everywhere"))]); (EFootnoteBlock None false)] [] [] [] [] [] 0 []).
Proof. vm_compute. reflexivity. Qed.
Example test_embed_fail_missing : run_test (lit "[[embed xyz]]") = Parsed (TREE [(EContainer CParagraph [] [(EText (lit "[[")); (EText (lit "embed")); (EText (lit " ")); (EText (lit "xyz")); (EText (lit "]]"))]); (EFootnoteBlock None false)] [] [] [] [] [] 0 [(PE NoSuchEmbed "block-embed"%string TInputEnd 13 13); (PE NoRulesMatch "fallback"%string TLeftBlock 0 2); (PE NoRulesMatch "fallback"%string TRightBlock 11 13)]).
Proof. vm_compute. reflexivity. Qed.
Example test_embed_youtube : run_test (lit "[[embed youtube video=""dQw4w9WgXcQ""]]") = Parsed (TREE [(EEmbed (EmYoutube (lit "dQw4w9WgXcQ"))); (EFootnoteBlock None false)] [] [] [] [] [] 0 []).
Proof. vm_compute. reflexivity. Qed.
Example test_equation_reference_multiple : run_test (lit "A[[eref alpha]], B[[eref beta]]

C[[eref omega]]
D") = Parsed (TREE [(EContainer CParagraph [] [(EText (lit "A")); (EEquationReference (lit "alpha")); (EText (lit ",")); (EText (lit " ")); (EText (lit "B")); (EEquationReference (lit "beta"))]); (EContainer CParagraph [] [(EText (lit "C")); (EEquationReference (lit "omega")); ELineBreak; (EText (lit "D"))]); (EFootnoteBlock None false)] [] [] [] [] [] 0 []).
Proof. vm_compute. reflexivity. Qed.
Example test_footnote_block_hide : run_test (lit "A[[footnote]]B[[/footnote]]
[[footnoteblock hide=""true""]]") = Parsed (TREE [(EContainer CParagraph [] [(EText (lit "A")); EFootnote]); (EFootnoteBlock None true)] [] [] [] [[(EText (lit "B"))]] [] 0 []).
Proof. vm_compute. reflexivity. Qed.
Example test_footnote_ref_container : run_test (lit "Apple[[footnote]]//Cherry Banana//[[/footnote]]") = Parsed (TREE [(EContainer CParagraph [] [(EText (lit "Apple")); EFootnote]); (EFootnoteBlock None false)] [] [] [] [[(EContainer CItalics [] [(EText (lit "Cherry")); (EText (lit " ")); (EText (lit "Banana"))])]] [] 0 []).
Proof. vm_compute. reflexivity. Qed.
Example test_footnote_ref_fail : run_test (lit "A[[footnote]]") = Parsed (TREE [(EContainer CParagraph [] [(EText (lit "A")); (EText (lit "[[")); (EText (lit "footnote")); (EText (lit "]]"))]); (EFootnoteBlock None false)] [] [] [] [] [] 0 [(PE EndOfInput "block-footnote"%string TInputEnd 13 13); (PE NoRulesMatch "fallback"%string TLeftBlock 1 3); (PE NoRulesMatch "fallback"%string TRightBlock 11 13)]).
Proof. vm_compute. reflexivity. Qed.
Example test_heading_1_toc_fail : run_test (lit "+*fail header") = Parsed (TREE [(EContainer CParagraph [] [(EText (lit "+*")); (EText (lit "fail")); (EText (lit " ")); (EText (lit "header"))]); (EFootnoteBlock None false)] [] [] [] [] [] 0 []).
Proof. vm_compute. reflexivity. Qed.
Example test_heading_2 : run_test (lit "++ My __header__
Banana") = Parsed (TREE [(EContainer (CHeader (HD 2 true)) [] [(EText (lit "My")); (EText (lit " ")); (EContainer CUnderline [] [(EText (lit "header"))])]); (EContainer CParagraph [] [(EText (lit "Banana"))]); (EFootnoteBlock None false)] [(EList LBullet [] [(LISubList (EList LBullet [] [(LIElements [] [(ELink LTTableOfContents (LUrl (lit "#toc0")) None (LabelText (lit "My header")) None)])]))])] [] [] [] [] 0 []).
Proof. vm_compute. reflexivity. Qed.
Example test_heading_4 : run_test (lit "++++ [[size 80%]]Small heading[[/size]]") = Parsed (TREE [(EContainer (CHeader (HD 4 true)) [] [(EContainer CSize [((lit "style"), (lit "font-size: 80%;"))] [(EText (lit "Small")); (EText (lit " ")); (EText (lit "heading"))])]); (EFootnoteBlock None false)] [(EList LBullet [] [(LISubList (EList LBullet [] [(LISubList (EList LBullet [] [(LISubList (EList LBullet [] [(LIElements [] [(ELink LTTableOfContents (LUrl (lit "#toc0")) None (LabelText (lit "Small heading")) None)])]))]))]))])] [] [] [] [] 0 []).
Proof. vm_compute. reflexivity. Qed.
Example test_heading_6 : run_test (lit "++++++ SCP-6969") = Parsed (TREE [(EContainer (CHeader (HD 6 true)) [] [(EText (lit "SCP")); (EText (lit "-")); (EText (lit "6969"))]); (EFootnoteBlock None false)] [(EList LBullet [] [(LISubList (EList LBullet [] [(LISubList (EList LBullet [] [(LISubList (EList LBullet [] [(LISubList (EList LBullet [] [(LISubList (EList LBullet [] [(LIElements [] [(ELink LTTableOfContents (LUrl (lit "#toc0")) None (LabelText (lit "SCP-6969")) None)])]))]))]))]))]))])] [] [] [] [] 0 []).
Proof. vm_compute. reflexivity. Qed.
Example test_heading_paragraph : run_test (lit "[

+ A

++ B
+ C
]") = Parsed (TREE [(EContainer CParagraph [] [(EText (lit "["))]); (EContainer (CHeader (HD 1 true)) [] [(EText (lit "A"))]); (EContainer (CHeader (HD 2 true)) [] [(EText (lit "B"))]); (EContainer (CHeader (HD 1 true)) [] [(EText (lit "C"))]); (EContainer CParagraph [] [(EText (lit "]"))]); (EFootnoteBlock None false)] [(EList LBullet [] [(LIElements [] [(ELink LTTableOfContents (LUrl (lit "#toc0")) None (LabelText (lit "A")) None)]); (LISubList (EList LBullet [] [(LIElements [] [(ELink LTTableOfContents (LUrl (lit "#toc1")) None (LabelText (lit "B")) None)])])); (LIElements [] [(ELink LTTableOfContents (LUrl (lit "#toc2")) None (LabelText (lit "C")) None)])])] [] [] [] [] 0 []).
Proof. vm_compute. reflexivity. Qed.
Example test_hidden : run_test (lit "[[hidden]]Hidden[[/hidden]] Text") = Parsed (TREE [(EContainer CParagraph [] [(EContainer CHidden [] [(EText (lit "Hidden"))]); (EText (lit " ")); (EText (lit "Text"))]); (EFootnoteBlock None false)] [] [] [] [] [] 0 []).
Proof. vm_compute. reflexivity. Qed.
Example test_hr_5 : run_test (lit "-----
Horizontal rule") = Parsed (TREE [EHorizontalRule; (EContainer CParagraph [] [(EText (lit "Horizontal")); (EText (lit " ")); (EText (lit "rule"))]); (EFootnoteBlock None false)] [] [] [] [] [] 0 []).
Proof. vm_compute. reflexivity. Qed.
Example test_html_fail_tail : run_test (lit "<div></div> [[/html]]") = Parsed (TREE [(EContainer CParagraph [] [(EText (lit "<")); (EText (lit "div")); (EText (lit ">")); (EText (lit "<")); (EText (lit "/")); (EText (lit "div")); (EText (lit ">")); (EText (lit " ")); (EText (lit "[[/")); (EText (lit "html")); (EText (lit "]]"))]); (EFootnoteBlock None false)] [] [] [] [] [] 0 [(PE NoRulesMatch "fallback"%string TLeftBlockEnd 12 15); (PE NoRulesMatch "fallback"%string TRightBlock 19 21)]).
Proof. vm_compute. reflexivity. Qed.
Example test_html_multiple : run_test (lit "[[html]]
<p>Paragraph 1</p>
[[/html]]
[[html]]
<p>Paragraph 2</p>[[/html]]") = Parsed (TREE [(EHtml (lit "<p>Paragraph 1</p>")); (EHtml (lit "<p>Paragraph 2</p>")); (EFootnoteBlock None false)] [] [(lit "<p>Paragraph 1</p>"); (lit "<p>Paragraph 2</p>")] [] [] [] 0 []).
Proof. vm_compute. reflexivity. Qed.
Example test_ifcategory : run_test (lit "[[ifcategory _default]]
Apple
[[/ifcategory]]
[[ifcategory +_default +component -fragment]]
Banana
[[/ifcategory]]
[[ifcategory -_default]]
Hidden
[[/ifcategory]]") = Parsed (TREE [(EContainer CParagraph [] [(EText (lit "Apple")); (EText (lit "Banana"))]); (EFootnoteBlock None false)] [] [] [] [] [] 0 []).
Proof. vm_compute. reflexivity. Qed.
Example test_iframe_uppercase : run_test (lit "[[iframe  https://example.com  WIDTH =  ""100%"" id= ""iframe"" ]]") = Parsed (TREE [(EIframe [((lit "id"), (lit "iframe")); ((lit "width"), (lit "100%"))] (lit "https://example.com")); (EFootnoteBlock None false)] [] [] [] [] [] 0 []).
Proof. vm_compute. reflexivity. Qed.
Example test_iftags_fail : run_test (lit "[[iftags]]
Durian
[[/iftags]]") = Parsed (TREE [(EContainer CParagraph [] [(EText (lit "[[")); (EText (lit "iftags")); (EText (lit "]]")); ELineBreak; (EText (lit "Durian")); ELineBreak; (EText (lit "[[/")); (EText (lit "iftags")); (EText (lit "]]"))]); (EFootnoteBlock None false)] [] [] [] [] [] 0 [(PE BlockMissingArguments "block-iftags"%string TLineBreak 10 11); (PE NoRulesMatch "fallback"%string TLeftBlock 0 2); (PE NoRulesMatch "fallback"%string TRightBlock 8 10); (PE NoRulesMatch "fallback"%string TLeftBlockEnd 18 21); (PE NoRulesMatch "fallback"%string TRightBlock 27 29)]).
Proof. vm_compute. reflexivity. Qed.
Example test_image_external : run_test (lit "A [[image https://example.com/my-image.png]] B") = Parsed (TREE [(EContainer CParagraph [] [(EText (lit "A")); (EText (lit " ")); (EImage (ISUrl (lit "https://example.com/my-image.png")) None None []); (EText (lit " ")); (EText (lit "B"))]); (EFootnoteBlock None false)] [] [] [] [] [] 0 []).
Proof. vm_compute. reflexivity. Qed.
Example test_image_file3_slash : run_test (lit "A [[image scp-wiki/some-other-page/my-picture.jpeg]] B") = Parsed (TREE [(EContainer CParagraph [] [(EText (lit "A")); (EText (lit " ")); (EImage (ISFile3 (lit "scp-wiki") (lit "some-other-page") (lit "my-picture.jpeg")) None None []); (EText (lit " ")); (EText (lit "B"))]); (EFootnoteBlock None false)] [] [] [] [] [] 0 []).
Proof. vm_compute. reflexivity. Qed.
Example test_image_float_left : run_test (lit "[[f<image landscape.png]]") = Parsed (TREE [(EContainer CParagraph [] [(EImage (ISFile1 (lit "landscape.png")) None (Some (FA AlLeft true)) [])]); (EFootnoteBlock None false)] [] [] [] [] [] 0 []).
Proof. vm_compute. reflexivity. Qed.
Example test_image_link_anchor : run_test (lit "A [[image filename.png link=""#section""]] B") = Parsed (TREE [(EContainer CParagraph [] [(EText (lit "A")); (EText (lit " ")); (EImage (ISFile1 (lit "filename.png")) (Some (LUrl (lit "#section"))) None []); (EText (lit " ")); (EText (lit "B"))]); (EFootnoteBlock None false)] [] [] [] [] [] 0 []).
Proof. vm_compute. reflexivity. Qed.
Example test_image : run_test (lit "A [[image filename.png]] B") = Parsed (TREE [(EContainer CParagraph [] [(EText (lit "A")); (EText (lit " ")); (EImage (ISFile1 (lit "filename.png")) None None []); (EText (lit " ")); (EText (lit "B"))]); (EFootnoteBlock None false)] [] [] [] [] [] 0 []).
Proof. vm_compute. reflexivity. Qed.
Example test_include_wikidot_category : run_test (lit "[[include fragment:page]]") = Parsed (TREE [(EContainer CParagraph [] [(EText (lit "INCLUDED")); (EText (lit " ")); (EText (lit "FRAGMENT"))]); (EFootnoteBlock None false)] [] [] [] [] [] 0 []).
Proof. vm_compute. reflexivity. Qed.
Example test_include_wikidot_multiple : run_test (lit "Pineapple
[[include fruit]]
Melon
[[include other]]
Raspberry") = Parsed (TREE [(EContainer CParagraph [] [(EText (lit "Pineapple"))]); (EList LBullet [] [(LIElements [] [(EText (lit "Apple"))]); (LIElements [] [(EText (lit "Banana"))]); (LIElements [] [(EText (lit "Cherry"))])]); (EContainer CParagraph [] [(EText (lit "Melon")); ELineBreak; (EText (lit "INCLUDED")); (EText (lit " ")); (EText (lit "PAGE")); ELineBreak; (EText (lit "Raspberry"))]); (EFootnoteBlock None false)] [] [] [] [] [] 0 []).
Proof. vm_compute. reflexivity. Qed.
Example test_include_wikidot_parameters_both : run_test (lit "[[include component:fruit | class=box | apple=1 | banana = 2 |]]") = Parsed (TREE [(EContainer CDiv [((lit "class"), (lit "box ")); ((lit "id"), (lit "fruit"))] [(EContainer CParagraph [] [(EText (lit "  "))]); (EList LBullet [] [(LIElements [] [(EText (lit "1")); (EText (lit "  "))]); (LIElements [] [(EText (lit "2")); (EText (lit "  "))])])]); (EFootnoteBlock None false)] [] [] [] [] [] 0 []).
Proof. vm_compute. reflexivity. Qed.
Example test_include_wikidot_parameters_newlines : run_test (lit "[[include component:fruit
 class=box |
 apple=1 |
 banana = 2]]") = Parsed (TREE [(EContainer CDiv [((lit "class"), (lit "box ")); ((lit "id"), (lit "fruit"))] [(EContainer CParagraph [] [(EText (lit "  "))]); (EList LBullet [] [(LIElements [] [(EText (lit "1")); (EText (lit "  "))]); (LIElements [] [(EText (lit "2")); (EText (lit " "))])])]); (EFootnoteBlock None false)] [] [] [] [] [] 0 []).
Proof. vm_compute. reflexivity. Qed.
Example test_include_wikidot_uppercase : run_test (lit "[[INCLUde FRuit]]") = Parsed (TREE [(EContainer CParagraph [] [(EText (lit "INCLUDED")); (EText (lit " ")); (EText (lit "PAGE"))]); (EFootnoteBlock None false)] [] [] [] [] [] 0 []).
Proof. vm_compute. reflexivity. Qed.
Example test_ins_style : run_test (lit "[[ins id=""banana"" class=""fruit"" style=""color: yellow;"" cite=""some source""]]Banana[[/ins]]") = Parsed (TREE [(EContainer CParagraph [] [(EContainer CInsertion [((lit "cite"), (lit "some source")); ((lit "class"), (lit "fruit")); ((lit "id"), (lit "banana")); ((lit "style"), (lit "color: yellow;"))] [(EText (lit "Banana"))])]); (EFootnoteBlock None false)] [] [] [] [] [] 0 []).
Proof. vm_compute. reflexivity. Qed.
Example test_invisible_style : run_test (lit "[[invisible data-xxx=""yyy"" class=""label""]]Invisible[[/invisible]] Text") = Parsed (TREE [(EContainer CParagraph [] [(EContainer CInvisible [((lit "class"), (lit "label")); ((lit "data-xxx"), (lit "yyy"))] [(EText (lit "Invisible"))]); (EText (lit " ")); (EText (lit "Text"))]); (EFootnoteBlock None false)] [] [] [] [] [] 0 []).
Proof. vm_compute. reflexivity. Qed.
Example test_italics_block_alias_2 : run_test (lit "[[em]]Test![[/em]]") = Parsed (TREE [(EContainer CParagraph [] [(EContainer CItalics [] [(EText (lit "Test")); (EText (lit "!"))])]); (EFootnoteBlock None false)] [] [] [] [] [] 0 []).
Proof. vm_compute. reflexivity. Qed.
Example test_italics_block_italics : run_test (lit "[[i]]Apple [[b]]Banana[[/b]][[/i]] Cherry") = Parsed (TREE [(EContainer CParagraph [] [(EContainer CItalics [] [(EText (lit "Apple")); (EText (lit " ")); (EContainer CBold [] [(EText (lit "Banana"))])]); (EText (lit " ")); (EText (lit "Cherry"))]); (EFootnoteBlock None false)] [] [] [] [] [] 0 []).
Proof. vm_compute. reflexivity. Qed.
Example test_italics_fail_paragraph : run_test (lit "//Fail

Italics//") = Parsed (TREE [(EContainer CParagraph [] [(EText (lit "//")); (EText (lit "Fail"))]); (EContainer CParagraph [] [(EText (lit "Italics")); (EText (lit "//"))]); (EFootnoteBlock None false)] [] [] [] [] [] 0 [(PE RuleFailed "italics"%string TParagraphBreak 6 8); (PE NoRulesMatch "fallback"%string TItalics 0 2); (PE EndOfInput "italics"%string TInputEnd 17 17); (PE NoRulesMatch "fallback"%string TItalics 15 17)]).
Proof. vm_compute. reflexivity. Qed.
Example test_line_breaks_error_0 : run_test (lit "[[lines 0]]") = Parsed (TREE [(EContainer CParagraph [] [(EText (lit "[[")); (EText (lit "lines")); (EText (lit " ")); (EText (lit "0")); (EText (lit "]]"))]); (EFootnoteBlock None false)] [] [] [] [] [] 0 [(PE BlockMalformedArguments "block-lines"%string TInputEnd 11 11); (PE NoRulesMatch "fallback"%string TLeftBlock 0 2); (PE NoRulesMatch "fallback"%string TRightBlock 9 11)]).
Proof. vm_compute. reflexivity. Qed.
Example test_line_breaks_uppercase : run_test (lit "Apple
[[  LiNEs 12  ]]
Banana") = Parsed (TREE [(EContainer CParagraph [] [(EText (lit "Apple")); (ELineBreaks 12%N); (EText (lit "Banana"))]); (EFootnoteBlock None false)] [] [] [] [] [] 0 []).
Proof. vm_compute. reflexivity. Qed.
Example test_link_anchor : run_test (lit "[#apple Some link]?") = Parsed (TREE [(EContainer CParagraph [] [(ELink LTAnchor (LUrl (lit "#apple")) None (LabelText (lit "Some link")) None); (EText (lit "?"))]); (EFootnoteBlock None false)] [] [] [] [] [] 0 []).
Proof. vm_compute. reflexivity. Qed.
Example test_link_interwiki_fail : run_test (lit "[[[!banana:Missing provider | Label]]]") = Parsed (TREE [(EContainer CParagraph [] [(EText (lit "[[[")); (EText (lit "!")); (EText (lit "banana")); (EText (lit ":")); (EText (lit "Missing")); (EText (lit " ")); (EText (lit "provider")); (EText (lit " ")); (EText (lit "|")); (EText (lit " ")); (EText (lit "Label")); (EText (lit "]]]"))]); (EFootnoteBlock None false)] [] [] [] [] [] 0 [(PE RuleFailed "link-triple"%string TInputEnd 38 38); (PE NoRulesMatch "fallback"%string TLeftLink 0 3); (PE NoRulesMatch "fallback"%string TRightLink 35 38)]).
Proof. vm_compute. reflexivity. Qed.
Example test_link_single_fail_brackets : run_test (lit "[ not a link ]") = Parsed (TREE [(EContainer CParagraph [] [(EText (lit "[")); (EText (lit " ")); (EText (lit "not")); (EText (lit " ")); (EText (lit "a")); (EText (lit " ")); (EText (lit "link")); (EText (lit " ")); (EText (lit "]"))]); (EFootnoteBlock None false)] [] [] [] [] [] 0 []).
Proof. vm_compute. reflexivity. Qed.
Example test_link_single_fail_text : run_test (lit "[page Some page]") = Parsed (TREE [(EContainer CParagraph [] [(EText (lit "[")); (EText (lit "page")); (EText (lit " ")); (EText (lit "Some")); (EText (lit " ")); (EText (lit "page")); (EText (lit "]"))]); (EFootnoteBlock None false)] [] [] [] [] [] 0 []).
Proof. vm_compute. reflexivity. Qed.
Example test_link_single_subpath : run_test (lit "[/relative/link text]") = Parsed (TREE [(EContainer CParagraph [] [(ELink LTDirect (LUrl (lit "/relative/link")) None (LabelText (lit "text")) None)]); (EFootnoteBlock None false)] [] [] [] [] [] 0 []).
Proof. vm_compute. reflexivity. Qed.
Example test_link_triple_category_new_tab : run_test (lit "[[[*system:Recent Changes]]]") = Parsed (TREE [(EContainer CParagraph [] [(ELink LTPage (LPage (PR None (lit "system:Recent Changes"))) None (LabelUrl (Some (lit "Recent Changes"))) (Some ATNewTab))]); (EFootnoteBlock None false)] [] [] [] [] [] 0 []).
Proof. vm_compute. reflexivity. Qed.
Example test_link_triple_fail_brackets_end : run_test (lit "some-page]]]") = Parsed (TREE [(EContainer CParagraph [] [(EText (lit "some")); (EText (lit "-")); (EText (lit "page")); (EText (lit "]]]"))]); (EFootnoteBlock None false)] [] [] [] [] [] 0 [(PE NoRulesMatch "fallback"%string TRightLink 9 12)]).
Proof. vm_compute. reflexivity. Qed.
Example test_link_triple_fail_title_new_tab : run_test (lit "[[[*|some-page]]]") = Parsed (TREE [(EContainer CParagraph [] [(EText (lit "[[[*")); (EText (lit "|")); (EText (lit "some")); (EText (lit "-")); (EText (lit "page")); (EText (lit "]]]"))]); (EFootnoteBlock None false)] [] [] [] [] [] 0 [(PE RuleFailed "link-triple-new-tab"%string TIdentifier 5 9); (PE NoRulesMatch "fallback"%string TLeftLinkStar 0 4); (PE NoRulesMatch "fallback"%string TRightLink 14 17)]).
Proof. vm_compute. reflexivity. Qed.
Example test_link_triple_missing : run_test (lit "[[[missing | Wanted page]]]") = Parsed (TREE [(EContainer CParagraph [] [(ELink LTPage (LPage (PR None (lit "missing"))) None (LabelText (lit "Wanted page")) None)]); (EFootnoteBlock None false)] [] [] [] [] [] 0 []).
Proof. vm_compute. reflexivity. Qed.
Example test_link_triple_site_name : run_test (lit "[[[:scp-wiki : system : Recent Changes]]]") = Parsed (TREE [(EContainer CParagraph [] [(ELink LTPage (LPage (PR (Some (lit "scp-wiki")) (lit "system : Recent Changes"))) None (LabelUrl (Some (lit "Recent Changes"))) None)]); (EFootnoteBlock None false)] [] [] [] [] [] 0 []).
Proof. vm_compute. reflexivity. Qed.
Example test_link_triple_subpath_multi_anchor : run_test (lit "[[[MAIN/##/page#toc1|Hash routing]]]") = Parsed (TREE [(EContainer CParagraph [] [(ELink LTPage (LPage (PR None (lit "MAIN"))) (Some (lit "/##/page#toc1")) (LabelText (lit "Hash routing")) None)]); (EFootnoteBlock None false)] [] [] [] [] [] 0 []).
Proof. vm_compute. reflexivity. Qed.
Example test_link_triple_url_whitespace : run_test (lit "[[[ https://example.com/ | Example ]]]") = Parsed (TREE [(EContainer CParagraph [] [(ELink LTDirect (LUrl (lit "https://example.com/")) None (LabelText (lit "Example")) None)]); (EFootnoteBlock None false)] [] [] [] [] [] 0 []).
Proof. vm_compute. reflexivity. Qed.
Example test_link_triple : run_test (lit "[[[SCP-001]]]") = Parsed (TREE [(EContainer CParagraph [] [(ELink LTPage (LPage (PR None (lit "SCP-001"))) None (LabelUrl None) None)]); (EFootnoteBlock None false)] [] [] [] [] [] 0 []).
Proof. vm_compute. reflexivity. Qed.
Example test_list_block_empty_fail : run_test (lit "[[ul]] [[/ul]]") = Parsed (TREE [(EContainer CParagraph [] [(EText (lit "[[")); (EText (lit "ul")); (EText (lit "]]")); (EText (lit " ")); (EText (lit "[[/")); (EText (lit "ul")); (EText (lit "]]"))]); (EFootnoteBlock None false)] [] [] [] [] [] 0 [(PE ListEmpty "block-list-unordered"%string TInputEnd 14 14); (PE NoRulesMatch "fallback"%string TLeftBlock 0 2); (PE NoRulesMatch "fallback"%string TRightBlock 4 6); (PE NoRulesMatch "fallback"%string TLeftBlockEnd 7 10); (PE NoRulesMatch "fallback"%string TRightBlock 12 14)]).
Proof. vm_compute. reflexivity. Qed.
Example test_list_block_non_list_fail : run_test (lit "[[li]] Durian [[/li]]") = Parsed (TREE [(EContainer CParagraph [] [(EText (lit "[[")); (EText (lit "li")); (EText (lit "]]")); (EText (lit " ")); (EText (lit "Durian")); (EText (lit " ")); (EText (lit "[[/")); (EText (lit "li")); (EText (lit "]]"))]); (EFootnoteBlock None false)] [] [] [] [] [] 0 [(PE ListItemOutsideList "page"%string TLeftBlock 0 2); (PE NoRulesMatch "fallback"%string TLeftBlock 0 2); (PE NoRulesMatch "fallback"%string TRightBlock 4 6); (PE NoRulesMatch "fallback"%string TLeftBlockEnd 14 17); (PE NoRulesMatch "fallback"%string TRightBlock 19 21)]).
Proof. vm_compute. reflexivity. Qed.
Example test_list_block_whitespace2 : run_test (lit "[[ul]]
[[li_]]
A
[[/li_]]
[[li]]
B
[[/li]]
[[/ul]]
[[ol_]]
[[li]]C[[/li]]
[[/ol_]]") = Parsed (TREE [(EList LBullet [] [(LIElements [] [(EText (lit "A"))]); (LIElements [] [(EText (lit "B"))])]); (EList LNumbered [] [(LIElements [] [(EText (lit "C"))])]); (EFootnoteBlock None false)] [] [] [] [] [] 0 []).
Proof. vm_compute. reflexivity. Qed.
Example test_list_bullet_elements_both : run_test (lit "* A 1") = Parsed (TREE [(EList LBullet [] [(LIElements [] [(EText (lit "A")); (EText (lit " ")); (EText (lit "1"))])]); (EFootnoteBlock None false)] [] [] [] [] [] 0 []).
Proof. vm_compute. reflexivity. Qed.
Example test_list_bullet_elements_multiple_start : run_test (lit "* A 1
* B 2
* C 3
]") = Parsed (TREE [(EList LBullet [] [(LIElements [] [(EText (lit "A")); (EText (lit " ")); (EText (lit "1"))]); (LIElements [] [(EText (lit "B")); (EText (lit " ")); (EText (lit "2"))]); (LIElements [] [(EText (lit "C")); (EText (lit " ")); (EText (lit "3"))])]); (EContainer CParagraph [] [(EText (lit "]"))]); (EFootnoteBlock None false)] [] [] [] [] [] 0 []).
Proof. vm_compute. reflexivity. Qed.
Example test_list_bullet_end : run_test (lit "[
* A") = Parsed (TREE [(EContainer CParagraph [] [(EText (lit "["))]); (EList LBullet [] [(LIElements [] [(EText (lit "A"))])]); (EFootnoteBlock None false)] [] [] [] [] [] 0 []).
Proof. vm_compute. reflexivity. Qed.
Example test_list_bullet_multiple_start : run_test (lit "* A
* B
* C
]") = Parsed (TREE [(EList LBullet [] [(LIElements [] [(EText (lit "A"))]); (LIElements [] [(EText (lit "B"))]); (LIElements [] [(EText (lit "C"))])]); (EContainer CParagraph [] [(EText (lit "]"))]); (EFootnoteBlock None false)] [] [] [] [] [] 0 []).
Proof. vm_compute. reflexivity. Qed.
Example test_list_bullet : run_test (lit "[
* A
]") = Parsed (TREE [(EContainer CParagraph [] [(EText (lit "["))]); (EList LBullet [] [(LIElements [] [(EText (lit "A"))])]); (EContainer CParagraph [] [(EText (lit "]"))]); (EFootnoteBlock None false)] [] [] [] [] [] 0 []).
Proof. vm_compute. reflexivity. Qed.
Example test_list_mix : run_test (lit "[
* A
# B
* C
* D
]") = Parsed (TREE [(EContainer CParagraph [] [(EText (lit "["))]); (EList LBullet [] [(LIElements [] [(EText (lit "A"))])]); (EList LNumbered [] [(LIElements [] [(EText (lit "B"))])]); (EList LBullet [] [(LIElements [] [(EText (lit "C"))]); (LIElements [] [(EText (lit "D"))])]); (EContainer CParagraph [] [(EText (lit "]"))]); (EFootnoteBlock None false)] [] [] [] [] [] 0 []).
Proof. vm_compute. reflexivity. Qed.
Example test_list_numbered_elements_both : run_test (lit "# A 1") = Parsed (TREE [(EList LNumbered [] [(LIElements [] [(EText (lit "A")); (EText (lit " ")); (EText (lit "1"))])]); (EFootnoteBlock None false)] [] [] [] [] [] 0 []).
Proof. vm_compute. reflexivity. Qed.
Example test_list_numbered_elements_multiple_start : run_test (lit "# A 1
# B 2
# C 3
]") = Parsed (TREE [(EList LNumbered [] [(LIElements [] [(EText (lit "A")); (EText (lit " ")); (EText (lit "1"))]); (LIElements [] [(EText (lit "B")); (EText (lit " ")); (EText (lit "2"))]); (LIElements [] [(EText (lit "C")); (EText (lit " ")); (EText (lit "3"))])]); (EContainer CParagraph [] [(EText (lit "]"))]); (EFootnoteBlock None false)] [] [] [] [] [] 0 []).
Proof. vm_compute. reflexivity. Qed.
Example test_list_numbered_end : run_test (lit "[
# A") = Parsed (TREE [(EContainer CParagraph [] [(EText (lit "["))]); (EList LNumbered [] [(LIElements [] [(EText (lit "A"))])]); (EFootnoteBlock None false)] [] [] [] [] [] 0 []).
Proof. vm_compute. reflexivity. Qed.
Example test_list_numbered_multiple_start : run_test (lit "# A
# B
# C
]") = Parsed (TREE [(EList LNumbered [] [(LIElements [] [(EText (lit "A"))]); (LIElements [] [(EText (lit "B"))]); (LIElements [] [(EText (lit "C"))])]); (EContainer CParagraph [] [(EText (lit "]"))]); (EFootnoteBlock None false)] [] [] [] [] [] 0 []).
Proof. vm_compute. reflexivity. Qed.
Example test_list_numbered : run_test (lit "[
# A
]") = Parsed (TREE [(EContainer CParagraph [] [(EText (lit "["))]); (EList LNumbered [] [(LIElements [] [(EText (lit "A"))])]); (EContainer CParagraph [] [(EText (lit "]"))]); (EFootnoteBlock None false)] [] [] [] [] [] 0 []).
Proof. vm_compute. reflexivity. Qed.
Example test_mark_uppercase : run_test (lit "[[MARk ID =  ""apple"" clASS =""fruit"" stylE=""color: red;""      ]]Apple[[/ MARK  ]]") = Parsed (TREE [(EContainer CParagraph [] [(EContainer CMark [((lit "class"), (lit "fruit")); ((lit "id"), (lit "apple")); ((lit "style"), (lit "color: red;"))] [(EText (lit "Apple"))])]); (EFootnoteBlock None false)] [] [] [] [] [] 0 []).
Proof. vm_compute. reflexivity. Qed.
Example test_math_block_multiple : run_test (lit "Apple
[[math]]
\pi^2
[[/math]]
Banana
[[math]]
\sqrt{n!}
[[/math]]
Cherry") = Parsed (TREE [(EContainer CParagraph [] [(EText (lit "Apple"))]); (EMath None (lit "\pi^2")); (EContainer CParagraph [] [(EText (lit "Banana"))]); (EMath None (lit "\sqrt{n!}")); (EContainer CParagraph [] [(EText (lit "Cherry"))]); (EFootnoteBlock None false)] [] [] [] [] [] 0 []).
Proof. vm_compute. reflexivity. Qed.
Example test_math_inline_fail : run_test (lit "[[$ E =
 mc^2 $]]") = Parsed (TREE [(EContainer CParagraph [] [(EText (lit "[[$")); (EText (lit " ")); (EText (lit "E")); (EText (lit " ")); (EText (lit "=")); ELineBreak; (EText (lit " ")); (EText (lit "mc")); (EText (lit "^")); (EText (lit "2")); (EText (lit " ")); (EText (lit "$]]"))]); (EFootnoteBlock None false)] [] [] [] [] [] 0 [(PE RuleFailed "math"%string TLineBreak 7 8); (PE NoRulesMatch "fallback"%string TLeftMath 0 3); (PE NoRulesMatch "fallback"%string TRightMath 14 17)]).
Proof. vm_compute. reflexivity. Qed.
Example test_module_backlinks_page : run_test (lit "[[module Backlinks page= ""scp-001""]]
Apple") = Parsed (TREE [(EModule (MBacklinks (Some (lit "scp-001")))); (EContainer CParagraph [] [(EText (lit "Apple"))]); (EFootnoteBlock None false)] [] [] [] [] [] 0 []).
Proof. vm_compute. reflexivity. Qed.
Example test_module_categories_shown : run_test (lit "[[module Categories includeHidden = ""true""]]
Apple") = Parsed (TREE [(EModule (MCategories true)); (EContainer CParagraph [] [(EText (lit "Apple"))]); (EFootnoteBlock None false)] [] [] [] [] [] 0 []).
Proof. vm_compute. reflexivity. Qed.
Example test_module_css : run_test (lit "[[module css]]
a { color: blue; }
[[/module]]") = Parsed (TREE [(EStyle (lit "a { color: blue; }")); (EFootnoteBlock None false)] [] [] [] [] [] 0 []).
Proof. vm_compute. reflexivity. Qed.
Example test_module_join_uppercase : run_test (lit "[[ MODule  jOIN ]]
Apple") = Parsed (TREE [(EModule (MJoin None [])); (EContainer CParagraph [] [(EText (lit "Apple"))]); (EFootnoteBlock None false)] [] [] [] [] [] 0 []).
Proof. vm_compute. reflexivity. Qed.
Example test_module_pagetree_options : run_test (lit "[[module PageTree root=""scp-001"" showRoot = ""yes""  depth =""12""]]
Apple") = Parsed (TREE [(EModule (MPageTree (Some (lit "scp-001")) true (Some 12%N))); (EContainer CParagraph [] [(EText (lit "Apple"))]); (EFootnoteBlock None false)] [] [] [] [] [] 0 []).
Proof. vm_compute. reflexivity. Qed.
Example test_module_rate : run_test (lit "[[module Rate]]
Apple") = Parsed (TREE [(EModule MRate); (EContainer CParagraph [] [(EText (lit "Apple"))]); (EFootnoteBlock None false)] [] [] [] [] [] 0 []).
Proof. vm_compute. reflexivity. Qed.
Example test_monospace_block_fail : run_test (lit "[[tt]]Fail Monospace") = Parsed (TREE [(EContainer CParagraph [] [(EText (lit "[[")); (EText (lit "tt")); (EText (lit "]]")); (EText (lit "Fail")); (EText (lit " ")); (EText (lit "Monospace"))]); (EFootnoteBlock None false)] [] [] [] [] [] 0 [(PE EndOfInput "block-monospace"%string TInputEnd 20 20); (PE NoRulesMatch "fallback"%string TLeftBlock 0 2); (PE NoRulesMatch "fallback"%string TRightBlock 4 6)]).
Proof. vm_compute. reflexivity. Qed.
Example test_monospace_fail_left : run_test (lit "{{Fail Monospace") = Parsed (TREE [(EContainer CParagraph [] [(EText (lit "{{")); (EText (lit "Fail")); (EText (lit " ")); (EText (lit "Monospace"))]); (EFootnoteBlock None false)] [] [] [] [] [] 0 [(PE EndOfInput "monospace"%string TInputEnd 16 16); (PE NoRulesMatch "fallback"%string TLeftMonospace 0 2)]).
Proof. vm_compute. reflexivity. Qed.
Example test_paragraph_block_alias : run_test (lit "[[paragraph]]
Apple
[[/paragraph]]") = Parsed (TREE [(EContainer CParagraph [] [(EText (lit "Apple"))]); (EFootnoteBlock None false)] [] [] [] [] [] 0 []).
Proof. vm_compute. reflexivity. Qed.
Example test_paragraph_block_empty : run_test (lit "[[p]]
[[/p]]") = Parsed (TREE [(EFootnoteBlock None false)] [] [] [] [] [] 0 []).
Proof. vm_compute. reflexivity. Qed.
Example test_paragraph_block_multiline : run_test (lit "[[p]]
Apple
Banana
[[/p]]") = Parsed (TREE [(EContainer CParagraph [] [(EText (lit "Apple")); ELineBreak; (EText (lit "Banana"))]); (EFootnoteBlock None false)] [] [] [] [] [] 0 []).
Proof. vm_compute. reflexivity. Qed.
Example test_radio_fail_star : run_test (lit "[[*radio]] Nameless") = Parsed (TREE [(EContainer CParagraph [] [(EText (lit "[[*")); (EText (lit "radio")); (EText (lit "]]")); (EText (lit " ")); (EText (lit "Nameless"))]); (EFootnoteBlock None false)] [] [] [] [] [] 0 [(PE BlockMissingName "block-radio"%string TIdentifier 11 19); (PE NoRulesMatch "fallback"%string TLeftBlockStar 0 3); (PE NoRulesMatch "fallback"%string TRightBlock 8 10)]).
Proof. vm_compute. reflexivity. Qed.
Example test_radio_uppercase : run_test (lit "[[RADIO fruit]] Apple
[[Radio fruit]] Banana
[[raDIo vegetable]] Celery
[[raDIO vegetable]] Zucchini") = Parsed (TREE [(EContainer CParagraph [] [(ERadioButton (lit "fruit") false []); (EText (lit "Apple")); ELineBreak; (ERadioButton (lit "fruit") false []); (EText (lit "Banana")); ELineBreak; (ERadioButton (lit "vegetable") false []); (EText (lit "Celery")); ELineBreak; (ERadioButton (lit "vegetable") false []); (EText (lit "Zucchini"))]); (EFootnoteBlock None false)] [] [] [] [] [] 0 []).
Proof. vm_compute. reflexivity. Qed.
Example test_raw_2 : run_test (lit "@@@@@@") = Parsed (TREE [(EContainer CParagraph [] [(ERaw (lit "@@"))]); (EFootnoteBlock None false)] [] [] [] [] [] 0 []).
Proof. vm_compute. reflexivity. Qed.
Example test_raw_fail_newline : run_test (lit "interrupted @@
@@") = Parsed (TREE [(EContainer CParagraph [] [(EText (lit "interrupted")); (EText (lit " ")); (EText (lit "@@")); ELineBreak; (EText (lit "@@"))]); (EFootnoteBlock None false)] [] [] [] [] [] 0 [(PE RuleFailed "raw"%string TRaw 12 14); (PE NoRulesMatch "fallback"%string TRaw 12 14); (PE EndOfInput "raw"%string TRaw 15 17); (PE NoRulesMatch "fallback"%string TRaw 15 17)]).
Proof. vm_compute. reflexivity. Qed.
Example test_raw_test_1 : run_test (lit "Test @@@@@ String") = Parsed (TREE [(EContainer CParagraph [] [(EText (lit "Test")); (EText (lit " ")); (ERaw (lit "@")); (EText (lit " ")); (EText (lit "String"))]); (EFootnoteBlock None false)] [] [] [] [] [] 0 []).
Proof. vm_compute. reflexivity. Qed.
Example test_ruby_attributes : run_test [91%N; 91%N; 114%N; 117%N; 98%N; 121%N; 32%N; 99%N; 108%N; 97%N; 115%N; 115%N; 61%N; 34%N; 97%N; 112%N; 112%N; 108%N; 101%N; 34%N; 32%N; 105%N; 100%N; 61%N; 34%N; 99%N; 104%N; 97%N; 114%N; 97%N; 99%N; 116%N; 101%N; 114%N; 34%N; 93%N; 93%N; 35486%N; 32%N; 91%N; 91%N; 114%N; 116%N; 32%N; 99%N; 108%N; 97%N; 115%N; 115%N; 61%N; 34%N; 98%N; 97%N; 110%N; 97%N; 110%N; 97%N; 34%N; 32%N; 115%N; 116%N; 121%N; 108%N; 101%N; 61%N; 34%N; 102%N; 111%N; 110%N; 116%N; 45%N; 115%N; 105%N; 122%N; 101%N; 58%N; 32%N; 49%N; 50%N; 53%N; 37%N; 59%N; 34%N; 93%N; 93%N; 103%N; 111%N; 91%N; 91%N; 47%N; 114%N; 116%N; 93%N; 93%N; 91%N; 91%N; 47%N; 114%N; 117%N; 98%N; 121%N; 93%N; 93%N] = Parsed (TREE [(EContainer CParagraph [] [(EContainer CRuby [((lit "class"), (lit "apple")); ((lit "id"), (lit "character"))] [(EText [35486%N]); (EText (lit " ")); (EContainer CRubyText [((lit "class"), (lit "banana")); ((lit "style"), (lit "font-size: 125%;"))] [(EText (lit "go"))])])]); (EFootnoteBlock None false)] [] [] [] [] [] 0 []).
Proof. vm_compute. reflexivity. Qed.
Example test_ruby_newlines : run_test [91%N; 91%N; 114%N; 117%N; 98%N; 121%N; 93%N; 93%N; 10%N; 28450%N; 32%N; 91%N; 91%N; 114%N; 116%N; 93%N; 93%N; 107%N; 97%N; 110%N; 91%N; 91%N; 47%N; 114%N; 116%N; 93%N; 93%N; 10%N; 23383%N; 32%N; 91%N; 91%N; 114%N; 116%N; 93%N; 93%N; 106%N; 105%N; 91%N; 91%N; 47%N; 114%N; 116%N; 93%N; 93%N; 10%N; 91%N; 91%N; 47%N; 114%N; 117%N; 98%N; 121%N; 93%N; 93%N] = Parsed (TREE [(EContainer CParagraph [] [(EContainer CRuby [] [(EText [28450%N]); (EText (lit " ")); (EContainer CRubyText [] [(EText (lit "kan"))]); ELineBreak; (EText [23383%N]); (EText (lit " ")); (EContainer CRubyText [] [(EText (lit "ji"))])])]); (EFootnoteBlock None false)] [] [] [] [] [] 0 []).
Proof. vm_compute. reflexivity. Qed.
Example test_ruby2_fail_pipe_0 : run_test [91%N; 91%N; 114%N; 98%N; 32%N; 35486%N; 32%N; 103%N; 111%N; 93%N; 93%N] = Parsed (TREE [(EContainer CParagraph [] [(EText (lit "[[")); (EText (lit "rb")); (EText (lit " ")); (EText [35486%N]); (EText (lit " ")); (EText (lit "go")); (EText (lit "]]"))]); (EFootnoteBlock None false)] [] [] [] [] [] 0 [(PE BlockMalformedArguments "block-ruby-short"%string TInputEnd 13 13); (PE NoRulesMatch "fallback"%string TLeftBlock 0 2); (PE NoRulesMatch "fallback"%string TRightBlock 11 13)]).
Proof. vm_compute. reflexivity. Qed.
Example test_ruby2_fail : run_test [91%N; 91%N; 114%N; 98%N; 32%N; 35486%N; 124%N; 103%N; 111%N] = Parsed (TREE [(EContainer CParagraph [] [(EText (lit "[[")); (EText (lit "rb")); (EText (lit " ")); (EText [35486%N]); (EText (lit "|")); (EText (lit "go"))]); (EFootnoteBlock None false)] [] [] [] [] [] 0 [(PE EndOfInput "block-ruby-short"%string TInputEnd 11 11); (PE NoRulesMatch "fallback"%string TLeftBlock 0 2)]).
Proof. vm_compute. reflexivity. Qed.
Example test_simple_newline : run_test (lit "
") = Parsed (TREE [(EFootnoteBlock None false)] [] [] [] [] [] 0 []).
Proof. vm_compute. reflexivity. Qed.
Example test_size_fail : run_test (lit "[[size 12pt]]Durian[[/sz]]") = Parsed (TREE [(EContainer CParagraph [] [(EText (lit "[[")); (EText (lit "size")); (EText (lit " ")); (EText (lit "12pt")); (EText (lit "]]")); (EText (lit "Durian")); (EText (lit "[[/")); (EText (lit "sz")); (EText (lit "]]"))]); (EFootnoteBlock None false)] [] [] [] [] [] 0 [(PE EndOfInput "block-size"%string TInputEnd 26 26); (PE NoRulesMatch "fallback"%string TLeftBlock 0 2); (PE NoRulesMatch "fallback"%string TRightBlock 11 13); (PE NoRulesMatch "fallback"%string TLeftBlockEnd 19 22); (PE NoRulesMatch "fallback"%string TRightBlock 24 26)]).
Proof. vm_compute. reflexivity. Qed.
Example test_spaces : run_test (lit "  ") = Parsed (TREE [(EFootnoteBlock None false)] [] [] [] [] [] 0 []).
Proof. vm_compute. reflexivity. Qed.
Example test_span_newlines : run_test (lit "[[span]]
Banana
Cherry
[[/span]]") = Parsed (TREE [(EContainer CParagraph [] [(EContainer CSpan [] [ELineBreak; (EText (lit "Banana")); ELineBreak; (EText (lit "Cherry")); ELineBreak])]); (EFootnoteBlock None false)] [] [] [] [] [] 0 []).
Proof. vm_compute. reflexivity. Qed.
Example test_span2_empty : run_test (lit "[[span_]][[/span]]") = Parsed (TREE [(EContainer CParagraph [] [(EContainer CSpan [] [])]); (EFootnoteBlock None false)] [] [] [] [] [] 0 []).
Proof. vm_compute. reflexivity. Qed.
Example test_span2_style : run_test (lit "[[span_ id=""banana"" class=""fruit"" style=""color: yellow;"" data-fruit=""!red""]]Banana[[/span]]") = Parsed (TREE [(EContainer CParagraph [] [(EContainer CSpan [((lit "class"), (lit "fruit")); ((lit "data-fruit"), (lit "!red")); ((lit "id"), (lit "banana")); ((lit "style"), (lit "color: yellow;"))] [(EText (lit "Banana"))])]); (EFootnoteBlock None false)] [] [] [] [] [] 0 []).
Proof. vm_compute. reflexivity. Qed.
Example test_strikethrough_block_empty : run_test (lit "Empty [[s]][[/s]]") = Parsed (TREE [(EContainer CParagraph [] [(EText (lit "Empty")); (EText (lit " ")); (EContainer CStrikethrough [] [])]); (EFootnoteBlock None false)] [] [] [] [] [] 0 []).
Proof. vm_compute. reflexivity. Qed.
Example test_strikethrough_block : run_test (lit "[[s]]Strikethrough[[/s]] Text") = Parsed (TREE [(EContainer CParagraph [] [(EContainer CStrikethrough [] [(EText (lit "Strikethrough"))]); (EText (lit " ")); (EText (lit "Text"))]); (EFootnoteBlock None false)] [] [] [] [] [] 0 []).
Proof. vm_compute. reflexivity. Qed.
Example test_strikethrough : run_test (lit "--Strikethrough-- Text") = Parsed (TREE [(EContainer CParagraph [] [(EContainer CStrikethrough [] [(EText (lit "Strikethrough"))]); (EText (lit " ")); (EText (lit "Text"))]); (EFootnoteBlock None false)] [] [] [] [] [] 0 []).
Proof. vm_compute. reflexivity. Qed.
Example test_subscript_block_fail : run_test (lit "[[sub]]Fail Subscript") = Parsed (TREE [(EContainer CParagraph [] [(EText (lit "[[")); (EText (lit "sub")); (EText (lit "]]")); (EText (lit "Fail")); (EText (lit " ")); (EText (lit "Subscript"))]); (EFootnoteBlock None false)] [] [] [] [] [] 0 [(PE EndOfInput "block-subscript"%string TInputEnd 21 21); (PE NoRulesMatch "fallback"%string TLeftBlock 0 2); (PE NoRulesMatch "fallback"%string TRightBlock 5 7)]).
Proof. vm_compute. reflexivity. Qed.
Example test_subscript_empty : run_test (lit "Empty ,,,,") = Parsed (TREE [(EContainer CParagraph [] [(EText (lit "Empty")); (EText (lit " ")); (EContainer CSubscript [] [])]); (EFootnoteBlock None false)] [] [] [] [] [] 0 []).
Proof. vm_compute. reflexivity. Qed.
Example test_superscript_block_alias_2 : run_test (lit "[[superscript]]Test![[/superscript]]") = Parsed (TREE [(EContainer CParagraph [] [(EContainer CSuperscript [] [(EText (lit "Test")); (EText (lit "!"))])]); (EFootnoteBlock None false)] [] [] [] [] [] 0 []).
Proof. vm_compute. reflexivity. Qed.
Example test_superscript_block_paragraph : run_test (lit "[[sup]]Paragraph

Superscript[[/sup]]") = Parsed (TREE [(EContainer CParagraph [] [(EContainer CSuperscript [] [(EText (lit "Paragraph")); ELineBreak; (EText (lit "Superscript"))])]); (EFootnoteBlock None false)] [] [] [] [] [] 0 []).
Proof. vm_compute. reflexivity. Qed.
Example test_superscript : run_test (lit "^^Superscript^^ Text") = Parsed (TREE [(EContainer CParagraph [] [(EContainer CSuperscript [] [(EText (lit "Superscript"))]); (EText (lit " ")); (EText (lit "Text"))]); (EFootnoteBlock None false)] [] [] [] [] [] 0 []).
Proof. vm_compute. reflexivity. Qed.
Example test_table_advanced_empty_row : run_test (lit "[[table]]
[[row]]
[[/row]]
[[/table]]") = Parsed (TREE [(ETable [] [(TR [] [])]); (EFootnoteBlock None false)] [] [] [] [] [] 0 []).
Proof. vm_compute. reflexivity. Qed.
Example test_table_advanced_fail_table_cell : run_test (lit "[[table]] [[cell]] Cell content here [[/cell]] [[/table]]") = Parsed (TREE [(EContainer CParagraph [] [(EText (lit "[[")); (EText (lit "table")); (EText (lit "]]")); (EText (lit " ")); (EText (lit "[[")); (EText (lit "cell")); (EText (lit "]]")); (EText (lit " ")); (EText (lit "Cell")); (EText (lit " ")); (EText (lit "content")); (EText (lit " ")); (EText (lit "here")); (EText (lit " ")); (EText (lit "[[/")); (EText (lit "cell")); (EText (lit "]]")); (EText (lit " ")); (EText (lit "[[/")); (EText (lit "table")); (EText (lit "]]"))]); (EFootnoteBlock None false)] [] [] [] [] [] 0 [(PE TableContainsNonRow "block-table"%string TInputEnd 57 57); (PE NoRulesMatch "fallback"%string TLeftBlock 0 2); (PE NoRulesMatch "fallback"%string TRightBlock 7 9); (PE TableCellOutsideTable "page"%string TLeftBlock 10 12); (PE NoRulesMatch "fallback"%string TLeftBlock 10 12); (PE NoRulesMatch "fallback"%string TRightBlock 16 18); (PE NoRulesMatch "fallback"%string TLeftBlockEnd 37 40); (PE NoRulesMatch "fallback"%string TRightBlock 44 46); (PE NoRulesMatch "fallback"%string TLeftBlockEnd 47 50); (PE NoRulesMatch "fallback"%string TRightBlock 55 57)]).
Proof. vm_compute. reflexivity. Qed.
Example test_table_advanced_nested : run_test (lit "[[table]][[row]][[cell]][[table]][[row]][[cell]]A[[/cell]][[/row]][[/table]][[/cell]][[/row]][[/table]]") = Parsed (TREE [(ETable [] [(TR [] [(TC false 1%N None [] [(ETable [] [(TR [] [(TC false 1%N None [] [(EText (lit "A"))])])])])])]); (EFootnoteBlock None false)] [] [] [] [] [] 0 []).
Proof. vm_compute. reflexivity. Qed.
Example test_table_simple_elements : run_test (lit "[

||~ **Bold** stuff, //and also// ##blue|color##! ||
||No_spaces||
||<[[span style=""font-weight: bold;""]]SPAN[[/span]] ||

]") = Parsed (TREE [(EContainer CParagraph [] [(EText (lit "["))]); (ETable [((lit "class"), (lit "wj-table"))] [(TR [] [(TC true 1%N None [] [(EContainer CBold [] [(EText (lit "Bold"))]); (EText (lit " ")); (EText (lit "stuff")); (EText (lit ",")); (EText (lit " ")); (EContainer CItalics [] [(EText (lit "and")); (EText (lit " ")); (EText (lit "also"))]); (EText (lit " ")); (EColor (lit "blue") [(EText (lit "color"))]); (EText (lit "!"))])]); (TR [] [(TC false 1%N None [] [(EText (lit "No")); (EText (lit "_")); (EText (lit "spaces"))])]); (TR [] [(TC false 1%N (Some AlLeft) [] [(EContainer CSpan [((lit "style"), (lit "font-weight: bold;"))] [(EText (lit "SPAN"))])])])]); (EContainer CParagraph [] [(EText (lit "]"))]); (EFootnoteBlock None false)] [] [] [] [] [] 0 []).
Proof. vm_compute. reflexivity. Qed.
Example test_table_simple_fail : run_test (lit "|| Cell") = Parsed (TREE [(EContainer CParagraph [] [(EText (lit "||")); (EText (lit " ")); (EText (lit "Cell"))]); (EFootnoteBlock None false)] [] [] [] [] [] 0 [(PE RuleFailed "table"%string TInputEnd 7 7); (PE NoRulesMatch "fallback"%string TTableColumn 0 2)]).
Proof. vm_compute. reflexivity. Qed.
Example test_table_simple : run_test (lit "|| Cell ||") = Parsed (TREE [(ETable [((lit "class"), (lit "wj-table"))] [(TR [] [(TC false 1%N None [] [(EText (lit "Cell"))])])]); (EFootnoteBlock None false)] [] [] [] [] [] 0 []).
Proof. vm_compute. reflexivity. Qed.
Example test_tabview_fail : run_test (lit "[[tabview xyz]]
[[tab 1]]
A
[[/tab]]
[[/tabview]]") = Parsed (TREE [(EContainer CParagraph [] [(EText (lit "[[")); (EText (lit "tabview")); (EText (lit " ")); (EText (lit "xyz")); (EText (lit "]]")); (EText (lit "[[")); (EText (lit "tab")); (EText (lit " ")); (EText (lit "1")); (EText (lit "]]")); ELineBreak; (EText (lit "A")); ELineBreak; (EText (lit "[[/")); (EText (lit "tab")); (EText (lit "]]")); ELineBreak; (EText (lit "[[/")); (EText (lit "tabview")); (EText (lit "]]"))]); (EFootnoteBlock None false)] [] [] [] [] [] 0 [(PE BlockMissingCloseBrackets "block-tabview"%string TIdentifier 10 13); (PE NoRulesMatch "fallback"%string TLeftBlock 0 2); (PE NoRulesMatch "fallback"%string TRightBlock 13 15); (PE TabOutsideTabView "page"%string TLeftBlock 16 18); (PE NoRulesMatch "fallback"%string TLeftBlock 16 18); (PE NoRulesMatch "fallback"%string TRightBlock 23 25); (PE NoRulesMatch "fallback"%string TLeftBlockEnd 28 31); (PE NoRulesMatch "fallback"%string TRightBlock 34 36); (PE NoRulesMatch "fallback"%string TLeftBlockEnd 37 40); (PE NoRulesMatch "fallback"%string TRightBlock 47 49)]).
Proof. vm_compute. reflexivity. Qed.
Example test_tabview_single : run_test (lit "[[tabview]]
[[tab Single]]
Data
[[/tab]]
[[/tabview]]") = Parsed (TREE [(ETabView [(TB (lit "Single") [(EContainer CParagraph [] [(EText (lit "Data"))])])]); (EFootnoteBlock None false)] [] [] [] [] [] 0 []).
Proof. vm_compute. reflexivity. Qed.
Example test_target_fail_empty : run_test (lit "[[target ]]") = Parsed (TREE [(EContainer CParagraph [] [(EText (lit "[[")); (EText (lit "target")); (EText (lit " ")); (EText (lit "]]"))]); (EFootnoteBlock None false)] [] [] [] [] [] 0 [(PE BlockMissingArguments "block-target"%string TInputEnd 11 11); (PE NoRulesMatch "fallback"%string TLeftBlock 0 2); (PE NoRulesMatch "fallback"%string TRightBlock 9 11)]).
Proof. vm_compute. reflexivity. Qed.
Example test_target_newline : run_test (lit "[[target apple]]
[[target banana]]
[[target cherry]]") = Parsed (TREE [(EContainer CParagraph [] [(EAnchorName (lit "apple")); (EAnchorName (lit "banana")); (EAnchorName (lit "cherry"))]); (EFootnoteBlock None false)] [] [] [] [] [] 0 []).
Proof. vm_compute. reflexivity. Qed.
Example test_toc_attributes : run_test (lit "+ A
[[toc class=""big-box"" style=""color: blue;""]] X") = Parsed (TREE [(EContainer (CHeader (HD 1 true)) [] [(EText (lit "A"))]); (ETableOfContents [((lit "class"), (lit "big-box")); ((lit "style"), (lit "color: blue;"))] None); (EContainer CParagraph [] [(EText (lit " ")); (EText (lit "X"))]); (EFootnoteBlock None false)] [(EList LBullet [] [(LIElements [] [(ELink LTTableOfContents (LUrl (lit "#toc0")) None (LabelText (lit "A")) None)])])] [] [] [] [] 0 []).
Proof. vm_compute. reflexivity. Qed.
Example test_underline_block_alias_1 : run_test (lit "[[underline]]Test![[/underline]]") = Parsed (TREE [(EContainer CParagraph [] [(EContainer CUnderline [] [(EText (lit "Test")); (EText (lit "!"))])]); (EFootnoteBlock None false)] [] [] [] [] [] 0 []).
Proof. vm_compute. reflexivity. Qed.
Example test_underline_block_paragraph : run_test (lit "[[u]]Paragraph

Underline[[/u]]") = Parsed (TREE [(EContainer CParagraph [] [(EContainer CUnderline [] [(EText (lit "Paragraph")); ELineBreak; (EText (lit "Underline"))])]); (EFootnoteBlock None false)] [] [] [] [] [] 0 []).
Proof. vm_compute. reflexivity. Qed.
Example test_underline_fail : run_test (lit "__Fail Underline") = Parsed (TREE [(EContainer CParagraph [] [(EText (lit "__")); (EText (lit "Fail")); (EText (lit " ")); (EText (lit "Underline"))]); (EFootnoteBlock None false)] [] [] [] [] [] 0 [(PE EndOfInput "underline"%string TInputEnd 16 16); (PE NoRulesMatch "fallback"%string TUnderline 0 2)]).
Proof. vm_compute. reflexivity. Qed.
Example test_underscore_line_break_multiple : run_test (lit "Apple _
Banana _
Cherry Pineapple _
Mango") = Parsed (TREE [(EContainer CParagraph [] [(EText (lit "Apple")); ELineBreak; (EText (lit "Banana")); ELineBreak; (EText (lit "Cherry")); (EText (lit " ")); (EText (lit "Pineapple")); ELineBreak; (EText (lit "Mango"))]); (EFootnoteBlock None false)] [] [] [] [] [] 0 []).
Proof. vm_compute. reflexivity. Qed.
Example test_user_star : run_test (lit "[[*user admin]]
Banana") = Parsed (TREE [(EContainer CParagraph [] [(EUser (lit "admin") true); ELineBreak; (EText (lit "Banana"))]); (EFootnoteBlock None false)] [] [] [] [] [] 0 []).
Proof. vm_compute. reflexivity. Qed.

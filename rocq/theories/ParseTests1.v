(** ParseTests1.v -- generated by tools/conformance.py from the repository's AST tests (/repo/test/*.json):
    the modelled include, preprocess, tokenize and parse applied to each test's input give the tree
    and the errors the repository expects.  These are tests of the model, not proofs. *)
From Verif Require Import Base Strings Links Attr Preproc Includes Lexer Depth Tree Text Toc PState Blocks Rules Parse ParseTestEnv.
Example test_align_center : run_test (lit "[[=]]
Apple
[[/=]]") = Parsed (TREE [(EContainer (CAlign AlCenter) [] [(EContainer CParagraph [] [(EText (lit "Apple"))])]); (EFootnoteBlock None false)] [] [] [] [] [] 0 []).
Proof. vm_compute. reflexivity. Qed.
Example test_align_left : run_test (lit "[[<]]
Blueberry
[[/<]]") = Parsed (TREE [(EContainer (CAlign AlLeft) [] [(EContainer CParagraph [] [(EText (lit "Blueberry"))])]); (EFootnoteBlock None false)] [] [] [] [] [] 0 []).
Proof. vm_compute. reflexivity. Qed.
Example test_anchor_alias_wrap : run_test (lit "[[anchor]]Internal //elements//[[/anchor]]") = Parsed (TREE [(EContainer CParagraph [] [(EAnchor None [] [(EText (lit "Internal")); (EText (lit " ")); (EContainer CItalics [] [(EText (lit "elements"))])])]); (EFootnoteBlock None false)] [] [] [] [] [] 0 []).
Proof. vm_compute. reflexivity. Qed.
Example test_anchor_name_fail_space : run_test (lit "[[#apple]]") = Parsed (TREE [(EContainer CParagraph [] [(EText (lit "[[#")); (EText (lit "apple")); (EText (lit "]]"))]); (EFootnoteBlock None false)] [] [] [] [] [] 0 [(PE RuleFailed "anchor"%string TIdentifier 3 8); (PE NoRulesMatch "fallback"%string TLeftBlockAnchor 0 3); (PE NoRulesMatch "fallback"%string TRightBlock 8 10)]).
Proof. vm_compute. reflexivity. Qed.
Example test_anchor_name_space : run_test (lit "[[#   apple]]") = Parsed (TREE [(EContainer CParagraph [] [(EAnchorName (lit "apple"))]); (EFootnoteBlock None false)] [] [] [] [] [] 0 []).
Proof. vm_compute. reflexivity. Qed.
Example test_anchor_star : run_test (lit "[[*a href=""https://example.com"" style=""color: red;""]]My link[[/a]]") = Parsed (TREE [(EContainer CParagraph [] [(EAnchor (Some ATNewTab) [((lit "href"), (lit "https://example.com")); ((lit "style"), (lit "color: red;"))] [(EText (lit "My")); (EText (lit " ")); (EText (lit "link"))])]); (EFootnoteBlock None false)] [] [] [] [] [] 0 []).
Proof. vm_compute. reflexivity. Qed.
Example test_anchor_xss : run_test (lit "[[a href=""javascript:alert('XSS!')""]]My not-suspicious link[[/a]]") = Parsed (TREE [(EContainer CParagraph [] [(EAnchor None [((lit "href"), (lit "#invalid-url"))] [(EText (lit "My")); (EText (lit " ")); (EText (lit "not")); (EText (lit "-")); (EText (lit "suspicious")); (EText (lit " ")); (EText (lit "link"))])]); (EFootnoteBlock None false)] [] [] [] [] [] 0 []).
Proof. vm_compute. reflexivity. Qed.
Example test_anchor2_alias_wrap : run_test (lit "[[anchor_]]Internal //elements//[[/anchor]]") = Parsed (TREE [(EContainer CParagraph [] [(EAnchor None [] [(EText (lit "Internal")); (EText (lit " ")); (EContainer CItalics [] [(EText (lit "elements"))])])]); (EFootnoteBlock None false)] [] [] [] [] [] 0 []).
Proof. vm_compute. reflexivity. Qed.
Example test_anchor2_newlines : run_test (lit "[[a_]]
Apple
Banana
[[/a]]") = Parsed (TREE [(EContainer CParagraph [] [(EAnchor None [] [(EText (lit "Apple")); ELineBreak; (EText (lit "Banana"))])]); (EFootnoteBlock None false)] [] [] [] [] [] 0 []).
Proof. vm_compute. reflexivity. Qed.
Example test_anchor2_wrap : run_test (lit "[[a_]]Internal **elements**[[/a]]") = Parsed (TREE [(EContainer CParagraph [] [(EAnchor None [] [(EText (lit "Internal")); (EText (lit " ")); (EContainer CBold [] [(EText (lit "elements"))])])]); (EFootnoteBlock None false)] [] [] [] [] [] 0 []).
Proof. vm_compute. reflexivity. Qed.
Example test_blockquote_alias_empty : run_test (lit "[[quote]]
[[/quote]]") = Parsed (TREE [(EContainer CBlockquote [] []); (EFootnoteBlock None false)] [] [] [] [] [] 0 []).
Proof. vm_compute. reflexivity. Qed.
Example test_blockquote_empty_2 : run_test (lit "A
[[blockquote]]
[[/blockquote]]
B") = Parsed (TREE [(EContainer CParagraph [] [(EText (lit "A"))]); (EContainer CBlockquote [] []); (EContainer CParagraph [] [(EText (lit "B"))]); (EFootnoteBlock None false)] [] [] [] [] [] 0 []).
Proof. vm_compute. reflexivity. Qed.
Example test_blockquote_inline : run_test (lit "[[blockquote]]Apple[[/blockquote]]") = Parsed (TREE [(EContainer CBlockquote [] [(EContainer CParagraph [] [(EText (lit "Apple"))])]); (EFootnoteBlock None false)] [] [] [] [] [] 0 []).
Proof. vm_compute. reflexivity. Qed.
Example test_blockquote_native_end : run_test (lit "> Apple
]") = Parsed (TREE [(EContainer CBlockquote [] [(EContainer CParagraph [] [(EText (lit "Apple"))])]); (EContainer CParagraph [] [(EText (lit "]"))]); (EFootnoteBlock None false)] [] [] [] [] [] 0 []).
Proof. vm_compute. reflexivity. Qed.
Example test_blockquote_native_spaces_multiple : run_test (lit ">Apple
>Banana
>Cherry") = Parsed (TREE [(EContainer CBlockquote [] [(EContainer CParagraph [] [(EText (lit "Apple")); ELineBreak; (EText (lit "Banana")); ELineBreak; (EText (lit "Cherry"))])]); (EFootnoteBlock None false)] [] [] [] [] [] 0 []).
Proof. vm_compute. reflexivity. Qed.
Example test_blockquote_nested_deep : run_test (lit "[[blockquote]]
A
[[blockquote]]
B
[[blockquote]]
C
[[blockquote]]
D
[[/blockquote]]
[[/blockquote]]
[[/blockquote]]
[[/blockquote]]") = Parsed (TREE [(EContainer CBlockquote [] [(EContainer CParagraph [] [(EText (lit "A"))]); (EContainer CBlockquote [] [(EContainer CParagraph [] [(EText (lit "B"))]); (EContainer CBlockquote [] [(EContainer CParagraph [] [(EText (lit "C"))]); (EContainer CBlockquote [] [(EContainer CParagraph [] [(EText (lit "D"))])])])])]); (EFootnoteBlock None false)] [] [] [] [] [] 0 []).
Proof. vm_compute. reflexivity. Qed.
Example test_blockquote : run_test (lit "[[blockquote]]
Apple
[[/blockquote]]") = Parsed (TREE [(EContainer CBlockquote [] [(EContainer CParagraph [] [(EText (lit "Apple"))])]); (EFootnoteBlock None false)] [] [] [] [] [] 0 []).
Proof. vm_compute. reflexivity. Qed.
Example test_bold_block_fail : run_test (lit "[[b]]Fail Bold") = Parsed (TREE [(EContainer CParagraph [] [(EText (lit "[[")); (EText (lit "b")); (EText (lit "]]")); (EText (lit "Fail")); (EText (lit " ")); (EText (lit "Bold"))]); (EFootnoteBlock None false)] [] [] [] [] [] 0 [(PE EndOfInput "block-bold"%string TInputEnd 14 14); (PE NoRulesMatch "fallback"%string TLeftBlock 0 2); (PE NoRulesMatch "fallback"%string TRightBlock 3 5)]).
Proof. vm_compute. reflexivity. Qed.
Example test_bold_empty : run_test (lit "Empty ****") = Parsed (TREE [(EContainer CParagraph [] [(EText (lit "Empty")); (EText (lit " ")); (EContainer CBold [] [])]); (EFootnoteBlock None false)] [] [] [] [] [] 0 []).
Proof. vm_compute. reflexivity. Qed.
Example test_bold_italics : run_test (lit "**Apple //Banana//** Cherry") = Parsed (TREE [(EContainer CParagraph [] [(EContainer CBold [] [(EText (lit "Apple")); (EText (lit " ")); (EContainer CItalics [] [(EText (lit "Banana"))])]); (EText (lit " ")); (EText (lit "Cherry"))]); (EFootnoteBlock None false)] [] [] [] [] [] 0 []).
Proof. vm_compute. reflexivity. Qed.
Example test_center_begin : run_test (lit "= Apple
") = Parsed (TREE [(EContainer (CAlign AlCenter) [] [(EText (lit "Apple"))]); (EFootnoteBlock None false)] [] [] [] [] [] 0 []).
Proof. vm_compute. reflexivity. Qed.
Example test_center : run_test (lit "
= Apple
") = Parsed (TREE [(EContainer (CAlign AlCenter) [] [(EText (lit "Apple"))]); (EFootnoteBlock None false)] [] [] [] [] [] 0 []).
Proof. vm_compute. reflexivity. Qed.
Example test_char_name : run_test (lit "[[char copy]] pineapple") = Parsed (TREE [(EContainer CParagraph [] [(EText [169%N]); (EText (lit " ")); (EText (lit "pineapple"))]); (EFootnoteBlock None false)] [] [] [] [] [] 0 []).
Proof. vm_compute. reflexivity. Qed.
Example test_char2_hex : run_test (lit "[[char &#x1f980;]] pineapple") = Parsed (TREE [(EContainer CParagraph [] [(EText [129408%N]); (EText (lit " ")); (EText (lit "pineapple"))]); (EFootnoteBlock None false)] [] [] [] [] [] 0 []).
Proof. vm_compute. reflexivity. Qed.
Example test_char2 : run_test (lit "[[char &amp;]] pineapple") = Parsed (TREE [(EContainer CParagraph [] [(EText (lit "&")); (EText (lit " ")); (EText (lit "pineapple"))]); (EFootnoteBlock None false)] [] [] [] [] [] 0 []).
Proof. vm_compute. reflexivity. Qed.
Example test_checkbox_uppercase : run_test (lit "[[chECKBOX]] Apple
[[checkBOX]] Banana
[[CHECKBOx]] Cherry") = Parsed (TREE [(EContainer CParagraph [] [(ECheckBox false []); (EText (lit "Apple")); ELineBreak; (ECheckBox false []); (EText (lit "Banana")); ELineBreak; (ECheckBox false []); (EText (lit "Cherry"))]); (EFootnoteBlock None false)] [] [] [] [] [] 0 []).
Proof. vm_compute. reflexivity. Qed.
Example test_clear_float_4 : run_test (lit "~~~~
Clear float") = Parsed (TREE [(EClearFloat CFBoth); (EContainer CParagraph [] [(EText (lit "Clear")); (EText (lit " ")); (EText (lit "float"))]); (EFootnoteBlock None false)] [] [] [] [] [] 0 []).
Proof. vm_compute. reflexivity. Qed.
Example test_code_block : run_test (lit "[[code]]
[[div]]
test
[[/div]]
[[/code]]") = Parsed (TREE [(ECode (lit "[[div]]
test
[[/div]]") None); (EFootnoteBlock None false)] [] [] [(CB (lit "[[div]]
test
[[/div]]") None)] [] [] 0 []).
Proof. vm_compute. reflexivity. Qed.
Example test_code_fail_tail : run_test (lit "a { display: none; } [[/code]]") = Parsed (TREE [(EContainer CParagraph [] [(EText (lit "a")); (EText (lit " ")); (EText (lit "{")); (EText (lit " ")); (EText (lit "display")); (EText (lit ":")); (EText (lit " ")); (EText (lit "none")); (EText (lit ";")); (EText (lit " ")); (EText (lit "}")); (EText (lit " ")); (EText (lit "[[/")); (EText (lit "code")); (EText (lit "]]"))]); (EFootnoteBlock None false)] [] [] [] [] [] 0 [(PE NoRulesMatch "fallback"%string TLeftBlockEnd 21 24); (PE NoRulesMatch "fallback"%string TRightBlock 28 30)]).
Proof. vm_compute. reflexivity. Qed.
Example test_code_language_empty : run_test (lit "[[code type=""css""]]
[[/code]]") = Parsed (TREE [(ECode [] (Some (lit "css"))); (EFootnoteBlock None false)] [] [] [(CB [] None)] [] [] 0 []).
Proof. vm_compute. reflexivity. Qed.
Example test_code_name : run_test (lit "[[code name=""a""]]
FOO
[[/code]]

[[code]]
BAR
[[/code]]

[[code name=""b"" type=""java""]]
BAZ
[[/code]]") = Parsed (TREE [(ECode (lit "FOO") None); (ECode (lit "BAR") None); (ECode (lit "BAZ") (Some (lit "java"))); (EFootnoteBlock None false)] [] [] [(CB (lit "FOO") (Some (lit "a"))); (CB (lit "BAR") None); (CB (lit "BAZ") (Some (lit "b")))] [] [] 0 []).
Proof. vm_compute. reflexivity. Qed.
Example test_collapsible_empty : run_test (lit "[[collapsible]]
[[/collapsible]]") = Parsed (TREE [(ECollapsible [] [] false None None true false); (EFootnoteBlock None false)] [] [] [] [] [] 0 []).
Proof. vm_compute. reflexivity. Qed.
Example test_collapsible_location_both : run_test (lit "[[collapsible HIDELOCATION=""both""]]
Cherry
[[/collapsible]]") = Parsed (TREE [(ECollapsible [(EContainer CParagraph [] [(EText (lit "Cherry"))])] [] false None None true true); (EFootnoteBlock None false)] [] [] [] [] [] 0 []).
Proof. vm_compute. reflexivity. Qed.
Example test_collapsible_multiline : run_test [91%N; 91%N; 99%N; 111%N; 108%N; 108%N; 97%N; 112%N; 115%N; 105%N; 98%N; 108%N; 101%N; 10%N; 9%N; 115%N; 104%N; 111%N; 119%N; 61%N; 34%N; 43%N; 32%N; 83%N; 104%N; 111%N; 119%N; 32%N; 115%N; 116%N; 117%N; 102%N; 102%N; 34%N; 10%N; 9%N; 104%N; 105%N; 100%N; 101%N; 61%N; 34%N; 45%N; 32%N; 72%N; 105%N; 100%N; 101%N; 32%N; 115%N; 116%N; 117%N; 102%N; 102%N; 34%N; 10%N; 9%N; 104%N; 105%N; 100%N; 101%N; 76%N; 111%N; 99%N; 97%N; 116%N; 105%N; 111%N; 110%N; 32%N; 32%N; 61%N; 32%N; 32%N; 34%N; 98%N; 111%N; 116%N; 104%N; 34%N; 10%N; 93%N; 93%N; 10%N; 65%N; 112%N; 112%N; 108%N; 101%N; 10%N; 91%N; 91%N; 47%N; 99%N; 111%N; 108%N; 108%N; 97%N; 112%N; 115%N; 105%N; 98%N; 108%N; 101%N; 93%N; 93%N] = Parsed (TREE [(ECollapsible [(EContainer CParagraph [] [(EText (lit "Apple"))])] [] false (Some (lit "+ Show stuff")) (Some (lit "- Hide stuff")) true true); (EFootnoteBlock None false)] [] [] [] [] [] 0 []).
Proof. vm_compute. reflexivity. Qed.
Example test_collapsible_text : run_test (lit "[[collapsible show=""SHOW!"" hide=""HIDE!""]]
Apple
[[/collapsible]]") = Parsed (TREE [(ECollapsible [(EContainer CParagraph [] [(EText (lit "Apple"))])] [] false (Some (lit "SHOW!")) (Some (lit "HIDE!")) true false); (EFootnoteBlock None false)] [] [] [] [] [] 0 []).
Proof. vm_compute. reflexivity. Qed.
Example test_color_hex_2 : run_test (lit "##ccc|CSS color!##") = Parsed (TREE [(EContainer CParagraph [] [(EColor (lit "#ccc") [(EText (lit "CSS")); (EText (lit " ")); (EText (lit "color")); (EText (lit "!"))])]); (EFootnoteBlock None false)] [] [] [] [] [] 0 []).
Proof. vm_compute. reflexivity. Qed.
Example test_comment_fail_right : run_test (lit "Fail --] Comment") = Parsed (TREE [(EContainer CParagraph [] [(EText (lit "Fail")); (EText (lit " ")); (EText (lit "--]")); (EText (lit " ")); (EText (lit "Comment"))]); (EFootnoteBlock None false)] [] [] [] [] [] 0 [(PE NoRulesMatch "fallback"%string TRightComment 5 8)]).
Proof. vm_compute. reflexivity. Qed.
Example test_definition_list_empty : run_test (lit ": : ") = Parsed (TREE [(EContainer CParagraph [] [(EText (lit ":")); (EText (lit " ")); (EText (lit ":")); (EText (lit " "))]); (EFootnoteBlock None false)] [] [] [] [] [] 0 []).
Proof. vm_compute. reflexivity. Qed.
Example test_definition_list_multiple : run_test (lit "[
: A : B
: C : D

: E : F
-----
: G : H
]") = Parsed (TREE [(EContainer CParagraph [] [(EText (lit "["))]); (EDefinitionList [(DF (lit "A") [(EText (lit "A"))] [(EText (lit "B"))]); (DF (lit "C") [(EText (lit "C"))] [(EText (lit "D"))])]); (EDefinitionList [(DF (lit "E") [(EText (lit "E"))] [(EText (lit "F"))])]); EHorizontalRule; (EDefinitionList [(DF (lit "G") [(EText (lit "G"))] [(EText (lit "H"))])]); (EContainer CParagraph [] [(EText (lit "]"))]); (EFootnoteBlock None false)] [] [] [] [] [] 0 []).
Proof. vm_compute. reflexivity. Qed.
Example test_del_style : run_test (lit "[[del id=""banana"" class=""fruit"" style=""color: yellow;"" disallowed-attr=""blocked""]]Banana[[/del]]") = Parsed (TREE [(EContainer CParagraph [] [(EContainer CDeletion [((lit "class"), (lit "fruit")); ((lit "id"), (lit "banana")); ((lit "style"), (lit "color: yellow;"))] [(EText (lit "Banana"))])]); (EFootnoteBlock None false)] [] [] [] [] [] 0 []).
Proof. vm_compute. reflexivity. Qed.
Example test_div_empty_2 : run_test (lit "A
[[div]]
[[/div]]
B") = Parsed (TREE [(EContainer CParagraph [] [(EText (lit "A"))]); (EContainer CDiv [] []); (EContainer CParagraph [] [(EText (lit "B"))]); (EFootnoteBlock None false)] [] [] [] [] [] 0 []).
Proof. vm_compute. reflexivity. Qed.
Example test_div_inline_empty : run_test (lit "[[div]][[/div]]") = Parsed (TREE [(EContainer CDiv [] []); (EFootnoteBlock None false)] [] [] [] [] [] 0 []).
Proof. vm_compute. reflexivity. Qed.
Example test_div_nested : run_test (lit "[[div]]
**Bold** Cherry
[[div]]
Durian
[[/div]]
[[/div]]") = Parsed (TREE [(EContainer CDiv [] [(EContainer CParagraph [] [(EContainer CBold [] [(EText (lit "Bold"))]); (EText (lit " ")); (EText (lit "Cherry"))]); (EContainer CDiv [] [(EContainer CParagraph [] [(EText (lit "Durian"))])])]); (EFootnoteBlock None false)] [] [] [] [] [] 0 []).
Proof. vm_compute. reflexivity. Qed.
Example test_div2_class : run_test (lit "[[div_ class=""blockquote""]]
Apple
[[/div]]") = Parsed (TREE [(EContainer CDiv [((lit "class"), (lit "blockquote"))] [(EText (lit "Apple"))]); (EFootnoteBlock None false)] [] [] [] [] [] 0 []).
Proof. vm_compute. reflexivity. Qed.
Example test_div2_id : run_test (lit "[[div_ id=""my-div""]]
Apple
[[/div]]") = Parsed (TREE [(EContainer CDiv [((lit "id"), (lit "my-div"))] [(EText (lit "Apple"))]); (EFootnoteBlock None false)] [] [] [] [] [] 0 []).
Proof. vm_compute. reflexivity. Qed.
Example test_div2_nested : run_test (lit "[[div_]]
**Bold** Cherry
[[div_]]
Durian
[[/div]]
[[/div]]") = Parsed (TREE [(EContainer CDiv [] [(EContainer CBold [] [(EText (lit "Bold"))]); (EText (lit " ")); (EText (lit "Cherry")); (EContainer CDiv [] [(EText (lit "Durian"))])]); (EFootnoteBlock None false)] [] [] [] [] [] 0 []).
Proof. vm_compute. reflexivity. Qed.
Example test_double_angle_left : run_test (lit "Double << Angle") = Parsed (TREE [(EContainer CParagraph [] [(EText (lit "Double")); (EText (lit " ")); (EText [171%N]); (EText (lit " ")); (EText (lit "Angle"))]); (EFootnoteBlock None false)] [] [] [] [] [] 0 []).
Proof. vm_compute. reflexivity. Qed.
Example test_em_dash : run_test (lit "Em -- Dash") = Parsed (TREE [(EContainer CParagraph [] [(EText (lit "Em")); (EText (lit " ")); (EText [8212%N]); (EText (lit " ")); (EText (lit "Dash"))]); (EFootnoteBlock None false)] [] [] [] [] [] 0 []).
Proof. vm_compute. reflexivity. Qed.
Example test_embed_youtube_caps : run_test (lit "[[embed YouTube video=""dQw4w9WgXcQ""]]") = Parsed (TREE [(EEmbed (EmYoutube (lit "dQw4w9WgXcQ"))); (EFootnoteBlock None false)] [] [] [] [] [] 0 []).
Proof. vm_compute. reflexivity. Qed.
Example test_equation_reference_fail : run_test (lit "Durian[[eref]]") = Parsed (TREE [(EContainer CParagraph [] [(EText (lit "Durian")); (EText (lit "[[")); (EText (lit "eref")); (EText (lit "]]"))]); (EFootnoteBlock None false)] [] [] [] [] [] 0 [(PE BlockMissingArguments "block-equation-ref"%string TInputEnd 14 14); (PE NoRulesMatch "fallback"%string TLeftBlock 6 8); (PE NoRulesMatch "fallback"%string TRightBlock 12 14)]).
Proof. vm_compute. reflexivity. Qed.
Example test_footnote_block_fail : run_test (lit "[[footnote-block]]") = Parsed (TREE [(EContainer CParagraph [] [(EText (lit "[[")); (EText (lit "footnote")); (EText (lit "-")); (EText (lit "block")); (EText (lit "]]"))]); (EFootnoteBlock None false)] [] [] [] [] [] 0 [(PE NoSuchBlock "block"%string TInputEnd 18 18); (PE NoRulesMatch "fallback"%string TLeftBlock 0 2); (PE NoRulesMatch "fallback"%string TRightBlock 16 18)]).
Proof. vm_compute. reflexivity. Qed.
Example test_footnote_block : run_test (lit "[[footnoteblock]]

A[[footnote]]1[[/footnote]]

B[[footnote]]2[[/footnote]]") = Parsed (TREE [(EFootnoteBlock None false); (EContainer CParagraph [] [(EText (lit "A")); EFootnote]); (EContainer CParagraph [] [(EText (lit "B")); EFootnote])] [] [] [] [[(EText (lit "1"))]; [(EText (lit "2"))]] [] 0 []).
Proof. vm_compute. reflexivity. Qed.
Example test_footnote_ref_fail_nested : run_test (lit "A[[footnote]]B[[footnote]]C[[/footnote]]D[[/footnote]]") = Parsed (TREE [(EContainer CParagraph [] [(EText (lit "A")); EFootnote; (EText (lit "D")); (EText (lit "[[/")); (EText (lit "footnote")); (EText (lit "]]"))]); (EFootnoteBlock None false)] [] [] [] [[(EText (lit "B")); (EText (lit "[[")); (EText (lit "footnote")); (EText (lit "]]")); (EText (lit "C"))]] [] 0 [(PE FootnotesNested "block-footnote"%string TIdentifier 26 27); (PE NoRulesMatch "fallback"%string TLeftBlock 14 16); (PE NoRulesMatch "fallback"%string TRightBlock 24 26); (PE NoRulesMatch "fallback"%string TLeftBlockEnd 41 44); (PE NoRulesMatch "fallback"%string TRightBlock 52 54)]).
Proof. vm_compute. reflexivity. Qed.
Example test_heading_1_fail : run_test (lit "+Fail header") = Parsed (TREE [(EContainer CParagraph [] [(EText (lit "+")); (EText (lit "Fail")); (EText (lit " ")); (EText (lit "header"))]); (EFootnoteBlock None false)] [] [] [] [] [] 0 []).
Proof. vm_compute. reflexivity. Qed.
Example test_heading_2_toc : run_test (lit "++* Header1
++* Header2") = Parsed (TREE [(EContainer (CHeader (HD 2 false)) [] [(EText (lit "Header1"))]); (EContainer (CHeader (HD 2 false)) [] [(EText (lit "Header2"))]); (EFootnoteBlock None false)] [] [] [] [] [] 0 []).
Proof. vm_compute. reflexivity. Qed.
Example test_heading_4_toc : run_test (lit "[
++++* H4
|
++++* H4
]") = Parsed (TREE [(EContainer CParagraph [] [(EText (lit "["))]); (EContainer (CHeader (HD 4 false)) [] [(EText (lit "H4"))]); (EContainer CParagraph [] [(EText (lit "|"))]); (EContainer (CHeader (HD 4 false)) [] [(EText (lit "H4"))]); (EContainer CParagraph [] [(EText (lit "]"))]); (EFootnoteBlock None false)] [] [] [] [] [] 0 []).
Proof. vm_compute. reflexivity. Qed.
Example test_heading_6_toc : run_test (lit "++++++* plain
++++++ toc") = Parsed (TREE [(EContainer (CHeader (HD 6 false)) [] [(EText (lit "plain"))]); (EContainer (CHeader (HD 6 true)) [] [(EText (lit "toc"))]); (EFootnoteBlock None false)] [(EList LBullet [] [(LISubList (EList LBullet [] [(LISubList (EList LBullet [] [(LISubList (EList LBullet [] [(LISubList (EList LBullet [] [(LISubList (EList LBullet [] [(LIElements [] [(ELink LTTableOfContents (LUrl (lit "#toc0")) None (LabelText (lit "toc")) None)])]))]))]))]))]))])] [] [] [] [] 0 []).
Proof. vm_compute. reflexivity. Qed.
Example test_heading_multiple : run_test (lit "+ H1
++ H2
++++ H4
++++++ H6
+++ H3
+ H1") = Parsed (TREE [(EContainer (CHeader (HD 1 true)) [] [(EText (lit "H1"))]); (EContainer (CHeader (HD 2 true)) [] [(EText (lit "H2"))]); (EContainer (CHeader (HD 4 true)) [] [(EText (lit "H4"))]); (EContainer (CHeader (HD 6 true)) [] [(EText (lit "H6"))]); (EContainer (CHeader (HD 3 true)) [] [(EText (lit "H3"))]); (EContainer (CHeader (HD 1 true)) [] [(EText (lit "H1"))]); (EFootnoteBlock None false)] [(EList LBullet [] [(LIElements [] [(ELink LTTableOfContents (LUrl (lit "#toc0")) None (LabelText (lit "H1")) None)]); (LISubList (EList LBullet [] [(LIElements [] [(ELink LTTableOfContents (LUrl (lit "#toc1")) None (LabelText (lit "H2")) None)]); (LISubList (EList LBullet [] [(LISubList (EList LBullet [] [(LIElements [] [(ELink LTTableOfContents (LUrl (lit "#toc2")) None (LabelText (lit "H4")) None)]); (LISubList (EList LBullet [] [(LISubList (EList LBullet [] [(LIElements [] [(ELink LTTableOfContents (LUrl (lit "#toc3")) None (LabelText (lit "H6")) None)])]))]))])); (LIElements [] [(ELink LTTableOfContents (LUrl (lit "#toc4")) None (LabelText (lit "H3")) None)])]))])); (LIElements [] [(ELink LTTableOfContents (LUrl (lit "#toc5")) None (LabelText (lit "H1")) None)])])] [] [] [] [] 0 []).
Proof. vm_compute. reflexivity. Qed.
Example test_hidden_uppercase : run_test (lit "[[HIDden]]Hidden[[/hiDDeN]] Text") = Parsed (TREE [(EContainer CParagraph [] [(EContainer CHidden [] [(EText (lit "Hidden"))]); (EText (lit " ")); (EText (lit "Text"))]); (EFootnoteBlock None false)] [] [] [] [] [] 0 []).
Proof. vm_compute. reflexivity. Qed.
Example test_hr_4 : run_test (lit "----
Horizontal rule") = Parsed (TREE [EHorizontalRule; (EContainer CParagraph [] [(EText (lit "Horizontal")); (EText (lit " ")); (EText (lit "rule"))]); (EFootnoteBlock None false)] [] [] [] [] [] 0 []).
Proof. vm_compute. reflexivity. Qed.
Example test_html_fail_arguments : run_test (lit "[[html type=""css""]]
<div></div>
[[/html]]") = Parsed (TREE [(EContainer CParagraph [] [(EText (lit "[[")); (EText (lit "html")); (EText (lit " ")); (EText (lit "type")); (EText (lit "=")); (EText (lit """css""")); (EText (lit "]]")); ELineBreak; (EText (lit "<")); (EText (lit "div")); (EText (lit ">")); (EText (lit "<")); (EText (lit "/")); (EText (lit "div")); (EText (lit ">")); ELineBreak; (EText (lit "[[/")); (EText (lit "html")); (EText (lit "]]"))]); (EFootnoteBlock None false)] [] [] [] [] [] 0 [(PE BlockMissingCloseBrackets "block-html"%string TIdentifier 7 11); (PE NoRulesMatch "fallback"%string TLeftBlock 0 2); (PE NoRulesMatch "fallback"%string TRightBlock 17 19); (PE NoRulesMatch "fallback"%string TLeftBlockEnd 32 35); (PE NoRulesMatch "fallback"%string TRightBlock 39 41)]).
Proof. vm_compute. reflexivity. Qed.
Example test_html_inline : run_test (lit "[[html]]My <bold>text</bold>![[/html]]") = Parsed (TREE [(EHtml (lit "My <bold>text</bold>!")); (EFootnoteBlock None false)] [] [(lit "My <bold>text</bold>!")] [] [] [] 0 []).
Proof. vm_compute. reflexivity. Qed.
Example test_ifcategory_fail : run_test (lit "[[ifcategory]]
Durian
[[/ifcategory]]") = Parsed (TREE [(EContainer CParagraph [] [(EText (lit "[[")); (EText (lit "ifcategory")); (EText (lit "]]")); ELineBreak; (EText (lit "Durian")); ELineBreak; (EText (lit "[[/")); (EText (lit "ifcategory")); (EText (lit "]]"))]); (EFootnoteBlock None false)] [] [] [] [] [] 0 [(PE BlockMissingArguments "block-ifcategory"%string TLineBreak 14 15); (PE NoRulesMatch "fallback"%string TLeftBlock 0 2); (PE NoRulesMatch "fallback"%string TRightBlock 12 14); (PE NoRulesMatch "fallback"%string TLeftBlockEnd 22 25); (PE NoRulesMatch "fallback"%string TRightBlock 35 37)]).
Proof. vm_compute. reflexivity. Qed.
Example test_iframe_style : run_test (lit "[[iframe https://example.com id=""my-iframe"" class=""example""]]") = Parsed (TREE [(EIframe [((lit "class"), (lit "example")); ((lit "id"), (lit "my-iframe"))] (lit "https://example.com")); (EFootnoteBlock None false)] [] [] [] [] [] 0 []).
Proof. vm_compute. reflexivity. Qed.
Example test_iftags_css : run_test (lit "[[iftags fruit]]
[[module css]]body { color: red; }[[/module]]
[[/iftags]]
[[iftags xyz]]
[[module css]]body { color: blue; }[[/module]]
[[/iftags]]") = Parsed (TREE [(EStyle (lit "body { color: red; }")); (EFootnoteBlock None false)] [] [] [] [] [] 0 []).
Proof. vm_compute. reflexivity. Qed.
Example test_image_center : run_test (lit "[[=image landscape.png]]") = Parsed (TREE [(EContainer CParagraph [] [(EImage (ISFile1 (lit "landscape.png")) None (Some (FA AlCenter false)) [])]); (EFootnoteBlock None false)] [] [] [] [] [] 0 []).
Proof. vm_compute. reflexivity. Qed.
Example test_image_file2 : run_test (lit "A [[image /some-other-page/my-picture.jpeg]] B") = Parsed (TREE [(EContainer CParagraph [] [(EText (lit "A")); (EText (lit " ")); (EImage (ISFile2 (lit "some-other-page") (lit "my-picture.jpeg")) None None []); (EText (lit " ")); (EText (lit "B"))]); (EFootnoteBlock None false)] [] [] [] [] [] 0 []).
Proof. vm_compute. reflexivity. Qed.
Example test_image_float_justify_fail : run_test (lit "[[f==image landscape.png]]") = Parsed (TREE [(EContainer CParagraph [] [(EText (lit "[[")); (EText (lit "f")); (EText (lit "=")); (EText (lit "=")); (EText (lit "image")); (EText (lit " ")); (EText (lit "landscape")); (EText (lit ".")); (EText (lit "png")); (EText (lit "]]"))]); (EFootnoteBlock None false)] [] [] [] [] [] 0 [(PE NoSuchBlock "block"%string TIdentifier 11 20); (PE NoRulesMatch "fallback"%string TLeftBlock 0 2); (PE NoRulesMatch "fallback"%string TRightBlock 24 26)]).
Proof. vm_compute. reflexivity. Qed.
Example test_image_left : run_test (lit "[[<image landscape.png]]") = Parsed (TREE [(EContainer CParagraph [] [(EImage (ISFile1 (lit "landscape.png")) None (Some (FA AlLeft false)) [])]); (EFootnoteBlock None false)] [] [] [] [] [] 0 []).
Proof. vm_compute. reflexivity. Qed.
Example test_image_right : run_test (lit "[[>image landscape.png]]") = Parsed (TREE [(EContainer CParagraph [] [(EImage (ISFile1 (lit "landscape.png")) None (Some (FA AlRight false)) [])]); (EFootnoteBlock None false)] [] [] [] [] [] 0 []).
Proof. vm_compute. reflexivity. Qed.
Example test_include_elements : run_test (lit "Apple
[[include-elements :some-site:page-name]]
Banana") = Parsed (TREE [(EContainer CParagraph [] [(EText (lit "Apple"))]); (EInclude false [] (PR (Some (lit "some-site")) (lit "page-name")) [(EText (lit "<INCLUDED PAGE (ELEMENTS)>"))]); (EContainer CParagraph [] [(EText (lit "Banana"))]); (EFootnoteBlock None false)] [] [] [] [] [] 0 []).
Proof. vm_compute. reflexivity. Qed.
Example test_include_wikidot_multiline : run_test (lit "[[include component:basic name = consuelo|
 contents = the chorizo stew is almost finished cooking 
 i cannot just stop cooking my chorizo stew in order to talk to you about an i.r.c. channel, friends 
shit i am sorry i did not mean to rejoin]]") = Parsed (TREE [(EContainer CParagraph [] [(EText (lit "My")); (EText (lit " ")); (EText (lit "name")); (EText (lit " ")); (EText (lit "is")); (EText (lit " ")); (EContainer CUnderline [] [(EText (lit "consuelo"))]); (EText (lit ":"))]); (EContainer CBlockquote [] [(EContainer CParagraph [] [(EText (lit "the")); (EText (lit " ")); (EText (lit "chorizo")); (EText (lit " ")); (EText (lit "stew")); (EText (lit " ")); (EText (lit "is")); (EText (lit " ")); (EText (lit "almost")); (EText (lit " ")); (EText (lit "finished")); (EText (lit " ")); (EText (lit "cooking")); (EText (lit " ")); ELineBreak; (EText (lit " ")); (EText (lit "i")); (EText (lit " ")); (EText (lit "cannot")); (EText (lit " ")); (EText (lit "just")); (EText (lit " ")); (EText (lit "stop")); (EText (lit " ")); (EText (lit "cooking")); (EText (lit " ")); (EText (lit "my")); (EText (lit " ")); (EText (lit "chorizo")); (EText (lit " ")); (EText (lit "stew")); (EText (lit " ")); (EText (lit "in")); (EText (lit " ")); (EText (lit "order")); (EText (lit " ")); (EText (lit "to")); (EText (lit " ")); (EText (lit "talk")); (EText (lit " ")); (EText (lit "to")); (EText (lit " ")); (EText (lit "you")); (EText (lit " ")); (EText (lit "about")); (EText (lit " ")); (EText (lit "an")); (EText (lit " ")); (EText (lit "i")); (EText (lit ".")); (EText (lit "r")); (EText (lit ".")); (EText (lit "c")); (EText (lit ".")); (EText (lit " ")); (EText (lit "channel")); (EText (lit ",")); (EText (lit " ")); (EText (lit "friends")); (EText (lit " ")); ELineBreak; (EText (lit "shit")); (EText (lit " ")); (EText (lit "i")); (EText (lit " ")); (EText (lit "am")); (EText (lit " ")); (EText (lit "sorry")); (EText (lit " ")); (EText (lit "i")); (EText (lit " ")); (EText (lit "did")); (EText (lit " ")); (EText (lit "not")); (EText (lit " ")); (EText (lit "mean")); (EText (lit " ")); (EText (lit "to")); (EText (lit " ")); (EText (lit "rejoin"))])]); (EFootnoteBlock None false)] [] [] [] [] [] 0 []).
Proof. vm_compute. reflexivity. Qed.
Example test_include_wikidot_parameters_before : run_test (lit "[[include component:fruit |class =box| apple=1 | banana = 2]]") = Parsed (TREE [(EContainer CDiv [((lit "class"), (lit "box")); ((lit "id"), (lit "fruit"))] [(EContainer CParagraph [] [(EText (lit "  "))]); (EList LBullet [] [(LIElements [] [(EText (lit "1")); (EText (lit "  "))]); (LIElements [] [(EText (lit "2")); (EText (lit " "))])])]); (EFootnoteBlock None false)] [] [] [] [] [] 0 []).
Proof. vm_compute. reflexivity. Qed.
Example test_include_wikidot_parameters_newlines_both : run_test (lit "[[include component:fruit |
 class=box |
 apple=1 |
 banana = 2 |]]") = Parsed (TREE [(EContainer CDiv [((lit "class"), (lit "box ")); ((lit "id"), (lit "fruit"))] [(EContainer CParagraph [] [(EText (lit "  "))]); (EList LBullet [] [(LIElements [] [(EText (lit "1")); (EText (lit "  "))]); (LIElements [] [(EText (lit "2")); (EText (lit "  "))])])]); (EFootnoteBlock None false)] [] [] [] [] [] 0 []).
Proof. vm_compute. reflexivity. Qed.
Example test_include_wikidot_parameters : run_test (lit "[[include component:fruit class = box | apple=1 | banana = 2]]") = Parsed (TREE [(EContainer CDiv [((lit "class"), (lit "box ")); ((lit "id"), (lit "fruit"))] [(EContainer CParagraph [] [(EText (lit "  "))]); (EList LBullet [] [(LIElements [] [(EText (lit "1")); (EText (lit "  "))]); (LIElements [] [(EText (lit "2")); (EText (lit " "))])])]); (EFootnoteBlock None false)] [] [] [] [] [] 0 []).
Proof. vm_compute. reflexivity. Qed.
Example test_ins_newlines : run_test (lit "[[ins]]
Apple
Banana
[[/ins]]") = Parsed (TREE [(EContainer CParagraph [] [(EContainer CInsertion [] [ELineBreak; (EText (lit "Apple")); ELineBreak; (EText (lit "Banana")); ELineBreak])]); (EFootnoteBlock None false)] [] [] [] [] [] 0 []).
Proof. vm_compute. reflexivity. Qed.
Example test_invisible_newlines : run_test (lit "[[invisible]]
[[div_]]
Invisible div
[[/div]]
[[/invisible]]") = Parsed (TREE [(EContainer CInvisible [] [(EContainer CDiv [] [(EText (lit "Invisible")); (EText (lit " ")); (EText (lit "div"))])]); (EFootnoteBlock None false)] [] [] [] [] [] 0 []).
Proof. vm_compute. reflexivity. Qed.
Example test_italics_block_alias_1 : run_test (lit "[[italics]]Test![[/italics]]") = Parsed (TREE [(EContainer CParagraph [] [(EContainer CItalics [] [(EText (lit "Test")); (EText (lit "!"))])]); (EFootnoteBlock None false)] [] [] [] [] [] 0 []).
Proof. vm_compute. reflexivity. Qed.
Example test_italics_block_fail : run_test (lit "[[i]]Fail Italics") = Parsed (TREE [(EContainer CParagraph [] [(EText (lit "[[")); (EText (lit "i")); (EText (lit "]]")); (EText (lit "Fail")); (EText (lit " ")); (EText (lit "Italics"))]); (EFootnoteBlock None false)] [] [] [] [] [] 0 [(PE EndOfInput "block-italics"%string TInputEnd 17 17); (PE NoRulesMatch "fallback"%string TLeftBlock 0 2); (PE NoRulesMatch "fallback"%string TRightBlock 3 5)]).
Proof. vm_compute. reflexivity. Qed.
Example test_italics_empty : run_test (lit "Empty ////") = Parsed (TREE [(EContainer CParagraph [] [(EText (lit "Empty")); (EText (lit " ")); (EContainer CItalics [] [])]); (EFootnoteBlock None false)] [] [] [] [] [] 0 []).
Proof. vm_compute. reflexivity. Qed.
Example test_line_breaks_alias : run_test (lit "Banana
[[newlines 9]]
Apple") = Parsed (TREE [(EContainer CParagraph [] [(EText (lit "Banana")); (ELineBreaks 9%N); (EText (lit "Apple"))]); (EFootnoteBlock None false)] [] [] [] [] [] 0 []).
Proof. vm_compute. reflexivity. Qed.
Example test_line_breaks_error_overflow : run_test (lit "[[lines 999]]") = Parsed (TREE [(EContainer CParagraph [] [(EText (lit "[[")); (EText (lit "lines")); (EText (lit " ")); (EText (lit "999")); (EText (lit "]]"))]); (EFootnoteBlock None false)] [] [] [] [] [] 0 [(PE BlockMalformedArguments "block-lines"%string TInputEnd 13 13); (PE NoRulesMatch "fallback"%string TLeftBlock 0 2); (PE NoRulesMatch "fallback"%string TRightBlock 11 13)]).
Proof. vm_compute. reflexivity. Qed.
Example test_link_anchor_fake : run_test (lit "[# Fake link]") = Parsed (TREE [(EContainer CParagraph [] [(ELink LTAnchor (LUrl (lit "javascript:;")) None (LabelText (lit "Fake link")) None)]); (EFootnoteBlock None false)] [] [] [] [] [] 0 []).
Proof. vm_compute. reflexivity. Qed.
Example test_link_interwiki_fail_colon : run_test (lit "[[[!:missing|Label]]]") = Parsed (TREE [(EContainer CParagraph [] [(EText (lit "[[[")); (EText (lit "!")); (EText (lit ":")); (EText (lit "missing")); (EText (lit "|")); (EText (lit "Label")); (EText (lit "]]]"))]); (EFootnoteBlock None false)] [] [] [] [] [] 0 [(PE RuleFailed "link-triple"%string TInputEnd 21 21); (PE NoRulesMatch "fallback"%string TLeftLink 0 3); (PE NoRulesMatch "fallback"%string TRightLink 18 21)]).
Proof. vm_compute. reflexivity. Qed.
Example test_link_single_empty_subpath : run_test (lit "[//page/edit Edit]") = Parsed (TREE [(EContainer CParagraph [] [(ELink LTDirect (LUrl (lit "//page/edit")) None (LabelText (lit "Edit")) None)]); (EFootnoteBlock None false)] [] [] [] [] [] 0 []).
Proof. vm_compute. reflexivity. Qed.
Example test_link_single_fail_start : run_test (lit "[page") = Parsed (TREE [(EContainer CParagraph [] [(EText (lit "[")); (EText (lit "page"))]); (EFootnoteBlock None false)] [] [] [] [] [] 0 []).
Proof. vm_compute. reflexivity. Qed.
Example test_link_single_subpath_anchor : run_test (lit "[/relative/link#toc0 text]") = Parsed (TREE [(EContainer CParagraph [] [(ELink LTDirect (LUrl (lit "/relative/link#toc0")) None (LabelText (lit "text")) None)]); (EFootnoteBlock None false)] [] [] [] [] [] 0 []).
Proof. vm_compute. reflexivity. Qed.
Example test_link_triple_anchor : run_test (lit "[[[scp-series#001|SCP-001 to SCP-099]]]") = Parsed (TREE [(EContainer CParagraph [] [(ELink LTPage (LPage (PR None (lit "scp-series"))) (Some (lit "#001")) (LabelText (lit "SCP-001 to SCP-099")) None)]); (EFootnoteBlock None false)] [] [] [] [] [] 0 []).
Proof. vm_compute. reflexivity. Qed.
Example test_link_triple_empty_subpath : run_test (lit "[[[//main/edit|Edit page]]]") = Parsed (TREE [(EContainer CParagraph [] [(ELink LTDirect (LUrl (lit "//main/edit")) None (LabelText (lit "Edit page")) None)]); (EFootnoteBlock None false)] [] [] [] [] [] 0 []).
Proof. vm_compute. reflexivity. Qed.
Example test_link_triple_fail_newline : run_test (lit "[[[some-page |
 Label]]]") = Parsed (TREE [(EContainer CParagraph [] [(EText (lit "[[[")); (EText (lit "some")); (EText (lit "-")); (EText (lit "page")); (EText (lit " ")); (EText (lit "|")); ELineBreak; (EText (lit " ")); (EText (lit "Label")); (EText (lit "]]]"))]); (EFootnoteBlock None false)] [] [] [] [] [] 0 [(PE RuleFailed "link-triple"%string TLineBreak 14 15); (PE NoRulesMatch "fallback"%string TLeftLink 0 3); (PE NoRulesMatch "fallback"%string TRightLink 21 24)]).
Proof. vm_compute. reflexivity. Qed.
Example test_link_triple_label : run_test (lit "[[[some-page|My label]]]") = Parsed (TREE [(EContainer CParagraph [] [(ELink LTPage (LPage (PR None (lit "some-page"))) None (LabelText (lit "My label")) None)]); (EFootnoteBlock None false)] [] [] [] [] [] 0 []).
Proof. vm_compute. reflexivity. Qed.
Example test_link_triple_site_category : run_test (lit "[[[:scp-wiki:component:theme|Sigma-9 Theme]]]") = Parsed (TREE [(EContainer CParagraph [] [(ELink LTPage (LPage (PR (Some (lit "scp-wiki")) (lit "component:theme"))) None (LabelText (lit "Sigma-9 Theme")) None)]); (EFootnoteBlock None false)] [] [] [] [] [] 0 []).
Proof. vm_compute. reflexivity. Qed.
Example test_link_triple_subpath_anchor : run_test (lit "[[[MAIN/#/page|Hash routing]]]") = Parsed (TREE [(EContainer CParagraph [] [(ELink LTPage (LPage (PR None (lit "MAIN"))) (Some (lit "/#/page")) (LabelText (lit "Hash routing")) None)]); (EFootnoteBlock None false)] [] [] [] [] [] 0 []).
Proof. vm_compute. reflexivity. Qed.
Example test_link_triple_title : run_test (lit "[[[some-page|]]]") = Parsed (TREE [(EContainer CParagraph [] [(ELink LTPage (LPage (PR None (lit "some-page"))) None LabelPage None)]); (EFootnoteBlock None false)] [] [] [] [] [] 0 []).
Proof. vm_compute. reflexivity. Qed.
Example test_link_triple_whitespace : run_test (lit "[[[ some-page  |  My label  ]]]") = Parsed (TREE [(EContainer CParagraph [] [(ELink LTPage (LPage (PR None (lit "some-page"))) None (LabelText (lit "My label")) None)]); (EFootnoteBlock None false)] [] [] [] [] [] 0 []).
Proof. vm_compute. reflexivity. Qed.
Example test_list_block_deep : run_test (lit "[[ul]] [[li]] [[ol]] [[li]]A[[/li]] [[li]]B[[/li]] [[/ol]] [[/li]] [[li]]C[[/li]] [[ol]] [[li]]D[[/li]] [[li]]E[[/li]] [[/ol]] [[/ul]]") = Parsed (TREE [(EList LBullet [] [(LIElements [] [(EList LNumbered [] [(LIElements [] [(EText (lit "A"))]); (LIElements [] [(EText (lit "B"))])]); (EText (lit " "))]); (LIElements [] [(EText (lit "C"))]); (LISubList (EList LNumbered [] [(LIElements [] [(EText (lit "D"))]); (LIElements [] [(EText (lit "E"))])]))]); (EFootnoteBlock None false)] [] [] [] [] [] 0 []).
Proof. vm_compute. reflexivity. Qed.
Example test_list_block_non_item_fail : run_test (lit "[[ul]] [[div]]A[[/div]] [[/ul]]") = Parsed (TREE [(EContainer CParagraph [] [(EText (lit "[[")); (EText (lit "ul")); (EText (lit "]]")); (EText (lit " "))]); (EContainer CDiv [] [(EContainer CParagraph [] [(EText (lit "A"))])]); (EContainer CParagraph [] [(EText (lit " ")); (EText (lit "[[/")); (EText (lit "ul")); (EText (lit "]]"))]); (EFootnoteBlock None false)] [] [] [] [] [] 0 [(PE ListContainsNonItem "block-list-unordered"%string TInputEnd 31 31); (PE NoRulesMatch "fallback"%string TLeftBlock 0 2); (PE NoRulesMatch "fallback"%string TRightBlock 4 6); (PE NoRulesMatch "fallback"%string TLeftBlockEnd 24 27); (PE NoRulesMatch "fallback"%string TRightBlock 29 31)]).
Proof. vm_compute. reflexivity. Qed.
Example test_list_block_whitespace : run_test (lit "[[ul]]
[[li]]
A
[[/li]]
[[li]]
B
[[/li]]
[[/ul]]") = Parsed (TREE [(EList LBullet [] [(LIElements [] [(EText (lit "A"))]); (LIElements [] [(EText (lit "B"))])]); (EFootnoteBlock None false)] [] [] [] [] [] 0 []).
Proof. vm_compute. reflexivity. Qed.
Example test_list_bullet_depths : run_test (lit "[
* A
 * B
  * C
]") = Parsed (TREE [(EContainer CParagraph [] [(EText (lit "["))]); (EList LBullet [] [(LIElements [] [(EText (lit "A"))]); (LISubList (EList LBullet [] [(LIElements [] [(EText (lit "B"))]); (LISubList (EList LBullet [] [(LIElements [] [(EText (lit "C"))])]))]))]); (EContainer CParagraph [] [(EText (lit "]"))]); (EFootnoteBlock None false)] [] [] [] [] [] 0 []).
Proof. vm_compute. reflexivity. Qed.
Example test_list_bullet_elements_multiple_end : run_test (lit "[
* A 1
* B 2
* C 3") = Parsed (TREE [(EContainer CParagraph [] [(EText (lit "["))]); (EList LBullet [] [(LIElements [] [(EText (lit "A")); (EText (lit " ")); (EText (lit "1"))]); (LIElements [] [(EText (lit "B")); (EText (lit " ")); (EText (lit "2"))]); (LIElements [] [(EText (lit "C")); (EText (lit " ")); (EText (lit "3"))])]); (EFootnoteBlock None false)] [] [] [] [] [] 0 []).
Proof. vm_compute. reflexivity. Qed.
Example test_list_bullet_elements : run_test (lit "[
* A 1
]") = Parsed (TREE [(EContainer CParagraph [] [(EText (lit "["))]); (EList LBullet [] [(LIElements [] [(EText (lit "A")); (EText (lit " ")); (EText (lit "1"))])]); (EContainer CParagraph [] [(EText (lit "]"))]); (EFootnoteBlock None false)] [] [] [] [] [] 0 []).
Proof. vm_compute. reflexivity. Qed.
Example test_list_bullet_multiple_end : run_test (lit "[
* A
* B
* C") = Parsed (TREE [(EContainer CParagraph [] [(EText (lit "["))]); (EList LBullet [] [(LIElements [] [(EText (lit "A"))]); (LIElements [] [(EText (lit "B"))]); (LIElements [] [(EText (lit "C"))])]); (EFootnoteBlock None false)] [] [] [] [] [] 0 []).
Proof. vm_compute. reflexivity. Qed.
Example test_list_bullet_start : run_test (lit "* A
]") = Parsed (TREE [(EList LBullet [] [(LIElements [] [(EText (lit "A"))])]); (EContainer CParagraph [] [(EText (lit "]"))]); (EFootnoteBlock None false)] [] [] [] [] [] 0 []).
Proof. vm_compute. reflexivity. Qed.
Example test_list_mix_depths : run_test (lit "[
* A
 * B
 # C
 # D
]") = Parsed (TREE [(EContainer CParagraph [] [(EText (lit "["))]); (EList LBullet [] [(LIElements [] [(EText (lit "A"))]); (LISubList (EList LBullet [] [(LIElements [] [(EText (lit "B"))])])); (LISubList (EList LNumbered [] [(LIElements [] [(EText (lit "C"))]); (LIElements [] [(EText (lit "D"))])]))]); (EContainer CParagraph [] [(EText (lit "]"))]); (EFootnoteBlock None false)] [] [] [] [] [] 0 []).
Proof. vm_compute. reflexivity. Qed.
Example test_list_numbered_depths : run_test (lit "[
# A
 # B
  # C
]") = Parsed (TREE [(EContainer CParagraph [] [(EText (lit "["))]); (EList LNumbered [] [(LIElements [] [(EText (lit "A"))]); (LISubList (EList LNumbered [] [(LIElements [] [(EText (lit "B"))]); (LISubList (EList LNumbered [] [(LIElements [] [(EText (lit "C"))])]))]))]); (EContainer CParagraph [] [(EText (lit "]"))]); (EFootnoteBlock None false)] [] [] [] [] [] 0 []).
Proof. vm_compute. reflexivity. Qed.
Example test_list_numbered_elements_multiple_end : run_test (lit "[
# A 1
# B 2
# C 3") = Parsed (TREE [(EContainer CParagraph [] [(EText (lit "["))]); (EList LNumbered [] [(LIElements [] [(EText (lit "A")); (EText (lit " ")); (EText (lit "1"))]); (LIElements [] [(EText (lit "B")); (EText (lit " ")); (EText (lit "2"))]); (LIElements [] [(EText (lit "C")); (EText (lit " ")); (EText (lit "3"))])]); (EFootnoteBlock None false)] [] [] [] [] [] 0 []).
Proof. vm_compute. reflexivity. Qed.
Example test_list_numbered_elements : run_test (lit "[
# A 1
]") = Parsed (TREE [(EContainer CParagraph [] [(EText (lit "["))]); (EList LNumbered [] [(LIElements [] [(EText (lit "A")); (EText (lit " ")); (EText (lit "1"))])]); (EContainer CParagraph [] [(EText (lit "]"))]); (EFootnoteBlock None false)] [] [] [] [] [] 0 []).
Proof. vm_compute. reflexivity. Qed.
Example test_list_numbered_multiple_end : run_test (lit "[
# A
# B
# C") = Parsed (TREE [(EContainer CParagraph [] [(EText (lit "["))]); (EList LNumbered [] [(LIElements [] [(EText (lit "A"))]); (LIElements [] [(EText (lit "B"))]); (LIElements [] [(EText (lit "C"))])]); (EFootnoteBlock None false)] [] [] [] [] [] 0 []).
Proof. vm_compute. reflexivity. Qed.
Example test_list_numbered_start : run_test (lit "# A
]") = Parsed (TREE [(EList LNumbered [] [(LIElements [] [(EText (lit "A"))])]); (EContainer CParagraph [] [(EText (lit "]"))]); (EFootnoteBlock None false)] [] [] [] [] [] 0 []).
Proof. vm_compute. reflexivity. Qed.
Example test_mark_style : run_test (lit "[[mark id=""banana"" class=""fruit"" style=""color: yellow;"" onclick=""javascript is blocked"" autocapitalize=""yes""]]Banana[[/mark]]") = Parsed (TREE [(EContainer CParagraph [] [(EContainer CMark [((lit "autocapitalize"), (lit "yes")); ((lit "class"), (lit "fruit")); ((lit "id"), (lit "banana")); ((lit "style"), (lit "color: yellow;"))] [(EText (lit "Banana"))])]); (EFootnoteBlock None false)] [] [] [] [] [] 0 []).
Proof. vm_compute. reflexivity. Qed.
Example test_math_block_inline : run_test (lit "[[math]] A = \pi \cdot r^2 [[/math]]") = Parsed (TREE [(EMath None (lit "A = \pi \cdot r^2")); (EFootnoteBlock None false)] [] [] [] [] [] 0 []).
Proof. vm_compute. reflexivity. Qed.
Example test_math_block : run_test (lit "[[math]]
A = \pi \cdot r^2
[[/math]]") = Parsed (TREE [(EMath None (lit "A = \pi \cdot r^2")); (EFootnoteBlock None false)] [] [] [] [] [] 0 []).
Proof. vm_compute. reflexivity. Qed.
Example test_math_inline : run_test (lit "Apple [[$ e^x - \pi $]] Banana") = Parsed (TREE [(EContainer CParagraph [] [(EText (lit "Apple")); (EText (lit " ")); (EMathInline (lit "e^x - \pi")); (EText (lit " ")); (EText (lit "Banana"))]); (EFootnoteBlock None false)] [] [] [] [] [] 0 []).
Proof. vm_compute. reflexivity. Qed.
Example test_module_categories_hidden : run_test (lit "[[module Categories INCLUDEhidden= ""no""]]
Apple") = Parsed (TREE [(EModule (MCategories false)); (EContainer CParagraph [] [(EText (lit "Apple"))]); (EFootnoteBlock None false)] [] [] [] [] [] 0 []).
Proof. vm_compute. reflexivity. Qed.
Example test_module_css_inline : run_test (lit "[[module css]]a { color: blue; }[[/module]]") = Parsed (TREE [(EStyle (lit "a { color: blue; }")); (EFootnoteBlock None false)] [] [] [] [] [] 0 []).
Proof. vm_compute. reflexivity. Qed.
Example test_module_join_styling : run_test (lit "[[module Join id=""join-btn"" CLASS =""join-module"" stYLe= ""display: inline-block;"" data-join=""""]]
Apple") = Parsed (TREE [(EModule (MJoin None [((lit "class"), (lit "join-module")); ((lit "data-join"), []); ((lit "id"), (lit "join-btn")); ((lit "style"), (lit "display: inline-block;"))])); (EContainer CParagraph [] [(EText (lit "Apple"))]); (EFootnoteBlock None false)] [] [] [] [] [] 0 []).
Proof. vm_compute. reflexivity. Qed.
Example test_module_pagetree_fail_depth : run_test (lit "[[module PageTree root=""scp-001"" showRoot=""yes"" depth=""0""]]") = Parsed (TREE [(EContainer CParagraph [] [(EText (lit "[[")); (EText (lit "module")); (EText (lit " ")); (EText (lit "PageTree")); (EText (lit " ")); (EText (lit "root")); (EText (lit "=")); (EText (lit """scp-001""")); (EText (lit " ")); (EText (lit "showRoot")); (EText (lit "=")); (EText (lit """yes""")); (EText (lit " ")); (EText (lit "depth")); (EText (lit "=")); (EText (lit """0""")); (EText (lit "]]"))]); (EFootnoteBlock None false)] [] [] [] [] [] 0 [(PE BlockMalformedArguments "module-page-tree"%string TInputEnd 59 59); (PE NoRulesMatch "fallback"%string TLeftBlock 0 2); (PE NoRulesMatch "fallback"%string TRightBlock 57 59)]).
Proof. vm_compute. reflexivity. Qed.
Example test_module_rate_uppercase : run_test (lit "[[ MODule rATe  ]]
Apple") = Parsed (TREE [(EModule MRate); (EContainer CParagraph [] [(EText (lit "Apple"))]); (EFootnoteBlock None false)] [] [] [] [] [] 0 []).
Proof. vm_compute. reflexivity. Qed.
Example test_monospace_block_empty : run_test (lit "Empty [[tt]][[/tt]]") = Parsed (TREE [(EContainer CParagraph [] [(EText (lit "Empty")); (EText (lit " ")); (EContainer CMonospace [] [])]); (EFootnoteBlock None false)] [] [] [] [] [] 0 []).
Proof. vm_compute. reflexivity. Qed.
Example test_monospace_block : run_test (lit "[[tt]]Subscript[[/tt]] Text") = Parsed (TREE [(EContainer CParagraph [] [(EContainer CMonospace [] [(EText (lit "Subscript"))]); (EText (lit " ")); (EText (lit "Text"))]); (EFootnoteBlock None false)] [] [] [] [] [] 0 []).
Proof. vm_compute. reflexivity. Qed.
Example test_monospace : run_test (lit "{{Monospace}} Text") = Parsed (TREE [(EContainer CParagraph [] [(EContainer CMonospace [] [(EText (lit "Monospace"))]); (EText (lit " ")); (EText (lit "Text"))]); (EFootnoteBlock None false)] [] [] [] [] [] 0 []).
Proof. vm_compute. reflexivity. Qed.
Example test_paragraph_block_empty_2 : run_test (lit "A
[[p]]
[[/p]]
B") = Parsed (TREE [(EContainer CParagraph [] [(EText (lit "A")); ELineBreak; (EText (lit "B"))]); (EFootnoteBlock None false)] [] [] [] [] [] 0 []).
Proof. vm_compute. reflexivity. Qed.
Example test_paragraph_block_inline : run_test (lit "[[p]]Apple[[/p]]") = Parsed (TREE [(EContainer CParagraph [] [(EText (lit "Apple"))]); (EFootnoteBlock None false)] [] [] [] [] [] 0 []).
Proof. vm_compute. reflexivity. Qed.
Example test_paragraphs : run_test (lit "First paragraph

Second paragraph") = Parsed (TREE [(EContainer CParagraph [] [(EText (lit "First")); (EText (lit " ")); (EText (lit "paragraph"))]); (EContainer CParagraph [] [(EText (lit "Second")); (EText (lit " ")); (EText (lit "paragraph"))]); (EFootnoteBlock None false)] [] [] [] [] [] 0 []).
Proof. vm_compute. reflexivity. Qed.
Example test_radio_style : run_test (lit "[[radio fruit id=""apple"" style=""color: red;""]] Apple
[[radio fruit id=""banana"" style=""color: yellow;""]] Banana") = Parsed (TREE [(EContainer CParagraph [] [(ERadioButton (lit "fruit") false [((lit "id"), (lit "apple")); ((lit "style"), (lit "color: red;"))]); (EText (lit "Apple")); ELineBreak; (ERadioButton (lit "fruit") false [((lit "id"), (lit "banana")); ((lit "style"), (lit "color: yellow;"))]); (EText (lit "Banana"))]); (EFootnoteBlock None false)] [] [] [] [] [] 0 []).
Proof. vm_compute. reflexivity. Qed.
Example test_raw_1 : run_test (lit "@@@@@") = Parsed (TREE [(EContainer CParagraph [] [(ERaw (lit "@"))]); (EFootnoteBlock None false)] [] [] [] [] [] 0 []).
Proof. vm_compute. reflexivity. Qed.
Example test_raw_fail_newline_angles : run_test (lit "interrupted @<
>@") = Parsed (TREE [(EContainer CParagraph [] [(EText (lit "interrupted")); (EText (lit " ")); (EText (lit "@<")); ELineBreak; (EText (lit ">@"))]); (EFootnoteBlock None false)] [] [] [] [] [] 0 [(PE RuleFailed "raw"%string TLineBreak 14 15); (PE NoRulesMatch "fallback"%string TLeftRaw 12 14); (PE NoRulesMatch "fallback"%string TRightRaw 15 17)]).
Proof. vm_compute. reflexivity. Qed.
Example test_raw_test_0 : run_test (lit "Test @@@@ String") = Parsed (TREE [(EContainer CParagraph [] [(EText (lit "Test")); (EText (lit " ")); (ERaw []); (EText (lit " ")); (EText (lit "String"))]); (EFootnoteBlock None false)] [] [] [] [] [] 0 []).
Proof. vm_compute. reflexivity. Qed.
Example test_ruby_alias : run_test [91%N; 91%N; 114%N; 117%N; 98%N; 121%N; 93%N; 93%N; 35486%N; 32%N; 91%N; 91%N; 114%N; 117%N; 98%N; 121%N; 116%N; 101%N; 120%N; 116%N; 93%N; 93%N; 103%N; 111%N; 91%N; 91%N; 47%N; 114%N; 117%N; 98%N; 121%N; 116%N; 101%N; 120%N; 116%N; 93%N; 93%N; 91%N; 91%N; 47%N; 114%N; 117%N; 98%N; 121%N; 93%N; 93%N] = Parsed (TREE [(EContainer CParagraph [] [(EContainer CRuby [] [(EText [35486%N]); (EText (lit " ")); (EContainer CRubyText [] [(EText (lit "go"))])])]); (EFootnoteBlock None false)] [] [] [] [] [] 0 []).
Proof. vm_compute. reflexivity. Qed.
Example test_ruby_newlines_2 : run_test [91%N; 91%N; 114%N; 117%N; 98%N; 121%N; 93%N; 93%N; 10%N; 28450%N; 32%N; 91%N; 91%N; 114%N; 116%N; 93%N; 93%N; 10%N; 107%N; 97%N; 110%N; 10%N; 91%N; 91%N; 47%N; 114%N; 116%N; 93%N; 93%N; 10%N; 23383%N; 32%N; 91%N; 91%N; 114%N; 116%N; 93%N; 93%N; 10%N; 106%N; 105%N; 10%N; 91%N; 91%N; 47%N; 114%N; 116%N; 93%N; 93%N; 10%N; 91%N; 91%N; 47%N; 114%N; 117%N; 98%N; 121%N; 93%N; 93%N] = Parsed (TREE [(EContainer CParagraph [] [(EContainer CRuby [] [(EText [28450%N]); (EText (lit " ")); (EContainer CRubyText [] [(EText (lit "kan"))]); ELineBreak; (EText [23383%N]); (EText (lit " ")); (EContainer CRubyText [] [(EText (lit "ji"))])])]); (EFootnoteBlock None false)] [] [] [] [] [] 0 []).
Proof. vm_compute. reflexivity. Qed.
Example test_ruby2_alias : run_test [91%N; 91%N; 114%N; 98%N; 32%N; 28450%N; 124%N; 107%N; 97%N; 110%N; 93%N; 93%N; 32%N; 91%N; 91%N; 114%N; 98%N; 32%N; 23383%N; 124%N; 106%N; 105%N; 93%N; 93%N] = Parsed (TREE [(EContainer CParagraph [] [(EContainer CRuby [] [(EText [28450%N]); (EContainer CRubyText [] [(EText (lit "kan"))])]); (EText (lit " ")); (EContainer CRuby [] [(EText [23383%N]); (EContainer CRubyText [] [(EText (lit "ji"))])])]); (EFootnoteBlock None false)] [] [] [] [] [] 0 []).
Proof. vm_compute. reflexivity. Qed.
Example test_ruby2_fail_pipe_4 : run_test [91%N; 91%N; 114%N; 98%N; 32%N; 124%N; 32%N; 124%N; 32%N; 35486%N; 32%N; 124%N; 32%N; 103%N; 111%N; 124%N; 93%N; 93%N] = Parsed (TREE [(EContainer CParagraph [] [(EText (lit "[[")); (EText (lit "rb")); (EText (lit " ")); (EText (lit "|")); (EText (lit " ")); (EText (lit "|")); (EText (lit " ")); (EText [35486%N]); (EText (lit " ")); (EText (lit "|")); (EText (lit " ")); (EText (lit "go")); (EText (lit "|")); (EText (lit "]]"))]); (EFootnoteBlock None false)] [] [] [] [] [] 0 [(PE BlockMalformedArguments "block-ruby-short"%string TInputEnd 20 20); (PE NoRulesMatch "fallback"%string TLeftBlock 0 2); (PE NoRulesMatch "fallback"%string TRightBlock 18 20)]).
Proof. vm_compute. reflexivity. Qed.
Example test_ruby2 : run_test [91%N; 91%N; 114%N; 98%N; 32%N; 35486%N; 124%N; 103%N; 111%N; 93%N; 93%N] = Parsed (TREE [(EContainer CParagraph [] [(EContainer CRuby [] [(EText [35486%N]); (EContainer CRubyText [] [(EText (lit "go"))])])]); (EFootnoteBlock None false)] [] [] [] [] [] 0 []).
Proof. vm_compute. reflexivity. Qed.
Example test_simple_text : run_test (lit "abc") = Parsed (TREE [(EContainer CParagraph [] [(EText (lit "abc"))]); (EFootnoteBlock None false)] [] [] [] [] [] 0 []).
Proof. vm_compute. reflexivity. Qed.
Example test_size : run_test (lit "[[size 12pt]]Apple[[/size]]") = Parsed (TREE [(EContainer CParagraph [] [(EContainer CSize [((lit "style"), (lit "font-size: 12pt;"))] [(EText (lit "Apple"))])]); (EFootnoteBlock None false)] [] [] [] [] [] 0 []).
Proof. vm_compute. reflexivity. Qed.
Example test_span_newlines_2 : run_test (lit "[[span]]Banana
Cherry[[/span]]") = Parsed (TREE [(EContainer CParagraph [] [(EContainer CSpan [] [(EText (lit "Banana")); ELineBreak; (EText (lit "Cherry"))])]); (EFootnoteBlock None false)] [] [] [] [] [] 0 []).
Proof. vm_compute. reflexivity. Qed.
Example test_span : run_test (lit "[[span]]Banana[[/span]]") = Parsed (TREE [(EContainer CParagraph [] [(EContainer CSpan [] [(EText (lit "Banana"))])]); (EFootnoteBlock None false)] [] [] [] [] [] 0 []).
Proof. vm_compute. reflexivity. Qed.
Example test_span2_paragraph : run_test (lit "[[span_]]Banana

Cherry[[/span]]") = Parsed (TREE [(EContainer CParagraph [] [(EContainer CSpan [] [(EText (lit "Banana")); ELineBreak; (EText (lit "Cherry"))])]); (EFootnoteBlock None false)] [] [] [] [] [] 0 []).
Proof. vm_compute. reflexivity. Qed.
Example test_strikethrough_block_alias_1 : run_test (lit "[[strikethrough]]Test![[/strikethrough]]") = Parsed (TREE [(EContainer CParagraph [] [(EContainer CStrikethrough [] [(EText (lit "Test")); (EText (lit "!"))])]); (EFootnoteBlock None false)] [] [] [] [] [] 0 []).
Proof. vm_compute. reflexivity. Qed.
Example test_strikethrough_block_paragraph : run_test (lit "[[s]]Paragraph

Strikethrough[[/s]]") = Parsed (TREE [(EContainer CParagraph [] [(EContainer CStrikethrough [] [(EText (lit "Paragraph")); ELineBreak; (EText (lit "Strikethrough"))])]); (EFootnoteBlock None false)] [] [] [] [] [] 0 []).
Proof. vm_compute. reflexivity. Qed.
Example test_strikethrough_fail : run_test (lit "--Fail Strikethrough") = Parsed (TREE [(EContainer CParagraph [] [(EText [8212%N]); (EText (lit "Fail")); (EText (lit " ")); (EText (lit "Strikethrough"))]); (EFootnoteBlock None false)] [] [] [] [] [] 0 []).
Proof. vm_compute. reflexivity. Qed.
Example test_subscript_block_empty : run_test (lit "Empty [[sub]][[/sub]]") = Parsed (TREE [(EContainer CParagraph [] [(EText (lit "Empty")); (EText (lit " ")); (EContainer CSubscript [] [])]); (EFootnoteBlock None false)] [] [] [] [] [] 0 []).
Proof. vm_compute. reflexivity. Qed.
Example test_subscript_block : run_test (lit "[[sub]]Subscript[[/sub]] Text") = Parsed (TREE [(EContainer CParagraph [] [(EContainer CSubscript [] [(EText (lit "Subscript"))]); (EText (lit " ")); (EText (lit "Text"))]); (EFootnoteBlock None false)] [] [] [] [] [] 0 []).
Proof. vm_compute. reflexivity. Qed.
Example test_superscript_block_alias_1 : run_test (lit "[[super]]Test![[/super]]") = Parsed (TREE [(EContainer CParagraph [] [(EContainer CSuperscript [] [(EText (lit "Test")); (EText (lit "!"))])]); (EFootnoteBlock None false)] [] [] [] [] [] 0 []).
Proof. vm_compute. reflexivity. Qed.
Example test_superscript_block_italics : run_test (lit "[[sup]]Apple [[b]]Banana[[/b]][[/sup]] Cherry") = Parsed (TREE [(EContainer CParagraph [] [(EContainer CSuperscript [] [(EText (lit "Apple")); (EText (lit " ")); (EContainer CBold [] [(EText (lit "Banana"))])]); (EText (lit " ")); (EText (lit "Cherry"))]); (EFootnoteBlock None false)] [] [] [] [] [] 0 []).
Proof. vm_compute. reflexivity. Qed.
Example test_superscript_fail : run_test (lit "^^Fail Superscript") = Parsed (TREE [(EContainer CParagraph [] [(EText (lit "^^")); (EText (lit "Fail")); (EText (lit " ")); (EText (lit "Superscript"))]); (EFootnoteBlock None false)] [] [] [] [] [] 0 [(PE EndOfInput "superscript"%string TInputEnd 18 18); (PE NoRulesMatch "fallback"%string TSuperscript 0 2)]).
Proof. vm_compute. reflexivity. Qed.
Example test_table_advanced_empty_cell : run_test (lit "[[table]]
[[row]]
[[cell]]
[[/cell]]
[[/row]]
[[/table]]") = Parsed (TREE [(ETable [] [(TR [] [(TC false 1%N None [] [])])]); (EFootnoteBlock None false)] [] [] [] [] [] 0 []).
Proof. vm_compute. reflexivity. Qed.
Example test_table_advanced_fail_row : run_test (lit "[[row]] Row content here [[/row]]") = Parsed (TREE [(EContainer CParagraph [] [(EText (lit "[[")); (EText (lit "row")); (EText (lit "]]")); (EText (lit " ")); (EText (lit "Row")); (EText (lit " ")); (EText (lit "content")); (EText (lit " ")); (EText (lit "here")); (EText (lit " ")); (EText (lit "[[/")); (EText (lit "row")); (EText (lit "]]"))]); (EFootnoteBlock None false)] [] [] [] [] [] 0 [(PE TableRowContainsNonCell "block-table-row"%string TInputEnd 33 33); (PE NoRulesMatch "fallback"%string TLeftBlock 0 2); (PE NoRulesMatch "fallback"%string TRightBlock 5 7); (PE NoRulesMatch "fallback"%string TLeftBlockEnd 25 28); (PE NoRulesMatch "fallback"%string TRightBlock 31 33)]).
Proof. vm_compute. reflexivity. Qed.
Example test_table_advanced_nested_deep : run_test (lit "[[table]]
[[row]]
[[cell]]

1

[[table]]
[[row]]
[[cell]]

2

[[table]]
[[row]]
[[cell]]

3

[[table]]
[[row]]
[[cell]]

4

[[table]]
[[row]]
[[cell]]

5

[[/cell]]
[[/row]]
[[/table]]

[[/cell]]
[[/row]]
[[/table]]

[[/cell]]
[[/row]]
[[/table]]

[[/cell]]
[[/row]]
[[/table]]

[[/cell]]
[[/row]]
[[/table]]") = Parsed (TREE [(ETable [] [(TR [] [(TC false 1%N None [] [(EText (lit "1")); ELineBreak; (ETable [] [(TR [] [(TC false 1%N None [] [(EText (lit "2")); ELineBreak; (ETable [] [(TR [] [(TC false 1%N None [] [(EText (lit "3")); ELineBreak; (ETable [] [(TR [] [(TC false 1%N None [] [(EText (lit "4")); ELineBreak; (ETable [] [(TR [] [(TC false 1%N None [] [(EText (lit "5"))])])])])])])])])])])])])])])]); (EFootnoteBlock None false)] [] [] [] [] [] 0 []).
Proof. vm_compute. reflexivity. Qed.
Example test_table_simple_align : run_test (lit "||< Left ||= Center ||
|| Normal ||> Right ||") = Parsed (TREE [(ETable [((lit "class"), (lit "wj-table"))] [(TR [] [(TC false 1%N (Some AlLeft) [] [(EText (lit "Left"))]); (TC false 1%N (Some AlCenter) [] [(EText (lit "Center"))])]); (TR [] [(TC false 1%N None [] [(EText (lit "Normal"))]); (TC false 1%N (Some AlRight) [] [(EText (lit "Right"))])])]); (EFootnoteBlock None false)] [] [] [] [] [] 0 []).
Proof. vm_compute. reflexivity. Qed.
Example test_table_simple_fail_trailing : run_test (lit "|| Cell || X") = Parsed (TREE [(EContainer CParagraph [] [(EText (lit "||")); (EText (lit " ")); (EText (lit "Cell")); (EText (lit " ")); (EText (lit "||")); (EText (lit " ")); (EText (lit "X"))]); (EFootnoteBlock None false)] [] [] [] [] [] 0 [(PE RuleFailed "table"%string TInputEnd 12 12); (PE NoRulesMatch "fallback"%string TTableColumn 0 2); (PE NotStartOfLine "page"%string TTableColumn 8 10); (PE NoRulesMatch "fallback"%string TTableColumn 8 10)]).
Proof. vm_compute. reflexivity. Qed.
Example test_table_simple_width : run_test (lit "|| apple || banana ||= cherry ||
||||||~ triple ||") = Parsed (TREE [(ETable [((lit "class"), (lit "wj-table"))] [(TR [] [(TC false 1%N None [] [(EText (lit "apple"))]); (TC false 1%N None [] [(EText (lit "banana"))]); (TC false 1%N (Some AlCenter) [] [(EText (lit "cherry"))])]); (TR [] [(TC true 3%N None [] [(EText (lit "triple"))])])]); (EFootnoteBlock None false)] [] [] [] [] [] 0 []).
Proof. vm_compute. reflexivity. Qed.
Example test_tabview_fail_label : run_test (lit "[[tabview]]
[[tab]]
A
[[/tab]]
[[/tabview]]") = Parsed (TREE [(EContainer CParagraph [] [(EText (lit "[[")); (EText (lit "tabview")); (EText (lit "]]")); (EText (lit "[[")); (EText (lit "tab")); (EText (lit "]]")); ELineBreak; (EText (lit "A")); ELineBreak; (EText (lit "[[/")); (EText (lit "tab")); (EText (lit "]]")); ELineBreak; (EText (lit "[[/")); (EText (lit "tabview")); (EText (lit "]]"))]); (EFootnoteBlock None false)] [] [] [] [] [] 0 [(PE TabViewContainsNonTab "block-tabview"%string TInputEnd 43 43); (PE NoRulesMatch "fallback"%string TLeftBlock 0 2); (PE NoRulesMatch "fallback"%string TRightBlock 9 11); (PE BlockMissingArguments "block-tab"%string TLineBreak 19 20); (PE NoRulesMatch "fallback"%string TLeftBlock 12 14); (PE NoRulesMatch "fallback"%string TRightBlock 17 19); (PE NoRulesMatch "fallback"%string TLeftBlockEnd 22 25); (PE NoRulesMatch "fallback"%string TRightBlock 28 30); (PE NoRulesMatch "fallback"%string TLeftBlockEnd 31 34); (PE NoRulesMatch "fallback"%string TRightBlock 41 43)]).
Proof. vm_compute. reflexivity. Qed.
Example test_tabview_nested : run_test (lit "[[tabview]]
[[tab 1]]
A
[[tabview]]
[[tab 2]]
B
[[tabview]]
[[tab 3]]
C
[[/tab]]
[[/tabview]]
[[/tab]]
[[/tabview]]
[[/tab]]
[[/tabview]]") = Parsed (TREE [(ETabView [(TB (lit "1") [(EContainer CParagraph [] [(EText (lit "A"))]); (ETabView [(TB (lit "2") [(EContainer CParagraph [] [(EText (lit "B"))]); (ETabView [(TB (lit "3") [(EContainer CParagraph [] [(EText (lit "C"))])])])])])])]); (EFootnoteBlock None false)] [] [] [] [] [] 0 []).
Proof. vm_compute. reflexivity. Qed.
Example test_target_dash : run_test (lit "[[target apple-banana]]") = Parsed (TREE [(EContainer CParagraph [] [(EAnchorName (lit "apple-banana"))]); (EFootnoteBlock None false)] [] [] [] [] [] 0 []).
Proof. vm_compute. reflexivity. Qed.
Example test_target_multiple : run_test (lit "[[target apple]]  [[target banana]][[target cherry]]") = Parsed (TREE [(EContainer CParagraph [] [(EAnchorName (lit "apple")); (EText (lit "  ")); (EAnchorName (lit "banana")); (EAnchorName (lit "cherry"))]); (EFootnoteBlock None false)] [] [] [] [] [] 0 []).
Proof. vm_compute. reflexivity. Qed.
Example test_target : run_test (lit "[[target apple]]") = Parsed (TREE [(EContainer CParagraph [] [(EAnchorName (lit "apple"))]); (EFootnoteBlock None false)] [] [] [] [] [] 0 []).
Proof. vm_compute. reflexivity. Qed.
Example test_toc : run_test (lit "+ A
durian
+ B
[[toc]]") = Parsed (TREE [(EContainer (CHeader (HD 1 true)) [] [(EText (lit "A"))]); (EContainer CParagraph [] [(EText (lit "durian"))]); (EContainer (CHeader (HD 1 true)) [] [(EText (lit "B"))]); (ETableOfContents [] None); (EFootnoteBlock None false)] [(EList LBullet [] [(LIElements [] [(ELink LTTableOfContents (LUrl (lit "#toc0")) None (LabelText (lit "A")) None)]); (LIElements [] [(ELink LTTableOfContents (LUrl (lit "#toc1")) None (LabelText (lit "B")) None)])])] [] [] [] [] 0 []).
Proof. vm_compute. reflexivity. Qed.
Example test_underline_block_italics : run_test (lit "[[u]]Apple [[b]]Banana[[/b]][[/u]] Cherry") = Parsed (TREE [(EContainer CParagraph [] [(EContainer CUnderline [] [(EText (lit "Apple")); (EText (lit " ")); (EContainer CBold [] [(EText (lit "Banana"))])]); (EText (lit " ")); (EText (lit "Cherry"))]); (EFootnoteBlock None false)] [] [] [] [] [] 0 []).
Proof. vm_compute. reflexivity. Qed.
Example test_underline_fail_paragraph : run_test (lit "__Fail

Underline__") = Parsed (TREE [(EContainer CParagraph [] [(EText (lit "__")); (EText (lit "Fail"))]); (EContainer CParagraph [] [(EText (lit "Underline")); (EText (lit "__"))]); (EFootnoteBlock None false)] [] [] [] [] [] 0 [(PE RuleFailed "underline"%string TParagraphBreak 6 8); (PE NoRulesMatch "fallback"%string TUnderline 0 2); (PE EndOfInput "underline"%string TInputEnd 19 19); (PE NoRulesMatch "fallback"%string TUnderline 17 19)]).
Proof. vm_compute. reflexivity. Qed.
Example test_underscore_line_break_line : run_test (lit "X
_
_
Y") = Parsed (TREE [(EContainer CParagraph [] [(EText (lit "X")); ELineBreak; ELineBreak; ELineBreak; (EText (lit "Y"))]); (EFootnoteBlock None false)] [] [] [] [] [] 0 []).
Proof. vm_compute. reflexivity. Qed.
Example test_user_spaces : run_test (lit "[[ USer  admin  ]]
Cherry") = Parsed (TREE [(EContainer CParagraph [] [(EUser (lit "admin") false); ELineBreak; (EText (lit "Cherry"))]); (EFootnoteBlock None false)] [] [] [] [] [] 0 []).
Proof. vm_compute. reflexivity. Qed.

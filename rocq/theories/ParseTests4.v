(** ParseTests4.v -- generated by tools/conformance.py from the repository's AST tests (/repo/test/*.json):
    the modelled include, preprocess, tokenize and parse applied to each test's input give the tree
    and the errors the repository expects.  These are tests of the model, not proofs. *)
From Verif Require Import Base Strings Links Attr Preproc Includes Lexer Depth Tree Text Toc PState Blocks Rules Parse ParseTestEnv.
Example test_align_justify : run_test (lit "[[==]]
Durian
[[/==]]") = Parsed (TREE [(EContainer (CAlign AlJustify) [] [(EContainer CParagraph [] [(EText (lit "Durian"))])]); (EFootnoteBlock None false)] [] [] [] [] [] 0 []).
Proof. vm_compute. reflexivity. Qed.
Example test_anchor_alias_star : run_test (lit "[[*anchor href=""http://example.com"" style=""color: green;""]]My link[[/anchor]]") = Parsed (TREE [(EContainer CParagraph [] [(EAnchor (Some ATNewTab) [((lit "href"), (lit "http://example.com")); ((lit "style"), (lit "color: green;"))] [(EText (lit "My")); (EText (lit " ")); (EText (lit "link"))])]); (EFootnoteBlock None false)] [] [] [] [] [] 0 []).
Proof. vm_compute. reflexivity. Qed.
Example test_anchor_name_dash : run_test (lit "[[# apple-banana]]") = Parsed (TREE [(EContainer CParagraph [] [(EAnchorName (lit "apple-banana"))]); (EFootnoteBlock None false)] [] [] [] [] [] 0 []).
Proof. vm_compute. reflexivity. Qed.
Example test_anchor_name_multiple : run_test (lit "[[# apple]]  [[# banana]][[# cherry]]") = Parsed (TREE [(EContainer CParagraph [] [(EAnchorName (lit "apple")); (EText (lit "  ")); (EAnchorName (lit "banana")); (EAnchorName (lit "cherry"))]); (EFootnoteBlock None false)] [] [] [] [] [] 0 []).
Proof. vm_compute. reflexivity. Qed.
Example test_anchor_star_empty : run_test (lit "[[*a]][[/a]]") = Parsed (TREE [(EContainer CParagraph [] [(EAnchor (Some ATNewTab) [] [])]); (EFootnoteBlock None false)] [] [] [] [] [] 0 []).
Proof. vm_compute. reflexivity. Qed.
Example test_anchor_xss_3 : run_test (lit "[[a href=""java\nscript:alert(1)""]]whitespace in xss[[/a]]") = Parsed (TREE [(EContainer CParagraph [] [(EAnchor None [((lit "href"), (lit "#invalid-url"))] [(EText (lit "whitespace")); (EText (lit " ")); (EText (lit "in")); (EText (lit " ")); (EText (lit "xss"))])]); (EFootnoteBlock None false)] [] [] [] [] [] 0 []).
Proof. vm_compute. reflexivity. Qed.
Example test_anchor2_alias_star : run_test (lit "[[*anchor_ href=""http://example.com"" style=""color: green;""]]My link[[/anchor]]") = Parsed (TREE [(EContainer CParagraph [] [(EAnchor (Some ATNewTab) [((lit "href"), (lit "http://example.com")); ((lit "style"), (lit "color: green;"))] [(EText (lit "My")); (EText (lit " ")); (EText (lit "link"))])]); (EFootnoteBlock None false)] [] [] [] [] [] 0 []).
Proof. vm_compute. reflexivity. Qed.
Example test_anchor2_newlines_2 : run_test (lit "[[a_]]Apple
Banana[[/a]]") = Parsed (TREE [(EContainer CParagraph [] [(EAnchor None [] [(EText (lit "Apple")); ELineBreak; (EText (lit "Banana"))])]); (EFootnoteBlock None false)] [] [] [] [] [] 0 []).
Proof. vm_compute. reflexivity. Qed.
Example test_anchor2_star : run_test (lit "[[*a_ href=""https://example.com"" style=""color: red;""]]My link[[/a]]") = Parsed (TREE [(EContainer CParagraph [] [(EAnchor (Some ATNewTab) [((lit "href"), (lit "https://example.com")); ((lit "style"), (lit "color: red;"))] [(EText (lit "My")); (EText (lit " ")); (EText (lit "link"))])]); (EFootnoteBlock None false)] [] [] [] [] [] 0 []).
Proof. vm_compute. reflexivity. Qed.
Example test_blockquote_alias_empty_inline : run_test (lit "[[quote]][[/quote]]") = Parsed (TREE [(EContainer CBlockquote [] []); (EFootnoteBlock None false)] [] [] [] [] [] 0 []).
Proof. vm_compute. reflexivity. Qed.
Example test_blockquote_class : run_test (lit "[[blockquote class=""jelly""]]
Apple
[[/blockquote]]") = Parsed (TREE [(EContainer CBlockquote [((lit "class"), (lit "jelly"))] [(EContainer CParagraph [] [(EText (lit "Apple"))])]); (EFootnoteBlock None false)] [] [] [] [] [] 0 []).
Proof. vm_compute. reflexivity. Qed.
Example test_blockquote_inline_empty : run_test (lit "[[blockquote]][[/blockquote]]") = Parsed (TREE [(EContainer CBlockquote [] []); (EFootnoteBlock None false)] [] [] [] [] [] 0 []).
Proof. vm_compute. reflexivity. Qed.
Example test_blockquote_native_depths : run_test (lit "> Apple
>> Banana
>>> Cherry") = Parsed (TREE [(EContainer CBlockquote [] [(EContainer CParagraph [] [(EText (lit "Apple"))]); (EContainer CBlockquote [] [(EContainer CParagraph [] [(EText (lit "Banana"))]); (EContainer CBlockquote [] [(EContainer CParagraph [] [(EText (lit "Cherry"))])])])]); (EFootnoteBlock None false)] [] [] [] [] [] 0 []).
Proof. vm_compute. reflexivity. Qed.
Example test_blockquote_native_spaces_depths : run_test (lit ">Apple
>>Banana
>>>Cherry") = Parsed (TREE [(EContainer CBlockquote [] [(EContainer CParagraph [] [(EText (lit "Apple"))]); (EContainer CBlockquote [] [(EContainer CParagraph [] [(EText (lit "Banana"))]); (EContainer CBlockquote [] [(EContainer CParagraph [] [(EText (lit "Cherry"))])])])]); (EFootnoteBlock None false)] [] [] [] [] [] 0 []).
Proof. vm_compute. reflexivity. Qed.
Example test_blockquote_native : run_test (lit "[
> Apple
]") = Parsed (TREE [(EContainer CParagraph [] [(EText (lit "["))]); (EContainer CBlockquote [] [(EContainer CParagraph [] [(EText (lit "Apple"))])]); (EContainer CParagraph [] [(EText (lit "]"))]); (EFootnoteBlock None false)] [] [] [] [] [] 0 []).
Proof. vm_compute. reflexivity. Qed.
Example test_blockquote_style : run_test (lit "[[blockquote style=""display: flex"" data-fruit=""red""]]
Apple
[[/blockquote]]") = Parsed (TREE [(EContainer CBlockquote [((lit "data-fruit"), (lit "red")); ((lit "style"), (lit "display: flex"))] [(EContainer CParagraph [] [(EText (lit "Apple"))])]); (EFootnoteBlock None false)] [] [] [] [] [] 0 []).
Proof. vm_compute. reflexivity. Qed.
Example test_bold_block_empty : run_test (lit "Empty [[b]][[/b]]") = Parsed (TREE [(EContainer CParagraph [] [(EText (lit "Empty")); (EText (lit " ")); (EContainer CBold [] [])]); (EFootnoteBlock None false)] [] [] [] [] [] 0 []).
Proof. vm_compute. reflexivity. Qed.
Example test_bold_block : run_test (lit "[[b]]Bold[[/b]] Text") = Parsed (TREE [(EContainer CParagraph [] [(EContainer CBold [] [(EText (lit "Bold"))]); (EText (lit " ")); (EText (lit "Text"))]); (EFootnoteBlock None false)] [] [] [] [] [] 0 []).
Proof. vm_compute. reflexivity. Qed.
Example test_bold_italics_underline : run_test (lit "**Apple //Banana __Cherry__ Durian//** Pineapple") = Parsed (TREE [(EContainer CParagraph [] [(EContainer CBold [] [(EText (lit "Apple")); (EText (lit " ")); (EContainer CItalics [] [(EText (lit "Banana")); (EText (lit " ")); (EContainer CUnderline [] [(EText (lit "Cherry"))]); (EText (lit " ")); (EText (lit "Durian"))])]); (EText (lit " ")); (EText (lit "Pineapple"))]); (EFootnoteBlock None false)] [] [] [] [] [] 0 []).
Proof. vm_compute. reflexivity. Qed.
Example test_bold : run_test (lit "**Bold** Text") = Parsed (TREE [(EContainer CParagraph [] [(EContainer CBold [] [(EText (lit "Bold"))]); (EText (lit " ")); (EText (lit "Text"))]); (EFootnoteBlock None false)] [] [] [] [] [] 0 []).
Proof. vm_compute. reflexivity. Qed.
Example test_center_paragraph : run_test (lit "[

= Apple

]") = Parsed (TREE [(EContainer CParagraph [] [(EText (lit "["))]); (EContainer (CAlign AlCenter) [] [(EText (lit "Apple"))]); (EContainer CParagraph [] [(EText (lit "]"))]); (EFootnoteBlock None false)] [] [] [] [] [] 0 []).
Proof. vm_compute. reflexivity. Qed.
Example test_char_hex : run_test (lit "[[char #x1f980]] pineapple") = Parsed (TREE [(EContainer CParagraph [] [(EText [129408%N]); (EText (lit " ")); (EText (lit "pineapple"))]); (EFootnoteBlock None false)] [] [] [] [] [] 0 []).
Proof. vm_compute. reflexivity. Qed.
Example test_char2_decimal : run_test (lit "[[char &#129408;]] pineapple") = Parsed (TREE [(EContainer CParagraph [] [(EText [129408%N]); (EText (lit " ")); (EText (lit "pineapple"))]); (EFootnoteBlock None false)] [] [] [] [] [] 0 []).
Proof. vm_compute. reflexivity. Qed.
Example test_char2_trailing : run_test (lit "[[char amp;]] pineapple") = Parsed (TREE [(EContainer CParagraph [] [(EText (lit "&")); (EText (lit " ")); (EText (lit "pineapple"))]); (EFootnoteBlock None false)] [] [] [] [] [] 0 []).
Proof. vm_compute. reflexivity. Qed.
Example test_checkbox_style : run_test (lit "[[checkbox id=""apple"" style=""color: red;"" disabled=""yes""]] Apple
[[checkbox id=""banana"" style=""color: yellow;"" disabled=""false""]] Banana") = Parsed (TREE [(EContainer CParagraph [] [(ECheckBox false [((lit "disabled"), []); ((lit "id"), (lit "apple")); ((lit "style"), (lit "color: red;"))]); (EText (lit "Apple")); ELineBreak; (ECheckBox false [((lit "id"), (lit "banana")); ((lit "style"), (lit "color: yellow;"))]); (EText (lit "Banana"))]); (EFootnoteBlock None false)] [] [] [] [] [] 0 []).
Proof. vm_compute. reflexivity. Qed.
Example test_clear_float_3 : run_test (lit "~~~
Clear float") = Parsed (TREE [(EClearFloat CFBoth); (EContainer CParagraph [] [(EText (lit "Clear")); (EText (lit " ")); (EText (lit "float"))]); (EFootnoteBlock None false)] [] [] [] [] [] 0 []).
Proof. vm_compute. reflexivity. Qed.
Example test_clear_float_right : run_test (lit "~~~~>
Clear float right") = Parsed (TREE [(EClearFloat CFRight); (EContainer CParagraph [] [(EText (lit "Clear")); (EText (lit " ")); (EText (lit "float")); (EText (lit " ")); (EText (lit "right"))]); (EFootnoteBlock None false)] [] [] [] [] [] 0 []).
Proof. vm_compute. reflexivity. Qed.
Example test_code_fail_head : run_test (lit "[[code type=""css""  ") = Parsed (TREE [(EContainer CParagraph [] [(EText (lit "[[")); (EText (lit "code")); (EText (lit " ")); (EText (lit "type")); (EText (lit "=")); (EText (lit """css""")); (EText (lit "  "))]); (EFootnoteBlock None false)] [] [] [] [] [] 0 [(PE BlockMalformedArguments "block-code"%string TInputEnd 19 19); (PE NoRulesMatch "fallback"%string TLeftBlock 0 2)]).
Proof. vm_compute. reflexivity. Qed.
Example test_code_inline : run_test (lit "[[code]]text here[[/code]]") = Parsed (TREE [(ECode (lit "text here") None); (EFootnoteBlock None false)] [] [] [(CB (lit "text here") None)] [] [] 0 []).
Proof. vm_compute. reflexivity. Qed.
Example test_code_multiline : run_test (lit "[[code]]
multiple
**lines**
of
code
[[/code]]") = Parsed (TREE [(ECode (lit "multiple
**lines**
of
code") None); (EFootnoteBlock None false)] [] [] [(CB (lit "multiple
**lines**
of
code") None)] [] [] 0 []).
Proof. vm_compute. reflexivity. Qed.
Example test_code : run_test (lit "[[code]]
text here
[[/code]]") = Parsed (TREE [(ECode (lit "text here") None); (EFootnoteBlock None false)] [] [] [(CB (lit "text here") None)] [] [] 0 []).
Proof. vm_compute. reflexivity. Qed.
Example test_collapsible_inline : run_test (lit "[[collapsible]]Apple[[/collapsible]]") = Parsed (TREE [(ECollapsible [(EContainer CParagraph [] [(EText (lit "Apple"))])] [] false None None true false); (EFootnoteBlock None false)] [] [] [] [] [] 0 []).
Proof. vm_compute. reflexivity. Qed.
Example test_collapsible_location_top : run_test (lit "[[collapsible HIDEloCATioN =  ""top"" ]]
Cherry
[[/collapsible]]") = Parsed (TREE [(ECollapsible [(EContainer CParagraph [] [(EText (lit "Cherry"))])] [] false None None true false); (EFootnoteBlock None false)] [] [] [] [] [] 0 []).
Proof. vm_compute. reflexivity. Qed.
Example test_collapsible_styling : run_test (lit "[[collapsible id=""fruit"" class=""collapse-list"" style=""display: inline-block""]]
Banana
[[/collapsible]]") = Parsed (TREE [(ECollapsible [(EContainer CParagraph [] [(EText (lit "Banana"))])] [((lit "class"), (lit "collapse-list")); ((lit "id"), (lit "fruit")); ((lit "style"), (lit "display: inline-block"))] false None None true false); (EFootnoteBlock None false)] [] [] [] [] [] 0 []).
Proof. vm_compute. reflexivity. Qed.
Example test_color_fail : run_test (lit "##not color") = Parsed (TREE [(EContainer CParagraph [] [(EText (lit "##")); (EText (lit "not")); (EText (lit " ")); (EText (lit "color"))]); (EFootnoteBlock None false)] [] [] [] [] [] 0 [(PE EndOfInput "color"%string TInputEnd 11 11); (PE NoRulesMatch "fallback"%string TColor 0 2)]).
Proof. vm_compute. reflexivity. Qed.
Example test_comment_fail_left : run_test (lit "Fail [!-- Comment") = Parsed (TREE [(EContainer CParagraph [] [(EText (lit "Fail")); (EText (lit " ")); (EText (lit "[!--")); (EText (lit " ")); (EText (lit "Comment"))]); (EFootnoteBlock None false)] [] [] [] [] [] 0 [(PE EndOfInput "comment"%string TInputEnd 17 17); (PE NoRulesMatch "fallback"%string TLeftComment 5 9)]).
Proof. vm_compute. reflexivity. Qed.
Example test_definition_list_elements : run_test (lit ": **Key** : //Value// here") = Parsed (TREE [(EDefinitionList [(DF (lit "**Key**") [(EContainer CBold [] [(EText (lit "Key"))])] [(EContainer CItalics [] [(EText (lit "Value"))]); (EText (lit " ")); (EText (lit "here"))])]); (EFootnoteBlock None false)] [] [] [] [] [] 0 []).
Proof. vm_compute. reflexivity. Qed.
Example test_definition_list_line_break : run_test (lit ": My key : Long value _
with a newline in the middle
: Other key : Other value") = Parsed (TREE [(EDefinitionList [(DF (lit "My key") [(EText (lit "My")); (EText (lit " ")); (EText (lit "key"))] [(EText (lit "Long")); (EText (lit " ")); (EText (lit "value")); ELineBreak; (EText (lit "with")); (EText (lit " ")); (EText (lit "a")); (EText (lit " ")); (EText (lit "newline")); (EText (lit " ")); (EText (lit "in")); (EText (lit " ")); (EText (lit "the")); (EText (lit " ")); (EText (lit "middle"))]); (DF (lit "Other key") [(EText (lit "Other")); (EText (lit " ")); (EText (lit "key"))] [(EText (lit "Other")); (EText (lit " ")); (EText (lit "value"))])]); (EFootnoteBlock None false)] [] [] [] [] [] 0 []).
Proof. vm_compute. reflexivity. Qed.
Example test_del_newlines : run_test (lit "[[del]]
Apple
Banana
[[/del]]") = Parsed (TREE [(EContainer CParagraph [] [(EContainer CDeletion [] [ELineBreak; (EText (lit "Apple")); ELineBreak; (EText (lit "Banana")); ELineBreak])]); (EFootnoteBlock None false)] [] [] [] [] [] 0 []).
Proof. vm_compute. reflexivity. Qed.
Example test_div_class : run_test (lit "[[div class=""blockquote""]]
Apple
[[/div]]") = Parsed (TREE [(EContainer CDiv [((lit "class"), (lit "blockquote"))] [(EContainer CParagraph [] [(EText (lit "Apple"))])]); (EFootnoteBlock None false)] [] [] [] [] [] 0 []).
Proof. vm_compute. reflexivity. Qed.
Example test_div_id : run_test (lit "[[div id=""my-div""]]
Apple
[[/div]]") = Parsed (TREE [(EContainer CDiv [((lit "id"), (lit "my-div"))] [(EContainer CParagraph [] [(EText (lit "Apple"))])]); (EFootnoteBlock None false)] [] [] [] [] [] 0 []).
Proof. vm_compute. reflexivity. Qed.
Example test_div_nested_deep : run_test (lit "[[div]]
A
[[div]]
B
[[div]]
C
[[div]]
D
[[/div]]
[[/div]]
[[/div]]
[[/div]]") = Parsed (TREE [(EContainer CDiv [] [(EContainer CParagraph [] [(EText (lit "A"))]); (EContainer CDiv [] [(EContainer CParagraph [] [(EText (lit "B"))]); (EContainer CDiv [] [(EContainer CParagraph [] [(EText (lit "C"))]); (EContainer CDiv [] [(EContainer CParagraph [] [(EText (lit "D"))])])])])]); (EFootnoteBlock None false)] [] [] [] [] [] 0 []).
Proof. vm_compute. reflexivity. Qed.
Example test_div : run_test (lit "[[div]]
Apple
[[/div]]") = Parsed (TREE [(EContainer CDiv [] [(EContainer CParagraph [] [(EText (lit "Apple"))])]); (EFootnoteBlock None false)] [] [] [] [] [] 0 []).
Proof. vm_compute. reflexivity. Qed.
Example test_div2_ending : run_test (lit "[[div_]]
Banana
[[/div_]]") = Parsed (TREE [(EContainer CDiv [] [(EText (lit "Banana"))]); (EFootnoteBlock None false)] [] [] [] [] [] 0 []).
Proof. vm_compute. reflexivity. Qed.
Example test_div2_nested_deep : run_test (lit "[[div_]]
A
[[div_]]
B
[[div_]]
C
[[div_]]
D
[[/div]]
[[/div]]
[[/div]]
[[/div]]") = Parsed (TREE [(EContainer CDiv [] [(EText (lit "A")); (EContainer CDiv [] [(EText (lit "B")); (EContainer CDiv [] [(EText (lit "C")); (EContainer CDiv [] [(EText (lit "D"))])])])]); (EFootnoteBlock None false)] [] [] [] [] [] 0 []).
Proof. vm_compute. reflexivity. Qed.
Example test_double_angle_left_multiple : run_test (lit "Double << Angles << Everywhere") = Parsed (TREE [(EContainer CParagraph [] [(EText (lit "Double")); (EText (lit " ")); (EText [171%N]); (EText (lit " ")); (EText (lit "Angles")); (EText (lit " ")); (EText [171%N]); (EText (lit " ")); (EText (lit "Everywhere"))]); (EFootnoteBlock None false)] [] [] [] [] [] 0 []).
Proof. vm_compute. reflexivity. Qed.
Example test_em_dash_multiple : run_test (lit "Many -- Em -- Dashes --") = Parsed (TREE [(EContainer CParagraph [] [(EText (lit "Many")); (EText (lit " ")); (EText [8212%N]); (EText (lit " ")); (EText (lit "Em")); (EText (lit " ")); (EText [8212%N]); (EText (lit " ")); (EText (lit "Dashes")); (EText (lit " ")); (EText [8212%N])]); (EFootnoteBlock None false)] [] [] [] [] [] 0 []).
Proof. vm_compute. reflexivity. Qed.
Example test_embed_vimeo : run_test (lit "[[embed vimeo video=""221821296""]]") = Parsed (TREE [(EEmbed (EmVimeo (lit "221821296"))); (EFootnoteBlock None false)] [] [] [] [] [] 0 []).
Proof. vm_compute. reflexivity. Qed.
Example test_equation_reference_alias : run_test (lit "Apple[[equation Fruit]]") = Parsed (TREE [(EContainer CParagraph [] [(EText (lit "Apple")); (EEquationReference (lit "Fruit"))]); (EFootnoteBlock None false)] [] [] [] [] [] 0 []).
Proof. vm_compute. reflexivity. Qed.
Example test_footnote_block_empty : run_test (lit "A
[[footnoteblock]]
B") = Parsed (TREE [(EContainer CParagraph [] [(EText (lit "A"))]); (EFootnoteBlock None false); (EContainer CParagraph [] [(EText (lit "B"))])] [] [] [] [] [] 0 []).
Proof. vm_compute. reflexivity. Qed.
Example test_footnote_block_title : run_test (lit "A[[footnote]]B[[/footnote]]
[[footnoteblock title=""The notes of the foot""]]") = Parsed (TREE [(EContainer CParagraph [] [(EText (lit "A")); EFootnote]); (EFootnoteBlock (Some (lit "The notes of the foot")) false)] [] [] [] [[(EText (lit "B"))]] [] 0 []).
Proof. vm_compute. reflexivity. Qed.
Example test_footnote_ref_empty : run_test (lit "A[[footnote]][[/footnote]]") = Parsed (TREE [(EContainer CParagraph [] [(EText (lit "A")); EFootnote]); (EFootnoteBlock None false)] [] [] [] [[]] [] 0 []).
Proof. vm_compute. reflexivity. Qed.
Example test_footnote_ref : run_test (lit "Apple[[footnote]]Banana cherry[[/footnote]]") = Parsed (TREE [(EContainer CParagraph [] [(EText (lit "Apple")); EFootnote]); (EFootnoteBlock None false)] [] [] [] [[(EText (lit "Banana")); (EText (lit " ")); (EText (lit "cherry"))]] [] 0 []).
Proof. vm_compute. reflexivity. Qed.
Example test_heading_1 : run_test (lit "+ My //header//") = Parsed (TREE [(EContainer (CHeader (HD 1 true)) [] [(EText (lit "My")); (EText (lit " ")); (EContainer CItalics [] [(EText (lit "header"))])]); (EFootnoteBlock None false)] [(EList LBullet [] [(LIElements [] [(ELink LTTableOfContents (LUrl (lit "#toc0")) None (LabelText (lit "My header")) None)])])] [] [] [] [] 0 []).
Proof. vm_compute. reflexivity. Qed.
Example test_heading_3 : run_test (lit "Apple
+++ Banana Cherry") = Parsed (TREE [(EContainer CParagraph [] [(EText (lit "Apple"))]); (EContainer (CHeader (HD 3 true)) [] [(EText (lit "Banana")); (EText (lit " ")); (EText (lit "Cherry"))]); (EFootnoteBlock None false)] [(EList LBullet [] [(LISubList (EList LBullet [] [(LISubList (EList LBullet [] [(LIElements [] [(ELink LTTableOfContents (LUrl (lit "#toc0")) None (LabelText (lit "Banana Cherry")) None)])]))]))])] [] [] [] [] 0 []).
Proof. vm_compute. reflexivity. Qed.
Example test_heading_5 : run_test (lit "[
+++++ Header Five
]") = Parsed (TREE [(EContainer CParagraph [] [(EText (lit "["))]); (EContainer (CHeader (HD 5 true)) [] [(EText (lit "Header")); (EText (lit " ")); (EText (lit "Five"))]); (EContainer CParagraph [] [(EText (lit "]"))]); (EFootnoteBlock None false)] [(EList LBullet [] [(LISubList (EList LBullet [] [(LISubList (EList LBullet [] [(LISubList (EList LBullet [] [(LISubList (EList LBullet [] [(LIElements [] [(ELink LTTableOfContents (LUrl (lit "#toc0")) None (LabelText (lit "Header Five")) None)])]))]))]))]))])] [] [] [] [] 0 []).
Proof. vm_compute. reflexivity. Qed.
Example test_heading_7_toc_fail : run_test (lit "+++++++* fail header") = Parsed (TREE [(EContainer CParagraph [] [(EText (lit "++++++")); (EText (lit "+*")); (EText (lit " ")); (EText (lit "fail")); (EText (lit " ")); (EText (lit "header"))]); (EFootnoteBlock None false)] [] [] [] [] [] 0 []).
Proof. vm_compute. reflexivity. Qed.
Example test_hidden_style : run_test (lit "[[hidden id=""my-span"" style=""line-height: 1em;""]]Hidden[[/hidden]] Text") = Parsed (TREE [(EContainer CParagraph [] [(EContainer CHidden [((lit "id"), (lit "my-span")); ((lit "style"), (lit "line-height: 1em;"))] [(EText (lit "Hidden"))]); (EText (lit " ")); (EText (lit "Text"))]); (EFootnoteBlock None false)] [] [] [] [] [] 0 []).
Proof. vm_compute. reflexivity. Qed.
Example test_hr_3 : run_test (lit "---
Horizontal rule") = Parsed (TREE [EHorizontalRule; (EContainer CParagraph [] [(EText (lit "Horizontal")); (EText (lit " ")); (EText (lit "rule"))]); (EFootnoteBlock None false)] [] [] [] [] [] 0 []).
Proof. vm_compute. reflexivity. Qed.
Example test_html_empty : run_test (lit "Empty
[[html]]
[[/html]]") = Parsed (TREE [(EContainer CParagraph [] [(EText (lit "Empty"))]); (EHtml []); (EFootnoteBlock None false)] [] [[]] [] [] [] 0 []).
Proof. vm_compute. reflexivity. Qed.
Example test_html_inline_empty : run_test (lit "[[html]][[/html]]") = Parsed (TREE [(EHtml []); (EFootnoteBlock None false)] [] [[]] [] [] [] 0 []).
Proof. vm_compute. reflexivity. Qed.
Example test_ifcategory_css : run_test (lit "[[ifcategory _default]]
[[module css]]body { color: red; }[[/module]]
[[/ifcategory]]
[[ifcategory fragment]]
[[module css]]body { color: blue; }[[/module]]
[[/ifcategory]]") = Parsed (TREE [(EStyle (lit "body { color: red; }")); (EFootnoteBlock None false)] [] [] [] [] [] 0 []).
Proof. vm_compute. reflexivity. Qed.
Example test_iframe_http : run_test (lit "[[iframe http://scp-wiki.wikidot.com/scp-1000 ]]") = Parsed (TREE [(EIframe [] (lit "http://scp-wiki.wikidot.com/scp-1000")); (EFootnoteBlock None false)] [] [] [] [] [] 0 []).
Proof. vm_compute. reflexivity. Qed.
Example test_iframe : run_test (lit "[[iframe https://example.com]]") = Parsed (TREE [(EIframe [] (lit "https://example.com")); (EFootnoteBlock None false)] [] [] [] [] [] 0 []).
Proof. vm_compute. reflexivity. Qed.
Example test_image_attributes : run_test (lit "A [[image green_apple.png alt=""A green apple"" title=""Take a big bite!"" style=""width: 100%;"" class=""fruity""]] B") = Parsed (TREE [(EContainer CParagraph [] [(EText (lit "A")); (EText (lit " ")); (EImage (ISFile1 (lit "green_apple.png")) None None [((lit "alt"), (lit "A green apple")); ((lit "class"), (lit "fruity")); ((lit "style"), (lit "width: 100%;")); ((lit "title"), (lit "Take a big bite!"))]); (EText (lit " ")); (EText (lit "B"))]); (EFootnoteBlock None false)] [] [] [] [] [] 0 []).
Proof. vm_compute. reflexivity. Qed.
Example test_image_file2_slash : run_test (lit "A [[image some-other-page/my-picture.jpeg]] B") = Parsed (TREE [(EContainer CParagraph [] [(EText (lit "A")); (EText (lit " ")); (EImage (ISFile2 (lit "some-other-page") (lit "my-picture.jpeg")) None None []); (EText (lit " ")); (EText (lit "B"))]); (EFootnoteBlock None false)] [] [] [] [] [] 0 []).
Proof. vm_compute. reflexivity. Qed.
Example test_image_float_center_fail : run_test (lit "[[f=image landscape.png]]") = Parsed (TREE [(EContainer CParagraph [] [(EText (lit "[[")); (EText (lit "f")); (EText (lit "=")); (EText (lit "image")); (EText (lit " ")); (EText (lit "landscape")); (EText (lit ".")); (EText (lit "png")); (EText (lit "]]"))]); (EFootnoteBlock None false)] [] [] [] [] [] 0 [(PE NoSuchBlock "block"%string TIdentifier 10 19); (PE NoRulesMatch "fallback"%string TLeftBlock 0 2); (PE NoRulesMatch "fallback"%string TRightBlock 23 25)]).
Proof. vm_compute. reflexivity. Qed.
Example test_image_justify_fail : run_test (lit "[[==image landscape.png]]") = Parsed (TREE [(EContainer CParagraph [] [(EText (lit "[[")); (EText (lit "=")); (EText (lit "=")); (EText (lit "image")); (EText (lit " ")); (EText (lit "landscape")); (EText (lit ".")); (EText (lit "png")); (EText (lit "]]"))]); (EFootnoteBlock None false)] [] [] [] [] [] 0 [(PE NoSuchBlock "block"%string TIdentifier 10 19); (PE NoRulesMatch "fallback"%string TLeftBlock 0 2); (PE NoRulesMatch "fallback"%string TRightBlock 23 25)]).
Proof. vm_compute. reflexivity. Qed.
Example test_image_link : run_test (lit "A [[image filename.png link=""https://example.com/""]] B") = Parsed (TREE [(EContainer CParagraph [] [(EText (lit "A")); (EText (lit " ")); (EImage (ISFile1 (lit "filename.png")) (Some (LUrl (lit "https://example.com/"))) None []); (EText (lit " ")); (EText (lit "B"))]); (EFootnoteBlock None false)] [] [] [] [] [] 0 []).
Proof. vm_compute. reflexivity. Qed.
Example test_include_elements_variables : run_test (lit "[[include-elements component:image-block name=""peanut.png"" caption=""Haha funi""]]") = Parsed (TREE [(EInclude false [((lit "name"), (lit "peanut.png")); ((lit "caption"), (lit "Haha funi"))] (PR None (lit "component:image-block")) [(EText (lit "<INCLUDED PAGE (ELEMENTS)>"))]); (EFootnoteBlock None false)] [] [] [] [] [] 0 []).
Proof. vm_compute. reflexivity. Qed.
Example test_include_wikidot_error : run_test (lit "[[include my-page]") = Parsed (TREE [(EContainer CParagraph [] [(EText (lit "[[")); (EText (lit "include")); (EText (lit " ")); (EText (lit "my")); (EText (lit "-")); (EText (lit "page")); (EText (lit "]"))]); (EFootnoteBlock None false)] [] [] [] [] [] 0 [(PE InvalidInclude "block-include"%string TIdentifier 10 12); (PE NoRulesMatch "fallback"%string TLeftBlock 0 2)]).
Proof. vm_compute. reflexivity. Qed.
Example test_include_wikidot_parameters_after : run_test (lit "[[include component:fruit class=box| apple=1 | banana = 2 |]]") = Parsed (TREE [(EContainer CDiv [((lit "class"), (lit "box")); ((lit "id"), (lit "fruit"))] [(EContainer CParagraph [] [(EText (lit "  "))]); (EList LBullet [] [(LIElements [] [(EText (lit "1")); (EText (lit "  "))]); (LIElements [] [(EText (lit "2")); (EText (lit "  "))])])]); (EFootnoteBlock None false)] [] [] [] [] [] 0 []).
Proof. vm_compute. reflexivity. Qed.
Example test_include_wikidot_parameters_newlines_before : run_test (lit "[[include component:fruit |
 class=box |
 apple=1 |
 banana = 2]]") = Parsed (TREE [(EContainer CDiv [((lit "class"), (lit "box ")); ((lit "id"), (lit "fruit"))] [(EContainer CParagraph [] [(EText (lit "  "))]); (EList LBullet [] [(LIElements [] [(EText (lit "1")); (EText (lit "  "))]); (LIElements [] [(EText (lit "2")); (EText (lit " "))])])]); (EFootnoteBlock None false)] [] [] [] [] [] 0 []).
Proof. vm_compute. reflexivity. Qed.
Example test_include_wikidot_parameters_whitespace : run_test (lit "[[include component:fruit   class   =box|   apple =  1 |  banana=2|]]") = Parsed (TREE [(EContainer CDiv [((lit "class"), (lit "box")); ((lit "id"), (lit "fruit"))] [(EContainer CParagraph [] [(EText (lit "  "))]); (EList LBullet [] [(LIElements [] [(EText (lit "1")); (EText (lit "  "))]); (LIElements [] [(EText (lit "2")); (EText (lit " "))])])]); (EFootnoteBlock None false)] [] [] [] [] [] 0 []).
Proof. vm_compute. reflexivity. Qed.
Example test_ins_alias : run_test (lit "Apple
[[insertion]]Banana[[/insertion]]") = Parsed (TREE [(EContainer CParagraph [] [(EText (lit "Apple")); ELineBreak; (EContainer CInsertion [] [(EText (lit "Banana"))])]); (EFootnoteBlock None false)] [] [] [] [] [] 0 []).
Proof. vm_compute. reflexivity. Qed.
Example test_ins : run_test (lit "Apple
[[ins]]Banana[[/ins]]") = Parsed (TREE [(EContainer CParagraph [] [(EText (lit "Apple")); ELineBreak; (EContainer CInsertion [] [(EText (lit "Banana"))])]); (EFootnoteBlock None false)] [] [] [] [] [] 0 []).
Proof. vm_compute. reflexivity. Qed.
Example test_invisible : run_test (lit "[[invisible]]Invisible[[/invisible]] Text") = Parsed (TREE [(EContainer CParagraph [] [(EContainer CInvisible [] [(EText (lit "Invisible"))]); (EText (lit " ")); (EText (lit "Text"))]); (EFootnoteBlock None false)] [] [] [] [] [] 0 []).
Proof. vm_compute. reflexivity. Qed.
Example test_italics_block_empty : run_test (lit "Empty [[i]][[/i]]") = Parsed (TREE [(EContainer CParagraph [] [(EText (lit "Empty")); (EText (lit " ")); (EContainer CItalics [] [])]); (EFootnoteBlock None false)] [] [] [] [] [] 0 []).
Proof. vm_compute. reflexivity. Qed.
Example test_italics_block : run_test (lit "[[i]]Italics[[/i]] Text") = Parsed (TREE [(EContainer CParagraph [] [(EContainer CItalics [] [(EText (lit "Italics"))]); (EText (lit " ")); (EText (lit "Text"))]); (EFootnoteBlock None false)] [] [] [] [] [] 0 []).
Proof. vm_compute. reflexivity. Qed.
Example test_italics : run_test (lit "//Italics// Text") = Parsed (TREE [(EContainer CParagraph [] [(EContainer CItalics [] [(EText (lit "Italics"))]); (EText (lit " ")); (EText (lit "Text"))]); (EFootnoteBlock None false)] [] [] [] [] [] 0 []).
Proof. vm_compute. reflexivity. Qed.
Example test_line_breaks_error_negative : run_test (lit "[[lines -5]]") = Parsed (TREE [(EContainer CParagraph [] [(EText (lit "[[")); (EText (lit "lines")); (EText (lit " ")); (EText (lit "-")); (EText (lit "5")); (EText (lit "]]"))]); (EFootnoteBlock None false)] [] [] [] [] [] 0 [(PE BlockMalformedArguments "block-lines"%string TInputEnd 12 12); (PE NoRulesMatch "fallback"%string TLeftBlock 0 2); (PE NoRulesMatch "fallback"%string TRightBlock 10 12)]).
Proof. vm_compute. reflexivity. Qed.
Example test_link_anchor_fail : run_test (lit "[# Label") = Parsed (TREE [(EContainer CParagraph [] [(EText (lit "[#")); (EText (lit " ")); (EText (lit "Label"))]); (EFootnoteBlock None false)] [] [] [] [] [] 0 [(PE EndOfInput "link-anchor"%string TInputEnd 8 8); (PE NoRulesMatch "fallback"%string TLeftBracketAnchor 0 2)]).
Proof. vm_compute. reflexivity. Qed.
Example test_link_interwiki_colon : run_test (lit "[[[!wikipedia:es:Capybara]]], [[[!wikipedia:es:Capybara | Capybaras]]]") = Parsed (TREE [(EContainer CParagraph [] [(ELink LTInterwiki (LUrl (lit "https://wikipedia.org/wiki/es:Capybara")) None (LabelUrl (Some (lit "es:Capybara"))) None); (EText (lit ",")); (EText (lit " ")); (ELink LTInterwiki (LUrl (lit "https://wikipedia.org/wiki/es:Capybara")) None (LabelText (lit "Capybaras")) None)]); (EFootnoteBlock None false)] [] [] [] [] [] 0 []).
Proof. vm_compute. reflexivity. Qed.
Example test_link_interwiki : run_test (lit "[[[!wikipedia:Apple]]]") = Parsed (TREE [(EContainer CParagraph [] [(ELink LTInterwiki (LUrl (lit "https://wikipedia.org/wiki/Apple")) None (LabelUrl (Some (lit "Apple"))) None)]); (EFootnoteBlock None false)] [] [] [] [] [] 0 []).
Proof. vm_compute. reflexivity. Qed.
Example test_link_single_fail_newline : run_test (lit "[https://example.com/ 
 Label]") = Parsed (TREE [(EContainer CParagraph [] [(EText (lit "[")); (ELink LTDirect (LUrl (lit "https://example.com/")) None (LabelUrl None) None); (EText (lit " ")); ELineBreak; (EText (lit " ")); (EText (lit "Label")); (EText (lit "]"))]); (EFootnoteBlock None false)] [] [] [] [] [] 0 []).
Proof. vm_compute. reflexivity. Qed.
Example test_link_single_new_tab : run_test (lit "[*https://scp-sandbox-3.wikidot.com/system:recent-changes Sandbox: Recent Changes ]") = Parsed (TREE [(EContainer CParagraph [] [(ELink LTDirect (LUrl (lit "https://scp-sandbox-3.wikidot.com/system:recent-changes")) None (LabelText (lit "Sandbox: Recent Changes")) (Some ATNewTab))]); (EFootnoteBlock None false)] [] [] [] [] [] 0 []).
Proof. vm_compute. reflexivity. Qed.
Example test_link_single : run_test (lit "[https://example.com/ Some link]!") = Parsed (TREE [(EContainer CParagraph [] [(ELink LTDirect (LUrl (lit "https://example.com/")) None (LabelText (lit "Some link")) None); (EText (lit "!"))]); (EFootnoteBlock None false)] [] [] [] [] [] 0 []).
Proof. vm_compute. reflexivity. Qed.
Example test_link_triple_category : run_test (lit "[[[system:Recent Changes]]]") = Parsed (TREE [(EContainer CParagraph [] [(ELink LTPage (LPage (PR None (lit "system:Recent Changes"))) None (LabelUrl (Some (lit "Recent Changes"))) None)]); (EFootnoteBlock None false)] [] [] [] [] [] 0 []).
Proof. vm_compute. reflexivity. Qed.
Example test_link_triple_fail_brackets_right : run_test (lit "]]]some-page") = Parsed (TREE [(EContainer CParagraph [] [(EText (lit "]]]")); (EText (lit "some")); (EText (lit "-")); (EText (lit "page"))]); (EFootnoteBlock None false)] [] [] [] [] [] 0 [(PE NoRulesMatch "fallback"%string TRightLink 0 3)]).
Proof. vm_compute. reflexivity. Qed.
Example test_link_triple_label_new_tab : run_test (lit "[[[*some-page|Label]]]") = Parsed (TREE [(EContainer CParagraph [] [(ELink LTPage (LPage (PR None (lit "some-page"))) None (LabelText (lit "Label")) (Some ATNewTab))]); (EFootnoteBlock None false)] [] [] [] [] [] 0 []).
Proof. vm_compute. reflexivity. Qed.
Example test_link_triple_new_tab : run_test (lit "[[[*SCP-001]]]") = Parsed (TREE [(EContainer CParagraph [] [(ELink LTPage (LPage (PR None (lit "SCP-001"))) None (LabelUrl None) (Some ATNewTab))]); (EFootnoteBlock None false)] [] [] [] [] [] 0 []).
Proof. vm_compute. reflexivity. Qed.
Example test_link_triple_site : run_test (lit "[[[:scp-wiki:scp-1000|Children of the Night]]]") = Parsed (TREE [(EContainer CParagraph [] [(ELink LTPage (LPage (PR (Some (lit "scp-wiki")) (lit "scp-1000"))) None (LabelText (lit "Children of the Night")) None)]); (EFootnoteBlock None false)] [] [] [] [] [] 0 []).
Proof. vm_compute. reflexivity. Qed.
Example test_link_triple_title_new_tab : run_test (lit "[[[*some-page|]]]") = Parsed (TREE [(EContainer CParagraph [] [(ELink LTPage (LPage (PR None (lit "some-page"))) None LabelPage (Some ATNewTab))]); (EFootnoteBlock None false)] [] [] [] [] [] 0 []).
Proof. vm_compute. reflexivity. Qed.
Example test_link_triple_whitespace_new_tab : run_test (lit "[[[* some-page  |  My label  ]]]") = Parsed (TREE [(EContainer CParagraph [] [(ELink LTPage (LPage (PR None (lit "some-page"))) None (LabelText (lit "My label")) (Some ATNewTab))]); (EFootnoteBlock None false)] [] [] [] [] [] 0 []).
Proof. vm_compute. reflexivity. Qed.
Example test_list_block_attributes : run_test (lit "[[ol class=""numbers"" data-fruit=""banana""]]
[[li id=""item-1""]]
A
[[/li]]
[[li id=""item-2""]]
B
[[/li]]
[[/ol]]") = Parsed (TREE [(EList LNumbered [((lit "class"), (lit "numbers")); ((lit "data-fruit"), (lit "banana"))] [(LIElements [((lit "id"), (lit "item-1"))] [(EText (lit "A"))]); (LIElements [((lit "id"), (lit "item-2"))] [(EText (lit "B"))])]); (EFootnoteBlock None false)] [] [] [] [] [] 0 []).
Proof. vm_compute. reflexivity. Qed.
Example test_list_block_fail : run_test (lit "[[ul]] [[li]]A[[/li]] [[/ol]]") = Parsed (TREE [(EContainer CParagraph [] [(EText (lit "[[")); (EText (lit "ul")); (EText (lit "]]")); (EText (lit " ")); (EText (lit "[[")); (EText (lit "li")); (EText (lit "]]")); (EText (lit "A")); (EText (lit "[[/")); (EText (lit "li")); (EText (lit "]]")); (EText (lit " ")); (EText (lit "[[/")); (EText (lit "ol")); (EText (lit "]]"))]); (EFootnoteBlock None false)] [] [] [] [] [] 0 [(PE EndOfInput "block-list-unordered"%string TInputEnd 29 29); (PE NoRulesMatch "fallback"%string TLeftBlock 0 2); (PE NoRulesMatch "fallback"%string TRightBlock 4 6); (PE ListItemOutsideList "page"%string TLeftBlock 7 9); (PE NoRulesMatch "fallback"%string TLeftBlock 7 9); (PE NoRulesMatch "fallback"%string TRightBlock 11 13); (PE NoRulesMatch "fallback"%string TLeftBlockEnd 14 17); (PE NoRulesMatch "fallback"%string TRightBlock 19 21); (PE NoRulesMatch "fallback"%string TLeftBlockEnd 22 25); (PE NoRulesMatch "fallback"%string TRightBlock 27 29)]).
Proof. vm_compute. reflexivity. Qed.
Example test_list_block_ul : run_test (lit "[[ul]] [[li]]A[[/li]] [[li]]B[[/li]] [[/ul]]") = Parsed (TREE [(EList LBullet [] [(LIElements [] [(EText (lit "A"))]); (LIElements [] [(EText (lit "B"))])]); (EFootnoteBlock None false)] [] [] [] [] [] 0 []).
Proof. vm_compute. reflexivity. Qed.
Example test_list_bullet_depths_staggered : run_test (lit "[
 * A
* B
  * C
]") = Parsed (TREE [(EContainer CParagraph [] [(EText (lit "["))]); (EList LGeneric [] [(LISubList (EList LBullet [] [(LIElements [] [(EText (lit "A"))])]))]); (EList LBullet [] [(LIElements [] [(EText (lit "B"))]); (LISubList (EList LBullet [] [(LISubList (EList LBullet [] [(LIElements [] [(EText (lit "C"))])]))]))]); (EContainer CParagraph [] [(EText (lit "]"))]); (EFootnoteBlock None false)] [] [] [] [] [] 0 []).
Proof. vm_compute. reflexivity. Qed.
Example test_list_bullet_elements_multiple_both : run_test (lit "* A 1
* B 2
* C 3") = Parsed (TREE [(EList LBullet [] [(LIElements [] [(EText (lit "A")); (EText (lit " ")); (EText (lit "1"))]); (LIElements [] [(EText (lit "B")); (EText (lit " ")); (EText (lit "2"))]); (LIElements [] [(EText (lit "C")); (EText (lit " ")); (EText (lit "3"))])]); (EFootnoteBlock None false)] [] [] [] [] [] 0 []).
Proof. vm_compute. reflexivity. Qed.
Example test_list_bullet_elements_start : run_test (lit "* A 1
]") = Parsed (TREE [(EList LBullet [] [(LIElements [] [(EText (lit "A")); (EText (lit " ")); (EText (lit "1"))])]); (EContainer CParagraph [] [(EText (lit "]"))]); (EFootnoteBlock None false)] [] [] [] [] [] 0 []).
Proof. vm_compute. reflexivity. Qed.
Example test_list_bullet_multiple_both : run_test (lit "* A
* B
* C") = Parsed (TREE [(EList LBullet [] [(LIElements [] [(EText (lit "A"))]); (LIElements [] [(EText (lit "B"))]); (LIElements [] [(EText (lit "C"))])]); (EFootnoteBlock None false)] [] [] [] [] [] 0 []).
Proof. vm_compute. reflexivity. Qed.
Example test_list_bullet_paragraph : run_test (lit "[

* A

]") = Parsed (TREE [(EContainer CParagraph [] [(EText (lit "["))]); (EList LBullet [] [(LIElements [] [(EText (lit "A"))])]); (EContainer CParagraph [] [(EText (lit "]"))]); (EFootnoteBlock None false)] [] [] [] [] [] 0 []).
Proof. vm_compute. reflexivity. Qed.
Example test_list_mix_depths_staggered : run_test (lit "[
 * A
# B
  * C
 * D
]") = Parsed (TREE [(EContainer CParagraph [] [(EText (lit "["))]); (EList LGeneric [] [(LISubList (EList LBullet [] [(LIElements [] [(EText (lit "A"))])]))]); (EList LNumbered [] [(LIElements [] [(EText (lit "B"))]); (LISubList (EList LBullet [] [(LISubList (EList LBullet [] [(LIElements [] [(EText (lit "C"))])])); (LIElements [] [(EText (lit "D"))])]))]); (EContainer CParagraph [] [(EText (lit "]"))]); (EFootnoteBlock None false)] [] [] [] [] [] 0 []).
Proof. vm_compute. reflexivity. Qed.
Example test_list_numbered_depths_staggered : run_test (lit "[
 # A
# B
  # C
]") = Parsed (TREE [(EContainer CParagraph [] [(EText (lit "["))]); (EList LGeneric [] [(LISubList (EList LNumbered [] [(LIElements [] [(EText (lit "A"))])]))]); (EList LNumbered [] [(LIElements [] [(EText (lit "B"))]); (LISubList (EList LNumbered [] [(LISubList (EList LNumbered [] [(LIElements [] [(EText (lit "C"))])]))]))]); (EContainer CParagraph [] [(EText (lit "]"))]); (EFootnoteBlock None false)] [] [] [] [] [] 0 []).
Proof. vm_compute. reflexivity. Qed.
Example test_list_numbered_elements_multiple_both : run_test (lit "# A 1
# B 2
# C 3") = Parsed (TREE [(EList LNumbered [] [(LIElements [] [(EText (lit "A")); (EText (lit " ")); (EText (lit "1"))]); (LIElements [] [(EText (lit "B")); (EText (lit " ")); (EText (lit "2"))]); (LIElements [] [(EText (lit "C")); (EText (lit " ")); (EText (lit "3"))])]); (EFootnoteBlock None false)] [] [] [] [] [] 0 []).
Proof. vm_compute. reflexivity. Qed.
Example test_list_numbered_elements_start : run_test (lit "# A 1
]") = Parsed (TREE [(EList LNumbered [] [(LIElements [] [(EText (lit "A")); (EText (lit " ")); (EText (lit "1"))])]); (EContainer CParagraph [] [(EText (lit "]"))]); (EFootnoteBlock None false)] [] [] [] [] [] 0 []).
Proof. vm_compute. reflexivity. Qed.
Example test_list_numbered_multiple_both : run_test (lit "# A
# B
# C") = Parsed (TREE [(EList LNumbered [] [(LIElements [] [(EText (lit "A"))]); (LIElements [] [(EText (lit "B"))]); (LIElements [] [(EText (lit "C"))])]); (EFootnoteBlock None false)] [] [] [] [] [] 0 []).
Proof. vm_compute. reflexivity. Qed.
Example test_list_numbered_paragraph : run_test (lit "[

# A

]") = Parsed (TREE [(EContainer CParagraph [] [(EText (lit "["))]); (EList LNumbered [] [(LIElements [] [(EText (lit "A"))])]); (EContainer CParagraph [] [(EText (lit "]"))]); (EFootnoteBlock None false)] [] [] [] [] [] 0 []).
Proof. vm_compute. reflexivity. Qed.
Example test_mark_newlines : run_test (lit "[[mark]]
Apple
Banana
[[/mark]]") = Parsed (TREE [(EContainer CParagraph [] [(EContainer CMark [] [ELineBreak; (EText (lit "Apple")); ELineBreak; (EText (lit "Banana")); ELineBreak])]); (EFootnoteBlock None false)] [] [] [] [] [] 0 []).
Proof. vm_compute. reflexivity. Qed.
Example test_math_block_fail : run_test (lit "[[math]]
[[/math]]") = Parsed (TREE [(EContainer CParagraph [] [(EText (lit "[[")); (EText (lit "math")); (EText (lit "]]")); ELineBreak; (EText (lit "[[/")); (EText (lit "math")); (EText (lit "]]"))]); (EFootnoteBlock None false)] [] [] [] [] [] 0 [(PE RuleFailed "block-math"%string TInputEnd 18 18); (PE NoRulesMatch "fallback"%string TLeftBlock 0 2); (PE NoRulesMatch "fallback"%string TRightBlock 6 8); (PE NoRulesMatch "fallback"%string TLeftBlockEnd 9 12); (PE NoRulesMatch "fallback"%string TRightBlock 16 18)]).
Proof. vm_compute. reflexivity. Qed.
Example test_math_block_syntax : run_test (lit "[[math]]
\frac{1}{2
[[/math]]") = Parsed (TREE [(EMath None (lit "\frac{1}{2")); (EFootnoteBlock None false)] [] [] [] [] [] 0 []).
Proof. vm_compute. reflexivity. Qed.
Example test_math_inline_syntax : run_test (lit "Syntax [[$ 2^{\pi - 1 $]] Error") = Parsed (TREE [(EContainer CParagraph [] [(EText (lit "Syntax")); (EText (lit " ")); (EMathInline (lit "2^{\pi - 1")); (EText (lit " ")); (EText (lit "Error"))]); (EFootnoteBlock None false)] [] [] [] [] [] 0 []).
Proof. vm_compute. reflexivity. Qed.
Example test_module_backlinks : run_test (lit "[[module Backlinks]]
Apple") = Parsed (TREE [(EModule (MBacklinks None)); (EContainer CParagraph [] [(EText (lit "Apple"))]); (EFootnoteBlock None false)] [] [] [] [] [] 0 []).
Proof. vm_compute. reflexivity. Qed.
Example test_module_categories : run_test (lit "[[module Categories]]
Apple") = Parsed (TREE [(EModule (MCategories false)); (EContainer CParagraph [] [(EText (lit "Apple"))]); (EFootnoteBlock None false)] [] [] [] [] [] 0 []).
Proof. vm_compute. reflexivity. Qed.
Example test_module_join_button : run_test (lit "[[module Join button=""Join our site!! ;-)""]]
Apple") = Parsed (TREE [(EModule (MJoin (Some (lit "Join our site!! ;-)")) [])); (EContainer CParagraph [] [(EText (lit "Apple"))]); (EFootnoteBlock None false)] [] [] [] [] [] 0 []).
Proof. vm_compute. reflexivity. Qed.
Example test_module_pagetree_fail_bool : run_test (lit "[[module PageTree root=""scp-001"" showRoot=""nope"" depth=""2""]]") = Parsed (TREE [(EContainer CParagraph [] [(EText (lit "[[")); (EText (lit "module")); (EText (lit " ")); (EText (lit "PageTree")); (EText (lit " ")); (EText (lit "root")); (EText (lit "=")); (EText (lit """scp-001""")); (EText (lit " ")); (EText (lit "showRoot")); (EText (lit "=")); (EText (lit """nope""")); (EText (lit " ")); (EText (lit "depth")); (EText (lit "=")); (EText (lit """2""")); (EText (lit "]]"))]); (EFootnoteBlock None false)] [] [] [] [] [] 0 [(PE BlockMalformedArguments "module-page-tree"%string TInputEnd 60 60); (PE NoRulesMatch "fallback"%string TLeftBlock 0 2); (PE NoRulesMatch "fallback"%string TRightBlock 58 60)]).
Proof. vm_compute. reflexivity. Qed.
Example test_module_pagetree : run_test (lit "[[module PageTree]]
Apple") = Parsed (TREE [(EModule (MPageTree None false None)); (EContainer CParagraph [] [(EText (lit "Apple"))]); (EFootnoteBlock None false)] [] [] [] [] [] 0 []).
Proof. vm_compute. reflexivity. Qed.
Example test_monospace_block_alias_2 : run_test (lit "[[monospace]]Test![[/monospace]]") = Parsed (TREE [(EContainer CParagraph [] [(EContainer CMonospace [] [(EText (lit "Test")); (EText (lit "!"))])]); (EFootnoteBlock None false)] [] [] [] [] [] 0 []).
Proof. vm_compute. reflexivity. Qed.
Example test_monospace_block_paragraph : run_test (lit "[[tt]]Paragraph

Subscript[[/tt]]") = Parsed (TREE [(EContainer CParagraph [] [(EContainer CMonospace [] [(EText (lit "Paragraph")); ELineBreak; (EText (lit "Subscript"))])]); (EFootnoteBlock None false)] [] [] [] [] [] 0 []).
Proof. vm_compute. reflexivity. Qed.
Example test_monospace_fail_right : run_test (lit "}}Fail Monospace") = Parsed (TREE [(EContainer CParagraph [] [(EText (lit "}}")); (EText (lit "Fail")); (EText (lit " ")); (EText (lit "Monospace"))]); (EFootnoteBlock None false)] [] [] [] [] [] 0 [(PE NoRulesMatch "fallback"%string TRightMonospace 0 2)]).
Proof. vm_compute. reflexivity. Qed.
Example test_paragraph_block_class : run_test (lit "[[p class=""fruit""]]
Apple
[[/p]]") = Parsed (TREE [(EContainer CParagraph [((lit "class"), (lit "fruit"))] [(EText (lit "Apple"))]); (EFootnoteBlock None false)] [] [] [] [] [] 0 []).
Proof. vm_compute. reflexivity. Qed.
Example test_paragraph_block_inline_empty : run_test (lit "[[p]][[/p]]") = Parsed (TREE [(EFootnoteBlock None false)] [] [] [] [] [] 0 []).
Proof. vm_compute. reflexivity. Qed.
Example test_paragraph_block : run_test (lit "[[p]]
Apple
[[/p]]") = Parsed (TREE [(EContainer CParagraph [] [(EText (lit "Apple"))]); (EFootnoteBlock None false)] [] [] [] [] [] 0 []).
Proof. vm_compute. reflexivity. Qed.
Example test_radio_star : run_test (lit "[[*radio fruit]] Apple
[[radio fruit]] Banana
[[radio vegetable]] Celery
[[*radio vegetable]] Zucchini") = Parsed (TREE [(EContainer CParagraph [] [(ERadioButton (lit "fruit") true []); (EText (lit "Apple")); ELineBreak; (ERadioButton (lit "fruit") false []); (EText (lit "Banana")); ELineBreak; (ERadioButton (lit "vegetable") false []); (EText (lit "Celery")); ELineBreak; (ERadioButton (lit "vegetable") true []); (EText (lit "Zucchini"))]); (EFootnoteBlock None false)] [] [] [] [] [] 0 []).
Proof. vm_compute. reflexivity. Qed.
Example test_raw_0 : run_test (lit "@@@@") = Parsed (TREE [(EContainer CParagraph [] [(ERaw [])]); (EFootnoteBlock None false)] [] [] [] [] [] 0 []).
Proof. vm_compute. reflexivity. Qed.
Example test_raw_angles_empty : run_test (lit "@<>@") = Parsed (TREE [(EContainer CParagraph [] [(ERaw [])]); (EFootnoteBlock None false)] [] [] [] [] [] 0 []).
Proof. vm_compute. reflexivity. Qed.
Example test_raw_other_angles : run_test (lit "@@raw @< >@ content@@") = Parsed (TREE [(EContainer CParagraph [] [(ERaw (lit "raw @< >@ content"))]); (EFootnoteBlock None false)] [] [] [] [] [] 0 []).
Proof. vm_compute. reflexivity. Qed.
Example test_raw_token : run_test (lit "not @@**@@ bold") = Parsed (TREE [(EContainer CParagraph [] [(EText (lit "not")); (EText (lit " ")); (ERaw (lit "**")); (EText (lit " ")); (EText (lit "bold"))]); (EFootnoteBlock None false)] [] [] [] [] [] 0 []).
Proof. vm_compute. reflexivity. Qed.
Example test_ruby_nested : run_test [91%N; 91%N; 100%N; 105%N; 118%N; 93%N; 93%N; 32%N; 91%N; 91%N; 115%N; 112%N; 97%N; 110%N; 93%N; 93%N; 32%N; 91%N; 91%N; 114%N; 117%N; 98%N; 121%N; 93%N; 93%N; 35486%N; 32%N; 91%N; 91%N; 114%N; 116%N; 93%N; 93%N; 103%N; 111%N; 91%N; 91%N; 47%N; 114%N; 116%N; 93%N; 93%N; 91%N; 91%N; 47%N; 114%N; 117%N; 98%N; 121%N; 93%N; 93%N; 32%N; 91%N; 91%N; 47%N; 115%N; 112%N; 97%N; 110%N; 93%N; 93%N; 32%N; 91%N; 91%N; 47%N; 100%N; 105%N; 118%N; 93%N; 93%N] = Parsed (TREE [(EContainer CDiv [] [(EContainer CParagraph [] [(EContainer CSpan [] [(EContainer CRuby [] [(EText [35486%N]); (EText (lit " ")); (EContainer CRubyText [] [(EText (lit "go"))])]); (EText (lit " "))]); (EText (lit " "))])]); (EFootnoteBlock None false)] [] [] [] [] [] 0 []).
Proof. vm_compute. reflexivity. Qed.
Example test_ruby : run_test [91%N; 91%N; 114%N; 117%N; 98%N; 121%N; 93%N; 93%N; 35486%N; 32%N; 91%N; 91%N; 114%N; 116%N; 93%N; 93%N; 103%N; 111%N; 91%N; 91%N; 47%N; 114%N; 116%N; 93%N; 93%N; 91%N; 91%N; 47%N; 114%N; 117%N; 98%N; 121%N; 93%N; 93%N] = Parsed (TREE [(EContainer CParagraph [] [(EContainer CRuby [] [(EText [35486%N]); (EText (lit " ")); (EContainer CRubyText [] [(EText (lit "go"))])])]); (EFootnoteBlock None false)] [] [] [] [] [] 0 []).
Proof. vm_compute. reflexivity. Qed.
Example test_ruby2_fail_pipe_3 : run_test [91%N; 91%N; 114%N; 98%N; 32%N; 124%N; 35486%N; 32%N; 124%N; 103%N; 111%N; 124%N; 93%N; 93%N] = Parsed (TREE [(EContainer CParagraph [] [(EText (lit "[[")); (EText (lit "rb")); (EText (lit " ")); (EText (lit "|")); (EText [35486%N]); (EText (lit " ")); (EText (lit "|")); (EText (lit "go")); (EText (lit "|")); (EText (lit "]]"))]); (EFootnoteBlock None false)] [] [] [] [] [] 0 [(PE BlockMalformedArguments "block-ruby-short"%string TInputEnd 16 16); (PE NoRulesMatch "fallback"%string TLeftBlock 0 2); (PE NoRulesMatch "fallback"%string TRightBlock 14 16)]).
Proof. vm_compute. reflexivity. Qed.
Example test_ruby2_spaces : run_test [91%N; 91%N; 114%N; 98%N; 32%N; 32%N; 35486%N; 32%N; 32%N; 124%N; 32%N; 103%N; 111%N; 32%N; 93%N; 93%N] = Parsed (TREE [(EContainer CParagraph [] [(EContainer CRuby [] [(EText [35486%N]); (EContainer CRubyText [] [(EText (lit "go"))])])]); (EFootnoteBlock None false)] [] [] [] [] [] 0 []).
Proof. vm_compute. reflexivity. Qed.
Example test_simple_symbol : run_test (lit "%") = Parsed (TREE [(EContainer CParagraph [] [(EText (lit "%"))]); (EFootnoteBlock None false)] [] [] [] [] [] 0 []).
Proof. vm_compute. reflexivity. Qed.
Example test_size_vh : run_test (lit "[[size 2vh]]Apple[[/size]]") = Parsed (TREE [(EContainer CParagraph [] [(EContainer CSize [((lit "style"), (lit "font-size: 2vh;"))] [(EText (lit "Apple"))])]); (EFootnoteBlock None false)] [] [] [] [] [] 0 []).
Proof. vm_compute. reflexivity. Qed.
Example test_span_mulitiline : run_test [91%N; 91%N; 115%N; 112%N; 97%N; 110%N; 10%N; 9%N; 99%N; 108%N; 97%N; 115%N; 115%N; 61%N; 34%N; 109%N; 121%N; 45%N; 99%N; 108%N; 97%N; 115%N; 115%N; 34%N; 10%N; 9%N; 115%N; 116%N; 121%N; 108%N; 101%N; 32%N; 32%N; 61%N; 32%N; 34%N; 99%N; 111%N; 108%N; 111%N; 114%N; 58%N; 32%N; 114%N; 101%N; 100%N; 59%N; 34%N; 10%N; 10%N; 93%N; 93%N; 66%N; 97%N; 110%N; 97%N; 110%N; 97%N; 91%N; 91%N; 47%N; 115%N; 112%N; 97%N; 110%N; 93%N; 93%N] = Parsed (TREE [(EContainer CParagraph [] [(EContainer CSpan [((lit "class"), (lit "my-class")); ((lit "style"), (lit "color: red;"))] [(EText (lit "Banana"))])]); (EFootnoteBlock None false)] [] [] [] [] [] 0 []).
Proof. vm_compute. reflexivity. Qed.
Example test_span_uppercase : run_test (lit "[[SPAN ID =  ""apple"" clASS =""fruit"" stylE=""color: red;""      ]]Apple[[/ SPAN_  ]]") = Parsed (TREE [(EContainer CParagraph [] [(EContainer CSpan [((lit "class"), (lit "fruit")); ((lit "id"), (lit "apple")); ((lit "style"), (lit "color: red;"))] [(EText (lit "Apple"))])]); (EFootnoteBlock None false)] [] [] [] [] [] 0 []).
Proof. vm_compute. reflexivity. Qed.
Example test_span2_newlines : run_test (lit "[[span_]]
Banana
Cherry
[[/span]]") = Parsed (TREE [(EContainer CParagraph [] [(EContainer CSpan [] [(EText (lit "Banana")); ELineBreak; (EText (lit "Cherry"))])]); (EFootnoteBlock None false)] [] [] [] [] [] 0 []).
Proof. vm_compute. reflexivity. Qed.
Example test_span2 : run_test (lit "[[span_]]Banana[[/span]]") = Parsed (TREE [(EContainer CParagraph [] [(EContainer CSpan [] [(EText (lit "Banana"))])]); (EFootnoteBlock None false)] [] [] [] [] [] 0 []).
Proof. vm_compute. reflexivity. Qed.
Example test_strikethrough_block_italics : run_test (lit "[[s]]Apple [[b]]Banana[[/b]][[/s]] Cherry") = Parsed (TREE [(EContainer CParagraph [] [(EContainer CStrikethrough [] [(EText (lit "Apple")); (EText (lit " ")); (EContainer CBold [] [(EText (lit "Banana"))])]); (EText (lit " ")); (EText (lit "Cherry"))]); (EFootnoteBlock None false)] [] [] [] [] [] 0 []).
Proof. vm_compute. reflexivity. Qed.
Example test_strikethrough_fail_paragraph : run_test (lit "--Fail

Strikethrough--") = Parsed (TREE [(EContainer CParagraph [] [(EText [8212%N]); (EText (lit "Fail"))]); (EContainer CParagraph [] [(EText (lit "Strikethrough")); (EText [8212%N])]); (EFootnoteBlock None false)] [] [] [] [] [] 0 []).
Proof. vm_compute. reflexivity. Qed.
Example test_subscript_block_alias_1 : run_test (lit "[[subscript]]Test![[/subscript]]") = Parsed (TREE [(EContainer CParagraph [] [(EContainer CSubscript [] [(EText (lit "Test")); (EText (lit "!"))])]); (EFootnoteBlock None false)] [] [] [] [] [] 0 []).
Proof. vm_compute. reflexivity. Qed.
Example test_subscript_block_paragraph : run_test (lit "[[sub]]Paragraph

Subscript[[/sub]]") = Parsed (TREE [(EContainer CParagraph [] [(EContainer CSubscript [] [(EText (lit "Paragraph")); ELineBreak; (EText (lit "Subscript"))])]); (EFootnoteBlock None false)] [] [] [] [] [] 0 []).
Proof. vm_compute. reflexivity. Qed.
Example test_subscript : run_test (lit ",,Subscript,, Text") = Parsed (TREE [(EContainer CParagraph [] [(EContainer CSubscript [] [(EText (lit "Subscript"))]); (EText (lit " ")); (EText (lit "Text"))]); (EFootnoteBlock None false)] [] [] [] [] [] 0 []).
Proof. vm_compute. reflexivity. Qed.
Example test_superscript_block_fail : run_test (lit "[[sup]]Fail Superscript") = Parsed (TREE [(EContainer CParagraph [] [(EText (lit "[[")); (EText (lit "sup")); (EText (lit "]]")); (EText (lit "Fail")); (EText (lit " ")); (EText (lit "Superscript"))]); (EFootnoteBlock None false)] [] [] [] [] [] 0 [(PE EndOfInput "block-superscript"%string TInputEnd 23 23); (PE NoRulesMatch "fallback"%string TLeftBlock 0 2); (PE NoRulesMatch "fallback"%string TRightBlock 5 7)]).
Proof. vm_compute. reflexivity. Qed.
Example test_superscript_empty : run_test (lit "Empty ^^^^") = Parsed (TREE [(EContainer CParagraph [] [(EText (lit "Empty")); (EText (lit " ")); (EContainer CSuperscript [] [])]); (EFootnoteBlock None false)] [] [] [] [] [] 0 []).
Proof. vm_compute. reflexivity. Qed.
Example test_table_advanced_attributes : run_test (lit "[[table id=""fruit""]]
[[row style=""color: red;"" ]]
[[cell  data-sort=""number""]]
TEXT
[[/cell]]
[[/row]]
[[/table]]") = Parsed (TREE [(ETable [((lit "id"), (lit "fruit"))] [(TR [((lit "style"), (lit "color: red;"))] [(TC false 1%N None [((lit "data-sort"), (lit "number"))] [(EText (lit "TEXT"))])])]); (EFootnoteBlock None false)] [] [] [] [] [] 0 []).
Proof. vm_compute. reflexivity. Qed.
Example test_table_advanced_fail_cell : run_test (lit "[[cell]] Cell content here [[/cell]]") = Parsed (TREE [(EContainer CParagraph [] [(EText (lit "[[")); (EText (lit "cell")); (EText (lit "]]")); (EText (lit " ")); (EText (lit "Cell")); (EText (lit " ")); (EText (lit "content")); (EText (lit " ")); (EText (lit "here")); (EText (lit " ")); (EText (lit "[[/")); (EText (lit "cell")); (EText (lit "]]"))]); (EFootnoteBlock None false)] [] [] [] [] [] 0 [(PE TableCellOutsideTable "page"%string TLeftBlock 0 2); (PE NoRulesMatch "fallback"%string TLeftBlock 0 2); (PE NoRulesMatch "fallback"%string TRightBlock 6 8); (PE NoRulesMatch "fallback"%string TLeftBlockEnd 27 30); (PE NoRulesMatch "fallback"%string TRightBlock 34 36)]).
Proof. vm_compute. reflexivity. Qed.
Example test_table_advanced_header : run_test (lit "[[table]]
[[row]] [[hcell]] A [[/hcell]] [[hcell]] B [[/hcell]] [[/row]]
[[row]] [[cell]] 1 [[/cell]] [[cell]] 2 [[/cell]] [[/row]]
[[/table]]") = Parsed (TREE [(ETable [] [(TR [] [(TC true 1%N None [] [(EText (lit "A"))]); (TC true 1%N None [] [(EText (lit "B"))])]); (TR [] [(TC false 1%N None [] [(EText (lit "1"))]); (TC false 1%N None [] [(EText (lit "2"))])])]); (EFootnoteBlock None false)] [] [] [] [] [] 0 []).
Proof. vm_compute. reflexivity. Qed.
Example test_table_advanced : run_test (lit "[[table]] [[row]] [[cell]] Apple [[/cell]] [[/row]] [[/table]]") = Parsed (TREE [(ETable [] [(TR [] [(TC false 1%N None [] [(EText (lit "Apple"))])])]); (EFootnoteBlock None false)] [] [] [] [] [] 0 []).
Proof. vm_compute. reflexivity. Qed.
Example test_table_simple_fail_paragraph : run_test (lit "[
|| Cell
]") = Parsed (TREE [(EContainer CParagraph [] [(EText (lit "[")); (EText (lit "||")); (EText (lit " ")); (EText (lit "Cell")); ELineBreak; (EText (lit "]"))]); (EFootnoteBlock None false)] [] [] [] [] [] 0 [(PE RuleFailed "table"%string TLineBreak 9 10); (PE NoRulesMatch "fallback"%string TTableColumn 2 4)]).
Proof. vm_compute. reflexivity. Qed.
Example test_table_simple_multiple : run_test (lit "[
|| apple || banana ||

||~ cherry ||
-----
|||| durian ||
]") = Parsed (TREE [(EContainer CParagraph [] [(EText (lit "["))]); (ETable [((lit "class"), (lit "wj-table"))] [(TR [] [(TC false 1%N None [] [(EText (lit "apple"))]); (TC false 1%N None [] [(EText (lit "banana"))])])]); (ETable [((lit "class"), (lit "wj-table"))] [(TR [] [(TC true 1%N None [] [(EText (lit "cherry"))])])]); EHorizontalRule; (ETable [((lit "class"), (lit "wj-table"))] [(TR [] [(TC false 2%N None [] [(EText (lit "durian"))])])]); (EContainer CParagraph [] [(EText (lit "]"))]); (EFootnoteBlock None false)] [] [] [] [] [] 0 []).
Proof. vm_compute. reflexivity. Qed.
Example test_tabview_fail_empty : run_test (lit "[[tabview]]
[[/tabview]]") = Parsed (TREE [(EContainer CParagraph [] [(EText (lit "[[")); (EText (lit "tabview")); (EText (lit "]]")); ELineBreak; (EText (lit "[[/")); (EText (lit "tabview")); (EText (lit "]]"))]); (EFootnoteBlock None false)] [] [] [] [] [] 0 [(PE TabViewEmpty "block-tabview"%string TInputEnd 24 24); (PE NoRulesMatch "fallback"%string TLeftBlock 0 2); (PE NoRulesMatch "fallback"%string TRightBlock 9 11); (PE NoRulesMatch "fallback"%string TLeftBlockEnd 12 15); (PE NoRulesMatch "fallback"%string TRightBlock 22 24)]).
Proof. vm_compute. reflexivity. Qed.
Example test_tabview_multiple : run_test (lit "[[tabview]]
[[tab A]]
1
[[/tab]]
[[/tabview]]
-----
[[tabview]]
[[tab B]]
2
[[/tab]]
[[/tabview]]") = Parsed (TREE [(ETabView [(TB (lit "A") [(EContainer CParagraph [] [(EText (lit "1"))])])]); EHorizontalRule; (ETabView [(TB (lit "B") [(EContainer CParagraph [] [(EText (lit "2"))])])]); (EFootnoteBlock None false)] [] [] [] [] [] 0 []).
Proof. vm_compute. reflexivity. Qed.
Example test_target_alias : run_test (lit "[[anchortarget foobar]]") = Parsed (TREE [(EContainer CParagraph [] [(EAnchorName (lit "foobar"))]); (EFootnoteBlock None false)] [] [] [] [] [] 0 []).
Proof. vm_compute. reflexivity. Qed.
Example test_target_fail : run_test (lit "[[target apple") = Parsed (TREE [(EContainer CParagraph [] [(EText (lit "[[")); (EText (lit "target")); (EText (lit " ")); (EText (lit "apple"))]); (EFootnoteBlock None false)] [] [] [] [] [] 0 [(PE EndOfInput "block-target"%string TInputEnd 14 14); (PE NoRulesMatch "fallback"%string TLeftBlock 0 2)]).
Proof. vm_compute. reflexivity. Qed.
Example test_target_symbol : run_test (lit "[[target name|x[0-%]]") = Parsed (TREE [(EContainer CParagraph [] [(EAnchorName (lit "name|x[0-%"))]); (EFootnoteBlock None false)] [] [] [] [] [] 0 []).
Proof. vm_compute. reflexivity. Qed.
Example test_toc_float : run_test (lit "+ A
[[toc]]
[[f<toc]]
[[f>toc]]") = Parsed (TREE [(EContainer (CHeader (HD 1 true)) [] [(EText (lit "A"))]); (ETableOfContents [] None); (ETableOfContents [] (Some AlLeft)); (ETableOfContents [] (Some AlRight)); (EFootnoteBlock None false)] [(EList LBullet [] [(LIElements [] [(ELink LTTableOfContents (LUrl (lit "#toc0")) None (LabelText (lit "A")) None)])])] [] [] [] [] 0 []).
Proof. vm_compute. reflexivity. Qed.
Example test_underline_block_fail : run_test (lit "[[u]]Fail Underline") = Parsed (TREE [(EContainer CParagraph [] [(EText (lit "[[")); (EText (lit "u")); (EText (lit "]]")); (EText (lit "Fail")); (EText (lit " ")); (EText (lit "Underline"))]); (EFootnoteBlock None false)] [] [] [] [] [] 0 [(PE EndOfInput "block-underline"%string TInputEnd 19 19); (PE NoRulesMatch "fallback"%string TLeftBlock 0 2); (PE NoRulesMatch "fallback"%string TRightBlock 3 5)]).
Proof. vm_compute. reflexivity. Qed.
Example test_underline_empty : run_test (lit "Empty ____") = Parsed (TREE [(EContainer CParagraph [] [(EText (lit "Empty")); (EText (lit " ")); (EContainer CUnderline [] [])]); (EFootnoteBlock None false)] [] [] [] [] [] 0 []).
Proof. vm_compute. reflexivity. Qed.
Example test_underscore_line_break_fail : run_test (lit "Apple_
Banana") = Parsed (TREE [(EContainer CParagraph [] [(EText (lit "Apple")); (EText (lit "_")); ELineBreak; (EText (lit "Banana"))]); (EFootnoteBlock None false)] [] [] [] [] [] 0 []).
Proof. vm_compute. reflexivity. Qed.
Example test_user_fail : run_test (lit "[[user]]
Durian") = Parsed (TREE [(EContainer CParagraph [] [(EText (lit "[[")); (EText (lit "user")); (EText (lit "]]")); ELineBreak; (EText (lit "Durian"))]); (EFootnoteBlock None false)] [] [] [] [] [] 0 [(PE BlockMissingArguments "block-user"%string TLineBreak 8 9); (PE NoRulesMatch "fallback"%string TLeftBlock 0 2); (PE NoRulesMatch "fallback"%string TRightBlock 6 8)]).
Proof. vm_compute. reflexivity. Qed.
Example test_variables : run_test (lit "A {$variable}!") = Parsed (TREE [(EContainer CParagraph [] [(EText (lit "A")); (EText (lit " ")); (EVariable (lit "variable")); (EText (lit "!"))]); (EFootnoteBlock None false)] [] [] [] [] [] 0 []).
Proof. vm_compute. reflexivity. Qed.

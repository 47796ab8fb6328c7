(** RenderTests4.v -- generated by tools/conformance.py from the repository's HTML tests (/repo/test/*.html):
    the modelled include, preprocess, tokenize, parse and HTML renderer applied to each test's input
    give exactly the HTML the repository expects.  These are tests of the model, not proofs. *)
From Verif Require Import Base Strings Links Attr Preproc Includes Lexer Depth Tree Text Toc PState Blocks Rules Parse Html Render ParseTestEnv RenderTestEnv.
Example html_align_justify : html_test (lit "page-align-justify") (lit "[[==]]
Durian
[[/==]]") = Some (lit "<wj-body class=""wj-body""><div class=""wj-align-justify""><p>Durian</p></div></wj-body>").
Proof. vm_compute. reflexivity. Qed.
Example html_anchor_alias_star : html_test (lit "page-anchor-alias-star") (lit "[[*anchor href=""http://example.com"" style=""color: green;""]]My link[[/anchor]]") = Some (lit "<wj-body class=""wj-body""><p><a class=""wj-anchor"" target=""_blank"" href=""http://example.com"" style=""color: green;"">My link</a></p></wj-body>").
Proof. vm_compute. reflexivity. Qed.
Example html_anchor_name_dash : html_test (lit "page-anchor-name-dash") (lit "[[# apple-banana]]") = Some (lit "<wj-body class=""wj-body""><p><a id=""apple-banana""></a></p></wj-body>").
Proof. vm_compute. reflexivity. Qed.
Example html_anchor_name_multiple : html_test (lit "page-anchor-name-multiple") (lit "[[# apple]]  [[# banana]][[# cherry]]") = Some (lit "<wj-body class=""wj-body""><p><a id=""apple""></a>  <a id=""banana""></a><a id=""cherry""></a></p></wj-body>").
Proof. vm_compute. reflexivity. Qed.
Example html_anchor_star_empty : html_test (lit "page-anchor-star-empty") (lit "[[*a]][[/a]]") = Some (lit "<wj-body class=""wj-body""><p><a class=""wj-anchor"" target=""_blank""></a></p></wj-body>").
Proof. vm_compute. reflexivity. Qed.
Example html_anchor_xss_3 : html_test (lit "page-anchor-xss-3") (lit "[[a href=""java\nscript:alert(1)""]]whitespace in xss[[/a]]") = Some (lit "<wj-body class=""wj-body""><p><a class=""wj-anchor"" href=""#invalid-url"">whitespace in xss</a></p></wj-body>").
Proof. vm_compute. reflexivity. Qed.
Example html_anchor2_alias_star : html_test (lit "page-anchor2-alias-star") (lit "[[*anchor_ href=""http://example.com"" style=""color: green;""]]My link[[/anchor]]") = Some (lit "<wj-body class=""wj-body""><p><a class=""wj-anchor"" target=""_blank"" href=""http://example.com"" style=""color: green;"">My link</a></p></wj-body>").
Proof. vm_compute. reflexivity. Qed.
Example html_anchor2_newlines_2 : html_test (lit "page-anchor2-newlines-2") (lit "[[a_]]Apple
Banana[[/a]]") = Some (lit "<wj-body class=""wj-body""><p><a class=""wj-anchor"">Apple<br>Banana</a></p></wj-body>").
Proof. vm_compute. reflexivity. Qed.
Example html_anchor2_star : html_test (lit "page-anchor2-star") (lit "[[*a_ href=""https://example.com"" style=""color: red;""]]My link[[/a]]") = Some (lit "<wj-body class=""wj-body""><p><a class=""wj-anchor"" target=""_blank"" href=""https://example.com"" style=""color: red;"">My link</a></p></wj-body>").
Proof. vm_compute. reflexivity. Qed.
Example html_blockquote_alias_empty_inline : html_test (lit "page-blockquote-alias-empty-inline") (lit "[[quote]][[/quote]]") = Some (lit "<wj-body class=""wj-body""><blockquote></blockquote></wj-body>").
Proof. vm_compute. reflexivity. Qed.
Example html_blockquote_class : html_test (lit "page-blockquote-class") (lit "[[blockquote class=""jelly""]]
Apple
[[/blockquote]]") = Some (lit "<wj-body class=""wj-body""><blockquote class=""jelly""><p>Apple</p></blockquote></wj-body>").
Proof. vm_compute. reflexivity. Qed.
Example html_blockquote_inline_empty : html_test (lit "page-blockquote-inline-empty") (lit "[[blockquote]][[/blockquote]]") = Some (lit "<wj-body class=""wj-body""><blockquote></blockquote></wj-body>").
Proof. vm_compute. reflexivity. Qed.
Example html_blockquote_native_depths : html_test (lit "page-blockquote-native-depths") (lit "> Apple
>> Banana
>>> Cherry") = Some (lit "<wj-body class=""wj-body""><blockquote><p>Apple</p><blockquote><p>Banana</p><blockquote><p>Cherry</p></blockquote></blockquote></blockquote></wj-body>").
Proof. vm_compute. reflexivity. Qed.
Example html_blockquote_native_spaces_depths : html_test (lit "page-blockquote-native-spaces-depths") (lit ">Apple
>>Banana
>>>Cherry") = Some (lit "<wj-body class=""wj-body""><blockquote><p>Apple</p><blockquote><p>Banana</p><blockquote><p>Cherry</p></blockquote></blockquote></blockquote></wj-body>").
Proof. vm_compute. reflexivity. Qed.
Example html_blockquote_native : html_test (lit "page-blockquote-native") (lit "[
> Apple
]") = Some (lit "<wj-body class=""wj-body""><p>[</p><blockquote><p>Apple</p></blockquote><p>]</p></wj-body>").
Proof. vm_compute. reflexivity. Qed.
Example html_blockquote_style : html_test (lit "page-blockquote-style") (lit "[[blockquote style=""display: flex"" data-fruit=""red""]]
Apple
[[/blockquote]]") = Some (lit "<wj-body class=""wj-body""><blockquote data-fruit=""red"" style=""display: flex""><p>Apple</p></blockquote></wj-body>").
Proof. vm_compute. reflexivity. Qed.
Example html_bold_block_empty : html_test (lit "page-bold-block-empty") (lit "Empty [[b]][[/b]]") = Some (lit "<wj-body class=""wj-body""><p>Empty <strong></strong></p></wj-body>").
Proof. vm_compute. reflexivity. Qed.
Example html_bold_block : html_test (lit "page-bold-block") (lit "[[b]]Bold[[/b]] Text") = Some (lit "<wj-body class=""wj-body""><p><strong>Bold</strong> Text</p></wj-body>").
Proof. vm_compute. reflexivity. Qed.
Example html_bold_italics_underline : html_test (lit "page-bold-italics-underline") (lit "**Apple //Banana __Cherry__ Durian//** Pineapple") = Some (lit "<wj-body class=""wj-body""><p><strong>Apple <em>Banana <u>Cherry</u> Durian</em></strong> Pineapple</p></wj-body>").
Proof. vm_compute. reflexivity. Qed.
Example html_bold : html_test (lit "page-bold") (lit "**Bold** Text") = Some (lit "<wj-body class=""wj-body""><p><strong>Bold</strong> Text</p></wj-body>").
Proof. vm_compute. reflexivity. Qed.
Example html_center_paragraph : html_test (lit "page-center-paragraph") (lit "[

= Apple

]") = Some (lit "<wj-body class=""wj-body""><p>[</p><div class=""wj-align-center"">Apple</div><p>]</p></wj-body>").
Proof. vm_compute. reflexivity. Qed.
Example html_char_hex : html_test (lit "page-char-hex") (lit "[[char #x1f980]] pineapple") = Some [60%N; 119%N; 106%N; 45%N; 98%N; 111%N; 100%N; 121%N; 32%N; 99%N; 108%N; 97%N; 115%N; 115%N; 61%N; 34%N; 119%N; 106%N; 45%N; 98%N; 111%N; 100%N; 121%N; 34%N; 62%N; 60%N; 112%N; 62%N; 129408%N; 32%N; 112%N; 105%N; 110%N; 101%N; 97%N; 112%N; 112%N; 108%N; 101%N; 60%N; 47%N; 112%N; 62%N; 60%N; 47%N; 119%N; 106%N; 45%N; 98%N; 111%N; 100%N; 121%N; 62%N].
Proof. vm_compute. reflexivity. Qed.
Example html_char2_decimal : html_test (lit "page-char2-decimal") (lit "[[char &#129408;]] pineapple") = Some [60%N; 119%N; 106%N; 45%N; 98%N; 111%N; 100%N; 121%N; 32%N; 99%N; 108%N; 97%N; 115%N; 115%N; 61%N; 34%N; 119%N; 106%N; 45%N; 98%N; 111%N; 100%N; 121%N; 34%N; 62%N; 60%N; 112%N; 62%N; 129408%N; 32%N; 112%N; 105%N; 110%N; 101%N; 97%N; 112%N; 112%N; 108%N; 101%N; 60%N; 47%N; 112%N; 62%N; 60%N; 47%N; 119%N; 106%N; 45%N; 98%N; 111%N; 100%N; 121%N; 62%N].
Proof. vm_compute. reflexivity. Qed.
Example html_char2_trailing : html_test (lit "page-char2-trailing") (lit "[[char amp;]] pineapple") = Some (lit "<wj-body class=""wj-body""><p>&amp; pineapple</p></wj-body>").
Proof. vm_compute. reflexivity. Qed.
Example html_checkbox_style : html_test (lit "page-checkbox-style") (lit "[[checkbox id=""apple"" style=""color: red;"" disabled=""yes""]] Apple
[[checkbox id=""banana"" style=""color: yellow;"" disabled=""false""]] Banana") = Some (lit "<wj-body class=""wj-body""><p><input type=""checkbox"" disabled id=""apple"" style=""color: red;"">Apple<br><input type=""checkbox"" id=""banana"" style=""color: yellow;"">Banana</p></wj-body>").
Proof. vm_compute. reflexivity. Qed.
Example html_clear_float_3 : html_test (lit "page-clear-float-3") (lit "~~~
Clear float") = Some (lit "<wj-body class=""wj-body""><div class=""wj-clear-float wj-clear-float-both""></div><p>Clear float</p></wj-body>").
Proof. vm_compute. reflexivity. Qed.
Example html_clear_float_right : html_test (lit "page-clear-float-right") (lit "~~~~>
Clear float right") = Some (lit "<wj-body class=""wj-body""><div class=""wj-clear-float wj-clear-float-right""></div><p>Clear float right</p></wj-body>").
Proof. vm_compute. reflexivity. Qed.
Example html_code_fail_head : html_test (lit "page-code-fail-head") (lit "[[code type=""css""  ") = Some (lit "<wj-body class=""wj-body""><p>[[code type=&quot;css&quot;  </p></wj-body>").
Proof. vm_compute. reflexivity. Qed.
Example html_code_inline : html_test (lit "page-code-inline") (lit "[[code]]text here[[/code]]") = Some (lit "<wj-body class=""wj-body""><wj-code class=""wj-code wj-language-none""><div class=""wj-code-panel""><wj-code-copy type=""button"" class=""wj-code-copy"" title=""Copy to Clipboard""><svg class=""wj-sprite sprite-wj-clipboard"" viewBox=""0 0 24 24""><use href=""/files--static/media/ui.svg#wj-clipboard""></use></svg><svg class=""wj-sprite sprite-wj-clipboard-success"" viewBox=""0 0 24 24""><use href=""/files--static/media/ui.svg#wj-clipboard-success""></use></svg></wj-code-copy><span class=""wj-code-language""></span></div><pre><code>text here</code></pre></wj-code></wj-body>").
Proof. vm_compute. reflexivity. Qed.
Example html_code_multiline : html_test (lit "page-code-multiline") (lit "[[code]]
multiple
**lines**
of
code
[[/code]]") = Some (lit "<wj-body class=""wj-body""><wj-code class=""wj-code wj-language-none""><div class=""wj-code-panel""><wj-code-copy type=""button"" class=""wj-code-copy"" title=""Copy to Clipboard""><svg class=""wj-sprite sprite-wj-clipboard"" viewBox=""0 0 24 24""><use href=""/files--static/media/ui.svg#wj-clipboard""></use></svg><svg class=""wj-sprite sprite-wj-clipboard-success"" viewBox=""0 0 24 24""><use href=""/files--static/media/ui.svg#wj-clipboard-success""></use></svg></wj-code-copy><span class=""wj-code-language""></span></div><pre><code>multiple
**lines**
of
code</code></pre></wj-code></wj-body>").
Proof. vm_compute. reflexivity. Qed.
Example html_code : html_test (lit "page-code") (lit "[[code]]
text here
[[/code]]") = Some (lit "<wj-body class=""wj-body""><wj-code class=""wj-code wj-language-none""><div class=""wj-code-panel""><wj-code-copy type=""button"" class=""wj-code-copy"" title=""Copy to Clipboard""><svg class=""wj-sprite sprite-wj-clipboard"" viewBox=""0 0 24 24""><use href=""/files--static/media/ui.svg#wj-clipboard""></use></svg><svg class=""wj-sprite sprite-wj-clipboard-success"" viewBox=""0 0 24 24""><use href=""/files--static/media/ui.svg#wj-clipboard-success""></use></svg></wj-code-copy><span class=""wj-code-language""></span></div><pre><code>text here</code></pre></wj-code></wj-body>").
Proof. vm_compute. reflexivity. Qed.
Example html_collapsible_inline : html_test (lit "page-collapsible-inline") (lit "[[collapsible]]Apple[[/collapsible]]") = Some (lit "<wj-body class=""wj-body""><details class=""wj-collapsible"" data-show-top><summary class=""wj-collapsible-button wj-collapsible-button-top""><span class=""wj-collapsible-show-text"">+ open block</span><span class=""wj-collapsible-hide-text"">- hide block</span></summary><div class=""wj-collapsible-content""><p>Apple</p></div></details></wj-body>").
Proof. vm_compute. reflexivity. Qed.
Example html_collapsible_location_top : html_test (lit "page-collapsible-location-top") (lit "[[collapsible HIDEloCATioN =  ""top"" ]]
Cherry
[[/collapsible]]") = Some (lit "<wj-body class=""wj-body""><details class=""wj-collapsible"" data-show-top><summary class=""wj-collapsible-button wj-collapsible-button-top""><span class=""wj-collapsible-show-text"">+ open block</span><span class=""wj-collapsible-hide-text"">- hide block</span></summary><div class=""wj-collapsible-content""><p>Cherry</p></div></details></wj-body>").
Proof. vm_compute. reflexivity. Qed.
Example html_collapsible_styling : html_test (lit "page-collapsible-styling") (lit "[[collapsible id=""fruit"" class=""collapse-list"" style=""display: inline-block""]]
Banana
[[/collapsible]]") = Some (lit "<wj-body class=""wj-body""><details class=""wj-collapsible collapse-list"" data-show-top id=""fruit"" style=""display: inline-block""><summary class=""wj-collapsible-button wj-collapsible-button-top""><span class=""wj-collapsible-show-text"">+ open block</span><span class=""wj-collapsible-hide-text"">- hide block</span></summary><div class=""wj-collapsible-content""><p>Banana</p></div></details></wj-body>").
Proof. vm_compute. reflexivity. Qed.
Example html_color_fail : html_test (lit "page-color-fail") (lit "##not color") = Some (lit "<wj-body class=""wj-body""><p>##not color</p></wj-body>").
Proof. vm_compute. reflexivity. Qed.
Example html_comment_fail_left : html_test (lit "page-comment-fail-left") (lit "Fail [!-- Comment") = Some (lit "<wj-body class=""wj-body""><p>Fail [!-- Comment</p></wj-body>").
Proof. vm_compute. reflexivity. Qed.
Example html_definition_list_elements : html_test (lit "page-definition-list-elements") (lit ": **Key** : //Value// here") = Some (lit "<wj-body class=""wj-body""><dl><dt><strong>Key</strong></dt><dd><em>Value</em> here</dd></dl></wj-body>").
Proof. vm_compute. reflexivity. Qed.
Example html_definition_list_line_break : html_test (lit "page-definition-list-line-break") (lit ": My key : Long value _
with a newline in the middle
: Other key : Other value") = Some (lit "<wj-body class=""wj-body""><dl><dt>My key</dt><dd>Long value<br>with a newline in the middle</dd><dt>Other key</dt><dd>Other value</dd></dl></wj-body>").
Proof. vm_compute. reflexivity. Qed.
Example html_del_newlines : html_test (lit "page-del-newlines") (lit "[[del]]
Apple
Banana
[[/del]]") = Some (lit "<wj-body class=""wj-body""><p><del><br>Apple<br>Banana<br></del></p></wj-body>").
Proof. vm_compute. reflexivity. Qed.
Example html_div_class : html_test (lit "page-div-class") (lit "[[div class=""blockquote""]]
Apple
[[/div]]") = Some (lit "<wj-body class=""wj-body""><div class=""blockquote""><p>Apple</p></div></wj-body>").
Proof. vm_compute. reflexivity. Qed.
Example html_div_id : html_test (lit "page-div-id") (lit "[[div id=""my-div""]]
Apple
[[/div]]") = Some (lit "<wj-body class=""wj-body""><div id=""my-div""><p>Apple</p></div></wj-body>").
Proof. vm_compute. reflexivity. Qed.
Example html_div_nested_deep : html_test (lit "page-div-nested-deep") (lit "[[div]]
A
[[div]]
B
[[div]]
C
[[div]]
D
[[/div]]
[[/div]]
[[/div]]
[[/div]]") = Some (lit "<wj-body class=""wj-body""><div><p>A</p><div><p>B</p><div><p>C</p><div><p>D</p></div></div></div></div></wj-body>").
Proof. vm_compute. reflexivity. Qed.
Example html_div : html_test (lit "page-div") (lit "[[div]]
Apple
[[/div]]") = Some (lit "<wj-body class=""wj-body""><div><p>Apple</p></div></wj-body>").
Proof. vm_compute. reflexivity. Qed.
Example html_div2_ending : html_test (lit "page-div2-ending") (lit "[[div_]]
Banana
[[/div_]]") = Some (lit "<wj-body class=""wj-body""><div>Banana</div></wj-body>").
Proof. vm_compute. reflexivity. Qed.
Example html_div2_nested_deep : html_test (lit "page-div2-nested-deep") (lit "[[div_]]
A
[[div_]]
B
[[div_]]
C
[[div_]]
D
[[/div]]
[[/div]]
[[/div]]
[[/div]]") = Some (lit "<wj-body class=""wj-body""><div>A<div>B<div>C<div>D</div></div></div></div></wj-body>").
Proof. vm_compute. reflexivity. Qed.
Example html_double_angle_left_multiple : html_test (lit "page-double-angle-left-multiple") (lit "Double << Angles << Everywhere") = Some [60%N; 119%N; 106%N; 45%N; 98%N; 111%N; 100%N; 121%N; 32%N; 99%N; 108%N; 97%N; 115%N; 115%N; 61%N; 34%N; 119%N; 106%N; 45%N; 98%N; 111%N; 100%N; 121%N; 34%N; 62%N; 60%N; 112%N; 62%N; 68%N; 111%N; 117%N; 98%N; 108%N; 101%N; 32%N; 171%N; 32%N; 65%N; 110%N; 103%N; 108%N; 101%N; 115%N; 32%N; 171%N; 32%N; 69%N; 118%N; 101%N; 114%N; 121%N; 119%N; 104%N; 101%N; 114%N; 101%N; 60%N; 47%N; 112%N; 62%N; 60%N; 47%N; 119%N; 106%N; 45%N; 98%N; 111%N; 100%N; 121%N; 62%N].
Proof. vm_compute. reflexivity. Qed.
Example html_em_dash_multiple : html_test (lit "page-em-dash-multiple") (lit "Many -- Em -- Dashes --") = Some [60%N; 119%N; 106%N; 45%N; 98%N; 111%N; 100%N; 121%N; 32%N; 99%N; 108%N; 97%N; 115%N; 115%N; 61%N; 34%N; 119%N; 106%N; 45%N; 98%N; 111%N; 100%N; 121%N; 34%N; 62%N; 60%N; 112%N; 62%N; 77%N; 97%N; 110%N; 121%N; 32%N; 8212%N; 32%N; 69%N; 109%N; 32%N; 8212%N; 32%N; 68%N; 97%N; 115%N; 104%N; 101%N; 115%N; 32%N; 8212%N; 60%N; 47%N; 112%N; 62%N; 60%N; 47%N; 119%N; 106%N; 45%N; 98%N; 111%N; 100%N; 121%N; 62%N].
Proof. vm_compute. reflexivity. Qed.
Example html_embed_vimeo : html_test (lit "page-embed-vimeo") (lit "[[embed vimeo video=""221821296""]]") = Some (lit "<wj-body class=""wj-body""><div class=""wj-embed""><iframe src=""https://player.vimeo.com/video/221821296"" frameborder=""0"" allow=""autoplay; fullscreen; picture-inpicture"" allowfullscreen></iframe></div></wj-body>").
Proof. vm_compute. reflexivity. Qed.
Example html_equation_reference_alias : html_test (lit "page-equation-reference-alias") (lit "Apple[[equation Fruit]]") = Some (lit "<wj-body class=""wj-body""><p>Apple<span class=""wj-equation-ref""><wj-equation-ref-marker class=""wj-equation-ref-marker"" type=""button"" data-name=""Fruit"">Fruit</wj-equation-ref-marker><span class=""wj-equation-ref-tooltip"" aria-hidden=""true""></span></span></p></wj-body>").
Proof. vm_compute. reflexivity. Qed.
Example html_footnote_block_empty : html_test (lit "page-footnote-block-empty") (lit "A
[[footnoteblock]]
B") = Some (lit "<wj-body class=""wj-body""><p>A</p><p>B</p></wj-body>").
Proof. vm_compute. reflexivity. Qed.
Example html_footnote_block_title : html_test (lit "page-footnote-block-title") (lit "A[[footnote]]B[[/footnote]]
[[footnoteblock title=""The notes of the foot""]]") = Some (lit "<wj-body class=""wj-body""><p>A<span class=""wj-footnote-ref""><wj-footnote-ref-marker class=""wj-footnote-ref-marker"" role=""link"" aria-label=""Footnote 1."" data-id=""1"">1</wj-footnote-ref-marker><span class=""wj-footnote-ref-tooltip"" aria-hidden=""true""><span class=""wj-footnote-ref-tooltip-label"">Footnote 1.</span><span class=""wj-footnote-ref-contents"">B</span></span></span></p><div class=""wj-footnote-list""><div class=""wj-title"">The notes of the foot</div><ol><li class=""wj-footnote-list-item"" data-id=""1""><wj-footnote-list-item-marker class=""wj-footnote-list-item-marker"" type=""button"" role=""link"">1<span class=""wj-footnote-sep"">.</span></wj-footnote-list-item-marker><span class=""wj-footnote-list-item-contents"">B</span></li></ol></div></wj-body>").
Proof. vm_compute. reflexivity. Qed.
Example html_footnote_ref_empty : html_test (lit "page-footnote-ref-empty") (lit "A[[footnote]][[/footnote]]") = Some (lit "<wj-body class=""wj-body""><p>A<span class=""wj-footnote-ref""><wj-footnote-ref-marker class=""wj-footnote-ref-marker"" role=""link"" aria-label=""Footnote 1."" data-id=""1"">1</wj-footnote-ref-marker><span class=""wj-footnote-ref-tooltip"" aria-hidden=""true""><span class=""wj-footnote-ref-tooltip-label"">Footnote 1.</span><span class=""wj-footnote-ref-contents""></span></span></span></p><div class=""wj-footnote-list""><div class=""wj-title"">Footnotes</div><ol><li class=""wj-footnote-list-item"" data-id=""1""><wj-footnote-list-item-marker class=""wj-footnote-list-item-marker"" type=""button"" role=""link"">1<span class=""wj-footnote-sep"">.</span></wj-footnote-list-item-marker><span class=""wj-footnote-list-item-contents""></span></li></ol></div></wj-body>").
Proof. vm_compute. reflexivity. Qed.
Example html_footnote_ref : html_test (lit "page-footnote-ref") (lit "Apple[[footnote]]Banana cherry[[/footnote]]") = Some (lit "<wj-body class=""wj-body""><p>Apple<span class=""wj-footnote-ref""><wj-footnote-ref-marker class=""wj-footnote-ref-marker"" role=""link"" aria-label=""Footnote 1."" data-id=""1"">1</wj-footnote-ref-marker><span class=""wj-footnote-ref-tooltip"" aria-hidden=""true""><span class=""wj-footnote-ref-tooltip-label"">Footnote 1.</span><span class=""wj-footnote-ref-contents"">Banana cherry</span></span></span></p><div class=""wj-footnote-list""><div class=""wj-title"">Footnotes</div><ol><li class=""wj-footnote-list-item"" data-id=""1""><wj-footnote-list-item-marker class=""wj-footnote-list-item-marker"" type=""button"" role=""link"">1<span class=""wj-footnote-sep"">.</span></wj-footnote-list-item-marker><span class=""wj-footnote-list-item-contents"">Banana cherry</span></li></ol></div></wj-body>").
Proof. vm_compute. reflexivity. Qed.
Example html_heading_1 : html_test (lit "page-heading-1") (lit "+ My //header//") = Some (lit "<wj-body class=""wj-body""><h1 id=""toc0"">My <em>header</em></h1></wj-body>").
Proof. vm_compute. reflexivity. Qed.
Example html_heading_3 : html_test (lit "page-heading-3") (lit "Apple
+++ Banana Cherry") = Some (lit "<wj-body class=""wj-body""><p>Apple</p><h3 id=""toc0"">Banana Cherry</h3></wj-body>").
Proof. vm_compute. reflexivity. Qed.
Example html_heading_5 : html_test (lit "page-heading-5") (lit "[
+++++ Header Five
]") = Some (lit "<wj-body class=""wj-body""><p>[</p><h5 id=""toc0"">Header Five</h5><p>]</p></wj-body>").
Proof. vm_compute. reflexivity. Qed.
Example html_heading_7_toc_fail : html_test (lit "page-heading-7-toc-fail") (lit "+++++++* fail header") = Some (lit "<wj-body class=""wj-body""><p>+++++++* fail header</p></wj-body>").
Proof. vm_compute. reflexivity. Qed.
Example html_hidden_style : html_test (lit "page-hidden-style") (lit "[[hidden id=""my-span"" style=""line-height: 1em;""]]Hidden[[/hidden]] Text") = Some (lit "<wj-body class=""wj-body""><p><span class=""wj-hidden"" id=""my-span"" style=""line-height: 1em;"">Hidden</span> Text</p></wj-body>").
Proof. vm_compute. reflexivity. Qed.
Example html_hr_3 : html_test (lit "page-hr-3") (lit "---
Horizontal rule") = Some (lit "<wj-body class=""wj-body""><hr><p>Horizontal rule</p></wj-body>").
Proof. vm_compute. reflexivity. Qed.
Example html_html_empty : html_test (lit "page-html-empty") (lit "Empty
[[html]]
[[/html]]") = Some (lit "<wj-body class=""wj-body""><p>Empty</p><iframe src=""https://example.com/"" crossorigin></iframe></wj-body>").
Proof. vm_compute. reflexivity. Qed.
Example html_html_inline_empty : html_test (lit "page-html-inline-empty") (lit "[[html]][[/html]]") = Some (lit "<wj-body class=""wj-body""><iframe src=""https://example.com/"" crossorigin></iframe></wj-body>").
Proof. vm_compute. reflexivity. Qed.
Example html_ifcategory_fail : html_test (lit "page-ifcategory-fail") (lit "[[ifcategory]]
Durian
[[/ifcategory]]") = Some (lit "<wj-body class=""wj-body""><p>[[ifcategory]]<br>Durian<br>[[/ifcategory]]</p></wj-body>").
Proof. vm_compute. reflexivity. Qed.
Example html_iframe_style : html_test (lit "page-iframe-style") (lit "[[iframe https://example.com id=""my-iframe"" class=""example""]]") = Some (lit "<wj-body class=""wj-body""><iframe src=""https://example.com"" crossorigin class=""example"" id=""my-iframe""></iframe></wj-body>").
Proof. vm_compute. reflexivity. Qed.
Example html_iftags_fail : html_test (lit "page-iftags-fail") (lit "[[iftags]]
Durian
[[/iftags]]") = Some (lit "<wj-body class=""wj-body""><p>[[iftags]]<br>Durian<br>[[/iftags]]</p></wj-body>").
Proof. vm_compute. reflexivity. Qed.
Example html_image_external : html_test (lit "page-image-external") (lit "A [[image https://example.com/my-image.png]] B") = Some (lit "<wj-body class=""wj-body""><p>A <div class=""wj-image-container""><img class=""wj-image"" src=""https://example.com/my-image.png"" crossorigin></div> B</p></wj-body>").
Proof. vm_compute. reflexivity. Qed.
Example html_image_file3_slash : html_test (lit "page-image-file3-slash") (lit "A [[image scp-wiki/some-other-page/my-picture.jpeg]] B") = Some (lit "<wj-body class=""wj-body""><p>A <div class=""wj-image-container""><img class=""wj-image"" src=""https://scp-wiki.wjfiles.com/local--files/some-other-page/my-picture.jpeg"" crossorigin></div> B</p></wj-body>").
Proof. vm_compute. reflexivity. Qed.
Example html_image_float_left : html_test (lit "page-image-float-left") (lit "[[f<image landscape.png]]") = Some (lit "<wj-body class=""wj-body""><p><div class=""wj-image-container wj-float-left""><img class=""wj-image"" src=""https://test.wjfiles.com/local--files/page-image-float-left/landscape.png"" crossorigin></div></p></wj-body>").
Proof. vm_compute. reflexivity. Qed.
Example html_image_link_anchor : html_test (lit "page-image-link-anchor") (lit "A [[image filename.png link=""#section""]] B") = Some (lit "<wj-body class=""wj-body""><p>A <div class=""wj-image-container""><a href=""#section""><img class=""wj-image"" src=""https://test.wjfiles.com/local--files/page-image-link-anchor/filename.png"" crossorigin></a></div> B</p></wj-body>").
Proof. vm_compute. reflexivity. Qed.
Example html_image : html_test (lit "page-image") (lit "A [[image filename.png]] B") = Some (lit "<wj-body class=""wj-body""><p>A <div class=""wj-image-container""><img class=""wj-image"" src=""https://test.wjfiles.com/local--files/page-image/filename.png"" crossorigin></div> B</p></wj-body>").
Proof. vm_compute. reflexivity. Qed.
Example html_include_wikidot_category : html_test (lit "page-include-wikidot-category") (lit "[[include fragment:page]]") = Some (lit "<wj-body class=""wj-body""><p>INCLUDED FRAGMENT</p></wj-body>").
Proof. vm_compute. reflexivity. Qed.
Example html_include_wikidot_multiple : html_test (lit "page-include-wikidot-multiple") (lit "Pineapple
[[include fruit]]
Melon
[[include other]]
Raspberry") = Some (lit "<wj-body class=""wj-body""><p>Pineapple</p><ul><li>Apple</li><li>Banana</li><li>Cherry</li></ul><p>Melon<br>INCLUDED PAGE<br>Raspberry</p></wj-body>").
Proof. vm_compute. reflexivity. Qed.
Example html_include_wikidot_parameters_both : html_test (lit "page-include-wikidot-parameters-both") (lit "[[include component:fruit | class=box | apple=1 | banana = 2 |]]") = Some (lit "<wj-body class=""wj-body""><div class=""box "" id=""fruit""><p>  </p><ul><li>1  </li><li>2  </li></ul></div></wj-body>").
Proof. vm_compute. reflexivity. Qed.
Example html_include_wikidot_parameters_newlines : html_test (lit "page-include-wikidot-parameters-newlines") (lit "[[include component:fruit
 class=box |
 apple=1 |
 banana = 2]]") = Some (lit "<wj-body class=""wj-body""><div class=""box "" id=""fruit""><p>  </p><ul><li>1  </li><li>2 </li></ul></div></wj-body>").
Proof. vm_compute. reflexivity. Qed.
Example html_include_wikidot_uppercase : html_test (lit "page-include-wikidot-uppercase") (lit "[[INCLUde FRuit]]") = Some (lit "<wj-body class=""wj-body""><p>INCLUDED PAGE</p></wj-body>").
Proof. vm_compute. reflexivity. Qed.
Example html_ins_style : html_test (lit "page-ins-style") (lit "[[ins id=""banana"" class=""fruit"" style=""color: yellow;"" cite=""some source""]]Banana[[/ins]]") = Some (lit "<wj-body class=""wj-body""><p><ins cite=""some source"" class=""fruit"" id=""banana"" style=""color: yellow;"">Banana</ins></p></wj-body>").
Proof. vm_compute. reflexivity. Qed.
Example html_invisible_style : html_test (lit "page-invisible-style") (lit "[[invisible data-xxx=""yyy"" class=""label""]]Invisible[[/invisible]] Text") = Some (lit "<wj-body class=""wj-body""><p><span class=""wj-invisible label"" data-xxx=""yyy"">Invisible</span> Text</p></wj-body>").
Proof. vm_compute. reflexivity. Qed.
Example html_italics_block_alias_2 : html_test (lit "page-italics-block-alias-2") (lit "[[em]]Test![[/em]]") = Some (lit "<wj-body class=""wj-body""><p><em>Test!</em></p></wj-body>").
Proof. vm_compute. reflexivity. Qed.
Example html_italics_block_italics : html_test (lit "page-italics-block-italics") (lit "[[i]]Apple [[b]]Banana[[/b]][[/i]] Cherry") = Some (lit "<wj-body class=""wj-body""><p><em>Apple <strong>Banana</strong></em> Cherry</p></wj-body>").
Proof. vm_compute. reflexivity. Qed.
Example html_italics_fail_paragraph : html_test (lit "page-italics-fail-paragraph") (lit "//Fail

Italics//") = Some (lit "<wj-body class=""wj-body""><p>//Fail</p><p>Italics//</p></wj-body>").
Proof. vm_compute. reflexivity. Qed.
Example html_line_breaks_error_0 : html_test (lit "page-line-breaks-error-0") (lit "[[lines 0]]") = Some (lit "<wj-body class=""wj-body""><p>[[lines 0]]</p></wj-body>").
Proof. vm_compute. reflexivity. Qed.
Example html_line_breaks_uppercase : html_test (lit "page-line-breaks-uppercase") (lit "Apple
[[  LiNEs 12  ]]
Banana") = Some (lit "<wj-body class=""wj-body""><p>Apple<br><br><br><br><br><br><br><br><br><br><br><br>Banana</p></wj-body>").
Proof. vm_compute. reflexivity. Qed.
Example html_link_anchor : html_test (lit "page-link-anchor") (lit "[#apple Some link]?") = Some (lit "<wj-body class=""wj-body""><p><a href=""#apple"" class=""wj-link wj-link-anchor"" data-link-type=""anchor"">Some link</a>?</p></wj-body>").
Proof. vm_compute. reflexivity. Qed.
Example html_link_interwiki_fail : html_test (lit "page-link-interwiki-fail") (lit "[[[!banana:Missing provider | Label]]]") = Some (lit "<wj-body class=""wj-body""><p>[[[!banana:Missing provider | Label]]]</p></wj-body>").
Proof. vm_compute. reflexivity. Qed.
Example html_link_single_fail_brackets : html_test (lit "page-link-single-fail-brackets") (lit "[ not a link ]") = Some (lit "<wj-body class=""wj-body""><p>[ not a link ]</p></wj-body>").
Proof. vm_compute. reflexivity. Qed.
Example html_link_single_fail_text : html_test (lit "page-link-single-fail-text") (lit "[page Some page]") = Some (lit "<wj-body class=""wj-body""><p>[page Some page]</p></wj-body>").
Proof. vm_compute. reflexivity. Qed.
Example html_link_single_subpath : html_test (lit "page-link-single-subpath") (lit "[/relative/link text]") = Some (lit "<wj-body class=""wj-body""><p><a href=""/relative/link"" class=""wj-link wj-link-internal"" data-link-type=""direct"">text</a></p></wj-body>").
Proof. vm_compute. reflexivity. Qed.
Example html_link_triple_category_new_tab : html_test (lit "page-link-triple-category-new-tab") (lit "[[[*system:Recent Changes]]]") = Some (lit "<wj-body class=""wj-body""><p><a href=""/system:recent-changes"" target=""_blank"" class=""wj-link wj-link-internal"" data-link-type=""page"">Recent Changes</a></p></wj-body>").
Proof. vm_compute. reflexivity. Qed.
Example html_link_triple_fail_brackets_end : html_test (lit "page-link-triple-fail-brackets-end") (lit "some-page]]]") = Some (lit "<wj-body class=""wj-body""><p>some-page]]]</p></wj-body>").
Proof. vm_compute. reflexivity. Qed.
Example html_link_triple_fail_title_new_tab : html_test (lit "page-link-triple-fail-title-new-tab") (lit "[[[*|some-page]]]") = Some (lit "<wj-body class=""wj-body""><p>[[[*|some-page]]]</p></wj-body>").
Proof. vm_compute. reflexivity. Qed.
Example html_link_triple_missing : html_test (lit "page-link-triple-missing") (lit "[[[missing | Wanted page]]]") = Some (lit "<wj-body class=""wj-body""><p><a href=""/missing"" class=""wj-link wj-link-internal wj-link-missing"" data-link-type=""page"">Wanted page</a></p></wj-body>").
Proof. vm_compute. reflexivity. Qed.
Example html_link_triple_site_name : html_test (lit "page-link-triple-site-name") (lit "[[[:scp-wiki : system : Recent Changes]]]") = Some (lit "<wj-body class=""wj-body""><p><a href=""https://scp-wiki.wikijump.com/system:recent-changes"" class=""wj-link wj-link-internal"" data-link-type=""page"">Recent Changes</a></p></wj-body>").
Proof. vm_compute. reflexivity. Qed.
Example html_link_triple_subpath_multi_anchor : html_test (lit "page-link-triple-subpath-multi-anchor") (lit "[[[MAIN/##/page#toc1|Hash routing]]]") = Some (lit "<wj-body class=""wj-body""><p><a href=""/main/##/page#toc1"" class=""wj-link wj-link-internal"" data-link-type=""page"">Hash routing</a></p></wj-body>").
Proof. vm_compute. reflexivity. Qed.
Example html_link_triple_url_whitespace : html_test (lit "page-link-triple-url-whitespace") (lit "[[[ https://example.com/ | Example ]]]") = Some (lit "<wj-body class=""wj-body""><p><a href=""https://example.com/"" class=""wj-link wj-link-external"" data-link-type=""direct"">Example</a></p></wj-body>").
Proof. vm_compute. reflexivity. Qed.
Example html_link_triple : html_test (lit "page-link-triple") (lit "[[[SCP-001]]]") = Some (lit "<wj-body class=""wj-body""><p><a href=""/scp-001"" class=""wj-link wj-link-internal"" data-link-type=""page"">SCP-001</a></p></wj-body>").
Proof. vm_compute. reflexivity. Qed.
Example html_list_block_empty_fail : html_test (lit "page-list-block-empty-fail") (lit "[[ul]] [[/ul]]") = Some (lit "<wj-body class=""wj-body""><p>[[ul]] [[/ul]]</p></wj-body>").
Proof. vm_compute. reflexivity. Qed.
Example html_list_block_non_list_fail : html_test (lit "page-list-block-non-list-fail") (lit "[[li]] Durian [[/li]]") = Some (lit "<wj-body class=""wj-body""><p>[[li]] Durian [[/li]]</p></wj-body>").
Proof. vm_compute. reflexivity. Qed.
Example html_list_block_whitespace2 : html_test (lit "page-list-block-whitespace2") (lit "[[ul]]
[[li_]]
A
[[/li_]]
[[li]]
B
[[/li]]
[[/ul]]
[[ol_]]
[[li]]C[[/li]]
[[/ol_]]") = Some (lit "<wj-body class=""wj-body""><ul><li>A</li><li>B</li></ul><ol><li>C</li></ol></wj-body>").
Proof. vm_compute. reflexivity. Qed.
Example html_list_bullet_elements_both : html_test (lit "page-list-bullet-elements-both") (lit "* A 1") = Some (lit "<wj-body class=""wj-body""><ul><li>A 1</li></ul></wj-body>").
Proof. vm_compute. reflexivity. Qed.
Example html_list_bullet_elements_multiple_start : html_test (lit "page-list-bullet-elements-multiple-start") (lit "* A 1
* B 2
* C 3
]") = Some (lit "<wj-body class=""wj-body""><ul><li>A 1</li><li>B 2</li><li>C 3</li></ul><p>]</p></wj-body>").
Proof. vm_compute. reflexivity. Qed.
Example html_list_bullet_end : html_test (lit "page-list-bullet-end") (lit "[
* A") = Some (lit "<wj-body class=""wj-body""><p>[</p><ul><li>A</li></ul></wj-body>").
Proof. vm_compute. reflexivity. Qed.
Example html_list_bullet_multiple_start : html_test (lit "page-list-bullet-multiple-start") (lit "* A
* B
* C
]") = Some (lit "<wj-body class=""wj-body""><ul><li>A</li><li>B</li><li>C</li></ul><p>]</p></wj-body>").
Proof. vm_compute. reflexivity. Qed.
Example html_list_bullet : html_test (lit "page-list-bullet") (lit "[
* A
]") = Some (lit "<wj-body class=""wj-body""><p>[</p><ul><li>A</li></ul><p>]</p></wj-body>").
Proof. vm_compute. reflexivity. Qed.
Example html_list_mix : html_test (lit "page-list-mix") (lit "[
* A
# B
* C
* D
]") = Some (lit "<wj-body class=""wj-body""><p>[</p><ul><li>A</li></ul><ol><li>B</li></ol><ul><li>C</li><li>D</li></ul><p>]</p></wj-body>").
Proof. vm_compute. reflexivity. Qed.
Example html_list_numbered_elements_both : html_test (lit "page-list-numbered-elements-both") (lit "# A 1") = Some (lit "<wj-body class=""wj-body""><ol><li>A 1</li></ol></wj-body>").
Proof. vm_compute. reflexivity. Qed.
Example html_list_numbered_elements_multiple_start : html_test (lit "page-list-numbered-elements-multiple-start") (lit "# A 1
# B 2
# C 3
]") = Some (lit "<wj-body class=""wj-body""><ol><li>A 1</li><li>B 2</li><li>C 3</li></ol><p>]</p></wj-body>").
Proof. vm_compute. reflexivity. Qed.
Example html_list_numbered_end : html_test (lit "page-list-numbered-end") (lit "[
# A") = Some (lit "<wj-body class=""wj-body""><p>[</p><ol><li>A</li></ol></wj-body>").
Proof. vm_compute. reflexivity. Qed.
Example html_list_numbered_multiple_start : html_test (lit "page-list-numbered-multiple-start") (lit "# A
# B
# C
]") = Some (lit "<wj-body class=""wj-body""><ol><li>A</li><li>B</li><li>C</li></ol><p>]</p></wj-body>").
Proof. vm_compute. reflexivity. Qed.
Example html_list_numbered : html_test (lit "page-list-numbered") (lit "[
# A
]") = Some (lit "<wj-body class=""wj-body""><p>[</p><ol><li>A</li></ol><p>]</p></wj-body>").
Proof. vm_compute. reflexivity. Qed.
Example html_mark_uppercase : html_test (lit "page-mark-uppercase") (lit "[[MARk ID =  ""apple"" clASS =""fruit"" stylE=""color: red;""      ]]Apple[[/ MARK  ]]") = Some (lit "<wj-body class=""wj-body""><p><mark class=""fruit"" id=""apple"" style=""color: red;"">Apple</mark></p></wj-body>").
Proof. vm_compute. reflexivity. Qed.
Example html_module_backlinks_page : html_test (lit "page-module-backlinks-page") (lit "[[module Backlinks page= ""scp-001""]]
Apple") = Some (lit "<wj-body class=""wj-body""><p>TODO: module Backlinks</p><p>Apple</p></wj-body>").
Proof. vm_compute. reflexivity. Qed.
Example html_module_categories_shown : html_test (lit "page-module-categories-shown") (lit "[[module Categories includeHidden = ""true""]]
Apple") = Some (lit "<wj-body class=""wj-body""><p>TODO: module Categories</p><p>Apple</p></wj-body>").
Proof. vm_compute. reflexivity. Qed.
Example html_module_join_button : html_test (lit "page-module-join-button") (lit "[[module Join button=""Join our site!! ;-)""]]
Apple") = Some (lit "<wj-body class=""wj-body""><p>TODO: module Join</p><p>Apple</p></wj-body>").
Proof. vm_compute. reflexivity. Qed.
Example html_module_pagetree_fail_bool : html_test (lit "page-module-pagetree-fail-bool") (lit "[[module PageTree root=""scp-001"" showRoot=""nope"" depth=""2""]]") = Some (lit "<wj-body class=""wj-body""><p>[[module PageTree root=&quot;scp-001&quot; showRoot=&quot;nope&quot; depth=&quot;2&quot;]]</p></wj-body>").
Proof. vm_compute. reflexivity. Qed.
Example html_module_pagetree : html_test (lit "page-module-pagetree") (lit "[[module PageTree]]
Apple") = Some (lit "<wj-body class=""wj-body""><p>TODO: module PageTree</p><p>Apple</p></wj-body>").
Proof. vm_compute. reflexivity. Qed.
Example html_monospace_block_alias_2 : html_test (lit "page-monospace-block-alias-2") (lit "[[monospace]]Test![[/monospace]]") = Some (lit "<wj-body class=""wj-body""><p><code class=""wj-monospace"">Test!</code></p></wj-body>").
Proof. vm_compute. reflexivity. Qed.
Example html_monospace_block_paragraph : html_test (lit "page-monospace-block-paragraph") (lit "[[tt]]Paragraph

Subscript[[/tt]]") = Some (lit "<wj-body class=""wj-body""><p><code class=""wj-monospace"">Paragraph<br>Subscript</code></p></wj-body>").
Proof. vm_compute. reflexivity. Qed.
Example html_monospace_fail_right : html_test (lit "page-monospace-fail-right") (lit "}}Fail Monospace") = Some (lit "<wj-body class=""wj-body""><p>}}Fail Monospace</p></wj-body>").
Proof. vm_compute. reflexivity. Qed.
Example html_paragraph_block_class : html_test (lit "page-paragraph-block-class") (lit "[[p class=""fruit""]]
Apple
[[/p]]") = Some (lit "<wj-body class=""wj-body""><p class=""fruit"">Apple</p></wj-body>").
Proof. vm_compute. reflexivity. Qed.
Example html_paragraph_block_inline_empty : html_test (lit "page-paragraph-block-inline-empty") (lit "[[p]][[/p]]") = Some (lit "<wj-body class=""wj-body""></wj-body>").
Proof. vm_compute. reflexivity. Qed.
Example html_paragraph_block : html_test (lit "page-paragraph-block") (lit "[[p]]
Apple
[[/p]]") = Some (lit "<wj-body class=""wj-body""><p>Apple</p></wj-body>").
Proof. vm_compute. reflexivity. Qed.
Example html_radio_star : html_test (lit "page-radio-star") (lit "[[*radio fruit]] Apple
[[radio fruit]] Banana
[[radio vegetable]] Celery
[[*radio vegetable]] Zucchini") = Some (lit "<wj-body class=""wj-body""><p><input name=""fruit"" type=""radio"" checked>Apple<br><input name=""fruit"" type=""radio"">Banana<br><input name=""vegetable"" type=""radio"">Celery<br><input name=""vegetable"" type=""radio"" checked>Zucchini</p></wj-body>").
Proof. vm_compute. reflexivity. Qed.
Example html_raw_0 : html_test (lit "page-raw-0") (lit "@@@@") = Some (lit "<wj-body class=""wj-body""><p><span class=""wj-raw""></span></p></wj-body>").
Proof. vm_compute. reflexivity. Qed.
Example html_raw_angles_empty : html_test (lit "page-raw-angles-empty") (lit "@<>@") = Some (lit "<wj-body class=""wj-body""><p><span class=""wj-raw""></span></p></wj-body>").
Proof. vm_compute. reflexivity. Qed.
Example html_raw_other_angles : html_test (lit "page-raw-other-angles") (lit "@@raw @< >@ content@@") = Some (lit "<wj-body class=""wj-body""><p><span class=""wj-raw"">raw @&lt; &gt;@ content</span></p></wj-body>").
Proof. vm_compute. reflexivity. Qed.
Example html_raw_token : html_test (lit "page-raw-token") (lit "not @@**@@ bold") = Some (lit "<wj-body class=""wj-body""><p>not <span class=""wj-raw"">**</span> bold</p></wj-body>").
Proof. vm_compute. reflexivity. Qed.
Example html_ruby_nested : html_test (lit "page-ruby-nested") [91%N; 91%N; 100%N; 105%N; 118%N; 93%N; 93%N; 32%N; 91%N; 91%N; 115%N; 112%N; 97%N; 110%N; 93%N; 93%N; 32%N; 91%N; 91%N; 114%N; 117%N; 98%N; 121%N; 93%N; 93%N; 35486%N; 32%N; 91%N; 91%N; 114%N; 116%N; 93%N; 93%N; 103%N; 111%N; 91%N; 91%N; 47%N; 114%N; 116%N; 93%N; 93%N; 91%N; 91%N; 47%N; 114%N; 117%N; 98%N; 121%N; 93%N; 93%N; 32%N; 91%N; 91%N; 47%N; 115%N; 112%N; 97%N; 110%N; 93%N; 93%N; 32%N; 91%N; 91%N; 47%N; 100%N; 105%N; 118%N; 93%N; 93%N] = Some [60%N; 119%N; 106%N; 45%N; 98%N; 111%N; 100%N; 121%N; 32%N; 99%N; 108%N; 97%N; 115%N; 115%N; 61%N; 34%N; 119%N; 106%N; 45%N; 98%N; 111%N; 100%N; 121%N; 34%N; 62%N; 60%N; 100%N; 105%N; 118%N; 62%N; 60%N; 112%N; 62%N; 60%N; 115%N; 112%N; 97%N; 110%N; 62%N; 60%N; 114%N; 117%N; 98%N; 121%N; 62%N; 35486%N; 32%N; 60%N; 114%N; 112%N; 62%N; 40%N; 60%N; 47%N; 114%N; 112%N; 62%N; 60%N; 114%N; 116%N; 62%N; 103%N; 111%N; 60%N; 47%N; 114%N; 116%N; 62%N; 60%N; 114%N; 112%N; 62%N; 41%N; 60%N; 47%N; 114%N; 112%N; 62%N; 60%N; 47%N; 114%N; 117%N; 98%N; 121%N; 62%N; 32%N; 60%N; 47%N; 115%N; 112%N; 97%N; 110%N; 62%N; 32%N; 60%N; 47%N; 112%N; 62%N; 60%N; 47%N; 100%N; 105%N; 118%N; 62%N; 60%N; 47%N; 119%N; 106%N; 45%N; 98%N; 111%N; 100%N; 121%N; 62%N].
Proof. vm_compute. reflexivity. Qed.
Example html_ruby : html_test (lit "page-ruby") [91%N; 91%N; 114%N; 117%N; 98%N; 121%N; 93%N; 93%N; 35486%N; 32%N; 91%N; 91%N; 114%N; 116%N; 93%N; 93%N; 103%N; 111%N; 91%N; 91%N; 47%N; 114%N; 116%N; 93%N; 93%N; 91%N; 91%N; 47%N; 114%N; 117%N; 98%N; 121%N; 93%N; 93%N] = Some [60%N; 119%N; 106%N; 45%N; 98%N; 111%N; 100%N; 121%N; 32%N; 99%N; 108%N; 97%N; 115%N; 115%N; 61%N; 34%N; 119%N; 106%N; 45%N; 98%N; 111%N; 100%N; 121%N; 34%N; 62%N; 60%N; 112%N; 62%N; 60%N; 114%N; 117%N; 98%N; 121%N; 62%N; 35486%N; 32%N; 60%N; 114%N; 112%N; 62%N; 40%N; 60%N; 47%N; 114%N; 112%N; 62%N; 60%N; 114%N; 116%N; 62%N; 103%N; 111%N; 60%N; 47%N; 114%N; 116%N; 62%N; 60%N; 114%N; 112%N; 62%N; 41%N; 60%N; 47%N; 114%N; 112%N; 62%N; 60%N; 47%N; 114%N; 117%N; 98%N; 121%N; 62%N; 60%N; 47%N; 112%N; 62%N; 60%N; 47%N; 119%N; 106%N; 45%N; 98%N; 111%N; 100%N; 121%N; 62%N].
Proof. vm_compute. reflexivity. Qed.
Example html_ruby2_fail_pipe_3 : html_test (lit "page-ruby2-fail-pipe-3") [91%N; 91%N; 114%N; 98%N; 32%N; 124%N; 35486%N; 32%N; 124%N; 103%N; 111%N; 124%N; 93%N; 93%N] = Some [60%N; 119%N; 106%N; 45%N; 98%N; 111%N; 100%N; 121%N; 32%N; 99%N; 108%N; 97%N; 115%N; 115%N; 61%N; 34%N; 119%N; 106%N; 45%N; 98%N; 111%N; 100%N; 121%N; 34%N; 62%N; 60%N; 112%N; 62%N; 91%N; 91%N; 114%N; 98%N; 32%N; 124%N; 35486%N; 32%N; 124%N; 103%N; 111%N; 124%N; 93%N; 93%N; 60%N; 47%N; 112%N; 62%N; 60%N; 47%N; 119%N; 106%N; 45%N; 98%N; 111%N; 100%N; 121%N; 62%N].
Proof. vm_compute. reflexivity. Qed.
Example html_ruby2_spaces : html_test (lit "page-ruby2-spaces") [91%N; 91%N; 114%N; 98%N; 32%N; 32%N; 35486%N; 32%N; 32%N; 124%N; 32%N; 103%N; 111%N; 32%N; 93%N; 93%N] = Some [60%N; 119%N; 106%N; 45%N; 98%N; 111%N; 100%N; 121%N; 32%N; 99%N; 108%N; 97%N; 115%N; 115%N; 61%N; 34%N; 119%N; 106%N; 45%N; 98%N; 111%N; 100%N; 121%N; 34%N; 62%N; 60%N; 112%N; 62%N; 60%N; 114%N; 117%N; 98%N; 121%N; 62%N; 35486%N; 60%N; 114%N; 112%N; 62%N; 40%N; 60%N; 47%N; 114%N; 112%N; 62%N; 60%N; 114%N; 116%N; 62%N; 103%N; 111%N; 60%N; 47%N; 114%N; 116%N; 62%N; 60%N; 114%N; 112%N; 62%N; 41%N; 60%N; 47%N; 114%N; 112%N; 62%N; 60%N; 47%N; 114%N; 117%N; 98%N; 121%N; 62%N; 60%N; 47%N; 112%N; 62%N; 60%N; 47%N; 119%N; 106%N; 45%N; 98%N; 111%N; 100%N; 121%N; 62%N].
Proof. vm_compute. reflexivity. Qed.
Example html_simple_symbol : html_test (lit "page-simple-symbol") (lit "%") = Some (lit "<wj-body class=""wj-body""><p>%</p></wj-body>").
Proof. vm_compute. reflexivity. Qed.
Example html_size_vh : html_test (lit "page-size-vh") (lit "[[size 2vh]]Apple[[/size]]") = Some (lit "<wj-body class=""wj-body""><p><span style=""font-size: 2vh;"">Apple</span></p></wj-body>").
Proof. vm_compute. reflexivity. Qed.
Example html_span_mulitiline : html_test (lit "page-span-mulitiline") [91%N; 91%N; 115%N; 112%N; 97%N; 110%N; 10%N; 9%N; 99%N; 108%N; 97%N; 115%N; 115%N; 61%N; 34%N; 109%N; 121%N; 45%N; 99%N; 108%N; 97%N; 115%N; 115%N; 34%N; 10%N; 9%N; 115%N; 116%N; 121%N; 108%N; 101%N; 32%N; 32%N; 61%N; 32%N; 34%N; 99%N; 111%N; 108%N; 111%N; 114%N; 58%N; 32%N; 114%N; 101%N; 100%N; 59%N; 34%N; 10%N; 10%N; 93%N; 93%N; 66%N; 97%N; 110%N; 97%N; 110%N; 97%N; 91%N; 91%N; 47%N; 115%N; 112%N; 97%N; 110%N; 93%N; 93%N] = Some (lit "<wj-body class=""wj-body""><p><span class=""my-class"" style=""color: red;"">Banana</span></p></wj-body>").
Proof. vm_compute. reflexivity. Qed.
Example html_span_uppercase : html_test (lit "page-span-uppercase") (lit "[[SPAN ID =  ""apple"" clASS =""fruit"" stylE=""color: red;""      ]]Apple[[/ SPAN_  ]]") = Some (lit "<wj-body class=""wj-body""><p><span class=""fruit"" id=""apple"" style=""color: red;"">Apple</span></p></wj-body>").
Proof. vm_compute. reflexivity. Qed.
Example html_span2_newlines : html_test (lit "page-span2-newlines") (lit "[[span_]]
Banana
Cherry
[[/span]]") = Some (lit "<wj-body class=""wj-body""><p><span>Banana<br>Cherry</span></p></wj-body>").
Proof. vm_compute. reflexivity. Qed.
Example html_span2 : html_test (lit "page-span2") (lit "[[span_]]Banana[[/span]]") = Some (lit "<wj-body class=""wj-body""><p><span>Banana</span></p></wj-body>").
Proof. vm_compute. reflexivity. Qed.
Example html_strikethrough_block_italics : html_test (lit "page-strikethrough-block-italics") (lit "[[s]]Apple [[b]]Banana[[/b]][[/s]] Cherry") = Some (lit "<wj-body class=""wj-body""><p><s>Apple <strong>Banana</strong></s> Cherry</p></wj-body>").
Proof. vm_compute. reflexivity. Qed.
Example html_strikethrough_fail_paragraph : html_test (lit "page-strikethrough-fail-paragraph") (lit "--Fail

Strikethrough--") = Some [60%N; 119%N; 106%N; 45%N; 98%N; 111%N; 100%N; 121%N; 32%N; 99%N; 108%N; 97%N; 115%N; 115%N; 61%N; 34%N; 119%N; 106%N; 45%N; 98%N; 111%N; 100%N; 121%N; 34%N; 62%N; 60%N; 112%N; 62%N; 8212%N; 70%N; 97%N; 105%N; 108%N; 60%N; 47%N; 112%N; 62%N; 60%N; 112%N; 62%N; 83%N; 116%N; 114%N; 105%N; 107%N; 101%N; 116%N; 104%N; 114%N; 111%N; 117%N; 103%N; 104%N; 8212%N; 60%N; 47%N; 112%N; 62%N; 60%N; 47%N; 119%N; 106%N; 45%N; 98%N; 111%N; 100%N; 121%N; 62%N].
Proof. vm_compute. reflexivity. Qed.
Example html_subscript_block_alias_1 : html_test (lit "page-subscript-block-alias-1") (lit "[[subscript]]Test![[/subscript]]") = Some (lit "<wj-body class=""wj-body""><p><sub>Test!</sub></p></wj-body>").
Proof. vm_compute. reflexivity. Qed.
Example html_subscript_block_paragraph : html_test (lit "page-subscript-block-paragraph") (lit "[[sub]]Paragraph

Subscript[[/sub]]") = Some (lit "<wj-body class=""wj-body""><p><sub>Paragraph<br>Subscript</sub></p></wj-body>").
Proof. vm_compute. reflexivity. Qed.
Example html_subscript : html_test (lit "page-subscript") (lit ",,Subscript,, Text") = Some (lit "<wj-body class=""wj-body""><p><sub>Subscript</sub> Text</p></wj-body>").
Proof. vm_compute. reflexivity. Qed.
Example html_superscript_block_fail : html_test (lit "page-superscript-block-fail") (lit "[[sup]]Fail Superscript") = Some (lit "<wj-body class=""wj-body""><p>[[sup]]Fail Superscript</p></wj-body>").
Proof. vm_compute. reflexivity. Qed.
Example html_superscript_empty : html_test (lit "page-superscript-empty") (lit "Empty ^^^^") = Some (lit "<wj-body class=""wj-body""><p>Empty <sup></sup></p></wj-body>").
Proof. vm_compute. reflexivity. Qed.
Example html_table_advanced_attributes : html_test (lit "page-table-advanced-attributes") (lit "[[table id=""fruit""]]
[[row style=""color: red;"" ]]
[[cell  data-sort=""number""]]
TEXT
[[/cell]]
[[/row]]
[[/table]]") = Some (lit "<wj-body class=""wj-body""><table id=""fruit""><tbody><tr style=""color: red;""><td data-sort=""number"">TEXT</td></tr></tbody></table></wj-body>").
Proof. vm_compute. reflexivity. Qed.
Example html_table_advanced_fail_cell : html_test (lit "page-table-advanced-fail-cell") (lit "[[cell]] Cell content here [[/cell]]") = Some (lit "<wj-body class=""wj-body""><p>[[cell]] Cell content here [[/cell]]</p></wj-body>").
Proof. vm_compute. reflexivity. Qed.
Example html_table_advanced_header : html_test (lit "page-table-advanced-header") (lit "[[table]]
[[row]] [[hcell]] A [[/hcell]] [[hcell]] B [[/hcell]] [[/row]]
[[row]] [[cell]] 1 [[/cell]] [[cell]] 2 [[/cell]] [[/row]]
[[/table]]") = Some (lit "<wj-body class=""wj-body""><table><tbody><tr><th>A</th><th>B</th></tr><tr><td>1</td><td>2</td></tr></tbody></table></wj-body>").
Proof. vm_compute. reflexivity. Qed.
Example html_table_advanced : html_test (lit "page-table-advanced") (lit "[[table]] [[row]] [[cell]] Apple [[/cell]] [[/row]] [[/table]]") = Some (lit "<wj-body class=""wj-body""><table><tbody><tr><td>Apple</td></tr></tbody></table></wj-body>").
Proof. vm_compute. reflexivity. Qed.
Example html_table_simple_fail_paragraph : html_test (lit "page-table-simple-fail-paragraph") (lit "[
|| Cell
]") = Some (lit "<wj-body class=""wj-body""><p>[|| Cell<br>]</p></wj-body>").
Proof. vm_compute. reflexivity. Qed.
Example html_table_simple_multiple : html_test (lit "page-table-simple-multiple") (lit "[
|| apple || banana ||

||~ cherry ||
-----
|||| durian ||
]") = Some (lit "<wj-body class=""wj-body""><p>[</p><table class=""wj-table""><tbody><tr><td>apple</td><td>banana</td></tr></tbody></table><table class=""wj-table""><tbody><tr><th>cherry</th></tr></tbody></table><hr><table class=""wj-table""><tbody><tr><td colspan=""2"">durian</td></tr></tbody></table><p>]</p></wj-body>").
Proof. vm_compute. reflexivity. Qed.
Example html_tabview_fail_empty : html_test (lit "page-tabview-fail-empty") (lit "[[tabview]]
[[/tabview]]") = Some (lit "<wj-body class=""wj-body""><p>[[tabview]]<br>[[/tabview]]</p></wj-body>").
Proof. vm_compute. reflexivity. Qed.
Example html_tabview_multiple : html_test (lit "page-tabview-multiple") (lit "[[tabview]]
[[tab A]]
1
[[/tab]]
[[/tabview]]
-----
[[tabview]]
[[tab B]]
2
[[/tab]]
[[/tabview]]") = Some (lit "<wj-body class=""wj-body""><wj-tabs class=""wj-tabs""><div class=""wj-tabs-button-list"" role=""tablist""><wj-tabs-button class=""wj-tabs-button"" id=""wj-id-bW5Ql2DLZtnd9s18"" role=""tab"" aria-label=""A"" aria-selected=""true"" aria-controls=""wj-id-ePZbhugrfP89c4Fk"" tabindex=""0"">A</wj-tabs-button></div><div class=""wj-tabs-panel-list""><div class=""wj-tabs-panel"" id=""wj-id-ePZbhugrfP89c4Fk"" role=""tabpanel"" aria-labelledby=""wj-id-bW5Ql2DLZtnd9s18"" tabindex=""0""><p>1</p></div></div></wj-tabs><hr><wj-tabs class=""wj-tabs""><div class=""wj-tabs-button-list"" role=""tablist""><wj-tabs-button class=""wj-tabs-button"" id=""wj-id-zgBl9StiqVAR2CHD"" role=""tab"" aria-label=""B"" aria-selected=""true"" aria-controls=""wj-id-GmkUq22QVrVUmWfh"" tabindex=""0"">B</wj-tabs-button></div><div class=""wj-tabs-panel-list""><div class=""wj-tabs-panel"" id=""wj-id-GmkUq22QVrVUmWfh"" role=""tabpanel"" aria-labelledby=""wj-id-zgBl9StiqVAR2CHD"" tabindex=""0""><p>2</p></div></div></wj-tabs></wj-body>").
Proof. vm_compute. reflexivity. Qed.
Example html_target_alias : html_test (lit "page-target-alias") (lit "[[anchortarget foobar]]") = Some (lit "<wj-body class=""wj-body""><p><a id=""foobar""></a></p></wj-body>").
Proof. vm_compute. reflexivity. Qed.
Example html_target_fail : html_test (lit "page-target-fail") (lit "[[target apple") = Some (lit "<wj-body class=""wj-body""><p>[[target apple</p></wj-body>").
Proof. vm_compute. reflexivity. Qed.
Example html_target_symbol : html_test (lit "page-target-symbol") (lit "[[target name|x[0-%]]") = Some (lit "<wj-body class=""wj-body""><p><a id=""name|x[0-%""></a></p></wj-body>").
Proof. vm_compute. reflexivity. Qed.
Example html_toc_float : html_test (lit "page-toc-float") (lit "+ A
[[toc]]
[[f<toc]]
[[f>toc]]") = Some (lit "<wj-body class=""wj-body""><h1 id=""toc0"">A</h1><div id=""wj-toc""><div id=""wj-toc-action-bar""><a href=""javascript:;"" onclick=""WIKIJUMP.page.listeners.foldToc(event)""></a></div><div class=""title"">Table of Contents</div><div id=""wj-toc-list""><ul><li><a href=""#toc0"" class=""wj-link wj-link-anchor"" data-link-type=""table-of-contents"">A</a></li></ul></div></div><div id=""wj-toc"" class=""wj-float-left""><div id=""wj-toc-action-bar""><a href=""javascript:;"" onclick=""WIKIJUMP.page.listeners.foldToc(event)""></a></div><div class=""title"">Table of Contents</div><div id=""wj-toc-list""><ul><li><a href=""#toc0"" class=""wj-link wj-link-anchor"" data-link-type=""table-of-contents"">A</a></li></ul></div></div><div id=""wj-toc"" class=""wj-float-right""><div id=""wj-toc-action-bar""><a href=""javascript:;"" onclick=""WIKIJUMP.page.listeners.foldToc(event)""></a></div><div class=""title"">Table of Contents</div><div id=""wj-toc-list""><ul><li><a href=""#toc0"" class=""wj-link wj-link-anchor"" data-link-type=""table-of-contents"">A</a></li></ul></div></div></wj-body>").
Proof. vm_compute. reflexivity. Qed.
Example html_underline_block_fail : html_test (lit "page-underline-block-fail") (lit "[[u]]Fail Underline") = Some (lit "<wj-body class=""wj-body""><p>[[u]]Fail Underline</p></wj-body>").
Proof. vm_compute. reflexivity. Qed.
Example html_underline_empty : html_test (lit "page-underline-empty") (lit "Empty ____") = Some (lit "<wj-body class=""wj-body""><p>Empty <u></u></p></wj-body>").
Proof. vm_compute. reflexivity. Qed.
Example html_underscore_line_break_fail : html_test (lit "page-underscore-line-break-fail") (lit "Apple_
Banana") = Some (lit "<wj-body class=""wj-body""><p>Apple_<br>Banana</p></wj-body>").
Proof. vm_compute. reflexivity. Qed.
Example html_user_fail : html_test (lit "page-user-fail") (lit "[[user]]
Durian") = Some (lit "<wj-body class=""wj-body""><p>[[user]]<br>Durian</p></wj-body>").
Proof. vm_compute. reflexivity. Qed.
Example html_variables : html_test (lit "page-variables") (lit "A {$variable}!") = Some (lit "<wj-body class=""wj-body""><p>A {$variable}!</p></wj-body>").
Proof. vm_compute. reflexivity. Qed.

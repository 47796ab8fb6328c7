(** RenderTests3.v -- generated by tools/conformance.py from the repository's HTML tests (/repo/test/*.html):
    the modelled include, preprocess, tokenize, parse and HTML renderer applied to each test's input
    give exactly the HTML the repository expects.  These are tests of the model, not proofs. *)
From Verif Require Import Base Strings Links Attr Preproc Includes Lexer Depth Tree Text Toc PState Blocks Rules Parse Html Render ParseTestEnv RenderTestEnv.
Example html_align_fail : html_test (lit "page-align-fail") (lit "[[=]]
Pineapple
[[/<]]") = Some (lit "<wj-body class=""wj-body""><p>[[=]]<br>Pineapple<br>[[/&lt;]]</p></wj-body>").
Proof. vm_compute. reflexivity. Qed.
Example html_anchor_alias_star_empty : html_test (lit "page-anchor-alias-star-empty") (lit "[[*anchor]][[/anchor]]") = Some (lit "<wj-body class=""wj-body""><p><a class=""wj-anchor"" target=""_blank""></a></p></wj-body>").
Proof. vm_compute. reflexivity. Qed.
Example html_anchor_empty : html_test (lit "page-anchor-empty") (lit "[[a]][[/a]]") = Some (lit "<wj-body class=""wj-body""><p><a class=""wj-anchor""></a></p></wj-body>").
Proof. vm_compute. reflexivity. Qed.
Example html_anchor_name_fail : html_test (lit "page-anchor-name-fail") (lit "[[# apple") = Some (lit "<wj-body class=""wj-body""><p>[[# apple</p></wj-body>").
Proof. vm_compute. reflexivity. Qed.
Example html_anchor_name : html_test (lit "page-anchor-name") (lit "[[# apple]]") = Some (lit "<wj-body class=""wj-body""><p><a id=""apple""></a></p></wj-body>").
Proof. vm_compute. reflexivity. Qed.
Example html_anchor_xss_2 : html_test (lit "page-anchor-xss-2") (lit "[[a href=""JAVASCRIPT:alert('XSS!')""]]My not-suspicious link[[/a]]") = Some (lit "<wj-body class=""wj-body""><p><a class=""wj-anchor"" href=""#invalid-url"">My not-suspicious link</a></p></wj-body>").
Proof. vm_compute. reflexivity. Qed.
Example html_anchor2_alias_star_empty : html_test (lit "page-anchor2-alias-star-empty") (lit "[[*anchor_]][[/anchor]]") = Some (lit "<wj-body class=""wj-body""><p><a class=""wj-anchor"" target=""_blank""></a></p></wj-body>").
Proof. vm_compute. reflexivity. Qed.
Example html_anchor2_empty : html_test (lit "page-anchor2-empty") (lit "[[a_]][[/a]]") = Some (lit "<wj-body class=""wj-body""><p><a class=""wj-anchor""></a></p></wj-body>").
Proof. vm_compute. reflexivity. Qed.
Example html_anchor2_star_empty : html_test (lit "page-anchor2-star-empty") (lit "[[*a_]][[/a]]") = Some (lit "<wj-body class=""wj-body""><p><a class=""wj-anchor"" target=""_blank""></a></p></wj-body>").
Proof. vm_compute. reflexivity. Qed.
Example html_bibliography : html_test (lit "page-bibliography") (lit "In 1970,((bibcite wwiii)) the final war for all humanity[[bibcite man]] was fought.
[[bibliography]]
: wwiii : A
: man : B
: woman : C
[[/bibliography]]") = Some (lit "<wj-body class=""wj-body""><p>In 1970,<span class=""wj-bibliography-ref""><wj-bibliography-ref-marker class=""wj-bibliography-ref-marker"" role=""link"" aria-label=""Reference 1."" data-id=""1"">1</wj-bibliography-ref-marker><span class=""wj-bibliography-ref-tooltip"" aria-hidden=""true""><span class=""wj-bibliography-ref-tooltip-label"">Reference 1.</span><span class=""wj-bibliography-ref-contents"">A</span></span></span> the final war for all humanity<span class=""wj-bibliography-ref"">[<wj-bibliography-ref-marker class=""wj-bibliography-ref-marker"" role=""link"" aria-label=""Reference 2."" data-id=""2"">2</wj-bibliography-ref-marker>]<span class=""wj-bibliography-ref-tooltip"" aria-hidden=""true""><span class=""wj-bibliography-ref-tooltip-label"">Reference 2.</span><span class=""wj-bibliography-ref-contents"">B</span></span></span> was fought.</p><div class=""wj-bibliography bibitems""><div class=""wj-bibliography-title title"">Bibliography</div><div class=""wj-bibliography-item bibitem"" id=""wj-bibliography-item-1-1 bibitem-1-1""><wj-bibliography-item-marker class=""wj-bibliography-item-marker"" type=""button"" role=""link"">1<span class=""wj-bibliography-sep"">.</span></wj-bibliography-item-marker>A</div><div class=""wj-bibliography-item bibitem"" id=""wj-bibliography-item-1-2 bibitem-1-2""><wj-bibliography-item-marker class=""wj-bibliography-item-marker"" type=""button"" role=""link"">2<span class=""wj-bibliography-sep"">.</span></wj-bibliography-item-marker>B</div><div class=""wj-bibliography-item bibitem"" id=""wj-bibliography-item-1-3 bibitem-1-3""><wj-bibliography-item-marker class=""wj-bibliography-item-marker"" type=""button"" role=""link"">3<span class=""wj-bibliography-sep"">.</span></wj-bibliography-item-marker>C</div></div></wj-body>").
Proof. vm_compute. reflexivity. Qed.
Example html_blockquote_alias : html_test (lit "page-blockquote-alias") (lit "[[quote]]
Durian
[[/quote]]") = Some (lit "<wj-body class=""wj-body""><blockquote><p>Durian</p></blockquote></wj-body>").
Proof. vm_compute. reflexivity. Qed.
Example html_blockquote_id : html_test (lit "page-blockquote-id") (lit "[[blockquote id=""my-quote""]]
Apple
[[/blockquote]]") = Some (lit "<wj-body class=""wj-body""><blockquote id=""my-quote""><p>Apple</p></blockquote></wj-body>").
Proof. vm_compute. reflexivity. Qed.
Example html_blockquote_native_both : html_test (lit "page-blockquote-native-both") (lit "> Apple") = Some (lit "<wj-body class=""wj-body""><blockquote><p>Apple</p></blockquote></wj-body>").
Proof. vm_compute. reflexivity. Qed.
Example html_blockquote_native_paragraph : html_test (lit "page-blockquote-native-paragraph") (lit "[

> Apple

]") = Some (lit "<wj-body class=""wj-body""><p>[</p><blockquote><p>Apple</p></blockquote><p>]</p></wj-body>").
Proof. vm_compute. reflexivity. Qed.
Example html_blockquote_native_start : html_test (lit "page-blockquote-native-start") (lit "[
> Apple") = Some (lit "<wj-body class=""wj-body""><p>[</p><blockquote><p>Apple</p></blockquote></wj-body>").
Proof. vm_compute. reflexivity. Qed.
Example html_blockquote_paragraphs : html_test (lit "page-blockquote-paragraphs") (lit "[[blockquote]]
Apple

Banana
Cherry

Durian
[[/blockquote]]") = Some (lit "<wj-body class=""wj-body""><blockquote><p>Apple</p><p>Banana<br>Cherry</p><p>Durian</p></blockquote></wj-body>").
Proof. vm_compute. reflexivity. Qed.
Example html_bold_block_alias_2 : html_test (lit "page-bold-block-alias-2") (lit "[[strong]]Test![[/strong]]") = Some (lit "<wj-body class=""wj-body""><p><strong>Test!</strong></p></wj-body>").
Proof. vm_compute. reflexivity. Qed.
Example html_bold_block_paragraph : html_test (lit "page-bold-block-paragraph") (lit "[[b]]Paragraph

Bold[[/b]]") = Some (lit "<wj-body class=""wj-body""><p><strong>Paragraph<br>Bold</strong></p></wj-body>").
Proof. vm_compute. reflexivity. Qed.
Example html_bold_fail : html_test (lit "page-bold-fail") (lit "**Fail Bold") = Some (lit "<wj-body class=""wj-body""><p>**Fail Bold</p></wj-body>").
Proof. vm_compute. reflexivity. Qed.
Example html_bold_not_heading : html_test (lit "page-bold-not-heading") (lit "You must be **18+**") = Some (lit "<wj-body class=""wj-body""><p>You must be <strong>18+</strong></p></wj-body>").
Proof. vm_compute. reflexivity. Qed.
Example html_center_formatting : html_test (lit "page-center-formatting") (lit "= **Banana** Cherry //Durian//") = Some (lit "<wj-body class=""wj-body""><div class=""wj-align-center""><strong>Banana</strong> Cherry <em>Durian</em></div></wj-body>").
Proof. vm_compute. reflexivity. Qed.
Example html_char_decimal : html_test (lit "page-char-decimal") (lit "[[char #129408]] pineapple") = Some [60%N; 119%N; 106%N; 45%N; 98%N; 111%N; 100%N; 121%N; 32%N; 99%N; 108%N; 97%N; 115%N; 115%N; 61%N; 34%N; 119%N; 106%N; 45%N; 98%N; 111%N; 100%N; 121%N; 34%N; 62%N; 60%N; 112%N; 62%N; 129408%N; 32%N; 112%N; 105%N; 110%N; 101%N; 97%N; 112%N; 112%N; 108%N; 101%N; 60%N; 47%N; 112%N; 62%N; 60%N; 47%N; 119%N; 106%N; 45%N; 98%N; 111%N; 100%N; 121%N; 62%N].
Proof. vm_compute. reflexivity. Qed.
Example html_char2_alias : html_test (lit "page-char2-alias") (lit "[[character &gt;]] pineapple") = Some (lit "<wj-body class=""wj-body""><p>&gt; pineapple</p></wj-body>").
Proof. vm_compute. reflexivity. Qed.
Example html_char2_name : html_test (lit "page-char2-name") (lit "[[char &copy;]] pineapple") = Some [60%N; 119%N; 106%N; 45%N; 98%N; 111%N; 100%N; 121%N; 32%N; 99%N; 108%N; 97%N; 115%N; 115%N; 61%N; 34%N; 119%N; 106%N; 45%N; 98%N; 111%N; 100%N; 121%N; 34%N; 62%N; 60%N; 112%N; 62%N; 169%N; 32%N; 112%N; 105%N; 110%N; 101%N; 97%N; 112%N; 112%N; 108%N; 101%N; 60%N; 47%N; 112%N; 62%N; 60%N; 47%N; 119%N; 106%N; 45%N; 98%N; 111%N; 100%N; 121%N; 62%N].
Proof. vm_compute. reflexivity. Qed.
Example html_checkbox_star : html_test (lit "page-checkbox-star") (lit "[[*checkbox]] Apple
[[checkbox]] Banana
[[*checkbox]] Cherry") = Some (lit "<wj-body class=""wj-body""><p><input type=""checkbox"" checked>Apple<br><input type=""checkbox"">Banana<br><input type=""checkbox"" checked>Cherry</p></wj-body>").
Proof. vm_compute. reflexivity. Qed.
Example html_clear_float_2_fail : html_test (lit "page-clear-float-2-fail") (lit "~~
Clear float fail") = Some (lit "<wj-body class=""wj-body""><p>~~<br>Clear float fail</p></wj-body>").
Proof. vm_compute. reflexivity. Qed.
Example html_clear_float_left : html_test (lit "page-clear-float-left") (lit "~~~~<
Clear float left") = Some (lit "<wj-body class=""wj-body""><div class=""wj-clear-float wj-clear-float-left""></div><p>Clear float left</p></wj-body>").
Proof. vm_compute. reflexivity. Qed.
Example html_code_fail_arguments : html_test (lit "page-code-fail-arguments") (lit "[[code type=css""]]") = Some (lit "<wj-body class=""wj-body""><p>[[code type=css&quot;]]</p></wj-body>").
Proof. vm_compute. reflexivity. Qed.
Example html_code_inline_empty : html_test (lit "page-code-inline-empty") (lit "[[code]][[/code]]") = Some (lit "<wj-body class=""wj-body""><wj-code class=""wj-code wj-language-none""><div class=""wj-code-panel""><wj-code-copy type=""button"" class=""wj-code-copy"" title=""Copy to Clipboard""><svg class=""wj-sprite sprite-wj-clipboard"" viewBox=""0 0 24 24""><use href=""/files--static/media/ui.svg#wj-clipboard""></use></svg><svg class=""wj-sprite sprite-wj-clipboard-success"" viewBox=""0 0 24 24""><use href=""/files--static/media/ui.svg#wj-clipboard-success""></use></svg></wj-code-copy><span class=""wj-code-language""></span></div><pre><code></code></pre></wj-code></wj-body>").
Proof. vm_compute. reflexivity. Qed.
Example html_code_language : html_test (lit "page-code-language") (lit "[[code type=""css""]]
apple banana
[[/code]]") = Some (lit "<wj-body class=""wj-body""><wj-code class=""wj-code wj-language-css""><div class=""wj-code-panel""><wj-code-copy type=""button"" class=""wj-code-copy"" title=""Copy to Clipboard""><svg class=""wj-sprite sprite-wj-clipboard"" viewBox=""0 0 24 24""><use href=""/files--static/media/ui.svg#wj-clipboard""></use></svg><svg class=""wj-sprite sprite-wj-clipboard-success"" viewBox=""0 0 24 24""><use href=""/files--static/media/ui.svg#wj-clipboard-success""></use></svg></wj-code-copy><span class=""wj-code-language"">css</span></div><pre><code>apple banana</code></pre></wj-code></wj-body>").
Proof. vm_compute. reflexivity. Qed.
Example html_code_uppercase : html_test (lit "page-code-uppercase") (lit "[[CODE]]
text here
[[/CODE]]") = Some (lit "<wj-body class=""wj-body""><wj-code class=""wj-code wj-language-none""><div class=""wj-code-panel""><wj-code-copy type=""button"" class=""wj-code-copy"" title=""Copy to Clipboard""><svg class=""wj-sprite sprite-wj-clipboard"" viewBox=""0 0 24 24""><use href=""/files--static/media/ui.svg#wj-clipboard""></use></svg><svg class=""wj-sprite sprite-wj-clipboard-success"" viewBox=""0 0 24 24""><use href=""/files--static/media/ui.svg#wj-clipboard-success""></use></svg></wj-code-copy><span class=""wj-code-language""></span></div><pre><code>text here</code></pre></wj-code></wj-body>").
Proof. vm_compute. reflexivity. Qed.
Example html_collapsible_folded_yes : html_test (lit "page-collapsible-folded-yes") (lit "[[collapsible folded = ""YES""]]
Cherry
[[/collapsible]]") = Some (lit "<wj-body class=""wj-body""><details class=""wj-collapsible"" data-show-top><summary class=""wj-collapsible-button wj-collapsible-button-top""><span class=""wj-collapsible-show-text"">+ open block</span><span class=""wj-collapsible-hide-text"">- hide block</span></summary><div class=""wj-collapsible-content""><p>Cherry</p></div></details></wj-body>").
Proof. vm_compute. reflexivity. Qed.
Example html_collapsible_location_neither : html_test (lit "page-collapsible-location-neither") (lit "[[collapsible hidelocation=""neither""]]
Cherry
[[/collapsible]]") = Some (lit "<wj-body class=""wj-body""><details class=""wj-collapsible""><summary class=""wj-collapsible-button wj-collapsible-button-top""><span class=""wj-collapsible-show-text"">+ open block</span><span class=""wj-collapsible-hide-text"">- hide block</span></summary><div class=""wj-collapsible-content""><p>Cherry</p></div></details></wj-body>").
Proof. vm_compute. reflexivity. Qed.
Example html_collapsible_nested : html_test (lit "page-collapsible-nested") (lit "[[collapsible]]
Apple
[[collapsible show=""+ More Fruit"" hide=""- Hide Fruit""]]
Banana
[[/collapsible]]
[[/collapsible]]") = Some (lit "<wj-body class=""wj-body""><details class=""wj-collapsible"" data-show-top><summary class=""wj-collapsible-button wj-collapsible-button-top""><span class=""wj-collapsible-show-text"">+ open block</span><span class=""wj-collapsible-hide-text"">- hide block</span></summary><div class=""wj-collapsible-content""><p>Apple</p><details class=""wj-collapsible"" data-show-top><summary class=""wj-collapsible-button wj-collapsible-button-top""><span class=""wj-collapsible-show-text"">+ More Fruit</span><span class=""wj-collapsible-hide-text"">- Hide Fruit</span></summary><div class=""wj-collapsible-content""><p>Banana</p></div></details></div></details></wj-body>").
Proof. vm_compute. reflexivity. Qed.
Example html_collapsible : html_test (lit "page-collapsible") (lit "[[collapsible]]
Apple
[[/collapsible]]") = Some (lit "<wj-body class=""wj-body""><details class=""wj-collapsible"" data-show-top><summary class=""wj-collapsible-button wj-collapsible-button-top""><span class=""wj-collapsible-show-text"">+ open block</span><span class=""wj-collapsible-hide-text"">- hide block</span></summary><div class=""wj-collapsible-content""><p>Apple</p></div></details></wj-body>").
Proof. vm_compute. reflexivity. Qed.
Example html_color_simple : html_test (lit "page-color-simple") (lit "##blue|Text Here##") = Some (lit "<wj-body class=""wj-body""><p><span style=""color: blue;"">Text Here</span></p></wj-body>").
Proof. vm_compute. reflexivity. Qed.
Example html_comment_single : html_test (lit "page-comment-single") (lit "Single [!-- stuff here --] Comment") = Some (lit "<wj-body class=""wj-body""><p>Single  Comment</p></wj-body>").
Proof. vm_compute. reflexivity. Qed.
Example html_definition_list_input : html_test (lit "page-definition-list-input") (lit ": Key : Value") = Some (lit "<wj-body class=""wj-body""><dl><dt>Key</dt><dd>Value</dd></dl></wj-body>").
Proof. vm_compute. reflexivity. Qed.
Example html_del_alias : html_test (lit "page-del-alias") (lit "Apple
[[deletion]]Banana[[/deletion]]") = Some (lit "<wj-body class=""wj-body""><p>Apple<br><del>Banana</del></p></wj-body>").
Proof. vm_compute. reflexivity. Qed.
Example html_del : html_test (lit "page-del") (lit "Apple
[[del]]Banana[[/del]]") = Some (lit "<wj-body class=""wj-body""><p>Apple<br><del>Banana</del></p></wj-body>").
Proof. vm_compute. reflexivity. Qed.
Example html_div_ending : html_test (lit "page-div-ending") (lit "[[div]]
Banana
[[/div_]]") = Some (lit "<wj-body class=""wj-body""><div><p>Banana</p></div></wj-body>").
Proof. vm_compute. reflexivity. Qed.
Example html_div_multiline : html_test (lit "page-div-multiline") (lit "[[div]]
Apple
Banana
[[/div]]") = Some (lit "<wj-body class=""wj-body""><div><p>Apple<br>Banana</p></div></wj-body>").
Proof. vm_compute. reflexivity. Qed.
Example html_div_style : html_test (lit "page-div-style") (lit "[[div style=""display: flex"" data-fruit=""red""]]
Apple
[[/div]]") = Some (lit "<wj-body class=""wj-body""><div data-fruit=""red"" style=""display: flex""><p>Apple</p></div></wj-body>").
Proof. vm_compute. reflexivity. Qed.
Example html_div2_empty : html_test (lit "page-div2-empty") (lit "[[div_]]
[[/div]]") = Some (lit "<wj-body class=""wj-body""><div></div></wj-body>").
Proof. vm_compute. reflexivity. Qed.
Example html_div2_multiline : html_test (lit "page-div2-multiline") (lit "[[div_]]
Apple
Banana
[[/div]]") = Some (lit "<wj-body class=""wj-body""><div>Apple<br>Banana</div></wj-body>").
Proof. vm_compute. reflexivity. Qed.
Example html_div2 : html_test (lit "page-div2") (lit "[[div_]]
Apple
[[/div]]") = Some (lit "<wj-body class=""wj-body""><div>Apple</div></wj-body>").
Proof. vm_compute. reflexivity. Qed.
Example html_double_angle_right : html_test (lit "page-double-angle-right") (lit "Double >> Angle") = Some [60%N; 119%N; 106%N; 45%N; 98%N; 111%N; 100%N; 121%N; 32%N; 99%N; 108%N; 97%N; 115%N; 115%N; 61%N; 34%N; 119%N; 106%N; 45%N; 98%N; 111%N; 100%N; 121%N; 34%N; 62%N; 60%N; 112%N; 62%N; 68%N; 111%N; 117%N; 98%N; 108%N; 101%N; 32%N; 187%N; 32%N; 65%N; 110%N; 103%N; 108%N; 101%N; 60%N; 47%N; 112%N; 62%N; 60%N; 47%N; 119%N; 106%N; 45%N; 98%N; 111%N; 100%N; 121%N; 62%N].
Proof. vm_compute. reflexivity. Qed.
Example html_embed_fail_name : html_test (lit "page-embed-fail-name") (lit "[[embed]]") = Some (lit "<wj-body class=""wj-body""><p>[[embed]]</p></wj-body>").
Proof. vm_compute. reflexivity. Qed.
Example html_empty : html_test (lit "page-empty") [] = Some (lit "<wj-body class=""wj-body""></wj-body>").
Proof. vm_compute. reflexivity. Qed.
Example html_equation_reference : html_test (lit "page-equation-reference") (lit "Apple[[eref Fruit]]") = Some (lit "<wj-body class=""wj-body""><p>Apple<span class=""wj-equation-ref""><wj-equation-ref-marker class=""wj-equation-ref-marker"" type=""button"" data-name=""Fruit"">Fruit</wj-equation-ref-marker><span class=""wj-equation-ref-tooltip"" aria-hidden=""true""></span></span></p></wj-body>").
Proof. vm_compute. reflexivity. Qed.
Example html_footnote_block_multiple : html_test (lit "page-footnote-block-multiple") (lit "Durian[[footnote]]Cherry[[/footnote]]

[[footnoteblock]]
[[footnoteblock]]
[[footnoteblock]]") = Some (lit "<wj-body class=""wj-body""><p>Durian<span class=""wj-footnote-ref""><wj-footnote-ref-marker class=""wj-footnote-ref-marker"" role=""link"" aria-label=""Footnote 1."" data-id=""1"">1</wj-footnote-ref-marker><span class=""wj-footnote-ref-tooltip"" aria-hidden=""true""><span class=""wj-footnote-ref-tooltip-label"">Footnote 1.</span><span class=""wj-footnote-ref-contents"">Cherry</span></span></span></p><div class=""wj-footnote-list""><div class=""wj-title"">Footnotes</div><ol><li class=""wj-footnote-list-item"" data-id=""1""><wj-footnote-list-item-marker class=""wj-footnote-list-item-marker"" type=""button"" role=""link"">1<span class=""wj-footnote-sep"">.</span></wj-footnote-list-item-marker><span class=""wj-footnote-list-item-contents"">Cherry</span></li></ol></div><div class=""wj-footnote-list""><div class=""wj-title"">Footnotes</div><ol><li class=""wj-footnote-list-item"" data-id=""1""><wj-footnote-list-item-marker class=""wj-footnote-list-item-marker"" type=""button"" role=""link"">1<span class=""wj-footnote-sep"">.</span></wj-footnote-list-item-marker><span class=""wj-footnote-list-item-contents"">Cherry</span></li></ol></div><div class=""wj-footnote-list""><div class=""wj-title"">Footnotes</div><ol><li class=""wj-footnote-list-item"" data-id=""1""><wj-footnote-list-item-marker class=""wj-footnote-list-item-marker"" type=""button"" role=""link"">1<span class=""wj-footnote-sep"">.</span></wj-footnote-list-item-marker><span class=""wj-footnote-list-item-contents"">Cherry</span></li></ol></div></wj-body>").
Proof. vm_compute. reflexivity. Qed.
Example html_footnote_ref_elements : html_test (lit "page-footnote-ref-elements") (lit "Apple[[footnote]]**Banana** //cherry ,,durian,,//[[/footnote]]") = Some (lit "<wj-body class=""wj-body""><p>Apple<span class=""wj-footnote-ref""><wj-footnote-ref-marker class=""wj-footnote-ref-marker"" role=""link"" aria-label=""Footnote 1."" data-id=""1"">1</wj-footnote-ref-marker><span class=""wj-footnote-ref-tooltip"" aria-hidden=""true""><span class=""wj-footnote-ref-tooltip-label"">Footnote 1.</span><span class=""wj-footnote-ref-contents""><strong>Banana</strong> <em>cherry <sub>durian</sub></em></span></span></span></p><div class=""wj-footnote-list""><div class=""wj-title"">Footnotes</div><ol><li class=""wj-footnote-list-item"" data-id=""1""><wj-footnote-list-item-marker class=""wj-footnote-list-item-marker"" type=""button"" role=""link"">1<span class=""wj-footnote-sep"">.</span></wj-footnote-list-item-marker><span class=""wj-footnote-list-item-contents""><strong>Banana</strong> <em>cherry <sub>durian</sub></em></span></li></ol></div></wj-body>").
Proof. vm_compute. reflexivity. Qed.
Example html_footnote_ref_paragraphs : html_test (lit "page-footnote-ref-paragraphs") (lit "1[[footnote]]Apple

Banana[[/footnote]]
2[[footnote]]
Cherry
[[/footnote]]
3[[footnote]]

Durian

[[/footnote]]") = Some (lit "<wj-body class=""wj-body""><p>1<span class=""wj-footnote-ref""><wj-footnote-ref-marker class=""wj-footnote-ref-marker"" role=""link"" aria-label=""Footnote 1."" data-id=""1"">1</wj-footnote-ref-marker><span class=""wj-footnote-ref-tooltip"" aria-hidden=""true""><span class=""wj-footnote-ref-tooltip-label"">Footnote 1.</span><span class=""wj-footnote-ref-contents""><p>Apple</p><p>Banana</p></span></span></span><br>2<span class=""wj-footnote-ref""><wj-footnote-ref-marker class=""wj-footnote-ref-marker"" role=""link"" aria-label=""Footnote 2."" data-id=""2"">2</wj-footnote-ref-marker><span class=""wj-footnote-ref-tooltip"" aria-hidden=""true""><span class=""wj-footnote-ref-tooltip-label"">Footnote 2.</span><span class=""wj-footnote-ref-contents"">Cherry<br></span></span></span><br>3<span class=""wj-footnote-ref""><wj-footnote-ref-marker class=""wj-footnote-ref-marker"" role=""link"" aria-label=""Footnote 3."" data-id=""3"">3</wj-footnote-ref-marker><span class=""wj-footnote-ref-tooltip"" aria-hidden=""true""><span class=""wj-footnote-ref-tooltip-label"">Footnote 3.</span><span class=""wj-footnote-ref-contents"">Durian</span></span></span></p><div class=""wj-footnote-list""><div class=""wj-title"">Footnotes</div><ol><li class=""wj-footnote-list-item"" data-id=""1""><wj-footnote-list-item-marker class=""wj-footnote-list-item-marker"" type=""button"" role=""link"">1<span class=""wj-footnote-sep"">.</span></wj-footnote-list-item-marker><span class=""wj-footnote-list-item-contents""><p>Apple</p><p>Banana</p></span></li><li class=""wj-footnote-list-item"" data-id=""2""><wj-footnote-list-item-marker class=""wj-footnote-list-item-marker"" type=""button"" role=""link"">2<span class=""wj-footnote-sep"">.</span></wj-footnote-list-item-marker><span class=""wj-footnote-list-item-contents"">Cherry<br></span></li><li class=""wj-footnote-list-item"" data-id=""3""><wj-footnote-list-item-marker class=""wj-footnote-list-item-marker"" type=""button"" role=""link"">3<span class=""wj-footnote-sep"">.</span></wj-footnote-list-item-marker><span class=""wj-footnote-list-item-contents"">Durian</span></li></ol></div></wj-body>").
Proof. vm_compute. reflexivity. Qed.
Example html_heading_1_toc : html_test (lit "page-heading-1-toc") (lit "+* My //header//") = Some (lit "<wj-body class=""wj-body""><h1>My <em>header</em></h1></wj-body>").
Proof. vm_compute. reflexivity. Qed.
Example html_heading_3_toc : html_test (lit "page-heading-3-toc") (lit "+++* plain
+++ toc") = Some (lit "<wj-body class=""wj-body""><h3>plain</h3><h3 id=""toc0"">toc</h3></wj-body>").
Proof. vm_compute. reflexivity. Qed.
Example html_heading_5_toc : html_test (lit "page-heading-5-toc") (lit "+++++ H5
+++++* H5!
++* H2!
+ H1

+++* H3!
++ H2 ++
") = Some (lit "<wj-body class=""wj-body""><h5 id=""toc0"">H5</h5><h5>H5!</h5><h2>H2!</h2><h1 id=""toc1"">H1</h1><h3>H3!</h3><h2 id=""toc2"">H2 ++</h2></wj-body>").
Proof. vm_compute. reflexivity. Qed.
Example html_heading_7_fail : html_test (lit "page-heading-7-fail") (lit "+++++++ Invalid header") = Some (lit "<wj-body class=""wj-body""><p>+++++++ Invalid header</p></wj-body>").
Proof. vm_compute. reflexivity. Qed.
Example html_hidden_newlines : html_test (lit "page-hidden-newlines") (lit "[[hidden]]
[[div_]]
Hidden div
[[/div]]
[[/hidden]]") = Some (lit "<wj-body class=""wj-body""><span class=""wj-hidden""><div>Hidden div</div></span></wj-body>").
Proof. vm_compute. reflexivity. Qed.
Example html_hr_2_fail : html_test (lit "page-hr-2-fail") (lit "--
Fail hr") = Some [60%N; 119%N; 106%N; 45%N; 98%N; 111%N; 100%N; 121%N; 32%N; 99%N; 108%N; 97%N; 115%N; 115%N; 61%N; 34%N; 119%N; 106%N; 45%N; 98%N; 111%N; 100%N; 121%N; 34%N; 62%N; 60%N; 112%N; 62%N; 8212%N; 60%N; 98%N; 114%N; 62%N; 70%N; 97%N; 105%N; 108%N; 32%N; 104%N; 114%N; 60%N; 47%N; 112%N; 62%N; 60%N; 47%N; 119%N; 106%N; 45%N; 98%N; 111%N; 100%N; 121%N; 62%N].
Proof. vm_compute. reflexivity. Qed.
Example html_html_block : html_test (lit "page-html-block") (lit "[[html]]
[[div]]
test
[[/div]]
[[/html]]") = Some (lit "<wj-body class=""wj-body""><iframe src=""https://example.com/"" crossorigin></iframe></wj-body>").
Proof. vm_compute. reflexivity. Qed.
Example html_html_fail : html_test (lit "page-html-fail") (lit "[[html]]
<div>Forgot to close the block") = Some (lit "<wj-body class=""wj-body""><p>[[html]]<br>&lt;div&gt;Forgot to close the block</p></wj-body>").
Proof. vm_compute. reflexivity. Qed.
Example html_html : html_test (lit "page-html") (lit "[[html]]
<p><div>My HTML <tt>code</tt> here!</div></p>
[[/html]]") = Some (lit "<wj-body class=""wj-body""><iframe src=""https://example.com/"" crossorigin></iframe></wj-body>").
Proof. vm_compute. reflexivity. Qed.
Example html_iframe_http : html_test (lit "page-iframe-http") (lit "[[iframe http://scp-wiki.wikidot.com/scp-1000 ]]") = Some (lit "<wj-body class=""wj-body""><iframe src=""http://scp-wiki.wikidot.com/scp-1000"" crossorigin></iframe></wj-body>").
Proof. vm_compute. reflexivity. Qed.
Example html_iframe : html_test (lit "page-iframe") (lit "[[iframe https://example.com]]") = Some (lit "<wj-body class=""wj-body""><iframe src=""https://example.com"" crossorigin></iframe></wj-body>").
Proof. vm_compute. reflexivity. Qed.
Example html_image_center : html_test (lit "page-image-center") (lit "[[=image landscape.png]]") = Some (lit "<wj-body class=""wj-body""><p><div class=""wj-image-container wj-align-center""><img class=""wj-image"" src=""https://test.wjfiles.com/local--files/page-image-center/landscape.png"" crossorigin></div></p></wj-body>").
Proof. vm_compute. reflexivity. Qed.
Example html_image_file2 : html_test (lit "page-image-file2") (lit "A [[image /some-other-page/my-picture.jpeg]] B") = Some (lit "<wj-body class=""wj-body""><p>A <div class=""wj-image-container""><img class=""wj-image"" src=""https://test.wjfiles.com/local--files/some-other-page/my-picture.jpeg"" crossorigin></div> B</p></wj-body>").
Proof. vm_compute. reflexivity. Qed.
Example html_image_float_justify_fail : html_test (lit "page-image-float-justify-fail") (lit "[[f==image landscape.png]]") = Some (lit "<wj-body class=""wj-body""><p>[[f==image landscape.png]]</p></wj-body>").
Proof. vm_compute. reflexivity. Qed.
Example html_image_left : html_test (lit "page-image-left") (lit "[[<image landscape.png]]") = Some (lit "<wj-body class=""wj-body""><p><div class=""wj-image-container wj-align-left""><img class=""wj-image"" src=""https://test.wjfiles.com/local--files/page-image-left/landscape.png"" crossorigin></div></p></wj-body>").
Proof. vm_compute. reflexivity. Qed.
Example html_image_right : html_test (lit "page-image-right") (lit "[[>image landscape.png]]") = Some (lit "<wj-body class=""wj-body""><p><div class=""wj-image-container wj-align-right""><img class=""wj-image"" src=""https://test.wjfiles.com/local--files/page-image-right/landscape.png"" crossorigin></div></p></wj-body>").
Proof. vm_compute. reflexivity. Qed.
Example html_include_elements : html_test (lit "page-include-elements") (lit "Apple
[[include-elements :some-site:page-name]]
Banana") = Some (lit "<wj-body class=""wj-body""><p>Apple</p>&lt;INCLUDED PAGE (ELEMENTS)&gt;<p>Banana</p></wj-body>").
Proof. vm_compute. reflexivity. Qed.
Example html_include_wikidot_multiline : html_test (lit "page-include-wikidot-multiline") (lit "[[include component:basic name = consuelo|
 contents = the chorizo stew is almost finished cooking 
 i cannot just stop cooking my chorizo stew in order to talk to you about an i.r.c. channel, friends 
shit i am sorry i did not mean to rejoin]]") = Some (lit "<wj-body class=""wj-body""><p>My name is <u>consuelo</u>:</p><blockquote><p>the chorizo stew is almost finished cooking <br> i cannot just stop cooking my chorizo stew in order to talk to you about an i.r.c. channel, friends <br>shit i am sorry i did not mean to rejoin</p></blockquote></wj-body>").
Proof. vm_compute. reflexivity. Qed.
Example html_include_wikidot_parameters_before : html_test (lit "page-include-wikidot-parameters-before") (lit "[[include component:fruit |class =box| apple=1 | banana = 2]]") = Some (lit "<wj-body class=""wj-body""><div class=""box"" id=""fruit""><p>  </p><ul><li>1  </li><li>2 </li></ul></div></wj-body>").
Proof. vm_compute. reflexivity. Qed.
Example html_include_wikidot_parameters_newlines_both : html_test (lit "page-include-wikidot-parameters-newlines-both") (lit "[[include component:fruit |
 class=box |
 apple=1 |
 banana = 2 |]]") = Some (lit "<wj-body class=""wj-body""><div class=""box "" id=""fruit""><p>  </p><ul><li>1  </li><li>2  </li></ul></div></wj-body>").
Proof. vm_compute. reflexivity. Qed.
Example html_include_wikidot_parameters : html_test (lit "page-include-wikidot-parameters") (lit "[[include component:fruit class = box | apple=1 | banana = 2]]") = Some (lit "<wj-body class=""wj-body""><div class=""box "" id=""fruit""><p>  </p><ul><li>1  </li><li>2 </li></ul></div></wj-body>").
Proof. vm_compute. reflexivity. Qed.
Example html_ins_newlines : html_test (lit "page-ins-newlines") (lit "[[ins]]
Apple
Banana
[[/ins]]") = Some (lit "<wj-body class=""wj-body""><p><ins><br>Apple<br>Banana<br></ins></p></wj-body>").
Proof. vm_compute. reflexivity. Qed.
Example html_invisible_newlines : html_test (lit "page-invisible-newlines") (lit "[[invisible]]
[[div_]]
Invisible div
[[/div]]
[[/invisible]]") = Some (lit "<wj-body class=""wj-body""><span class=""wj-invisible""><div>Invisible div</div></span></wj-body>").
Proof. vm_compute. reflexivity. Qed.
Example html_italics_block_alias_1 : html_test (lit "page-italics-block-alias-1") (lit "[[italics]]Test![[/italics]]") = Some (lit "<wj-body class=""wj-body""><p><em>Test!</em></p></wj-body>").
Proof. vm_compute. reflexivity. Qed.
Example html_italics_block_fail : html_test (lit "page-italics-block-fail") (lit "[[i]]Fail Italics") = Some (lit "<wj-body class=""wj-body""><p>[[i]]Fail Italics</p></wj-body>").
Proof. vm_compute. reflexivity. Qed.
Example html_italics_empty : html_test (lit "page-italics-empty") (lit "Empty ////") = Some (lit "<wj-body class=""wj-body""><p>Empty <em></em></p></wj-body>").
Proof. vm_compute. reflexivity. Qed.
Example html_line_breaks_alias : html_test (lit "page-line-breaks-alias") (lit "Banana
[[newlines 9]]
Apple") = Some (lit "<wj-body class=""wj-body""><p>Banana<br><br><br><br><br><br><br><br><br>Apple</p></wj-body>").
Proof. vm_compute. reflexivity. Qed.
Example html_line_breaks_error_overflow : html_test (lit "page-line-breaks-error-overflow") (lit "[[lines 999]]") = Some (lit "<wj-body class=""wj-body""><p>[[lines 999]]</p></wj-body>").
Proof. vm_compute. reflexivity. Qed.
Example html_link_anchor_fake : html_test (lit "page-link-anchor-fake") (lit "[# Fake link]") = Some (lit "<wj-body class=""wj-body""><p><a href=""javascript:;"" class=""wj-link wj-link-anchor"" data-link-type=""anchor"">Fake link</a></p></wj-body>").
Proof. vm_compute. reflexivity. Qed.
Example html_link_interwiki_fail_colon : html_test (lit "page-link-interwiki-fail-colon") (lit "[[[!:missing|Label]]]") = Some (lit "<wj-body class=""wj-body""><p>[[[!:missing|Label]]]</p></wj-body>").
Proof. vm_compute. reflexivity. Qed.
Example html_link_single_empty_subpath : html_test (lit "page-link-single-empty-subpath") (lit "[//page/edit Edit]") = Some (lit "<wj-body class=""wj-body""><p><a href=""//page/edit"" class=""wj-link wj-link-internal"" data-link-type=""direct"">Edit</a></p></wj-body>").
Proof. vm_compute. reflexivity. Qed.
Example html_link_single_fail_start : html_test (lit "page-link-single-fail-start") (lit "[page") = Some (lit "<wj-body class=""wj-body""><p>[page</p></wj-body>").
Proof. vm_compute. reflexivity. Qed.
Example html_link_single_subpath_anchor : html_test (lit "page-link-single-subpath-anchor") (lit "[/relative/link#toc0 text]") = Some (lit "<wj-body class=""wj-body""><p><a href=""/relative/link#toc0"" class=""wj-link wj-link-internal"" data-link-type=""direct"">text</a></p></wj-body>").
Proof. vm_compute. reflexivity. Qed.
Example html_link_triple_anchor : html_test (lit "page-link-triple-anchor") (lit "[[[scp-series#001|SCP-001 to SCP-099]]]") = Some (lit "<wj-body class=""wj-body""><p><a href=""/scp-series#001"" class=""wj-link wj-link-internal"" data-link-type=""page"">SCP-001 to SCP-099</a></p></wj-body>").
Proof. vm_compute. reflexivity. Qed.
Example html_link_triple_empty_subpath : html_test (lit "page-link-triple-empty-subpath") (lit "[[[//main/edit|Edit page]]]") = Some (lit "<wj-body class=""wj-body""><p><a href=""//main/edit"" class=""wj-link wj-link-internal"" data-link-type=""direct"">Edit page</a></p></wj-body>").
Proof. vm_compute. reflexivity. Qed.
Example html_link_triple_fail_newline : html_test (lit "page-link-triple-fail-newline") (lit "[[[some-page |
 Label]]]") = Some (lit "<wj-body class=""wj-body""><p>[[[some-page |<br> Label]]]</p></wj-body>").
Proof. vm_compute. reflexivity. Qed.
Example html_link_triple_label : html_test (lit "page-link-triple-label") (lit "[[[some-page|My label]]]") = Some (lit "<wj-body class=""wj-body""><p><a href=""/some-page"" class=""wj-link wj-link-internal"" data-link-type=""page"">My label</a></p></wj-body>").
Proof. vm_compute. reflexivity. Qed.
Example html_link_triple_site_category : html_test (lit "page-link-triple-site-category") (lit "[[[:scp-wiki:component:theme|Sigma-9 Theme]]]") = Some (lit "<wj-body class=""wj-body""><p><a href=""https://scp-wiki.wikijump.com/component:theme"" class=""wj-link wj-link-internal"" data-link-type=""page"">Sigma-9 Theme</a></p></wj-body>").
Proof. vm_compute. reflexivity. Qed.
Example html_link_triple_subpath_anchor : html_test (lit "page-link-triple-subpath-anchor") (lit "[[[MAIN/#/page|Hash routing]]]") = Some (lit "<wj-body class=""wj-body""><p><a href=""/main/#/page"" class=""wj-link wj-link-internal"" data-link-type=""page"">Hash routing</a></p></wj-body>").
Proof. vm_compute. reflexivity. Qed.
Example html_link_triple_title : html_test (lit "page-link-triple-title") (lit "[[[some-page|]]]") = Some (lit "<wj-body class=""wj-body""><p><a href=""/some-page"" class=""wj-link wj-link-internal"" data-link-type=""page"">TODO: actual title (test some-page)</a></p></wj-body>").
Proof. vm_compute. reflexivity. Qed.
Example html_link_triple_whitespace : html_test (lit "page-link-triple-whitespace") (lit "[[[ some-page  |  My label  ]]]") = Some (lit "<wj-body class=""wj-body""><p><a href=""/some-page"" class=""wj-link wj-link-internal"" data-link-type=""page"">My label</a></p></wj-body>").
Proof. vm_compute. reflexivity. Qed.
Example html_list_block_deep : html_test (lit "page-list-block-deep") (lit "[[ul]] [[li]] [[ol]] [[li]]A[[/li]] [[li]]B[[/li]] [[/ol]] [[/li]] [[li]]C[[/li]] [[ol]] [[li]]D[[/li]] [[li]]E[[/li]] [[/ol]] [[/ul]]") = Some (lit "<wj-body class=""wj-body""><ul><li><ol><li>A</li><li>B</li></ol> </li><li>C</li><ol><li>D</li><li>E</li></ol></ul></wj-body>").
Proof. vm_compute. reflexivity. Qed.
Example html_list_block_non_item_fail : html_test (lit "page-list-block-non-item-fail") (lit "[[ul]] [[div]]A[[/div]] [[/ul]]") = Some (lit "<wj-body class=""wj-body""><p>[[ul]] </p><div><p>A</p></div><p> [[/ul]]</p></wj-body>").
Proof. vm_compute. reflexivity. Qed.
Example html_list_block_whitespace : html_test (lit "page-list-block-whitespace") (lit "[[ul]]
[[li]]
A
[[/li]]
[[li]]
B
[[/li]]
[[/ul]]") = Some (lit "<wj-body class=""wj-body""><ul><li>A</li><li>B</li></ul></wj-body>").
Proof. vm_compute. reflexivity. Qed.
Example html_list_bullet_depths : html_test (lit "page-list-bullet-depths") (lit "[
* A
 * B
  * C
]") = Some (lit "<wj-body class=""wj-body""><p>[</p><ul><li>A</li><ul><li>B</li><ul><li>C</li></ul></ul></ul><p>]</p></wj-body>").
Proof. vm_compute. reflexivity. Qed.
Example html_list_bullet_elements_multiple_end : html_test (lit "page-list-bullet-elements-multiple-end") (lit "[
* A 1
* B 2
* C 3") = Some (lit "<wj-body class=""wj-body""><p>[</p><ul><li>A 1</li><li>B 2</li><li>C 3</li></ul></wj-body>").
Proof. vm_compute. reflexivity. Qed.
Example html_list_bullet_elements : html_test (lit "page-list-bullet-elements") (lit "[
* A 1
]") = Some (lit "<wj-body class=""wj-body""><p>[</p><ul><li>A 1</li></ul><p>]</p></wj-body>").
Proof. vm_compute. reflexivity. Qed.
Example html_list_bullet_multiple_end : html_test (lit "page-list-bullet-multiple-end") (lit "[
* A
* B
* C") = Some (lit "<wj-body class=""wj-body""><p>[</p><ul><li>A</li><li>B</li><li>C</li></ul></wj-body>").
Proof. vm_compute. reflexivity. Qed.
Example html_list_bullet_start : html_test (lit "page-list-bullet-start") (lit "* A
]") = Some (lit "<wj-body class=""wj-body""><ul><li>A</li></ul><p>]</p></wj-body>").
Proof. vm_compute. reflexivity. Qed.
Example html_list_mix_depths : html_test (lit "page-list-mix-depths") (lit "[
* A
 * B
 # C
 # D
]") = Some (lit "<wj-body class=""wj-body""><p>[</p><ul><li>A</li><ul><li>B</li></ul><ol><li>C</li><li>D</li></ol></ul><p>]</p></wj-body>").
Proof. vm_compute. reflexivity. Qed.
Example html_list_numbered_depths : html_test (lit "page-list-numbered-depths") (lit "[
# A
 # B
  # C
]") = Some (lit "<wj-body class=""wj-body""><p>[</p><ol><li>A</li><ol><li>B</li><ol><li>C</li></ol></ol></ol><p>]</p></wj-body>").
Proof. vm_compute. reflexivity. Qed.
Example html_list_numbered_elements_multiple_end : html_test (lit "page-list-numbered-elements-multiple-end") (lit "[
# A 1
# B 2
# C 3") = Some (lit "<wj-body class=""wj-body""><p>[</p><ol><li>A 1</li><li>B 2</li><li>C 3</li></ol></wj-body>").
Proof. vm_compute. reflexivity. Qed.
Example html_list_numbered_elements : html_test (lit "page-list-numbered-elements") (lit "[
# A 1
]") = Some (lit "<wj-body class=""wj-body""><p>[</p><ol><li>A 1</li></ol><p>]</p></wj-body>").
Proof. vm_compute. reflexivity. Qed.
Example html_list_numbered_multiple_end : html_test (lit "page-list-numbered-multiple-end") (lit "[
# A
# B
# C") = Some (lit "<wj-body class=""wj-body""><p>[</p><ol><li>A</li><li>B</li><li>C</li></ol></wj-body>").
Proof. vm_compute. reflexivity. Qed.
Example html_list_numbered_start : html_test (lit "page-list-numbered-start") (lit "# A
]") = Some (lit "<wj-body class=""wj-body""><ol><li>A</li></ol><p>]</p></wj-body>").
Proof. vm_compute. reflexivity. Qed.
Example html_mark_style : html_test (lit "page-mark-style") (lit "[[mark id=""banana"" class=""fruit"" style=""color: yellow;"" onclick=""javascript is blocked"" autocapitalize=""yes""]]Banana[[/mark]]") = Some (lit "<wj-body class=""wj-body""><p><mark autocapitalize=""yes"" class=""fruit"" id=""banana"" style=""color: yellow;"">Banana</mark></p></wj-body>").
Proof. vm_compute. reflexivity. Qed.
Example html_math_inline_fail : html_test (lit "page-math-inline-fail") (lit "[[$ E =
 mc^2 $]]") = Some (lit "<wj-body class=""wj-body""><p>[[$ E =<br> mc^2 $]]</p></wj-body>").
Proof. vm_compute. reflexivity. Qed.
Example html_module_categories_hidden : html_test (lit "page-module-categories-hidden") (lit "[[module Categories INCLUDEhidden= ""no""]]
Apple") = Some (lit "<wj-body class=""wj-body""><p>TODO: module Categories</p><p>Apple</p></wj-body>").
Proof. vm_compute. reflexivity. Qed.
Example html_module_invalid : html_test (lit "page-module-invalid") (lit "[[module NoSuchModuleWithThisName]]") = Some (lit "<wj-body class=""wj-body""><p>[[module NoSuchModuleWithThisName]]</p></wj-body>").
Proof. vm_compute. reflexivity. Qed.
Example html_module_join : html_test (lit "page-module-join") (lit "[[module Join]]
Apple") = Some (lit "<wj-body class=""wj-body""><p>TODO: module Join</p><p>Apple</p></wj-body>").
Proof. vm_compute. reflexivity. Qed.
Example html_module_pagetree_uppercase : html_test (lit "page-module-pagetree-uppercase") (lit "[[ MODULE pageTREE ROOT =""scp-series"" SHOWroot = ""yes""  dePTH =""3""]]
Apple") = Some (lit "<wj-body class=""wj-body""><p>TODO: module PageTree</p><p>Apple</p></wj-body>").
Proof. vm_compute. reflexivity. Qed.
Example html_monospace_block_alias_1 : html_test (lit "page-monospace-block-alias-1") (lit "[[mono]]Test![[/mono]]") = Some (lit "<wj-body class=""wj-body""><p><code class=""wj-monospace"">Test!</code></p></wj-body>").
Proof. vm_compute. reflexivity. Qed.
Example html_monospace_block_italics : html_test (lit "page-monospace-block-italics") (lit "[[tt]]Apple [[b]]Banana[[/b]][[/tt]] Cherry") = Some (lit "<wj-body class=""wj-body""><p><code class=""wj-monospace"">Apple <strong>Banana</strong></code> Cherry</p></wj-body>").
Proof. vm_compute. reflexivity. Qed.
Example html_monospace_fail_paragraph : html_test (lit "page-monospace-fail-paragraph") (lit "{{Fail

Monospace}}") = Some (lit "<wj-body class=""wj-body""><p>{{Fail</p><p>Monospace}}</p></wj-body>").
Proof. vm_compute. reflexivity. Qed.
Example html_paragraph_block_attributes : html_test (lit "page-paragraph-block-attributes") (lit "[[p class=""fruit""]]Apple

Banana

Cherry[[/p]]") = Some (lit "<wj-body class=""wj-body""><p class=""fruit"">Apple</p><p class=""fruit"">Banana</p><p class=""fruit"">Cherry</p></wj-body>").
Proof. vm_compute. reflexivity. Qed.
Example html_paragraph_block_id : html_test (lit "page-paragraph-block-id") (lit "[[p id=""my-p""]]
Apple
[[/p]]") = Some (lit "<wj-body class=""wj-body""><p id=""my-p"">Apple</p></wj-body>").
Proof. vm_compute. reflexivity. Qed.
Example html_paragraph_block_style : html_test (lit "page-paragraph-block-style") (lit "[[p style=""display: flex"" data-fruit=""red""]]
Apple
[[/p]]") = Some (lit "<wj-body class=""wj-body""><p data-fruit=""red"" style=""display: flex"">Apple</p></wj-body>").
Proof. vm_compute. reflexivity. Qed.
Example html_radio_fail : html_test (lit "page-radio-fail") (lit "[[radio]] Nameless") = Some (lit "<wj-body class=""wj-body""><p>[[radio]] Nameless</p></wj-body>").
Proof. vm_compute. reflexivity. Qed.
Example html_radio : html_test (lit "page-radio") (lit "[[radio fruit]] Apple
[[radio fruit]] Banana
[[radio vegetable]] Celery
[[radio vegetable]] Zucchini") = Some (lit "<wj-body class=""wj-body""><p><input name=""fruit"" type=""radio"">Apple<br><input name=""fruit"" type=""radio"">Banana<br><input name=""vegetable"" type=""radio"">Celery<br><input name=""vegetable"" type=""radio"">Zucchini</p></wj-body>").
Proof. vm_compute. reflexivity. Qed.
Example html_raw_angles_content : html_test (lit "page-raw-angles-content") (lit "@<raw @@ content>@") = Some (lit "<wj-body class=""wj-body""><p><span class=""wj-raw"">raw @@ content</span></p></wj-body>").
Proof. vm_compute. reflexivity. Qed.
Example html_raw_fail_paragraph : html_test (lit "page-raw-fail-paragraph") (lit "@@Fail

Raw@@") = Some (lit "<wj-body class=""wj-body""><p>@@Fail</p><p>Raw@@</p></wj-body>").
Proof. vm_compute. reflexivity. Qed.
Example html_raw_test_2 : html_test (lit "page-raw-test-2") (lit "Test @@@@@@ String") = Some (lit "<wj-body class=""wj-body""><p>Test <span class=""wj-raw"">@@</span> String</p></wj-body>").
Proof. vm_compute. reflexivity. Qed.
Example html_ruby_multiple : html_test (lit "page-ruby-multiple") [91%N; 91%N; 114%N; 117%N; 98%N; 121%N; 93%N; 93%N; 28450%N; 32%N; 91%N; 91%N; 114%N; 116%N; 93%N; 93%N; 107%N; 97%N; 110%N; 91%N; 91%N; 47%N; 114%N; 116%N; 93%N; 93%N; 32%N; 23383%N; 32%N; 91%N; 91%N; 114%N; 116%N; 93%N; 93%N; 106%N; 105%N; 91%N; 91%N; 47%N; 114%N; 116%N; 93%N; 93%N; 32%N; 91%N; 91%N; 47%N; 114%N; 117%N; 98%N; 121%N; 93%N; 93%N] = Some [60%N; 119%N; 106%N; 45%N; 98%N; 111%N; 100%N; 121%N; 32%N; 99%N; 108%N; 97%N; 115%N; 115%N; 61%N; 34%N; 119%N; 106%N; 45%N; 98%N; 111%N; 100%N; 121%N; 34%N; 62%N; 60%N; 112%N; 62%N; 60%N; 114%N; 117%N; 98%N; 121%N; 62%N; 28450%N; 32%N; 60%N; 114%N; 112%N; 62%N; 40%N; 60%N; 47%N; 114%N; 112%N; 62%N; 60%N; 114%N; 116%N; 62%N; 107%N; 97%N; 110%N; 60%N; 47%N; 114%N; 116%N; 62%N; 60%N; 114%N; 112%N; 62%N; 41%N; 60%N; 47%N; 114%N; 112%N; 62%N; 32%N; 23383%N; 32%N; 60%N; 114%N; 112%N; 62%N; 40%N; 60%N; 47%N; 114%N; 112%N; 62%N; 60%N; 114%N; 116%N; 62%N; 106%N; 105%N; 60%N; 47%N; 114%N; 116%N; 62%N; 60%N; 114%N; 112%N; 62%N; 41%N; 60%N; 47%N; 114%N; 112%N; 62%N; 60%N; 47%N; 114%N; 117%N; 98%N; 121%N; 62%N; 60%N; 47%N; 112%N; 62%N; 60%N; 47%N; 119%N; 106%N; 45%N; 98%N; 111%N; 100%N; 121%N; 62%N].
Proof. vm_compute. reflexivity. Qed.
Example html_ruby_spaces : html_test (lit "page-ruby-spaces") [91%N; 91%N; 114%N; 117%N; 98%N; 121%N; 93%N; 93%N; 32%N; 35486%N; 32%N; 91%N; 91%N; 114%N; 116%N; 93%N; 93%N; 32%N; 103%N; 111%N; 32%N; 91%N; 91%N; 47%N; 114%N; 116%N; 93%N; 93%N; 32%N; 91%N; 91%N; 47%N; 114%N; 117%N; 98%N; 121%N; 93%N; 93%N] = Some [60%N; 119%N; 106%N; 45%N; 98%N; 111%N; 100%N; 121%N; 32%N; 99%N; 108%N; 97%N; 115%N; 115%N; 61%N; 34%N; 119%N; 106%N; 45%N; 98%N; 111%N; 100%N; 121%N; 34%N; 62%N; 60%N; 112%N; 62%N; 60%N; 114%N; 117%N; 98%N; 121%N; 62%N; 35486%N; 32%N; 60%N; 114%N; 112%N; 62%N; 40%N; 60%N; 47%N; 114%N; 112%N; 62%N; 60%N; 114%N; 116%N; 62%N; 103%N; 111%N; 60%N; 47%N; 114%N; 116%N; 62%N; 60%N; 114%N; 112%N; 62%N; 41%N; 60%N; 47%N; 114%N; 112%N; 62%N; 60%N; 47%N; 114%N; 117%N; 98%N; 121%N; 62%N; 60%N; 47%N; 112%N; 62%N; 60%N; 47%N; 119%N; 106%N; 45%N; 98%N; 111%N; 100%N; 121%N; 62%N].
Proof. vm_compute. reflexivity. Qed.
Example html_ruby2_fail_pipe_2 : html_test (lit "page-ruby2-fail-pipe-2") [91%N; 91%N; 114%N; 98%N; 32%N; 124%N; 35486%N; 124%N; 103%N; 111%N; 93%N; 93%N] = Some [60%N; 119%N; 106%N; 45%N; 98%N; 111%N; 100%N; 121%N; 32%N; 99%N; 108%N; 97%N; 115%N; 115%N; 61%N; 34%N; 119%N; 106%N; 45%N; 98%N; 111%N; 100%N; 121%N; 34%N; 62%N; 60%N; 112%N; 62%N; 91%N; 91%N; 114%N; 98%N; 32%N; 124%N; 35486%N; 124%N; 103%N; 111%N; 93%N; 93%N; 60%N; 47%N; 112%N; 62%N; 60%N; 47%N; 119%N; 106%N; 45%N; 98%N; 111%N; 100%N; 121%N; 62%N].
Proof. vm_compute. reflexivity. Qed.
Example html_ruby2_multiple : html_test (lit "page-ruby2-multiple") [91%N; 91%N; 114%N; 98%N; 32%N; 28450%N; 124%N; 107%N; 97%N; 110%N; 93%N; 93%N; 32%N; 91%N; 91%N; 114%N; 98%N; 32%N; 23383%N; 124%N; 106%N; 105%N; 93%N; 93%N] = Some [60%N; 119%N; 106%N; 45%N; 98%N; 111%N; 100%N; 121%N; 32%N; 99%N; 108%N; 97%N; 115%N; 115%N; 61%N; 34%N; 119%N; 106%N; 45%N; 98%N; 111%N; 100%N; 121%N; 34%N; 62%N; 60%N; 112%N; 62%N; 60%N; 114%N; 117%N; 98%N; 121%N; 62%N; 28450%N; 60%N; 114%N; 112%N; 62%N; 40%N; 60%N; 47%N; 114%N; 112%N; 62%N; 60%N; 114%N; 116%N; 62%N; 107%N; 97%N; 110%N; 60%N; 47%N; 114%N; 116%N; 62%N; 60%N; 114%N; 112%N; 62%N; 41%N; 60%N; 47%N; 114%N; 112%N; 62%N; 60%N; 47%N; 114%N; 117%N; 98%N; 121%N; 62%N; 32%N; 60%N; 114%N; 117%N; 98%N; 121%N; 62%N; 23383%N; 60%N; 114%N; 112%N; 62%N; 40%N; 60%N; 47%N; 114%N; 112%N; 62%N; 60%N; 114%N; 116%N; 62%N; 106%N; 105%N; 60%N; 47%N; 114%N; 116%N; 62%N; 60%N; 114%N; 112%N; 62%N; 41%N; 60%N; 47%N; 114%N; 112%N; 62%N; 60%N; 47%N; 114%N; 117%N; 98%N; 121%N; 62%N; 60%N; 47%N; 112%N; 62%N; 60%N; 47%N; 119%N; 106%N; 45%N; 98%N; 111%N; 100%N; 121%N; 62%N].
Proof. vm_compute. reflexivity. Qed.
Example html_simple_space : html_test (lit "page-simple-space") (lit " ") = Some (lit "<wj-body class=""wj-body""></wj-body>").
Proof. vm_compute. reflexivity. Qed.
Example html_size_symbol : html_test (lit "page-size-symbol") (lit "[[size 90%]]Apple[[/size]]") = Some (lit "<wj-body class=""wj-body""><p><span style=""font-size: 90%;"">Apple</span></p></wj-body>").
Proof. vm_compute. reflexivity. Qed.
Example html_span_empty : html_test (lit "page-span-empty") (lit "[[span]][[/span]]") = Some (lit "<wj-body class=""wj-body""><p><span></span></p></wj-body>").
Proof. vm_compute. reflexivity. Qed.
Example html_span_style : html_test (lit "page-span-style") (lit "[[span id=""banana"" class=""fruit"" style=""color: yellow;"" data-fruit=""!red"" role=""button"" aria-pressed=""false""]]Banana[[/span]]") = Some (lit "<wj-body class=""wj-body""><p><span aria-pressed=""false"" class=""fruit"" data-fruit=""!red"" id=""banana"" role=""button"" style=""color: yellow;"">Banana</span></p></wj-body>").
Proof. vm_compute. reflexivity. Qed.
Example html_span2_newlines_2 : html_test (lit "page-span2-newlines-2") (lit "[[span]]Banana
Cherry[[/span]]") = Some (lit "<wj-body class=""wj-body""><p><span>Banana<br>Cherry</span></p></wj-body>").
Proof. vm_compute. reflexivity. Qed.
Example html_span2_uppercase : html_test (lit "page-span2-uppercase") (lit "[[SPAN_ ID =  ""apple"" clASS =""fruit"" stylE=""color: red;""      ]]Apple[[/ SPAN ]]") = Some (lit "<wj-body class=""wj-body""><p><span class=""fruit"" id=""apple"" style=""color: red;"">Apple</span></p></wj-body>").
Proof. vm_compute. reflexivity. Qed.
Example html_strikethrough_block_fail : html_test (lit "page-strikethrough-block-fail") (lit "[[s]]Fail Strikethrough") = Some (lit "<wj-body class=""wj-body""><p>[[s]]Fail Strikethrough</p></wj-body>").
Proof. vm_compute. reflexivity. Qed.
Example html_strikethrough_empty : html_test (lit "page-strikethrough-empty") (lit "Empty ----") = Some (lit "<wj-body class=""wj-body""><p>Empty ----</p></wj-body>").
Proof. vm_compute. reflexivity. Qed.
Example html_string : html_test (lit "page-string") (lit "A ""string\nhere""!") = Some (lit "<wj-body class=""wj-body""><p>A &quot;string\nhere&quot;!</p></wj-body>").
Proof. vm_compute. reflexivity. Qed.
Example html_subscript_block_italics : html_test (lit "page-subscript-block-italics") (lit "[[sub]]Apple [[b]]Banana[[/b]][[/sub]] Cherry") = Some (lit "<wj-body class=""wj-body""><p><sub>Apple <strong>Banana</strong></sub> Cherry</p></wj-body>").
Proof. vm_compute. reflexivity. Qed.
Example html_subscript_fail : html_test (lit "page-subscript-fail") (lit ",,Fail Subscript") = Some (lit "<wj-body class=""wj-body""><p>,,Fail Subscript</p></wj-body>").
Proof. vm_compute. reflexivity. Qed.
Example html_superscript_block_empty : html_test (lit "page-superscript-block-empty") (lit "Empty [[sup]][[/sup]]") = Some (lit "<wj-body class=""wj-body""><p>Empty <sup></sup></p></wj-body>").
Proof. vm_compute. reflexivity. Qed.
Example html_superscript_block : html_test (lit "page-superscript-block") (lit "[[sup]]Superscript[[/sup]] Text") = Some (lit "<wj-body class=""wj-body""><p><sup>Superscript</sup> Text</p></wj-body>").
Proof. vm_compute. reflexivity. Qed.
Example html_symbols : html_test (lit "page-symbols") (lit "`~!@#$%^&*()-=+[]{}\|") = Some (lit "<wj-body class=""wj-body""><p>`~!@#$%^&amp;*()-=+[]{}\|</p></wj-body>").
Proof. vm_compute. reflexivity. Qed.
Example html_table_advanced_empty_table : html_test (lit "page-table-advanced-empty-table") (lit "[[table]]
[[/table]]") = Some (lit "<wj-body class=""wj-body""><table><tbody></tbody></table></wj-body>").
Proof. vm_compute. reflexivity. Qed.
Example html_table_advanced_fail_table : html_test (lit "page-table-advanced-fail-table") (lit "[[table]] Table content here [[/table]]") = Some (lit "<wj-body class=""wj-body""><p>[[table]] Table content here [[/table]]</p></wj-body>").
Proof. vm_compute. reflexivity. Qed.
Example html_table_advanced_width : html_test (lit "page-table-advanced-width") (lit "[[table]][[row]][[cell colspan=""3""]]Three[[/cell]][[cell rowspan=""2""]]Two[[/cell]][[/row]][[row]][[cell]]A[[/cell]][[cell]]B[[/cell]][[cell]]C[[/cell]][[/row]][[/table]]") = Some (lit "<wj-body class=""wj-body""><table><tbody><tr><td colspan=""3"">Three</td><td rowspan=""2"">Two</td></tr><tr><td>A</td><td>B</td><td>C</td></tr></tbody></table></wj-body>").
Proof. vm_compute. reflexivity. Qed.
Example html_table_simple_fail_multiple : html_test (lit "page-table-simple-fail-multiple") (lit "|| durian ||~|| wide ||

||> blueberry
-----
|| eggplant  ||||") = Some (lit "<wj-body class=""wj-body""><table class=""wj-table""><tbody><tr><td>durian</td><th></th><td>wide</td></tr></tbody></table><p>||&gt; blueberry</p><hr><p>|| eggplant  ||||</p></wj-body>").
Proof. vm_compute. reflexivity. Qed.
Example html_table_simple_line : html_test (lit "page-table-simple-line") (lit "|| A _
B || C_ || _D ||") = Some (lit "<wj-body class=""wj-body""><table class=""wj-table""><tbody><tr><td>A<br>B</td><td>C_</td><td>_D</td></tr></tbody></table></wj-body>").
Proof. vm_compute. reflexivity. Qed.
Example html_tabview_alias : html_test (lit "page-tabview-alias") (lit "[[tabs]]
[[tab A]]
1
[[/tab]]
[[tab B]]
2
[[/tab]]
[[/tabs]]") = Some (lit "<wj-body class=""wj-body""><wj-tabs class=""wj-tabs""><div class=""wj-tabs-button-list"" role=""tablist""><wj-tabs-button class=""wj-tabs-button"" id=""wj-id-bW5Ql2DLZtnd9s18"" role=""tab"" aria-label=""A"" aria-selected=""true"" aria-controls=""wj-id-zgBl9StiqVAR2CHD"" tabindex=""0"">A</wj-tabs-button><wj-tabs-button class=""wj-tabs-button"" id=""wj-id-ePZbhugrfP89c4Fk"" role=""tab"" aria-label=""B"" aria-selected=""false"" aria-controls=""wj-id-GmkUq22QVrVUmWfh"" tabindex=""-1"">B</wj-tabs-button></div><div class=""wj-tabs-panel-list""><div class=""wj-tabs-panel"" id=""wj-id-zgBl9StiqVAR2CHD"" role=""tabpanel"" aria-labelledby=""wj-id-bW5Ql2DLZtnd9s18"" tabindex=""0""><p>1</p></div><div class=""wj-tabs-panel"" id=""wj-id-GmkUq22QVrVUmWfh"" role=""tabpanel"" aria-labelledby=""wj-id-ePZbhugrfP89c4Fk"" tabindex=""0"" hidden><p>2</p></div></div></wj-tabs></wj-body>").
Proof. vm_compute. reflexivity. Qed.
Example html_tabview_inline : html_test (lit "page-tabview-inline") (lit "[[tabview]] [[tab A]] 1 [[/tab]] [[tab B]] 2 [[/tab]] [[/tabview]]") = Some (lit "<wj-body class=""wj-body""><wj-tabs class=""wj-tabs""><div class=""wj-tabs-button-list"" role=""tablist""><wj-tabs-button class=""wj-tabs-button"" id=""wj-id-bW5Ql2DLZtnd9s18"" role=""tab"" aria-label=""A"" aria-selected=""true"" aria-controls=""wj-id-zgBl9StiqVAR2CHD"" tabindex=""0"">A</wj-tabs-button><wj-tabs-button class=""wj-tabs-button"" id=""wj-id-ePZbhugrfP89c4Fk"" role=""tab"" aria-label=""B"" aria-selected=""false"" aria-controls=""wj-id-GmkUq22QVrVUmWfh"" tabindex=""-1"">B</wj-tabs-button></div><div class=""wj-tabs-panel-list""><div class=""wj-tabs-panel"" id=""wj-id-zgBl9StiqVAR2CHD"" role=""tabpanel"" aria-labelledby=""wj-id-bW5Ql2DLZtnd9s18"" tabindex=""0""><p> 1 </p></div><div class=""wj-tabs-panel"" id=""wj-id-GmkUq22QVrVUmWfh"" role=""tabpanel"" aria-labelledby=""wj-id-ePZbhugrfP89c4Fk"" tabindex=""0"" hidden><p> 2 </p></div></div></wj-tabs></wj-body>").
Proof. vm_compute. reflexivity. Qed.
Example html_tabview : html_test (lit "page-tabview") (lit "[[tabview]]
[[tab Apple]]
1

2

3
[[/tab]]
[[tab Banana Smoothie]]
Cherry
[[/tab]]
[[tab Empty]]
[[/tab]]
[[/tabview]]") = Some (lit "<wj-body class=""wj-body""><wj-tabs class=""wj-tabs""><div class=""wj-tabs-button-list"" role=""tablist""><wj-tabs-button class=""wj-tabs-button"" id=""wj-id-bW5Ql2DLZtnd9s18"" role=""tab"" aria-label=""Apple"" aria-selected=""true"" aria-controls=""wj-id-GmkUq22QVrVUmWfh"" tabindex=""0"">Apple</wj-tabs-button><wj-tabs-button class=""wj-tabs-button"" id=""wj-id-ePZbhugrfP89c4Fk"" role=""tab"" aria-label=""Banana Smoothie"" aria-selected=""false"" aria-controls=""wj-id-Fivpa4fCYmumS0Zl"" tabindex=""-1"">Banana Smoothie</wj-tabs-button><wj-tabs-button class=""wj-tabs-button"" id=""wj-id-zgBl9StiqVAR2CHD"" role=""tab"" aria-label=""Empty"" aria-selected=""false"" aria-controls=""wj-id-Y1BswXrBTj6WDowv"" tabindex=""-1"">Empty</wj-tabs-button></div><div class=""wj-tabs-panel-list""><div class=""wj-tabs-panel"" id=""wj-id-GmkUq22QVrVUmWfh"" role=""tabpanel"" aria-labelledby=""wj-id-bW5Ql2DLZtnd9s18"" tabindex=""0""><p>1</p><p>2</p><p>3</p></div><div class=""wj-tabs-panel"" id=""wj-id-Fivpa4fCYmumS0Zl"" role=""tabpanel"" aria-labelledby=""wj-id-ePZbhugrfP89c4Fk"" tabindex=""0"" hidden><p>Cherry</p></div><div class=""wj-tabs-panel"" id=""wj-id-Y1BswXrBTj6WDowv"" role=""tabpanel"" aria-labelledby=""wj-id-zgBl9StiqVAR2CHD"" tabindex=""0"" hidden></div></div></wj-tabs></wj-body>").
Proof. vm_compute. reflexivity. Qed.
Example html_target_fail_space : html_test (lit "page-target-fail-space") (lit "[[target apple banana]]") = Some (lit "<wj-body class=""wj-body""><p>[[target apple banana]]</p></wj-body>").
Proof. vm_compute. reflexivity. Qed.
Example html_target_space : html_test (lit "page-target-space") (lit "[[target   apple]]") = Some (lit "<wj-body class=""wj-body""><p><a id=""apple""></a></p></wj-body>").
Proof. vm_compute. reflexivity. Qed.
Example html_toc_fail : html_test (lit "page-toc-fail") (lit "+ A
[[>toc]]") = Some (lit "<wj-body class=""wj-body""><h1 id=""toc0"">A</h1><p>[[&gt;toc]]</p></wj-body>").
Proof. vm_compute. reflexivity. Qed.
Example html_underline_block_empty : html_test (lit "page-underline-block-empty") (lit "Empty [[u]][[/u]]") = Some (lit "<wj-body class=""wj-body""><p>Empty <u></u></p></wj-body>").
Proof. vm_compute. reflexivity. Qed.
Example html_underline_block : html_test (lit "page-underline-block") (lit "[[u]]Underline[[/u]] Text") = Some (lit "<wj-body class=""wj-body""><p><u>Underline</u> Text</p></wj-body>").
Proof. vm_compute. reflexivity. Qed.
Example html_underline : html_test (lit "page-underline") (lit "__Underline__ Text") = Some (lit "<wj-body class=""wj-body""><p><u>Underline</u> Text</p></wj-body>").
Proof. vm_compute. reflexivity. Qed.
Example html_underscore_line_break : html_test (lit "page-underscore-line-break") (lit "Apple _
Banana") = Some (lit "<wj-body class=""wj-body""><p>Apple<br>Banana</p></wj-body>").
Proof. vm_compute. reflexivity. Qed.
Example html_user : html_test (lit "page-user") (lit "[[user admin]]
Apple") = Some (lit "<wj-body class=""wj-body""><p><span class=""wj-user-info""><a class=""wj-user-info-link"" href=""/user:info/admin""><span class=""wj-user-info-name"">admin</span></a></span><br>Apple</p></wj-body>").
Proof. vm_compute. reflexivity. Qed.

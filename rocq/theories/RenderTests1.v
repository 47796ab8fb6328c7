(** RenderTests1.v -- generated by tools/conformance.py from the repository's HTML tests (/repo/test/*.html):
    the modelled include, preprocess, tokenize, parse and HTML renderer applied to each test's input
    give exactly the HTML the repository expects.  These are tests of the model, not proofs. *)
From Verif Require Import Base Strings Links Attr Preproc Includes Lexer Depth Tree Text Toc PState Blocks Rules Parse Html Render ParseTestEnv RenderTestEnv.
Example html_align_center : html_test (lit "page-align-center") (lit "[[=]]
Apple
[[/=]]") = Some (lit "<wj-body class=""wj-body""><div class=""wj-align-center""><p>Apple</p></div></wj-body>").
Proof. vm_compute. reflexivity. Qed.
Example html_align_left : html_test (lit "page-align-left") (lit "[[<]]
Blueberry
[[/<]]") = Some (lit "<wj-body class=""wj-body""><div class=""wj-align-left""><p>Blueberry</p></div></wj-body>").
Proof. vm_compute. reflexivity. Qed.
Example html_anchor_alias_wrap : html_test (lit "page-anchor-alias-wrap") (lit "[[anchor]]Internal //elements//[[/anchor]]") = Some (lit "<wj-body class=""wj-body""><p><a class=""wj-anchor"">Internal <em>elements</em></a></p></wj-body>").
Proof. vm_compute. reflexivity. Qed.
Example html_anchor_name_fail_space : html_test (lit "page-anchor-name-fail-space") (lit "[[#apple]]") = Some (lit "<wj-body class=""wj-body""><p>[[#apple]]</p></wj-body>").
Proof. vm_compute. reflexivity. Qed.
Example html_anchor_name_space : html_test (lit "page-anchor-name-space") (lit "[[#   apple]]") = Some (lit "<wj-body class=""wj-body""><p><a id=""apple""></a></p></wj-body>").
Proof. vm_compute. reflexivity. Qed.
Example html_anchor_star : html_test (lit "page-anchor-star") (lit "[[*a href=""https://example.com"" style=""color: red;""]]My link[[/a]]") = Some (lit "<wj-body class=""wj-body""><p><a class=""wj-anchor"" target=""_blank"" href=""https://example.com"" style=""color: red;"">My link</a></p></wj-body>").
Proof. vm_compute. reflexivity. Qed.
Example html_anchor_xss : html_test (lit "page-anchor-xss") (lit "[[a href=""javascript:alert('XSS!')""]]My not-suspicious link[[/a]]") = Some (lit "<wj-body class=""wj-body""><p><a class=""wj-anchor"" href=""#invalid-url"">My not-suspicious link</a></p></wj-body>").
Proof. vm_compute. reflexivity. Qed.
Example html_anchor2_alias_wrap : html_test (lit "page-anchor2-alias-wrap") (lit "[[anchor_]]Internal //elements//[[/anchor]]") = Some (lit "<wj-body class=""wj-body""><p><a class=""wj-anchor"">Internal <em>elements</em></a></p></wj-body>").
Proof. vm_compute. reflexivity. Qed.
Example html_anchor2_newlines : html_test (lit "page-anchor2-newlines") (lit "[[a_]]
Apple
Banana
[[/a]]") = Some (lit "<wj-body class=""wj-body""><p><a class=""wj-anchor"">Apple<br>Banana</a></p></wj-body>").
Proof. vm_compute. reflexivity. Qed.
Example html_anchor2_wrap : html_test (lit "page-anchor2-wrap") (lit "[[a_]]Internal **elements**[[/a]]") = Some (lit "<wj-body class=""wj-body""><p><a class=""wj-anchor"">Internal <strong>elements</strong></a></p></wj-body>").
Proof. vm_compute. reflexivity. Qed.
Example html_blockquote_alias_empty : html_test (lit "page-blockquote-alias-empty") (lit "[[quote]]
[[/quote]]") = Some (lit "<wj-body class=""wj-body""><blockquote></blockquote></wj-body>").
Proof. vm_compute. reflexivity. Qed.
Example html_blockquote_empty_2 : html_test (lit "page-blockquote-empty-2") (lit "A
[[blockquote]]
[[/blockquote]]
B") = Some (lit "<wj-body class=""wj-body""><p>A</p><blockquote></blockquote><p>B</p></wj-body>").
Proof. vm_compute. reflexivity. Qed.
Example html_blockquote_inline : html_test (lit "page-blockquote-inline") (lit "[[blockquote]]Apple[[/blockquote]]") = Some (lit "<wj-body class=""wj-body""><blockquote><p>Apple</p></blockquote></wj-body>").
Proof. vm_compute. reflexivity. Qed.
Example html_blockquote_native_end : html_test (lit "page-blockquote-native-end") (lit "> Apple
]") = Some (lit "<wj-body class=""wj-body""><blockquote><p>Apple</p></blockquote><p>]</p></wj-body>").
Proof. vm_compute. reflexivity. Qed.
Example html_blockquote_native_spaces_multiple : html_test (lit "page-blockquote-native-spaces-multiple") (lit ">Apple
>Banana
>Cherry") = Some (lit "<wj-body class=""wj-body""><blockquote><p>Apple<br>Banana<br>Cherry</p></blockquote></wj-body>").
Proof. vm_compute. reflexivity. Qed.
Example html_blockquote_nested_deep : html_test (lit "page-blockquote-nested-deep") (lit "[[blockquote]]
A
[[blockquote]]
B
[[blockquote]]
C
[[blockquote]]
D
[[/blockquote]]
[[/blockquote]]
[[/blockquote]]
[[/blockquote]]") = Some (lit "<wj-body class=""wj-body""><blockquote><p>A</p><blockquote><p>B</p><blockquote><p>C</p><blockquote><p>D</p></blockquote></blockquote></blockquote></blockquote></wj-body>").
Proof. vm_compute. reflexivity. Qed.
Example html_blockquote : html_test (lit "page-blockquote") (lit "[[blockquote]]
Apple
[[/blockquote]]") = Some (lit "<wj-body class=""wj-body""><blockquote><p>Apple</p></blockquote></wj-body>").
Proof. vm_compute. reflexivity. Qed.
Example html_bold_block_fail : html_test (lit "page-bold-block-fail") (lit "[[b]]Fail Bold") = Some (lit "<wj-body class=""wj-body""><p>[[b]]Fail Bold</p></wj-body>").
Proof. vm_compute. reflexivity. Qed.
Example html_bold_empty : html_test (lit "page-bold-empty") (lit "Empty ****") = Some (lit "<wj-body class=""wj-body""><p>Empty <strong></strong></p></wj-body>").
Proof. vm_compute. reflexivity. Qed.
Example html_bold_italics : html_test (lit "page-bold-italics") (lit "**Apple //Banana//** Cherry") = Some (lit "<wj-body class=""wj-body""><p><strong>Apple <em>Banana</em></strong> Cherry</p></wj-body>").
Proof. vm_compute. reflexivity. Qed.
Example html_center_begin : html_test (lit "page-center-begin") (lit "= Apple
") = Some (lit "<wj-body class=""wj-body""><div class=""wj-align-center"">Apple</div></wj-body>").
Proof. vm_compute. reflexivity. Qed.
Example html_center : html_test (lit "page-center") (lit "
= Apple
") = Some (lit "<wj-body class=""wj-body""><div class=""wj-align-center"">Apple</div></wj-body>").
Proof. vm_compute. reflexivity. Qed.
Example html_char_name : html_test (lit "page-char-name") (lit "[[char copy]] pineapple") = Some [60%N; 119%N; 106%N; 45%N; 98%N; 111%N; 100%N; 121%N; 32%N; 99%N; 108%N; 97%N; 115%N; 115%N; 61%N; 34%N; 119%N; 106%N; 45%N; 98%N; 111%N; 100%N; 121%N; 34%N; 62%N; 60%N; 112%N; 62%N; 169%N; 32%N; 112%N; 105%N; 110%N; 101%N; 97%N; 112%N; 112%N; 108%N; 101%N; 60%N; 47%N; 112%N; 62%N; 60%N; 47%N; 119%N; 106%N; 45%N; 98%N; 111%N; 100%N; 121%N; 62%N].
Proof. vm_compute. reflexivity. Qed.
Example html_char2_hex : html_test (lit "page-char2-hex") (lit "[[char &#x1f980;]] pineapple") = Some [60%N; 119%N; 106%N; 45%N; 98%N; 111%N; 100%N; 121%N; 32%N; 99%N; 108%N; 97%N; 115%N; 115%N; 61%N; 34%N; 119%N; 106%N; 45%N; 98%N; 111%N; 100%N; 121%N; 34%N; 62%N; 60%N; 112%N; 62%N; 129408%N; 32%N; 112%N; 105%N; 110%N; 101%N; 97%N; 112%N; 112%N; 108%N; 101%N; 60%N; 47%N; 112%N; 62%N; 60%N; 47%N; 119%N; 106%N; 45%N; 98%N; 111%N; 100%N; 121%N; 62%N].
Proof. vm_compute. reflexivity. Qed.
Example html_char2 : html_test (lit "page-char2") (lit "[[char &amp;]] pineapple") = Some (lit "<wj-body class=""wj-body""><p>&amp; pineapple</p></wj-body>").
Proof. vm_compute. reflexivity. Qed.
Example html_checkbox_uppercase : html_test (lit "page-checkbox-uppercase") (lit "[[chECKBOX]] Apple
[[checkBOX]] Banana
[[CHECKBOx]] Cherry") = Some (lit "<wj-body class=""wj-body""><p><input type=""checkbox"">Apple<br><input type=""checkbox"">Banana<br><input type=""checkbox"">Cherry</p></wj-body>").
Proof. vm_compute. reflexivity. Qed.
Example html_clear_float_4 : html_test (lit "page-clear-float-4") (lit "~~~~
Clear float") = Some (lit "<wj-body class=""wj-body""><div class=""wj-clear-float wj-clear-float-both""></div><p>Clear float</p></wj-body>").
Proof. vm_compute. reflexivity. Qed.
Example html_code_block : html_test (lit "page-code-block") (lit "[[code]]
[[div]]
test
[[/div]]
[[/code]]") = Some (lit "<wj-body class=""wj-body""><wj-code class=""wj-code wj-language-none""><div class=""wj-code-panel""><wj-code-copy type=""button"" class=""wj-code-copy"" title=""Copy to Clipboard""><svg class=""wj-sprite sprite-wj-clipboard"" viewBox=""0 0 24 24""><use href=""/files--static/media/ui.svg#wj-clipboard""></use></svg><svg class=""wj-sprite sprite-wj-clipboard-success"" viewBox=""0 0 24 24""><use href=""/files--static/media/ui.svg#wj-clipboard-success""></use></svg></wj-code-copy><span class=""wj-code-language""></span></div><pre><code>[[div]]
test
[[/div]]</code></pre></wj-code></wj-body>").
Proof. vm_compute. reflexivity. Qed.
Example html_code_fail_tail : html_test (lit "page-code-fail-tail") (lit "a { display: none; } [[/code]]") = Some (lit "<wj-body class=""wj-body""><p>a { display: none; } [[/code]]</p></wj-body>").
Proof. vm_compute. reflexivity. Qed.
Example html_code_language_empty : html_test (lit "page-code-language-empty") (lit "[[code type=""css""]]
[[/code]]") = Some (lit "<wj-body class=""wj-body""><wj-code class=""wj-code wj-language-css""><div class=""wj-code-panel""><wj-code-copy type=""button"" class=""wj-code-copy"" title=""Copy to Clipboard""><svg class=""wj-sprite sprite-wj-clipboard"" viewBox=""0 0 24 24""><use href=""/files--static/media/ui.svg#wj-clipboard""></use></svg><svg class=""wj-sprite sprite-wj-clipboard-success"" viewBox=""0 0 24 24""><use href=""/files--static/media/ui.svg#wj-clipboard-success""></use></svg></wj-code-copy><span class=""wj-code-language"">css</span></div><pre><code></code></pre></wj-code></wj-body>").
Proof. vm_compute. reflexivity. Qed.
Example html_code_name : html_test (lit "page-code-name") (lit "[[code name=""a""]]
FOO
[[/code]]

[[code]]
BAR
[[/code]]

[[code name=""b"" type=""java""]]
BAZ
[[/code]]") = Some (lit "<wj-body class=""wj-body""><wj-code class=""wj-code wj-language-none""><div class=""wj-code-panel""><wj-code-copy type=""button"" class=""wj-code-copy"" title=""Copy to Clipboard""><svg class=""wj-sprite sprite-wj-clipboard"" viewBox=""0 0 24 24""><use href=""/files--static/media/ui.svg#wj-clipboard""></use></svg><svg class=""wj-sprite sprite-wj-clipboard-success"" viewBox=""0 0 24 24""><use href=""/files--static/media/ui.svg#wj-clipboard-success""></use></svg></wj-code-copy><span class=""wj-code-language""></span></div><pre><code>FOO</code></pre></wj-code><wj-code class=""wj-code wj-language-none""><div class=""wj-code-panel""><wj-code-copy type=""button"" class=""wj-code-copy"" title=""Copy to Clipboard""><svg class=""wj-sprite sprite-wj-clipboard"" viewBox=""0 0 24 24""><use href=""/files--static/media/ui.svg#wj-clipboard""></use></svg><svg class=""wj-sprite sprite-wj-clipboard-success"" viewBox=""0 0 24 24""><use href=""/files--static/media/ui.svg#wj-clipboard-success""></use></svg></wj-code-copy><span class=""wj-code-language""></span></div><pre><code>BAR</code></pre></wj-code><wj-code class=""wj-code wj-language-java""><div class=""wj-code-panel""><wj-code-copy type=""button"" class=""wj-code-copy"" title=""Copy to Clipboard""><svg class=""wj-sprite sprite-wj-clipboard"" viewBox=""0 0 24 24""><use href=""/files--static/media/ui.svg#wj-clipboard""></use></svg><svg class=""wj-sprite sprite-wj-clipboard-success"" viewBox=""0 0 24 24""><use href=""/files--static/media/ui.svg#wj-clipboard-success""></use></svg></wj-code-copy><span class=""wj-code-language"">java</span></div><pre><code>BAZ</code></pre></wj-code></wj-body>").
Proof. vm_compute. reflexivity. Qed.
Example html_collapsible_empty : html_test (lit "page-collapsible-empty") (lit "[[collapsible]]
[[/collapsible]]") = Some (lit "<wj-body class=""wj-body""><details class=""wj-collapsible"" data-show-top><summary class=""wj-collapsible-button wj-collapsible-button-top""><span class=""wj-collapsible-show-text"">+ open block</span><span class=""wj-collapsible-hide-text"">- hide block</span></summary><div class=""wj-collapsible-content""></div></details></wj-body>").
Proof. vm_compute. reflexivity. Qed.
Example html_collapsible_location_both : html_test (lit "page-collapsible-location-both") (lit "[[collapsible HIDELOCATION=""both""]]
Cherry
[[/collapsible]]") = Some (lit "<wj-body class=""wj-body""><details class=""wj-collapsible"" data-show-top data-show-bottom><summary class=""wj-collapsible-button wj-collapsible-button-top""><span class=""wj-collapsible-show-text"">+ open block</span><span class=""wj-collapsible-hide-text"">- hide block</span></summary><div class=""wj-collapsible-content""><p>Cherry</p></div><wj-collapsible-button-bottom class=""wj-collapsible-button wj-collapsible-button-bottom""><span class=""wj-collapsible-hide-text"">- hide block</span></wj-collapsible-button-bottom></details></wj-body>").
Proof. vm_compute. reflexivity. Qed.
Example html_collapsible_multiline : html_test (lit "page-collapsible-multiline") [91%N; 91%N; 99%N; 111%N; 108%N; 108%N; 97%N; 112%N; 115%N; 105%N; 98%N; 108%N; 101%N; 10%N; 9%N; 115%N; 104%N; 111%N; 119%N; 61%N; 34%N; 43%N; 32%N; 83%N; 104%N; 111%N; 119%N; 32%N; 115%N; 116%N; 117%N; 102%N; 102%N; 34%N; 10%N; 9%N; 104%N; 105%N; 100%N; 101%N; 61%N; 34%N; 45%N; 32%N; 72%N; 105%N; 100%N; 101%N; 32%N; 115%N; 116%N; 117%N; 102%N; 102%N; 34%N; 10%N; 9%N; 104%N; 105%N; 100%N; 101%N; 76%N; 111%N; 99%N; 97%N; 116%N; 105%N; 111%N; 110%N; 32%N; 32%N; 61%N; 32%N; 32%N; 34%N; 98%N; 111%N; 116%N; 104%N; 34%N; 10%N; 93%N; 93%N; 10%N; 65%N; 112%N; 112%N; 108%N; 101%N; 10%N; 91%N; 91%N; 47%N; 99%N; 111%N; 108%N; 108%N; 97%N; 112%N; 115%N; 105%N; 98%N; 108%N; 101%N; 93%N; 93%N] = Some (lit "<wj-body class=""wj-body""><details class=""wj-collapsible"" data-show-top data-show-bottom><summary class=""wj-collapsible-button wj-collapsible-button-top""><span class=""wj-collapsible-show-text"">+ Show stuff</span><span class=""wj-collapsible-hide-text"">- Hide stuff</span></summary><div class=""wj-collapsible-content""><p>Apple</p></div><wj-collapsible-button-bottom class=""wj-collapsible-button wj-collapsible-button-bottom""><span class=""wj-collapsible-hide-text"">- Hide stuff</span></wj-collapsible-button-bottom></details></wj-body>").
Proof. vm_compute. reflexivity. Qed.
Example html_collapsible_text : html_test (lit "page-collapsible-text") (lit "[[collapsible show=""SHOW!"" hide=""HIDE!""]]
Apple
[[/collapsible]]") = Some (lit "<wj-body class=""wj-body""><details class=""wj-collapsible"" data-show-top><summary class=""wj-collapsible-button wj-collapsible-button-top""><span class=""wj-collapsible-show-text"">SHOW!</span><span class=""wj-collapsible-hide-text"">HIDE!</span></summary><div class=""wj-collapsible-content""><p>Apple</p></div></details></wj-body>").
Proof. vm_compute. reflexivity. Qed.
Example html_color_hex_2 : html_test (lit "page-color-hex-2") (lit "##ccc|CSS color!##") = Some (lit "<wj-body class=""wj-body""><p><span style=""color: #ccc;"">CSS color!</span></p></wj-body>").
Proof. vm_compute. reflexivity. Qed.
Example html_comment_fail_right : html_test (lit "page-comment-fail-right") (lit "Fail --] Comment") = Some (lit "<wj-body class=""wj-body""><p>Fail --] Comment</p></wj-body>").
Proof. vm_compute. reflexivity. Qed.
Example html_definition_list_empty : html_test (lit "page-definition-list-empty") (lit ": : ") = Some (lit "<wj-body class=""wj-body""><p>: : </p></wj-body>").
Proof. vm_compute. reflexivity. Qed.
Example html_definition_list_multiple : html_test (lit "page-definition-list-multiple") (lit "[
: A : B
: C : D

: E : F
-----
: G : H
]") = Some (lit "<wj-body class=""wj-body""><p>[</p><dl><dt>A</dt><dd>B</dd><dt>C</dt><dd>D</dd></dl><dl><dt>E</dt><dd>F</dd></dl><hr><dl><dt>G</dt><dd>H</dd></dl><p>]</p></wj-body>").
Proof. vm_compute. reflexivity. Qed.
Example html_del_style : html_test (lit "page-del-style") (lit "[[del id=""banana"" class=""fruit"" style=""color: yellow;"" disallowed-attr=""blocked""]]Banana[[/del]]") = Some (lit "<wj-body class=""wj-body""><p><del class=""fruit"" id=""banana"" style=""color: yellow;"">Banana</del></p></wj-body>").
Proof. vm_compute. reflexivity. Qed.
Example html_div_empty_2 : html_test (lit "page-div-empty-2") (lit "A
[[div]]
[[/div]]
B") = Some (lit "<wj-body class=""wj-body""><p>A</p><div></div><p>B</p></wj-body>").
Proof. vm_compute. reflexivity. Qed.
Example html_div_inline_empty : html_test (lit "page-div-inline-empty") (lit "[[div]][[/div]]") = Some (lit "<wj-body class=""wj-body""><div></div></wj-body>").
Proof. vm_compute. reflexivity. Qed.
Example html_div_nested : html_test (lit "page-div-nested") (lit "[[div]]
**Bold** Cherry
[[div]]
Durian
[[/div]]
[[/div]]") = Some (lit "<wj-body class=""wj-body""><div><p><strong>Bold</strong> Cherry</p><div><p>Durian</p></div></div></wj-body>").
Proof. vm_compute. reflexivity. Qed.
Example html_div2_class : html_test (lit "page-div2-class") (lit "[[div_ class=""blockquote""]]
Apple
[[/div]]") = Some (lit "<wj-body class=""wj-body""><div class=""blockquote"">Apple</div></wj-body>").
Proof. vm_compute. reflexivity. Qed.
Example html_div2_id : html_test (lit "page-div2-id") (lit "[[div_ id=""my-div""]]
Apple
[[/div]]") = Some (lit "<wj-body class=""wj-body""><div id=""my-div"">Apple</div></wj-body>").
Proof. vm_compute. reflexivity. Qed.
Example html_div2_nested : html_test (lit "page-div2-nested") (lit "[[div_]]
**Bold** Cherry
[[div_]]
Durian
[[/div]]
[[/div]]") = Some (lit "<wj-body class=""wj-body""><div><strong>Bold</strong> Cherry<div>Durian</div></div></wj-body>").
Proof. vm_compute. reflexivity. Qed.
Example html_double_angle_left : html_test (lit "page-double-angle-left") (lit "Double << Angle") = Some [60%N; 119%N; 106%N; 45%N; 98%N; 111%N; 100%N; 121%N; 32%N; 99%N; 108%N; 97%N; 115%N; 115%N; 61%N; 34%N; 119%N; 106%N; 45%N; 98%N; 111%N; 100%N; 121%N; 34%N; 62%N; 60%N; 112%N; 62%N; 68%N; 111%N; 117%N; 98%N; 108%N; 101%N; 32%N; 171%N; 32%N; 65%N; 110%N; 103%N; 108%N; 101%N; 60%N; 47%N; 112%N; 62%N; 60%N; 47%N; 119%N; 106%N; 45%N; 98%N; 111%N; 100%N; 121%N; 62%N].
Proof. vm_compute. reflexivity. Qed.
Example html_em_dash : html_test (lit "page-em-dash") (lit "Em -- Dash") = Some [60%N; 119%N; 106%N; 45%N; 98%N; 111%N; 100%N; 121%N; 32%N; 99%N; 108%N; 97%N; 115%N; 115%N; 61%N; 34%N; 119%N; 106%N; 45%N; 98%N; 111%N; 100%N; 121%N; 34%N; 62%N; 60%N; 112%N; 62%N; 69%N; 109%N; 32%N; 8212%N; 32%N; 68%N; 97%N; 115%N; 104%N; 60%N; 47%N; 112%N; 62%N; 60%N; 47%N; 119%N; 106%N; 45%N; 98%N; 111%N; 100%N; 121%N; 62%N].
Proof. vm_compute. reflexivity. Qed.
Example html_embed_youtube_caps : html_test (lit "page-embed-youtube-caps") (lit "[[embed YouTube video=""dQw4w9WgXcQ""]]") = Some (lit "<wj-body class=""wj-body""><div class=""wj-embed""><iframe src=""https://www.youtube.com/embed/dQw4w9WgXcQ"" frameborder=""0"" allow=""accelerometer; autoplay; clipboard-write; encrypted-media; gyroscope; picture-in-picture"" allowfullscreen></iframe></div></wj-body>").
Proof. vm_compute. reflexivity. Qed.
Example html_equation_reference_fail : html_test (lit "page-equation-reference-fail") (lit "Durian[[eref]]") = Some (lit "<wj-body class=""wj-body""><p>Durian[[eref]]</p></wj-body>").
Proof. vm_compute. reflexivity. Qed.
Example html_footnote_block_fail : html_test (lit "page-footnote-block-fail") (lit "[[footnote-block]]") = Some (lit "<wj-body class=""wj-body""><p>[[footnote-block]]</p></wj-body>").
Proof. vm_compute. reflexivity. Qed.
Example html_footnote_block : html_test (lit "page-footnote-block") (lit "[[footnoteblock]]

A[[footnote]]1[[/footnote]]

B[[footnote]]2[[/footnote]]") = Some (lit "<wj-body class=""wj-body""><div class=""wj-footnote-list""><div class=""wj-title"">Footnotes</div><ol><li class=""wj-footnote-list-item"" data-id=""1""><wj-footnote-list-item-marker class=""wj-footnote-list-item-marker"" type=""button"" role=""link"">1<span class=""wj-footnote-sep"">.</span></wj-footnote-list-item-marker><span class=""wj-footnote-list-item-contents"">1</span></li><li class=""wj-footnote-list-item"" data-id=""2""><wj-footnote-list-item-marker class=""wj-footnote-list-item-marker"" type=""button"" role=""link"">2<span class=""wj-footnote-sep"">.</span></wj-footnote-list-item-marker><span class=""wj-footnote-list-item-contents"">2</span></li></ol></div><p>A<span class=""wj-footnote-ref""><wj-footnote-ref-marker class=""wj-footnote-ref-marker"" role=""link"" aria-label=""Footnote 1."" data-id=""1"">1</wj-footnote-ref-marker><span class=""wj-footnote-ref-tooltip"" aria-hidden=""true""><span class=""wj-footnote-ref-tooltip-label"">Footnote 1.</span><span class=""wj-footnote-ref-contents"">1</span></span></span></p><p>B<span class=""wj-footnote-ref""><wj-footnote-ref-marker class=""wj-footnote-ref-marker"" role=""link"" aria-label=""Footnote 2."" data-id=""2"">2</wj-footnote-ref-marker><span class=""wj-footnote-ref-tooltip"" aria-hidden=""true""><span class=""wj-footnote-ref-tooltip-label"">Footnote 2.</span><span class=""wj-footnote-ref-contents"">2</span></span></span></p></wj-body>").
Proof. vm_compute. reflexivity. Qed.
Example html_footnote_ref_fail_nested : html_test (lit "page-footnote-ref-fail-nested") (lit "A[[footnote]]B[[footnote]]C[[/footnote]]D[[/footnote]]") = Some (lit "<wj-body class=""wj-body""><p>A<span class=""wj-footnote-ref""><wj-footnote-ref-marker class=""wj-footnote-ref-marker"" role=""link"" aria-label=""Footnote 1."" data-id=""1"">1</wj-footnote-ref-marker><span class=""wj-footnote-ref-tooltip"" aria-hidden=""true""><span class=""wj-footnote-ref-tooltip-label"">Footnote 1.</span><span class=""wj-footnote-ref-contents"">B[[footnote]]C</span></span></span>D[[/footnote]]</p><div class=""wj-footnote-list""><div class=""wj-title"">Footnotes</div><ol><li class=""wj-footnote-list-item"" data-id=""1""><wj-footnote-list-item-marker class=""wj-footnote-list-item-marker"" type=""button"" role=""link"">1<span class=""wj-footnote-sep"">.</span></wj-footnote-list-item-marker><span class=""wj-footnote-list-item-contents"">B[[footnote]]C</span></li></ol></div></wj-body>").
Proof. vm_compute. reflexivity. Qed.
Example html_heading_1_fail : html_test (lit "page-heading-1-fail") (lit "+Fail header") = Some (lit "<wj-body class=""wj-body""><p>+Fail header</p></wj-body>").
Proof. vm_compute. reflexivity. Qed.
Example html_heading_2_toc : html_test (lit "page-heading-2-toc") (lit "++* Header1
++* Header2") = Some (lit "<wj-body class=""wj-body""><h2>Header1</h2><h2>Header2</h2></wj-body>").
Proof. vm_compute. reflexivity. Qed.
Example html_heading_4_toc : html_test (lit "page-heading-4-toc") (lit "[
++++* H4
|
++++* H4
]") = Some (lit "<wj-body class=""wj-body""><p>[</p><h4>H4</h4><p>|</p><h4>H4</h4><p>]</p></wj-body>").
Proof. vm_compute. reflexivity. Qed.
Example html_heading_6_toc : html_test (lit "page-heading-6-toc") (lit "++++++* plain
++++++ toc") = Some (lit "<wj-body class=""wj-body""><h6>plain</h6><h6 id=""toc0"">toc</h6></wj-body>").
Proof. vm_compute. reflexivity. Qed.
Example html_heading_multiple : html_test (lit "page-heading-multiple") (lit "+ H1
++ H2
++++ H4
++++++ H6
+++ H3
+ H1") = Some (lit "<wj-body class=""wj-body""><h1 id=""toc0"">H1</h1><h2 id=""toc1"">H2</h2><h4 id=""toc2"">H4</h4><h6 id=""toc3"">H6</h6><h3 id=""toc4"">H3</h3><h1 id=""toc5"">H1</h1></wj-body>").
Proof. vm_compute. reflexivity. Qed.
Example html_hidden_uppercase : html_test (lit "page-hidden-uppercase") (lit "[[HIDden]]Hidden[[/hiDDeN]] Text") = Some (lit "<wj-body class=""wj-body""><p><span class=""wj-hidden"">Hidden</span> Text</p></wj-body>").
Proof. vm_compute. reflexivity. Qed.
Example html_hr_4 : html_test (lit "page-hr-4") (lit "----
Horizontal rule") = Some (lit "<wj-body class=""wj-body""><hr><p>Horizontal rule</p></wj-body>").
Proof. vm_compute. reflexivity. Qed.
Example html_html_fail_arguments : html_test (lit "page-html-fail-arguments") (lit "[[html type=""css""]]
<div></div>
[[/html]]") = Some (lit "<wj-body class=""wj-body""><p>[[html type=&quot;css&quot;]]<br>&lt;div&gt;&lt;/div&gt;<br>[[/html]]</p></wj-body>").
Proof. vm_compute. reflexivity. Qed.
Example html_html_inline : html_test (lit "page-html-inline") (lit "[[html]]My <bold>text</bold>![[/html]]") = Some (lit "<wj-body class=""wj-body""><iframe src=""https://example.com/"" crossorigin></iframe></wj-body>").
Proof. vm_compute. reflexivity. Qed.
Example html_ifcategory : html_test (lit "page-ifcategory") (lit "[[ifcategory _default]]
Apple
[[/ifcategory]]
[[ifcategory +_default +component -fragment]]
Banana
[[/ifcategory]]
[[ifcategory -_default]]
Hidden
[[/ifcategory]]") = Some (lit "<wj-body class=""wj-body""><p>AppleBanana</p></wj-body>").
Proof. vm_compute. reflexivity. Qed.
Example html_iframe_uppercase : html_test (lit "page-iframe-uppercase") (lit "[[iframe  https://example.com  WIDTH =  ""100%"" id= ""iframe"" ]]") = Some (lit "<wj-body class=""wj-body""><iframe src=""https://example.com"" crossorigin id=""iframe"" width=""100%""></iframe></wj-body>").
Proof. vm_compute. reflexivity. Qed.
Example html_iftags : html_test (lit "page-iftags") (lit "[[iftags +fruit -admin component template]]
Apple
[[/iftags]]
[[IFTAGS component]]Banana[[/IFTAGS]]
[[iftags +xyz]]
Hidden
[[/iftags]]") = Some (lit "<wj-body class=""wj-body""><p>AppleBanana</p></wj-body>").
Proof. vm_compute. reflexivity. Qed.
Example html_image_file1 : html_test (lit "page-image-file1") (lit "A [[image /my-picture.jpeg]] B") = Some (lit "<wj-body class=""wj-body""><p>A <div class=""wj-image-container""><img class=""wj-image"" src=""https://test.wjfiles.com/local--files/page-image-file1/my-picture.jpeg"" crossorigin></div> B</p></wj-body>").
Proof. vm_compute. reflexivity. Qed.
Example html_image_file3 : html_test (lit "page-image-file3") (lit "A [[image /scp-wiki/some-other-page/my-picture.jpeg]] B") = Some (lit "<wj-body class=""wj-body""><p>A <div class=""wj-image-container""><img class=""wj-image"" src=""https://scp-wiki.wjfiles.com/local--files/some-other-page/my-picture.jpeg"" crossorigin></div> B</p></wj-body>").
Proof. vm_compute. reflexivity. Qed.
Example html_image_float_right : html_test (lit "page-image-float-right") (lit "[[f>image landscape.png]]") = Some (lit "<wj-body class=""wj-body""><p><div class=""wj-image-container wj-float-right""><img class=""wj-image"" src=""https://test.wjfiles.com/local--files/page-image-float-right/landscape.png"" crossorigin></div></p></wj-body>").
Proof. vm_compute. reflexivity. Qed.
Example html_image_link_page : html_test (lit "page-image-link-page") (lit "A [[image filename.png link=""SCP-001""]] B") = Some (lit "<wj-body class=""wj-body""><p>A <div class=""wj-image-container""><a href=""/scp-001""><img class=""wj-image"" src=""https://test.wjfiles.com/local--files/page-image-link-page/filename.png"" crossorigin></a></div> B</p></wj-body>").
Proof. vm_compute. reflexivity. Qed.
Example html_include_elements_fail : html_test (lit "page-include-elements-fail") (lit "[[include-elements ::invalid-page]]") = Some (lit "<wj-body class=""wj-body""><p>[[include-elements ::invalid-page]]</p></wj-body>").
Proof. vm_compute. reflexivity. Qed.
Example html_include_wikidot_error_star : html_test (lit "page-include-wikidot-error-star") (lit "[[*include my-page]]") = Some (lit "<wj-body class=""wj-body""><p>[[*include my-page]]</p></wj-body>").
Proof. vm_compute. reflexivity. Qed.
Example html_include_wikidot_offsite : html_test (lit "page-include-wikidot-offsite") (lit "[[include :scp-wiki:theme:black-highlighter-theme]]") = Some (lit "<wj-body class=""wj-body""><p>OFF-SITE INCLUDED PAGE</p></wj-body>").
Proof. vm_compute. reflexivity. Qed.
Example html_include_wikidot_parameters_newlines_after : html_test (lit "page-include-wikidot-parameters-newlines-after") (lit "[[include component:fruit
 class=box |
 apple=1 |
 banana = 2 |]]") = Some (lit "<wj-body class=""wj-body""><div class=""box "" id=""fruit""><p>  </p><ul><li>1  </li><li>2  </li></ul></div></wj-body>").
Proof. vm_compute. reflexivity. Qed.
Example html_include_wikidot_parameters_override : html_test (lit "page-include-wikidot-parameters-override") (lit "[[include component:fruit class={$class}|class = box | apple=1 | apple=X |apple=durian | banana = 2]]") = Some (lit "<wj-body class=""wj-body""><div class=""box "" id=""fruit""><p>  </p><ul><li>1  </li><li>2 </li></ul></div></wj-body>").
Proof. vm_compute. reflexivity. Qed.
Example html_include_wikidot : html_test (lit "page-include-wikidot") (lit "[[include my-page]]") = Some (lit "<wj-body class=""wj-body""><p>INCLUDED PAGE</p></wj-body>").
Proof. vm_compute. reflexivity. Qed.
Example html_ins_uppercase : html_test (lit "page-ins-uppercase") (lit "[[INs ID =  ""apple"" clASS =""fruit"" stylE=""color: red;""      ]]Apple[[/ INS  ]]") = Some (lit "<wj-body class=""wj-body""><p><ins class=""fruit"" id=""apple"" style=""color: red;"">Apple</ins></p></wj-body>").
Proof. vm_compute. reflexivity. Qed.
Example html_invisible_uppercase : html_test (lit "page-invisible-uppercase") (lit "[[INVisible]]Invisible[[/inVISIBLE]] Text") = Some (lit "<wj-body class=""wj-body""><p><span class=""wj-invisible"">Invisible</span> Text</p></wj-body>").
Proof. vm_compute. reflexivity. Qed.
Example html_italics_block_alias_3 : html_test (lit "page-italics-block-alias-3") (lit "[[emphasis]]Test![[/emphasis]]") = Some (lit "<wj-body class=""wj-body""><p><em>Test!</em></p></wj-body>").
Proof. vm_compute. reflexivity. Qed.
Example html_italics_block_paragraph : html_test (lit "page-italics-block-paragraph") (lit "[[i]]Paragraph

Italics[[/i]]") = Some (lit "<wj-body class=""wj-body""><p><em>Paragraph<br>Italics</em></p></wj-body>").
Proof. vm_compute. reflexivity. Qed.
Example html_italics_fail : html_test (lit "page-italics-fail") (lit "//Fail Italics") = Some (lit "<wj-body class=""wj-body""><p>//Fail Italics</p></wj-body>").
Proof. vm_compute. reflexivity. Qed.
Example html_line_breaks_error_invalid : html_test (lit "page-line-breaks-error-invalid") (lit "[[lines apple]]") = Some (lit "<wj-body class=""wj-body""><p>[[lines apple]]</p></wj-body>").
Proof. vm_compute. reflexivity. Qed.
Example html_line_breaks : html_test (lit "page-line-breaks") (lit "Apple
[[lines 3]]
Banana") = Some (lit "<wj-body class=""wj-body""><p>Apple<br><br><br>Banana</p></wj-body>").
Proof. vm_compute. reflexivity. Qed.
Example html_link_interwiki_alias : html_test (lit "page-link-interwiki-alias") (lit "[[[!wikipedia:Apple]]], [[[!wp:Apple]]]

[[[!duckduckgo:LMGTFY]]], [[[!ddg:LMGTFY]]]") = Some (lit "<wj-body class=""wj-body""><p><a href=""https://wikipedia.org/wiki/Apple"" class=""wj-link wj-link-external wj-link-interwiki"" data-link-type=""interwiki"">Apple</a>, <a href=""https://wikipedia.org/wiki/Apple"" class=""wj-link wj-link-external wj-link-interwiki"" data-link-type=""interwiki"">Apple</a></p><p><a href=""https://duckduckgo.com/?q=LMGTFY"" class=""wj-link wj-link-external wj-link-interwiki"" data-link-type=""interwiki"">LMGTFY</a>, <a href=""https://duckduckgo.com/?q=LMGTFY"" class=""wj-link wj-link-external wj-link-interwiki"" data-link-type=""interwiki"">LMGTFY</a></p></wj-body>").
Proof. vm_compute. reflexivity. Qed.
Example html_link_interwiki_label : html_test (lit "page-link-interwiki-label") (lit "[[[!wikipedia:SCP Foundation|SCP Wiki]]]") = Some (lit "<wj-body class=""wj-body""><p><a href=""https://wikipedia.org/wiki/SCP%20Foundation"" class=""wj-link wj-link-external wj-link-interwiki"" data-link-type=""interwiki"">SCP Wiki</a></p></wj-body>").
Proof. vm_compute. reflexivity. Qed.
Example html_link_single_fail_new_tab : html_test (lit "page-link-single-fail-new-tab") (lit "[* not a link ]") = Some (lit "<wj-body class=""wj-body""><p>[* not a link ]</p></wj-body>").
Proof. vm_compute. reflexivity. Qed.
Example html_link_single_fail_word : html_test (lit "page-link-single-fail-word") (lit "[REDACTED]") = Some (lit "<wj-body class=""wj-body""><p>[REDACTED]</p></wj-body>").
Proof. vm_compute. reflexivity. Qed.
Example html_link_single_url : html_test (lit "page-link-single-url") (lit "[/page Some page]") = Some (lit "<wj-body class=""wj-body""><p><a href=""/page"" class=""wj-link wj-link-internal"" data-link-type=""direct"">Some page</a></p></wj-body>").
Proof. vm_compute. reflexivity. Qed.
Example html_link_triple_category_spaces : html_test (lit "page-link-triple-category-spaces") (lit "[[[system: Recent Changes]]]") = Some (lit "<wj-body class=""wj-body""><p><a href=""/system:recent-changes"" class=""wj-link wj-link-internal"" data-link-type=""page"">Recent Changes</a></p></wj-body>").
Proof. vm_compute. reflexivity. Qed.
Example html_link_triple_fail_brackets_left : html_test (lit "page-link-triple-fail-brackets-left") (lit "[[[some-page") = Some (lit "<wj-body class=""wj-body""><p>[[[some-page</p></wj-body>").
Proof. vm_compute. reflexivity. Qed.
Example html_link_triple_fail_title : html_test (lit "page-link-triple-fail-title") (lit "[[[|some-page]]]") = Some (lit "<wj-body class=""wj-body""><p>[[[|some-page]]]</p></wj-body>").
Proof. vm_compute. reflexivity. Qed.
Example html_link_triple_multi_anchor : html_test (lit "page-link-triple-multi-anchor") (lit "[[[home###|Home]]]") = Some (lit "<wj-body class=""wj-body""><p><a href=""/home###"" class=""wj-link wj-link-internal"" data-link-type=""page"">Home</a></p></wj-body>").
Proof. vm_compute. reflexivity. Qed.
Example html_link_triple_site_title : html_test (lit "page-link-triple-site-title") (lit "[[[:scp-wiki:scp-series|]]]") = Some (lit "<wj-body class=""wj-body""><p><a href=""https://scp-wiki.wikijump.com/scp-series"" class=""wj-link wj-link-internal"" data-link-type=""page"">TODO: actual title (scp-wiki scp-series)</a></p></wj-body>").
Proof. vm_compute. reflexivity. Qed.
Example html_link_triple_subpath : html_test (lit "page-link-triple-subpath") (lit "[[[example/edit|Edit page]]]") = Some (lit "<wj-body class=""wj-body""><p><a href=""/example/edit"" class=""wj-link wj-link-internal"" data-link-type=""page"">Edit page</a></p></wj-body>").
Proof. vm_compute. reflexivity. Qed.
Example html_link_triple_url : html_test (lit "page-link-triple-url") (lit "[[[https://example.com/|Example]]]") = Some (lit "<wj-body class=""wj-body""><p><a href=""https://example.com/"" class=""wj-link wj-link-external"" data-link-type=""direct"">Example</a></p></wj-body>").
Proof. vm_compute. reflexivity. Qed.
Example html_link_url : html_test (lit "page-link-url") (lit "https://example.com/directory apple") = Some (lit "<wj-body class=""wj-body""><p><a href=""https://example.com/directory"" class=""wj-link wj-link-external"" data-link-type=""direct"">https://example.com/directory</a> apple</p></wj-body>").
Proof. vm_compute. reflexivity. Qed.
Example html_list_block_empty : html_test (lit "page-list-block-empty") (lit "[[ul]][[li]][[/li]][[/ul]]") = Some (lit "<wj-body class=""wj-body""><ul><li></li></ul></wj-body>").
Proof. vm_compute. reflexivity. Qed.
Example html_list_block_ol : html_test (lit "page-list-block-ol") (lit "[[ol]] [[li]]A[[/li]] [[li]]B[[/li]] [[/ol]]") = Some (lit "<wj-body class=""wj-body""><ol><li>A</li><li>B</li></ol></wj-body>").
Proof. vm_compute. reflexivity. Qed.
Example html_list_bullet_both : html_test (lit "page-list-bullet-both") (lit "* A") = Some (lit "<wj-body class=""wj-body""><ul><li>A</li></ul></wj-body>").
Proof. vm_compute. reflexivity. Qed.
Example html_list_bullet_elements_end : html_test (lit "page-list-bullet-elements-end") (lit "[
* A 1") = Some (lit "<wj-body class=""wj-body""><p>[</p><ul><li>A 1</li></ul></wj-body>").
Proof. vm_compute. reflexivity. Qed.
Example html_list_bullet_elements_multiple : html_test (lit "page-list-bullet-elements-multiple") (lit "[
* A 1
* B 2
* C 3
]") = Some (lit "<wj-body class=""wj-body""><p>[</p><ul><li>A 1</li><li>B 2</li><li>C 3</li></ul><p>]</p></wj-body>").
Proof. vm_compute. reflexivity. Qed.
Example html_list_bullet_line_break : html_test (lit "page-list-bullet-line-break") (lit "* A _
B _
C
* D") = Some (lit "<wj-body class=""wj-body""><ul><li>A<br>B<br>C</li><li>D</li></ul></wj-body>").
Proof. vm_compute. reflexivity. Qed.
Example html_list_bullet_multiple : html_test (lit "page-list-bullet-multiple") (lit "[
* A
* B
* C
]") = Some (lit "<wj-body class=""wj-body""><p>[</p><ul><li>A</li><li>B</li><li>C</li></ul><p>]</p></wj-body>").
Proof. vm_compute. reflexivity. Qed.
Example html_list_fail_depth : html_test (lit "page-list-fail-depth") (lit "                              * Very deep list item") = Some (lit "<wj-body class=""wj-body""><p>                              * Very deep list item</p></wj-body>").
Proof. vm_compute. reflexivity. Qed.
Example html_list_numbered_both : html_test (lit "page-list-numbered-both") (lit "# A") = Some (lit "<wj-body class=""wj-body""><ol><li>A</li></ol></wj-body>").
Proof. vm_compute. reflexivity. Qed.
Example html_list_numbered_elements_end : html_test (lit "page-list-numbered-elements-end") (lit "[
# A 1") = Some (lit "<wj-body class=""wj-body""><p>[</p><ol><li>A 1</li></ol></wj-body>").
Proof. vm_compute. reflexivity. Qed.
Example html_list_numbered_elements_multiple : html_test (lit "page-list-numbered-elements-multiple") (lit "[
# A 1
# B 2
# C 3
]") = Some (lit "<wj-body class=""wj-body""><p>[</p><ol><li>A 1</li><li>B 2</li><li>C 3</li></ol><p>]</p></wj-body>").
Proof. vm_compute. reflexivity. Qed.
Example html_list_numbered_line_break : html_test (lit "page-list-numbered-line-break") (lit "# A _
B _
C
# D") = Some (lit "<wj-body class=""wj-body""><ol><li>A<br>B<br>C</li><li>D</li></ol></wj-body>").
Proof. vm_compute. reflexivity. Qed.
Example html_list_numbered_multiple : html_test (lit "page-list-numbered-multiple") (lit "[
# A
# B
# C
]") = Some (lit "<wj-body class=""wj-body""><p>[</p><ol><li>A</li><li>B</li><li>C</li></ol><p>]</p></wj-body>").
Proof. vm_compute. reflexivity. Qed.
Example html_mark_alias : html_test (lit "page-mark-alias") (lit "Apple [[highlight]]Banana[[/highlight]]") = Some (lit "<wj-body class=""wj-body""><p>Apple <mark>Banana</mark></p></wj-body>").
Proof. vm_compute. reflexivity. Qed.
Example html_mark : html_test (lit "page-mark") (lit "Apple [[mark]]Banana[[/mark]]") = Some (lit "<wj-body class=""wj-body""><p>Apple <mark>Banana</mark></p></wj-body>").
Proof. vm_compute. reflexivity. Qed.
Example html_module_backlinks_uppercase : html_test (lit "page-module-backlinks-uppercase") (lit "[[ MODULE  BACKLINKS  ]]
Apple") = Some (lit "<wj-body class=""wj-body""><p>TODO: module Backlinks</p><p>Apple</p></wj-body>").
Proof. vm_compute. reflexivity. Qed.
Example html_module_categories_uppercase : html_test (lit "page-module-categories-uppercase") (lit "[[ MODULE CATEGORIES  ]]
Apple") = Some (lit "<wj-body class=""wj-body""><p>TODO: module Categories</p><p>Apple</p></wj-body>").
Proof. vm_compute. reflexivity. Qed.
Example html_module_join_styling : html_test (lit "page-module-join-styling") (lit "[[module Join id=""join-btn"" CLASS =""join-module"" stYLe= ""display: inline-block;"" data-join=""""]]
Apple") = Some (lit "<wj-body class=""wj-body""><p>TODO: module Join</p><p>Apple</p></wj-body>").
Proof. vm_compute. reflexivity. Qed.
Example html_module_pagetree_fail_depth : html_test (lit "page-module-pagetree-fail-depth") (lit "[[module PageTree root=""scp-001"" showRoot=""yes"" depth=""0""]]") = Some (lit "<wj-body class=""wj-body""><p>[[module PageTree root=&quot;scp-001&quot; showRoot=&quot;yes&quot; depth=&quot;0&quot;]]</p></wj-body>").
Proof. vm_compute. reflexivity. Qed.
Example html_module_rate_uppercase : html_test (lit "page-module-rate-uppercase") (lit "[[ MODule rATe  ]]
Apple") = Some (lit "<wj-body class=""wj-body""><p>TODO: module Rate</p><p>Apple</p></wj-body>").
Proof. vm_compute. reflexivity. Qed.
Example html_monospace_block_empty : html_test (lit "page-monospace-block-empty") (lit "Empty [[tt]][[/tt]]") = Some (lit "<wj-body class=""wj-body""><p>Empty <code class=""wj-monospace""></code></p></wj-body>").
Proof. vm_compute. reflexivity. Qed.
Example html_monospace_block : html_test (lit "page-monospace-block") (lit "[[tt]]Subscript[[/tt]] Text") = Some (lit "<wj-body class=""wj-body""><p><code class=""wj-monospace"">Subscript</code> Text</p></wj-body>").
Proof. vm_compute. reflexivity. Qed.
Example html_monospace : html_test (lit "page-monospace") (lit "{{Monospace}} Text") = Some (lit "<wj-body class=""wj-body""><p><code class=""wj-monospace"">Monospace</code> Text</p></wj-body>").
Proof. vm_compute. reflexivity. Qed.
Example html_paragraph_block_empty_2 : html_test (lit "page-paragraph-block-empty-2") (lit "A
[[p]]
[[/p]]
B") = Some (lit "<wj-body class=""wj-body""><p>A<br>B</p></wj-body>").
Proof. vm_compute. reflexivity. Qed.
Example html_paragraph_block_inline : html_test (lit "page-paragraph-block-inline") (lit "[[p]]Apple[[/p]]") = Some (lit "<wj-body class=""wj-body""><p>Apple</p></wj-body>").
Proof. vm_compute. reflexivity. Qed.
Example html_paragraphs : html_test (lit "page-paragraphs") (lit "First paragraph

Second paragraph") = Some (lit "<wj-body class=""wj-body""><p>First paragraph</p><p>Second paragraph</p></wj-body>").
Proof. vm_compute. reflexivity. Qed.
Example html_radio_style : html_test (lit "page-radio-style") (lit "[[radio fruit id=""apple"" style=""color: red;""]] Apple
[[radio fruit id=""banana"" style=""color: yellow;""]] Banana") = Some (lit "<wj-body class=""wj-body""><p><input name=""fruit"" type=""radio"" id=""apple"" style=""color: red;"">Apple<br><input name=""fruit"" type=""radio"" id=""banana"" style=""color: yellow;"">Banana</p></wj-body>").
Proof. vm_compute. reflexivity. Qed.
Example html_raw_1 : html_test (lit "page-raw-1") (lit "@@@@@") = Some (lit "<wj-body class=""wj-body""><p><span class=""wj-raw"">@</span></p></wj-body>").
Proof. vm_compute. reflexivity. Qed.
Example html_raw_fail_newline_angles : html_test (lit "page-raw-fail-newline-angles") (lit "interrupted @<
>@") = Some (lit "<wj-body class=""wj-body""><p>interrupted @&lt;<br>&gt;@</p></wj-body>").
Proof. vm_compute. reflexivity. Qed.
Example html_raw_test_0 : html_test (lit "page-raw-test-0") (lit "Test @@@@ String") = Some (lit "<wj-body class=""wj-body""><p>Test <span class=""wj-raw""></span> String</p></wj-body>").
Proof. vm_compute. reflexivity. Qed.
Example html_ruby_alias : html_test (lit "page-ruby-alias") [91%N; 91%N; 114%N; 117%N; 98%N; 121%N; 93%N; 93%N; 35486%N; 32%N; 91%N; 91%N; 114%N; 117%N; 98%N; 121%N; 116%N; 101%N; 120%N; 116%N; 93%N; 93%N; 103%N; 111%N; 91%N; 91%N; 47%N; 114%N; 117%N; 98%N; 121%N; 116%N; 101%N; 120%N; 116%N; 93%N; 93%N; 91%N; 91%N; 47%N; 114%N; 117%N; 98%N; 121%N; 93%N; 93%N] = Some [60%N; 119%N; 106%N; 45%N; 98%N; 111%N; 100%N; 121%N; 32%N; 99%N; 108%N; 97%N; 115%N; 115%N; 61%N; 34%N; 119%N; 106%N; 45%N; 98%N; 111%N; 100%N; 121%N; 34%N; 62%N; 60%N; 112%N; 62%N; 60%N; 114%N; 117%N; 98%N; 121%N; 62%N; 35486%N; 32%N; 60%N; 114%N; 112%N; 62%N; 40%N; 60%N; 47%N; 114%N; 112%N; 62%N; 60%N; 114%N; 116%N; 62%N; 103%N; 111%N; 60%N; 47%N; 114%N; 116%N; 62%N; 60%N; 114%N; 112%N; 62%N; 41%N; 60%N; 47%N; 114%N; 112%N; 62%N; 60%N; 47%N; 114%N; 117%N; 98%N; 121%N; 62%N; 60%N; 47%N; 112%N; 62%N; 60%N; 47%N; 119%N; 106%N; 45%N; 98%N; 111%N; 100%N; 121%N; 62%N].
Proof. vm_compute. reflexivity. Qed.
Example html_ruby_newlines_2 : html_test (lit "page-ruby-newlines-2") [91%N; 91%N; 114%N; 117%N; 98%N; 121%N; 93%N; 93%N; 10%N; 28450%N; 32%N; 91%N; 91%N; 114%N; 116%N; 93%N; 93%N; 10%N; 107%N; 97%N; 110%N; 10%N; 91%N; 91%N; 47%N; 114%N; 116%N; 93%N; 93%N; 10%N; 23383%N; 32%N; 91%N; 91%N; 114%N; 116%N; 93%N; 93%N; 10%N; 106%N; 105%N; 10%N; 91%N; 91%N; 47%N; 114%N; 116%N; 93%N; 93%N; 10%N; 91%N; 91%N; 47%N; 114%N; 117%N; 98%N; 121%N; 93%N; 93%N] = Some [60%N; 119%N; 106%N; 45%N; 98%N; 111%N; 100%N; 121%N; 32%N; 99%N; 108%N; 97%N; 115%N; 115%N; 61%N; 34%N; 119%N; 106%N; 45%N; 98%N; 111%N; 100%N; 121%N; 34%N; 62%N; 60%N; 112%N; 62%N; 60%N; 114%N; 117%N; 98%N; 121%N; 62%N; 28450%N; 32%N; 60%N; 114%N; 112%N; 62%N; 40%N; 60%N; 47%N; 114%N; 112%N; 62%N; 60%N; 114%N; 116%N; 62%N; 107%N; 97%N; 110%N; 60%N; 47%N; 114%N; 116%N; 62%N; 60%N; 114%N; 112%N; 62%N; 41%N; 60%N; 47%N; 114%N; 112%N; 62%N; 60%N; 98%N; 114%N; 62%N; 23383%N; 32%N; 60%N; 114%N; 112%N; 62%N; 40%N; 60%N; 47%N; 114%N; 112%N; 62%N; 60%N; 114%N; 116%N; 62%N; 106%N; 105%N; 60%N; 47%N; 114%N; 116%N; 62%N; 60%N; 114%N; 112%N; 62%N; 41%N; 60%N; 47%N; 114%N; 112%N; 62%N; 60%N; 47%N; 114%N; 117%N; 98%N; 121%N; 62%N; 60%N; 47%N; 112%N; 62%N; 60%N; 47%N; 119%N; 106%N; 45%N; 98%N; 111%N; 100%N; 121%N; 62%N].
Proof. vm_compute. reflexivity. Qed.
Example html_ruby2_alias : html_test (lit "page-ruby2-alias") [91%N; 91%N; 114%N; 98%N; 32%N; 28450%N; 124%N; 107%N; 97%N; 110%N; 93%N; 93%N; 32%N; 91%N; 91%N; 114%N; 98%N; 32%N; 23383%N; 124%N; 106%N; 105%N; 93%N; 93%N] = Some [60%N; 119%N; 106%N; 45%N; 98%N; 111%N; 100%N; 121%N; 32%N; 99%N; 108%N; 97%N; 115%N; 115%N; 61%N; 34%N; 119%N; 106%N; 45%N; 98%N; 111%N; 100%N; 121%N; 34%N; 62%N; 60%N; 112%N; 62%N; 60%N; 114%N; 117%N; 98%N; 121%N; 62%N; 28450%N; 60%N; 114%N; 112%N; 62%N; 40%N; 60%N; 47%N; 114%N; 112%N; 62%N; 60%N; 114%N; 116%N; 62%N; 107%N; 97%N; 110%N; 60%N; 47%N; 114%N; 116%N; 62%N; 60%N; 114%N; 112%N; 62%N; 41%N; 60%N; 47%N; 114%N; 112%N; 62%N; 60%N; 47%N; 114%N; 117%N; 98%N; 121%N; 62%N; 32%N; 60%N; 114%N; 117%N; 98%N; 121%N; 62%N; 23383%N; 60%N; 114%N; 112%N; 62%N; 40%N; 60%N; 47%N; 114%N; 112%N; 62%N; 60%N; 114%N; 116%N; 62%N; 106%N; 105%N; 60%N; 47%N; 114%N; 116%N; 62%N; 60%N; 114%N; 112%N; 62%N; 41%N; 60%N; 47%N; 114%N; 112%N; 62%N; 60%N; 47%N; 114%N; 117%N; 98%N; 121%N; 62%N; 60%N; 47%N; 112%N; 62%N; 60%N; 47%N; 119%N; 106%N; 45%N; 98%N; 111%N; 100%N; 121%N; 62%N].
Proof. vm_compute. reflexivity. Qed.
Example html_ruby2_fail_pipe_4 : html_test (lit "page-ruby2-fail-pipe-4") [91%N; 91%N; 114%N; 98%N; 32%N; 124%N; 32%N; 124%N; 32%N; 35486%N; 32%N; 124%N; 32%N; 103%N; 111%N; 124%N; 93%N; 93%N] = Some [60%N; 119%N; 106%N; 45%N; 98%N; 111%N; 100%N; 121%N; 32%N; 99%N; 108%N; 97%N; 115%N; 115%N; 61%N; 34%N; 119%N; 106%N; 45%N; 98%N; 111%N; 100%N; 121%N; 34%N; 62%N; 60%N; 112%N; 62%N; 91%N; 91%N; 114%N; 98%N; 32%N; 124%N; 32%N; 124%N; 32%N; 35486%N; 32%N; 124%N; 32%N; 103%N; 111%N; 124%N; 93%N; 93%N; 60%N; 47%N; 112%N; 62%N; 60%N; 47%N; 119%N; 106%N; 45%N; 98%N; 111%N; 100%N; 121%N; 62%N].
Proof. vm_compute. reflexivity. Qed.
Example html_ruby2 : html_test (lit "page-ruby2") [91%N; 91%N; 114%N; 98%N; 32%N; 35486%N; 124%N; 103%N; 111%N; 93%N; 93%N] = Some [60%N; 119%N; 106%N; 45%N; 98%N; 111%N; 100%N; 121%N; 32%N; 99%N; 108%N; 97%N; 115%N; 115%N; 61%N; 34%N; 119%N; 106%N; 45%N; 98%N; 111%N; 100%N; 121%N; 34%N; 62%N; 60%N; 112%N; 62%N; 60%N; 114%N; 117%N; 98%N; 121%N; 62%N; 35486%N; 60%N; 114%N; 112%N; 62%N; 40%N; 60%N; 47%N; 114%N; 112%N; 62%N; 60%N; 114%N; 116%N; 62%N; 103%N; 111%N; 60%N; 47%N; 114%N; 116%N; 62%N; 60%N; 114%N; 112%N; 62%N; 41%N; 60%N; 47%N; 114%N; 112%N; 62%N; 60%N; 47%N; 114%N; 117%N; 98%N; 121%N; 62%N; 60%N; 47%N; 112%N; 62%N; 60%N; 47%N; 119%N; 106%N; 45%N; 98%N; 111%N; 100%N; 121%N; 62%N].
Proof. vm_compute. reflexivity. Qed.
Example html_simple_text : html_test (lit "page-simple-text") (lit "abc") = Some (lit "<wj-body class=""wj-body""><p>abc</p></wj-body>").
Proof. vm_compute. reflexivity. Qed.
Example html_size : html_test (lit "page-size") (lit "[[size 12pt]]Apple[[/size]]") = Some (lit "<wj-body class=""wj-body""><p><span style=""font-size: 12pt;"">Apple</span></p></wj-body>").
Proof. vm_compute. reflexivity. Qed.
Example html_span_newlines_2 : html_test (lit "page-span-newlines-2") (lit "[[span]]Banana
Cherry[[/span]]") = Some (lit "<wj-body class=""wj-body""><p><span>Banana<br>Cherry</span></p></wj-body>").
Proof. vm_compute. reflexivity. Qed.
Example html_span : html_test (lit "page-span") (lit "[[span]]Banana[[/span]]") = Some (lit "<wj-body class=""wj-body""><p><span>Banana</span></p></wj-body>").
Proof. vm_compute. reflexivity. Qed.
Example html_span2_paragraph : html_test (lit "page-span2-paragraph") (lit "[[span_]]Banana

Cherry[[/span]]") = Some (lit "<wj-body class=""wj-body""><p><span>Banana<br>Cherry</span></p></wj-body>").
Proof. vm_compute. reflexivity. Qed.
Example html_strikethrough_block_alias_1 : html_test (lit "page-strikethrough-block-alias-1") (lit "[[strikethrough]]Test![[/strikethrough]]") = Some (lit "<wj-body class=""wj-body""><p><s>Test!</s></p></wj-body>").
Proof. vm_compute. reflexivity. Qed.
Example html_strikethrough_block_paragraph : html_test (lit "page-strikethrough-block-paragraph") (lit "[[s]]Paragraph

Strikethrough[[/s]]") = Some (lit "<wj-body class=""wj-body""><p><s>Paragraph<br>Strikethrough</s></p></wj-body>").
Proof. vm_compute. reflexivity. Qed.
Example html_strikethrough_fail : html_test (lit "page-strikethrough-fail") (lit "--Fail Strikethrough") = Some [60%N; 119%N; 106%N; 45%N; 98%N; 111%N; 100%N; 121%N; 32%N; 99%N; 108%N; 97%N; 115%N; 115%N; 61%N; 34%N; 119%N; 106%N; 45%N; 98%N; 111%N; 100%N; 121%N; 34%N; 62%N; 60%N; 112%N; 62%N; 8212%N; 70%N; 97%N; 105%N; 108%N; 32%N; 83%N; 116%N; 114%N; 105%N; 107%N; 101%N; 116%N; 104%N; 114%N; 111%N; 117%N; 103%N; 104%N; 60%N; 47%N; 112%N; 62%N; 60%N; 47%N; 119%N; 106%N; 45%N; 98%N; 111%N; 100%N; 121%N; 62%N].
Proof. vm_compute. reflexivity. Qed.
Example html_subscript_block_empty : html_test (lit "page-subscript-block-empty") (lit "Empty [[sub]][[/sub]]") = Some (lit "<wj-body class=""wj-body""><p>Empty <sub></sub></p></wj-body>").
Proof. vm_compute. reflexivity. Qed.
Example html_subscript_block : html_test (lit "page-subscript-block") (lit "[[sub]]Subscript[[/sub]] Text") = Some (lit "<wj-body class=""wj-body""><p><sub>Subscript</sub> Text</p></wj-body>").
Proof. vm_compute. reflexivity. Qed.
Example html_superscript_block_alias_1 : html_test (lit "page-superscript-block-alias-1") (lit "[[super]]Test![[/super]]") = Some (lit "<wj-body class=""wj-body""><p><sup>Test!</sup></p></wj-body>").
Proof. vm_compute. reflexivity. Qed.
Example html_superscript_block_italics : html_test (lit "page-superscript-block-italics") (lit "[[sup]]Apple [[b]]Banana[[/b]][[/sup]] Cherry") = Some (lit "<wj-body class=""wj-body""><p><sup>Apple <strong>Banana</strong></sup> Cherry</p></wj-body>").
Proof. vm_compute. reflexivity. Qed.
Example html_superscript_fail : html_test (lit "page-superscript-fail") (lit "^^Fail Superscript") = Some (lit "<wj-body class=""wj-body""><p>^^Fail Superscript</p></wj-body>").
Proof. vm_compute. reflexivity. Qed.
Example html_table_advanced_empty_cell : html_test (lit "page-table-advanced-empty-cell") (lit "[[table]]
[[row]]
[[cell]]
[[/cell]]
[[/row]]
[[/table]]") = Some (lit "<wj-body class=""wj-body""><table><tbody><tr><td></td></tr></tbody></table></wj-body>").
Proof. vm_compute. reflexivity. Qed.
Example html_table_advanced_fail_row : html_test (lit "page-table-advanced-fail-row") (lit "[[row]] Row content here [[/row]]") = Some (lit "<wj-body class=""wj-body""><p>[[row]] Row content here [[/row]]</p></wj-body>").
Proof. vm_compute. reflexivity. Qed.
Example html_table_advanced_nested_deep : html_test (lit "page-table-advanced-nested-deep") (lit "[[table]]
[[row]]
[[cell]]

1

[[table]]
[[row]]
[[cell]]

2

[[table]]
[[row]]
[[cell]]

3

[[table]]
[[row]]
[[cell]]

4

[[table]]
[[row]]
[[cell]]

5

[[/cell]]
[[/row]]
[[/table]]

[[/cell]]
[[/row]]
[[/table]]

[[/cell]]
[[/row]]
[[/table]]

[[/cell]]
[[/row]]
[[/table]]

[[/cell]]
[[/row]]
[[/table]]") = Some (lit "<wj-body class=""wj-body""><table><tbody><tr><td>1<br><table><tbody><tr><td>2<br><table><tbody><tr><td>3<br><table><tbody><tr><td>4<br><table><tbody><tr><td>5</td></tr></tbody></table></td></tr></tbody></table></td></tr></tbody></table></td></tr></tbody></table></td></tr></tbody></table></wj-body>").
Proof. vm_compute. reflexivity. Qed.
Example html_table_simple_align : html_test (lit "page-table-simple-align") (lit "||< Left ||= Center ||
|| Normal ||> Right ||") = Some (lit "<wj-body class=""wj-body""><table class=""wj-table""><tbody><tr><td class=""wj-align-left"">Left</td><td class=""wj-align-center"">Center</td></tr><tr><td>Normal</td><td class=""wj-align-right"">Right</td></tr></tbody></table></wj-body>").
Proof. vm_compute. reflexivity. Qed.
Example html_table_simple_fail_trailing : html_test (lit "page-table-simple-fail-trailing") (lit "|| Cell || X") = Some (lit "<wj-body class=""wj-body""><p>|| Cell || X</p></wj-body>").
Proof. vm_compute. reflexivity. Qed.
Example html_table_simple_width : html_test (lit "page-table-simple-width") (lit "|| apple || banana ||= cherry ||
||||||~ triple ||") = Some (lit "<wj-body class=""wj-body""><table class=""wj-table""><tbody><tr><td>apple</td><td>banana</td><td class=""wj-align-center"">cherry</td></tr><tr><th colspan=""3"">triple</th></tr></tbody></table></wj-body>").
Proof. vm_compute. reflexivity. Qed.
Example html_tabview_fail_label : html_test (lit "page-tabview-fail-label") (lit "[[tabview]]
[[tab]]
A
[[/tab]]
[[/tabview]]") = Some (lit "<wj-body class=""wj-body""><p>[[tabview]][[tab]]<br>A<br>[[/tab]]<br>[[/tabview]]</p></wj-body>").
Proof. vm_compute. reflexivity. Qed.
Example html_tabview_nested : html_test (lit "page-tabview-nested") (lit "[[tabview]]
[[tab 1]]
A
[[tabview]]
[[tab 2]]
B
[[tabview]]
[[tab 3]]
C
[[/tab]]
[[/tabview]]
[[/tab]]
[[/tabview]]
[[/tab]]
[[/tabview]]") = Some (lit "<wj-body class=""wj-body""><wj-tabs class=""wj-tabs""><div class=""wj-tabs-button-list"" role=""tablist""><wj-tabs-button class=""wj-tabs-button"" id=""wj-id-bW5Ql2DLZtnd9s18"" role=""tab"" aria-label=""1"" aria-selected=""true"" aria-controls=""wj-id-ePZbhugrfP89c4Fk"" tabindex=""0"">1</wj-tabs-button></div><div class=""wj-tabs-panel-list""><div class=""wj-tabs-panel"" id=""wj-id-ePZbhugrfP89c4Fk"" role=""tabpanel"" aria-labelledby=""wj-id-bW5Ql2DLZtnd9s18"" tabindex=""0""><p>A</p><wj-tabs class=""wj-tabs""><div class=""wj-tabs-button-list"" role=""tablist""><wj-tabs-button class=""wj-tabs-button"" id=""wj-id-zgBl9StiqVAR2CHD"" role=""tab"" aria-label=""2"" aria-selected=""true"" aria-controls=""wj-id-GmkUq22QVrVUmWfh"" tabindex=""0"">2</wj-tabs-button></div><div class=""wj-tabs-panel-list""><div class=""wj-tabs-panel"" id=""wj-id-GmkUq22QVrVUmWfh"" role=""tabpanel"" aria-labelledby=""wj-id-zgBl9StiqVAR2CHD"" tabindex=""0""><p>B</p><wj-tabs class=""wj-tabs""><div class=""wj-tabs-button-list"" role=""tablist""><wj-tabs-button class=""wj-tabs-button"" id=""wj-id-Fivpa4fCYmumS0Zl"" role=""tab"" aria-label=""3"" aria-selected=""true"" aria-controls=""wj-id-Y1BswXrBTj6WDowv"" tabindex=""0"">3</wj-tabs-button></div><div class=""wj-tabs-panel-list""><div class=""wj-tabs-panel"" id=""wj-id-Y1BswXrBTj6WDowv"" role=""tabpanel"" aria-labelledby=""wj-id-Fivpa4fCYmumS0Zl"" tabindex=""0""><p>C</p></div></div></wj-tabs></div></div></wj-tabs></div></div></wj-tabs></wj-body>").
Proof. vm_compute. reflexivity. Qed.
Example html_target_dash : html_test (lit "page-target-dash") (lit "[[target apple-banana]]") = Some (lit "<wj-body class=""wj-body""><p><a id=""apple-banana""></a></p></wj-body>").
Proof. vm_compute. reflexivity. Qed.
Example html_target_multiple : html_test (lit "page-target-multiple") (lit "[[target apple]]  [[target banana]][[target cherry]]") = Some (lit "<wj-body class=""wj-body""><p><a id=""apple""></a>  <a id=""banana""></a><a id=""cherry""></a></p></wj-body>").
Proof. vm_compute. reflexivity. Qed.
Example html_target : html_test (lit "page-target") (lit "[[target apple]]") = Some (lit "<wj-body class=""wj-body""><p><a id=""apple""></a></p></wj-body>").
Proof. vm_compute. reflexivity. Qed.
Example html_toc : html_test (lit "page-toc") (lit "+ A
durian
+ B
[[toc]]") = Some (lit "<wj-body class=""wj-body""><h1 id=""toc0"">A</h1><p>durian</p><h1 id=""toc1"">B</h1><div id=""wj-toc""><div id=""wj-toc-action-bar""><a href=""javascript:;"" onclick=""WIKIJUMP.page.listeners.foldToc(event)""></a></div><div class=""title"">Table of Contents</div><div id=""wj-toc-list""><ul><li><a href=""#toc0"" class=""wj-link wj-link-anchor"" data-link-type=""table-of-contents"">A</a></li><li><a href=""#toc1"" class=""wj-link wj-link-anchor"" data-link-type=""table-of-contents"">B</a></li></ul></div></div></wj-body>").
Proof. vm_compute. reflexivity. Qed.
Example html_underline_block_italics : html_test (lit "page-underline-block-italics") (lit "[[u]]Apple [[b]]Banana[[/b]][[/u]] Cherry") = Some (lit "<wj-body class=""wj-body""><p><u>Apple <strong>Banana</strong></u> Cherry</p></wj-body>").
Proof. vm_compute. reflexivity. Qed.
Example html_underline_fail_paragraph : html_test (lit "page-underline-fail-paragraph") (lit "__Fail

Underline__") = Some (lit "<wj-body class=""wj-body""><p>__Fail</p><p>Underline__</p></wj-body>").
Proof. vm_compute. reflexivity. Qed.
Example html_underscore_line_break_line : html_test (lit "page-underscore-line-break-line") (lit "X
_
_
Y") = Some (lit "<wj-body class=""wj-body""><p>X<br><br><br>Y</p></wj-body>").
Proof. vm_compute. reflexivity. Qed.
Example html_user_spaces : html_test (lit "page-user-spaces") (lit "[[ USer  admin  ]]
Cherry") = Some (lit "<wj-body class=""wj-body""><p><span class=""wj-user-info""><a class=""wj-user-info-link"" href=""/user:info/admin""><span class=""wj-user-info-name"">admin</span></a></span><br>Cherry</p></wj-body>").
Proof. vm_compute. reflexivity. Qed.

(** PropPreprocLetters.v -- property C71: preprocessing changes no letters; with C69, the letters of a
    source go unchanged all the way to the page. *)
From Verif Require Import Base BaseLemmas Strings Links Attr Regex Preproc SpecPreproc PreprocLemmas PreprocFacts PropPreproc PropFixed Lexer SpecLexer LexerLemmas
  Depth Tree Text PState SpecParse SpecPage ParseInv Blocks Rules Parse ParseLemmas PropParse SpecLetters LettersLemmas PropLetters ParseTestEnv
  Html SpecReader Render SpecRender SpecShown PropRender PropBlockless PropInert.

Lemma ws_letter c : is_ws c = true -> letter c = false.
Proof. intro H. assert (X : letters [c] = []) by (apply letters_ws; cbn; rewrite H; auto). cbn [letters filter] in X. destruct (letter c); auto. discriminate X. Qed.
Lemma ws_fun_letters s : letters (ws_fun s) = letters s.
Proof. apply ws_fun_filter; [exact ws_letter|reflexivity|reflexivity]. Qed.
Lemma erase_letters s : letters (erase s) = letters s.
Proof.
  unfold letters, erase. induction s as [|c s IH]; auto. cbn [filter]. destruct (erased c) eqn:Ee; cbn [negb].
  - assert (X : letter c = false). { unfold erased in Ee. apply existsb_exists in Ee as (k & Hk & Ee). apply N.eqb_eq in Ee. subst k. cbn in Hk. repeat (destruct Hk as [<-|Hk]; [reflexivity|]). destruct Hk. }
    rewrite X. exact IH.
  - cbn [filter]. rewrite IH. reflexivity.
Qed.
(** C71: preprocessing keeps every letter and digit, in order, and adds none. *)
Theorem C71_preprocess_letters : forall s t, preprocess s = Preproc.ROk t -> letters t = letters s.
Proof.
  intros s t H. rewrite preprocess_fun in H. injection H as <-.
  rewrite <- (erase_letters (ty_fun (ws_fun s))), <- (C08_typography_preserves_content (ws_fun s) _ (ty_substitute_fun (ws_fun s))), erase_letters. apply ws_fun_letters.
Qed.
Print Assumptions C71_preprocess_letters.
Example C71_case : exists t, preprocess (lit "

``a''	b... \
c  ") = Preproc.ROk t /\ letters t = lit "abc".
Proof. eexists. split; vm_compute; reflexivity. Qed.
(** From source to page: when the preprocessed source is as C69 needs it, the page shows the letters
    of the source, no more, no fewer, in their order. *)
Theorem C69_preprocessed_partial : forall s E R n, preprocess s = Preproc.ROk (en_text E) ->
  bracketless (en_text E) -> few_headings (en_text E) -> ~ substr (lit "))") (en_text E) -> 3 <= n ->
  exists toks t body i e, extract_all (en_text E) = Some toks /\ parse E toks = Parsed t /\ html_render R n t = Html body i e /\
    letters (page_text (html_tokens body)) = letters s.
Proof.
  intros s E R n Hs Hb Hf Hc Hn. rewrite <- (C71_preprocess_letters s _ Hs). apply C69_source_to_page_partial; auto.
Qed.
Print Assumptions C69_preprocessed_partial.

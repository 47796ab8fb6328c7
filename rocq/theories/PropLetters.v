(** PropLetters.v -- property C69: no letters are lost by parsing. *)
From Verif Require Import Base BaseLemmas Strings Links Attr Lexer SpecLexer LexerLemmas
  Depth Tree Text PState SpecParse SpecPage ParseInv Blocks Rules Parse ParseLemmas PropParse PropPage SpecText PropText SpecLetters LettersLemmas ParseTestEnv.

Lemma substr_in_token E toks t s : extract_all (en_text E) = Some toks -> In t toks -> t_token t <> TInputStart -> t_token t <> TInputEnd ->
  (forall s', shape (t_token t) s' -> exists a b, s' = a ++ s ++ b) -> substr s (en_text E).
Proof.
  intros Ht Hi H1 H2 H. destruct (H _ (tok_shape E toks Ht t Hi H1 H2)) as (a & b & Hs). pose proof (in_slice E toks Ht t Hi) as (x & y & Hx).
  exists (x ++ a), (b ++ y). rewrite Hx, Hs, <- !app_assoc. auto.
Qed.
Lemma symbol_shape t s s' : shape t s' -> In (t, s) symbols -> s' = s.
Proof.
  intros Hs Hi. destruct Hs as [t s' Hi'| | | | | | | | | | | | | | |];
    cbn [symbols In] in Hi; try (exfalso; repeat (destruct Hi as [Hi|Hi]; [discriminate (f_equal fst Hi)|]); exact Hi).
  revert Hi'. cbn [symbols In]. intro Hi'.
  repeat (destruct Hi as [Hi|Hi]; [pose proof (f_equal fst Hi) as Hf; pose proof (f_equal snd Hi) as Hg; cbn [fst snd] in Hf, Hg; subst t; subst s; clear Hi;
    repeat (destruct Hi' as [Hi'|Hi']; [first [discriminate (f_equal fst Hi') | exact (eq_sym (f_equal snd Hi'))]|]); destruct Hi'|]). destruct Hi.
Qed.
Lemma barred_symbol t : barred t = true -> exists s piece, In (t, s) symbols /\ In piece [lit "["; lit "||"; lit "##"; lit "(("] /\ exists a b, s = a ++ piece ++ b.
Proof.
  destruct t; intro H; try discriminate H; clear H.
  all: match goal with
    | |- exists s piece, In (TColor, s) _ /\ _ => exists (lit "##"), (lit "##")
    | |- exists s piece, In (TLeftParentheses, s) _ /\ _ => exists (lit "(("), (lit "((")
    | |- exists s piece, In (TTableColumn, s) _ /\ _ => exists (lit "||"), (lit "||")
    | |- exists s piece, In (TTableColumnLeft, s) _ /\ _ => exists (lit "||<"), (lit "||")
    | |- exists s piece, In (TTableColumnRight, s) _ /\ _ => exists (lit "||>"), (lit "||")
    | |- exists s piece, In (TTableColumnCenter, s) _ /\ _ => exists (lit "||="), (lit "||")
    | |- exists s piece, In (TTableColumnTitle, s) _ /\ _ => exists (lit "||~"), (lit "||")
    | |- exists s piece, In (TLeftBracket, s) _ /\ _ => exists (lit "["), (lit "[")
    | |- exists s piece, In (TLeftBracketAnchor, s) _ /\ _ => exists (lit "[#"), (lit "[")
    | |- exists s piece, In (TLeftBracketStar, s) _ /\ _ => exists (lit "[*"), (lit "[")
    | |- exists s piece, In (TLeftBlock, s) _ /\ _ => exists (lit "[["), (lit "[")
    | |- exists s piece, In (TLeftBlockEnd, s) _ /\ _ => exists (lit "[[/"), (lit "[")
    | |- exists s piece, In (TLeftBlockAnchor, s) _ /\ _ => exists (lit "[[#"), (lit "[")
    | |- exists s piece, In (TLeftBlockStar, s) _ /\ _ => exists (lit "[[*"), (lit "[")
    | |- exists s piece, In (TLeftMath, s) _ /\ _ => exists (lit "[[$"), (lit "[")
    | |- exists s piece, In (TLeftLink, s) _ /\ _ => exists (lit "[[["), (lit "[")
    | |- exists s piece, In (TLeftLinkStar, s) _ /\ _ => exists (lit "[[[*"), (lit "[")
    | |- exists s piece, In (TLeftComment, s) _ /\ _ => exists (lit "[!--"), (lit "[")
    end; (split; [cbn; tauto|]); (split; [cbn; tauto|]); exists []; cbn [app]; eexists; reflexivity.
Qed.
Lemma not_barred E toks : extract_all (en_text E) = Some toks -> bracketless (en_text E) -> forall t, In t toks -> barred (t_token t) = false.
Proof.
  intros Ht (H1 & H2 & H3 & H4 & _) t Hi. destruct (barred (t_token t)) eqn:Eb; auto. exfalso. apply barred_symbol in Eb as Hx. destruct Hx as (s & piece & Hs & Hp & Hab).
  assert (X : substr piece (en_text E)).
  { eapply (substr_in_token E toks t piece); eauto; try (intro X; rewrite X in Eb; discriminate). intros s' Hs'. rewrite (symbol_shape _ _ _ Hs' Hs). exact Hab. }
  destruct Hp as [<-|[<-|[<-|[<-|[]]]]]; contradiction.
Qed.
(** Neighbouring tokens. *)
Lemma three_in_text E toks pre a b c post : extract_all (en_text E) = Some toks -> toks = pre ++ a :: b :: c :: post ->
  exists x y, en_text E = x ++ t_slice a ++ t_slice b ++ t_slice c ++ y.
Proof.
  intros Ht H. destruct (toks_spans E toks Ht) as [Hc _]. exists (concat (map t_slice pre)), (concat (map t_slice post)). rewrite <- Hc, H, map_app, concat_app. reflexivity.
Qed.
Lemma shape_blank t c s : shape t (c :: s) -> is_ws c = true -> letters (c :: s) = [].
Proof.
  intros H Hw. destruct (wordy t) eqn:Et; [|eapply shape_silent; eauto].
  remember (c :: s) as w eqn:Ew. destruct H as [t s0 Hi|s0 Hn Hf|scheme s0 Hs Hn Hf|s0 Hn Hf|s0 Hb| | | | | | | | | | |c0 Hn Hi]; try discriminate Et.
  - exfalso. cbn [symbols In] in Hi. repeat (destruct Hi as [Hi|Hi]; [pose proof (f_equal fst Hi) as Hf; cbn [fst] in Hf; subst t; discriminate Et|]). exact Hi.
  - exfalso. subst s0. inversion Hf as [|? ? Hc _]; subst. clear - Hc Hw. unfold is_alnum, is_alpha, is_upper, is_lower, is_digit in Hc. unfold is_ws in Hw.
    rewrite !orb_true_iff, !andb_true_iff, ?N.leb_le, ?N.eqb_eq in *. lia.
  - exfalso. destruct Hs as [<-|[<-|[<-|[]]]]; (injection Ew as <- _; discriminate Hw).
  - exfalso. injection Ew as <- _. discriminate Hw.
  - exfalso. injection Ew as <- _. discriminate Hw.
  - injection Ew as -> <-. apply letters_ws. cbn. rewrite Hw. reflexivity.
Qed.
Lemma shape_nil t : ~ shape t [].
Proof.
  intro H. remember [] as w eqn:Ew. destruct H as [t s0 Hi|s0 Hn Hf|scheme s0 Hs Hn Hf|s0 Hn Hf|s0 Hb|n Hn|n Hn|n Hn|n Hn|n Hn|n Hn|n Hn|s Hn|n s Hl Hn|s Hn Hf|c0 Hn Hi]; try discriminate Ew; try contradiction;
    try (destruct n; [lia|discriminate Ew]).
  - cbn [symbols In] in Hi. repeat (destruct Hi as [Hi|Hi]; [pose proof (f_equal snd Hi) as Hf; cbn [snd] in Hf; rewrite <- Hf in Ew; discriminate Ew|]). exact Hi.
  - destruct Hs as [<-|[<-|[<-|[]]]]; discriminate Ew.
  - subst s. inversion Hn.
  - subst s. inversion Hn; subst; lia.
Qed.
Lemma last_char {A} (P : A -> Prop) s : s <> [] -> Forall P s -> exists a c, s = a ++ [c] /\ P c.
Proof. intros Hn Hf. destruct (exists_last Hn) as (a & c & ->). exists a, c. split; auto. apply Forall_app in Hf as [_ Hf]. inversion Hf; auto. Qed.
Lemma whitespace_shape s : shape TWhitespace s -> s <> [] /\ Forall (fun c => In c [32; 9]%N) s.
Proof.
  intro H. remember TWhitespace as t eqn:Et. destruct H as [t s0 Hi| | | | | | | | | | | | | |s Hn Hf| ]; try discriminate Et; auto.
  exfalso. subst t. cbn [symbols In] in Hi. repeat (destruct Hi as [Hi|Hi]; [discriminate (f_equal fst Hi)|]). exact Hi.
Qed.
Lemma colon_free E toks : extract_all (en_text E) = Some toks -> bracketless (en_text E) ->
  forall pre a b c post, toks = pre ++ a :: b :: c :: post -> t_token a = TWhitespace -> t_token b = TColon -> letters (t_slice c) = [].
Proof.
  intros Ht (_ & _ & _ & _ & H) pre a b c post Heq Ha Hb. pose proof (three_in_text E toks pre a b c post Ht Heq) as (x & y & Hx).
  assert (Ia : In a toks) by (rewrite Heq; apply in_elt). assert (Ib : In b toks) by (rewrite Heq; apply in_or_app; right; cbn; auto).
  assert (Ic : In c toks) by (rewrite Heq; apply in_or_app; right; cbn; auto).
  assert (Sa : shape TWhitespace (t_slice a)) by (rewrite <- Ha; apply (tok_shape E toks Ht); auto; rewrite Ha; discriminate).
  assert (Sb : shape TColon (t_slice b)) by (rewrite <- Hb; apply (tok_shape E toks Ht); auto; rewrite Hb; discriminate).
  apply whitespace_shape in Sa as [Sa1 Sa2]. destruct (last_char _ _ Sa1 Sa2) as (u & w & Hu & Hw). rewrite (symbol_shape _ (lit ":") _ Sb) in Hx by (cbn; tauto). rewrite Hu in Hx.
  destruct (t_slice c) as [|d r] eqn:Ec; auto.
  assert (Hd : is_ws d = true). { apply (H (x ++ u) w d (r ++ y)); auto. rewrite Hx, <- !app_assoc. reflexivity. }
  assert (Sc : shape (t_token c) (t_slice c)).
  { apply (tok_shape E toks Ht); auto; intro X; [rewrite (start_slice E toks Ht) in Ec|rewrite (end_slice E toks Ht) in Ec]; auto; discriminate Ec. }
  rewrite Ec in Sc. eapply shape_blank; eauto.
Qed.
Lemma heading_shape s : shape THeading s -> exists r, s = 43%N :: r.
Proof.
  intro H. remember THeading as t eqn:Et. destruct H as [t s0 Hi| | | | | | | | | |n Hn|n Hn| | | | ]; try discriminate Et.
  - exfalso. subst t. cbn [symbols In] in Hi. repeat (destruct Hi as [Hi|Hi]; [discriminate (f_equal fst Hi)|]). exact Hi.
  - destruct n; [lia|]. cbn. eauto.
  - destruct n; [lia|]. cbn. eauto.
Qed.
Lemma newlines_chars n s : newlines n s -> Forall (fun c => In c [10; 13]%N) s.
Proof. induction 1; repeat (apply Forall_cons; [cbn; tauto|]); auto. Qed.
Lemma break_shape t s : shape t s -> t = TLineBreak \/ t = TParagraphBreak -> s <> [] /\ Forall (fun c => In c [10; 13]%N) s.
Proof.
  intros H Ht. split; [intros ->; eapply shape_nil; eauto|]. destruct H as [t s0 Hi| | | | | | | | | | | |s Hn|n s Hl Hn| | ]; try (destruct Ht; discriminate); try (eapply newlines_chars; eauto; fail).
  exfalso. destruct Ht as [-> | ->]; cbn [symbols In] in Hi; repeat (destruct Hi as [Hi|Hi]; [discriminate (f_equal fst Hi)|]); exact Hi.
Qed.
Lemma no_chain E toks : extract_all (en_text E) = Some toks -> ~ substr [10; 43]%N (en_text E) -> ~ substr [13; 43]%N (en_text E) -> chainless toks.
Proof.
  intros Ht H1 H2 pre a b post Heq Ha Hb. destruct (toks_spans E toks Ht) as [Hc _].
  assert (Ia : In a toks) by (rewrite Heq; apply in_elt). assert (Ib : In b toks) by (rewrite Heq; apply in_or_app; right; cbn; auto).
  assert (Sa : shape (t_token a) (t_slice a)) by (apply (tok_shape E toks Ht); auto; destruct Ha as [-> | ->]; discriminate).
  assert (Sb : shape THeading (t_slice b)) by (rewrite <- Hb; apply (tok_shape E toks Ht); auto; rewrite Hb; discriminate).
  apply heading_shape in Sb as [r Hr]. apply break_shape in Sa as [Sa1 Sa2]; auto. destruct (last_char _ _ Sa1 Sa2) as (u & w & Hu & Hw).
  assert (X : en_text E = (concat (map t_slice pre) ++ u) ++ [w; 43%N] ++ (r ++ concat (map t_slice post))).
  { rewrite <- Hc, Heq, map_app, concat_app. cbn [map concat]. rewrite Hu, Hr, <- !app_assoc. reflexivity. }
  destruct Hw as [<-|[<-|[]]]; [apply H1|apply H2]; exists (concat (map t_slice pre) ++ u), (r ++ concat (map t_slice post)); exact X.
Qed.
Lemma openings_app a b : openings (a ++ b) = openings a + openings b.
Proof. unfold openings. rewrite filter_app, app_length. auto. Qed.
Lemma opener_shape t s : shape t s -> opener t = true -> 1 <= openings s.
Proof.
  intros H Ho. destruct H as [t s0 Hi| | | | | | | | |n Hn|n Hn|n Hn| | | | ]; try discriminate Ho.
  - revert Ho. cbn [symbols In] in Hi. repeat (destruct Hi as [Hi|Hi]; [pose proof (f_equal fst Hi) as Hf; pose proof (f_equal snd Hi) as Hg; cbn [fst snd] in Hf, Hg; rewrite <- Hf, <- Hg; cbn [opener]; try discriminate; intros _; vm_compute; lia|]). destruct Hi.
  - destruct n; [lia|]. change (repeat 62%N (S n)) with ([62%N] ++ repeat 62%N n). rewrite openings_app. change (openings [62%N]) with 1. lia.
  - destruct n; [lia|]. change (repeat 43%N (S n)) with ([43%N] ++ repeat 43%N n). rewrite openings_app. change (openings [43%N]) with 1. lia.
  - destruct n; [lia|]. change (repeat 43%N (S n)) with ([43%N] ++ repeat 43%N n). rewrite <- app_assoc, openings_app. change (openings [43%N]) with 1. lia.
Qed.
Lemma few_openers E toks : extract_all (en_text E) = Some toks -> opc toks <= openings (en_text E).
Proof.
  intro Ht. destruct (toks_spans E toks Ht) as [Hc _]. rewrite <- Hc.
  assert (X : forall ts, incl ts toks -> opc ts <= openings (concat (map t_slice ts))); [|apply X, incl_refl].
  induction ts as [|x ts IH]; intro Hi; [cbn; lia|]. assert (Hx : In x toks) by (apply Hi; cbn; auto). cbn [map concat]. rewrite openings_app.
  specialize (IH (fun y Hy => Hi y (or_intror Hy))). unfold opc in *. cbn [filter]. destruct (opener (t_token x)) eqn:Eo; [|lia]. cbn [length].
  assert (Y : 1 <= openings (t_slice x)); [|lia]. apply (opener_shape (t_token x)); auto. apply (tok_shape E toks Ht); auto; intro Y; rewrite Y in Eo; discriminate.
Qed.
Lemma one_line_letters s : letters (one_line s) = letters s.
Proof.
  induction s as [|c s IH]; auto. unfold one_line in *. cbn [filter]. destruct (ceqb c 10) eqn:Ec; cbn [negb].
  - apply ceqb_eq in Ec. subst c. exact IH.
  - unfold letters in *. cbn [filter]. rewrite IH. reflexivity.
Qed.
Lemma seen_path x e es : seen x e -> In e es -> exists anc, at_path es anc x.
Proof.
  intro Hs. revert es. induction Hs as [|e y Hh Hy Hs IH]; intros es He; [exists []; exact He|]. destruct (IH (children e) Hy) as [anc Ha]. exists (e :: anc). split; auto.
Qed.
Lemma none_covered_here E toks t : parsed E toks t -> ~ substr (lit "[") (en_text E) -> none_covered (tr_elements t).
Proof.
  intros [Ht Hp] Hn e a inside x y He Hs _ _ _. destruct (seen_path _ _ _ Hs He) as [anc Ha].
  pose proof (page_elements E toks Ht t Hp) as H. destruct (okE_path E toks _ _ _ anc _ _ _ H Ha) as [[_ H1] _].
  destruct (H1 eq_refl) as [X|X]; apply Hn; apply (substr_prefix _ (lit "[")); [|apply (substr_prefix _ (lit "*"))];
    [eapply (token_in_text E toks Ht TLeftBlock)|eapply (token_in_text E toks Ht TLeftBlockStar)]; eauto; cbn; tauto.
Qed.

(** C69: every letter and digit of the source is in the plain text of the page, in the same order,
    and there are no others: for sources with no brackets, tables, colours or double parentheses,
    where each colon after a space is followed by a space, and that have either no heading below
    the first line or fewer than a hundred characters markup can start with.  What is missing: those
    kinds of markup, some of which hide text by design. *)
Theorem C69_letters_kept_partial : forall E toks t, parsed E toks t -> bracketless (en_text E) -> few_headings (en_text E) ->
  exists out, text_render (en_site E) (en_date_format E) (tr_elements t) = Some out /\ letters out = letters (en_text E).
Proof.
  intros E toks t Hpt Hb Hf. pose proof Hpt as [Ht Hp]. destruct (C65_page_text E toks t (en_site E) (en_date_format E) Hpt) as [out Ho].
  { intro X. apply (proj1 Hb). apply (substr_prefix _ (lit "[")). exact X. }
  exists out. split; auto. rewrite <- (one_line_letters out).
  rewrite (C65_plain_text_partial _ _ _ _ Ho) by (eapply none_covered_here; [exact Hpt|apply Hb]). rewrite one_line_letters.
  apply (parse_letters E toks Ht (not_barred E toks Ht Hb) (colon_free E toks Ht Hb)); auto.
  destruct Hf as [[H1 H2]|H]; [left; apply (no_chain E); auto|right]. pose proof (few_openers E toks Ht). lia.
Qed.
Print Assumptions C69_letters_kept_partial.
(** The conditions are needed.  A row of a table that does not end is read and then dropped... *)
Theorem C69_table_refuted : exists E toks t out, parsed E toks t /\ text_render (en_site E) (en_date_format E) (tr_elements t) = Some out /\
  substr (lit "lost words") (en_text E) /\ ~ substr (lit "words") out.
Proof.
  enough (X : exists toks t, parsed (test_env (lit "||a||
||lost words

b")) toks t /\ text_render (lit "test") (fun _ => None) (tr_elements t) = Some (lit "a


b")).
  { destruct X as (toks & t & Hp & Ho). do 4 eexists. split; [exact Hp|]. split; [exact Ho|]. split.
    - eexists (lit "||a||
||"), (lit "

b"). reflexivity.
    - intros (a & b & X). apply (f_equal (fun s => existsb (ceqb 119) s)) in X. rewrite !existsb_app in X. cbn in X. rewrite orb_true_r in X. discriminate X. }
  page (lit "||a||
||lost words

b").
Qed.
Print Assumptions C69_table_refuted.
(** ... the word after the second colon of a definition is, when no space comes between... *)
Theorem C69_definition_refuted : exists E toks t out, parsed E toks t /\ text_render (en_site E) (en_date_format E) (tr_elements t) = Some out /\
  en_text E = lit ": apples :pears" /\ letters out = lit "apples".
Proof.
  enough (X : exists toks t, parsed (test_env (lit ": apples :pears")) toks t /\ text_render (lit "test") (fun _ => None) (tr_elements t) = Some (lit "apples ")).
  { destruct X as (toks & t & Hp & Ho). do 4 eexists. split; [exact Hp|]. split; [exact Ho|]. split; reflexivity. }
  page (lit ": apples :pears").
Qed.
Print Assumptions C69_definition_refuted.
(** ... and so is the start of a heading on the line after another one, when markup in it nests a
    hundred deep. *)
Definition deep_heading : str := lit "+ one
+ two" ++ concat (repeat (lit "**//") 50) ++ lit "x" ++ concat (repeat (lit "//**") 50).
Theorem C69_heading_refuted : exists E toks t out, parsed E toks t /\ text_render (en_site E) (en_date_format E) (tr_elements t) = Some out /\
  bracketless (en_text E) /\ letters (en_text E) = lit "onetwox" /\ letters out = lit "onex".
Proof.
  enough (X : exists toks t, parsed (test_env deep_heading) toks t /\ text_render (lit "test") (fun _ => None) (tr_elements t) = Some (lit "one

x**")).
  { destruct X as (toks & t & Hp & Ho). do 4 eexists. split; [exact Hp|]. split; [exact Ho|]. split; [|split; vm_compute; reflexivity].
    change (en_text (test_env deep_heading)) with deep_heading.
    assert (Z : forall c, existsb (ceqb c) deep_heading = false -> forall p, In c p -> ~ substr p deep_heading).
    { intros c Hc p Hp' (a & b & Hx). assert (Hi : In c deep_heading) by (rewrite Hx, !in_app_iff; auto).
      assert (Y : existsb (ceqb c) deep_heading = true); [|rewrite Hc in Y; discriminate]. apply existsb_exists. exists c. split; auto. apply ceqb_eq; auto. }
    unfold bracketless; conj.
    1: apply (Z 91%N); [vm_compute; reflexivity|cbn; auto]. 1: apply (Z 124%N); [vm_compute; reflexivity|cbn; auto].
    1: apply (Z 35%N); [vm_compute; reflexivity|cbn; auto]. 1: apply (Z 40%N); [vm_compute; reflexivity|cbn; auto].
    intros a sp c b Hx _. exfalso. apply (Z 58%N) with (p := [58%N]); [vm_compute; reflexivity|cbn; auto|]. exists (a ++ [sp]), (c :: b). rewrite Hx, <- app_assoc. reflexivity. }
  page deep_heading.
Qed.
Print Assumptions C69_heading_refuted.
(** A page with headings, lists, a quote, a definition, bold text and broken markup. *)
Definition letters_sample : str := lit "+ First heading
+ Second **bold
* one //two//
* three
> quoted -- text

: key : value and **more
50 apples @@raw **text**@@".
Example C69_case : exists toks t, parsed (test_env letters_sample) toks t /\ bracketless (en_text (test_env letters_sample)) /\ few_headings (en_text (test_env letters_sample)) /\
  letters (en_text (test_env letters_sample)) = lit "FirstheadingSecondboldonetwothreequotedtextkeyvalueandmore50applesrawtext".
Proof.
  enough (X : exists toks t, parsed (test_env letters_sample) toks t /\ True).
  { destruct X as (toks & t & Hp & _). exists toks, t. split; [exact Hp|]. change (en_text (test_env letters_sample)) with letters_sample. split; [|split; [right; vm_compute; lia|vm_compute; reflexivity]].
    assert (Z : forall c, existsb (ceqb c) letters_sample = false -> forall p, In c p -> ~ substr p letters_sample).
    { intros c Hc p Hp' (a & b & Hx). assert (Hi : In c letters_sample) by (rewrite Hx, !in_app_iff; auto).
      assert (Y : existsb (ceqb c) letters_sample = true); [|rewrite Hc in Y; discriminate]. apply existsb_exists. exists c. split; auto. apply ceqb_eq; auto. }
    unfold bracketless; conj.
    1: apply (Z 91%N); [vm_compute; reflexivity|cbn; auto]. 1: apply (Z 124%N); [vm_compute; reflexivity|cbn; auto].
    1: apply (Z 35%N); [vm_compute; reflexivity|cbn; auto]. 1: apply (Z 40%N); [vm_compute; reflexivity|cbn; auto].
    assert (W : forall s, (fix go s := match s with a :: ((x :: c :: _) as r) => (if ceqb x 58 && (ceqb a 32 || ceqb a 9) then is_ws c else true) && go r | _ => true end) s = true ->
      forall a sp c b, s = a ++ [sp; 58%N; c] ++ b -> In sp [32; 9]%N -> is_ws c = true).
    { induction s as [|x s IH]; intros Hs a sp c b Hx Hsp; [destruct a; discriminate Hx|]. destruct a as [|y a].
      - cbn in Hx. injection Hx as -> ->. apply andb_prop in Hs as [Hs _]. destruct Hsp as [<-|[<-|[]]]; exact Hs.
      - cbn [app] in Hx. injection Hx as <- Hx. destruct s as [|z s]; [destruct a; discriminate Hx|]. destruct s as [|w s]; [destruct a as [|? [|? a]]; discriminate Hx|].
        apply andb_prop in Hs as [_ Hs]. exact (IH Hs a sp c b Hx Hsp). }
    apply W. vm_compute. reflexivity. }
  page letters_sample.
Qed.

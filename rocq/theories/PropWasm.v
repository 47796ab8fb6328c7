(** PropWasm.v -- property C73: positions handed to JavaScript select the same text. *)
From Verif Require Import Base BaseLemmas Strings SpecStrings StringsLemmas PropStrings Lexer SpecLexer LexerLemmas PropLexer Depth Tree Text PState Blocks Rules Parse SpecParse SpecPage ParseInv ParseLemmas ParseTestEnv PropParse Wasm SpecJs.

Lemma js_app a b : js_string (a ++ b) = js_string a ++ js_string b. Proof. apply flat_map_app. Qed.
Lemma js_length s : length (js_string s) = len16 s.
Proof.
  induction s as [|c s IH]; auto. cbn [js_string flat_map len16]. rewrite app_length. fold (js_string s). rewrite IH. f_equal.
  unfold js_char, utf16_len. destruct (c <? 65536)%N; reflexivity.
Qed.
Lemma js_slice_middle pre mid post : js_slice (js_string (pre ++ mid ++ post)) (len16 pre) (len16 (pre ++ mid)) = js_string mid.
Proof.
  unfold js_slice. rewrite !js_app, len16_app, <- !js_length. replace (length (js_string pre) + length (js_string mid) - length (js_string pre)) with (length (js_string mid)) by lia.
  rewrite skipn_app, skipn_all, Nat.sub_diag. cbn [skipn app]. rewrite firstn_app, firstn_all, Nat.sub_diag. cbn [firstn]. apply app_nil_r.
Qed.
Lemma map_all_spec {A B} (f : A -> option B) (P : A -> B -> Prop) l : (forall x, In x l -> exists y, f x = Some y /\ P x y) ->
  exists l', map_all f l = Some l' /\ Forall2 P l l'.
Proof.
  induction l as [|x l IH]; intro H; cbn [map_all]; [eexists; split; [reflexivity|constructor]|].
  destruct (H x) as (y & -> & Hy); [left; auto|]. destruct IH as (l' & -> & Hl); [intros z Hz; apply H; right; auto|]. eexists. split; [reflexivity|]. constructor; auto.
Qed.
(** C73: JavaScript, given the text as its own kind of string, finds each token's text between the
    positions it is told. *)
Theorem C73_token_positions : forall text z, text <> [] -> tokenize text = Some z ->
  exists ts, convert_tokens_utf16 z = Some ts /\
  Forall2 (fun t t' => t_token t' = t_token t /\ t_slice t' = t_slice t /\ t_start t' <= t_end t' <= length (js_string text) /\
    js_slice (js_string text) (t_start t') (t_end t') = js_string (t_slice t)) (tz_tokens z) ts.
Proof.
  intros text z Hne Hz. apply map_all_spec. intros t Ht.
  destruct (C14_tokens_to_utf16 text z t Hne Hz Ht) as (pre & mid & post & -> & _ & _ & Hs & Hu).
  assert (Et : tz_text z = pre ++ mid ++ post). { unfold tokenize in Hz. destruct (extract_all _); [|discriminate]. injection Hz as <-. reflexivity. }
  rewrite Et, Hu. eexists. split; [reflexivity|]. cbn [t_token t_slice t_start t_end]. rewrite js_slice_middle, js_length, !len16_app, Hs.
  conj; auto; lia.
Qed.
Print Assumptions C73_token_positions.
(** On the empty text asking for the tokens panics. *)
Theorem C73_empty_tokens_refuted : exists z, tokenize [] = Some z /\ convert_tokens_utf16 z = None.
Proof. eexists. split; [vm_compute; reflexivity|]. vm_compute. reflexivity. Qed.
Print Assumptions C73_empty_tokens_refuted.
(** Nothing is wrong with an empty text. *)
Lemma no_errors_on_empty E t : en_text E = [] -> parse E [XT TInputStart [] 0 0; XT TInputEnd [] 0 0] = Parsed t -> tr_errors t = [].
Proof.
  destruct E as [text a1 a2 a3 a4 a5 a6 a7 a8 a9 a10 a11 a12 a13 a14]. cbn [en_text]. intros ->. vm_compute. intros [= <-]. reflexivity.
Qed.
(** ... nor does the parser's list of errors: it converts for every text, and each error selects the
    text of a token of the kind it names. *)
Theorem C73_error_positions : forall E toks t, parsed E toks t ->
  exists es, convert_errors_utf16 (Tokenization toks (en_text E)) (tr_errors t) = Some es /\
  Forall2 (fun e e' => pe_kind e' = pe_kind e /\ pe_rule e' = pe_rule e /\ pe_token e' = pe_token e /\
    exists tk, In tk toks /\ t_token tk = pe_token e /\ t_start tk = pe_start e /\ t_end tk = pe_end e /\
      pe_start e' <= pe_end e' <= length (js_string (en_text E)) /\
      js_slice (js_string (en_text E)) (pe_start e') (pe_end e') = js_string (t_slice tk)) (tr_errors t) es.
Proof.
  intros E toks t Hpt. pose proof Hpt as [Ht Hp]. pose proof (C37_errors_genuine E toks t Hpt) as Hg.
  destruct (en_text E) as [|ch text'] eqn:Et.
  - assert (toks = [XT TInputStart [] 0 0; XT TInputEnd [] 0 0]) as -> by (vm_compute in Ht; congruence).
    rewrite (no_errors_on_empty E t Et Hp). exists []. split; [reflexivity|constructor].
  - rewrite <- Et in *. assert (Hz : tokenize (en_text E) = Some (Tokenization toks (en_text E))) by (unfold tokenize; rewrite Ht; reflexivity).
    assert (Hne : en_text E <> []) by (rewrite Et; discriminate).
    unfold convert_errors_utf16. rewrite Forall_forall in Hg.
    enough (X : exists es, map_all (error_to_utf16 (utf16_new (en_text E))) (tr_errors t) = Some es /\
      Forall2 (fun e e' => pe_kind e' = pe_kind e /\ pe_rule e' = pe_rule e /\ pe_token e' = pe_token e /\
    exists tk, In tk toks /\ t_token tk = pe_token e /\ t_start tk = pe_start e /\ t_end tk = pe_end e /\
      pe_start e' <= pe_end e' <= length (js_string (en_text E)) /\
      js_slice (js_string (en_text E)) (pe_start e') (pe_end e') = js_string (t_slice tk)) (tr_errors t) es).
    { cbn [tz_text]. destruct (tr_errors t); [exists []; split; [reflexivity|constructor]|exact X]. }
    apply map_all_spec. intros e He. destruct (Hg e He) as (tk & Hin & E1 & E2 & E3).
    destruct (C14_tokens_to_utf16 (en_text E) _ tk Hne Hz Hin) as (pre & mid & post & Hx & _ & _ & Hs & Hu).
    unfold error_to_utf16. rewrite E2, E3. unfold to_utf16_indices in Hu.
    destruct (get_index _ (t_start tk)) as [a|]; [|discriminate]. destruct (get_index _ (t_end tk)) as [b|]; [|discriminate]. injection Hu as _ -> ->.
    eexists. split; [reflexivity|]. cbn [pe_kind pe_rule pe_token pe_start pe_end]. conj; auto. exists tk. rewrite Hs, Hx, js_slice_middle, js_length, !len16_app. conj; auto; lia.
Qed.
Print Assumptions C73_error_positions.
(** A character outside the basic plane before the trouble: JavaScript counts it twice. *)
Definition js_page : str := 128512%N :: lit " ]] b".
Example C73_case : exists toks t, parsed (test_env js_page) toks t /\
  option_map (map (fun e => (pe_kind e, pe_start e, pe_end e))) (convert_errors_utf16 (Tokenization toks js_page) (tr_errors t)) = Some [(NoRulesMatch, 3, 5)] /\
  js_slice (js_string js_page) 3 5 = js_string (lit "]]").
Proof.
  enough (X : exists toks t, parsed (test_env js_page) toks t /\
    (option_map (map (fun e => (pe_kind e, pe_start e, pe_end e))) (convert_errors_utf16 (Tokenization [] js_page) (tr_errors t)) = Some [(NoRulesMatch, 3, 5)] /\
     js_slice (js_string js_page) 3 5 = js_string (lit "]]"))) by exact X.
  page js_page.
Qed.

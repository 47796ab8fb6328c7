(** PropLexer.v -- properties C09, C10, C11, C12, C14 of the tokenizer. *)
From Verif Require Import Base BaseLemmas Strings SpecStrings StringsLemmas Peg PegLemmas Lexer SpecLexer LexerLemmas.

(** C09: the tokens are InputStart, then contiguous non-empty tokens covering the text exactly, each
    slice being the text of its span, then InputEnd. *)
Theorem C09_tokens_partition : forall text, exists mid,
  tokenize text =
    Some (Tokenization (XT TInputStart [] 0 0 :: mid ++ [XT TInputEnd [] (blen text) (blen text)]) text) /\
  contiguous 0 mid (blen text) /\
  concat (map t_slice mid) = text /\
  Forall (fun t => bslice text (t_start t) (t_end t) = Some (t_slice t)) mid.
Proof.
  intros text. destruct (extract_all_spec text) as (mid & He & Hct & Hcc & _ & _).
  exists mid. unfold tokenize. rewrite He. split; auto. split; auto. split; auto.
  apply Forall_forall. intros t Ht. pose proof (contiguous_slices _ _ _ Hct [] [] eq_refl t Ht) as H.
  rewrite app_nil_r in H. rewrite <- Hcc. exact H.
Qed.
Print Assumptions C09_tokens_partition.
Example C09_case : option_map (fun z => map (fun t => (t_token t, t_start t, t_end t)) (tz_tokens z)) (tokenize (lit "a ]]]] " ++ [233%N])) =
  Some [(TInputStart, 0, 0); (TIdentifier, 0, 1); (TWhitespace, 1, 2); (TRightLink, 2, 5); (TRightBracket, 5, 6);
        (TWhitespace, 6, 7); (TOther, 7, 9); (TInputEnd, 9, 9)].
Proof. vm_compute. reflexivity. Qed.
(** Slicing the full text between two tokens in order always works. *)
Theorem C09_slice_between_tokens : forall text z a b ts1 ts2 ts3, tokenize text = Some z ->
  tz_tokens z = ts1 ++ a :: ts2 ++ b :: ts3 ->
  full_slice text a b = Some (t_slice a ++ concat (map t_slice ts2) ++ t_slice b) /\
  partial_slice text a b = Some (t_slice a ++ concat (map t_slice ts2)).
Proof.
  intros text z a b ts1 ts2 ts3 Hz Hts.
  destruct (extract_all_spec text) as (mid & He & Hct & Hcc & _ & _).
  unfold tokenize in Hz. rewrite He in Hz. injection Hz as <-. simpl in Hts.
  (* every token of the whole list starts where the concatenation of the earlier slices ends *)
  set (all := XT TInputStart [] 0 0 :: mid ++ [XT TInputEnd [] (blen text) (blen text)]) in *.
  assert (Hpos : forall pre t post, all = pre ++ t :: post ->
    t_start t = blen (concat (map t_slice pre)) /\ t_end t = t_start t + blen (t_slice t)).
  { assert (G : forall k ms e, contiguous k ms e -> forall pre t post, ms ++ [XT TInputEnd [] e e] = pre ++ t :: post ->
        t_start t = k + blen (concat (map t_slice pre)) /\ t_end t = t_start t + blen (t_slice t)).
    { induction 1 as [k|k t0 ms e H1 H2 H3 H IH]; intros pre t post E.
      - destruct pre as [|p pre]; [|destruct pre; discriminate]. injection E as <- _. simpl. split; lia.
      - destruct pre as [|p pre].
        + injection E as <- _. simpl. split; lia.
        + injection E as <- E. apply IH in E. destruct E as [E1 E2]. split; auto. simpl. rewrite blen_app. lia. }
    intros pre t post E. destruct pre as [|p pre].
    - injection E as <- _. simpl. auto.
    - injection E as <- E. apply (G 0 mid (blen text) Hct) in E. simpl. auto. }
  assert (Hcat : concat (map t_slice all) = text).
  { unfold all. simpl. rewrite map_app, concat_app. simpl. rewrite app_nil_r. auto. }
  pose proof (Hpos ts1 a (ts2 ++ b :: ts3) Hts) as [Ha1 Ha2].
  assert (E2 : all = (ts1 ++ a :: ts2) ++ b :: ts3) by (rewrite <- app_assoc; exact Hts).
  destruct (Hpos _ _ _ E2) as [Hb1 Hb2]. rewrite map_app, concat_app in Hb1. simpl in Hb1. rewrite !blen_app in Hb1.
  rewrite Hts in Hcat. rewrite map_app, concat_app in Hcat. simpl in Hcat. rewrite map_app, concat_app in Hcat. simpl in Hcat.
  unfold full_slice, partial_slice, slice_impl. split.
  - rewrite (proj2 (Nat.ltb_ge _ _)) by lia.
    replace text with (concat (map t_slice ts1) ++ (t_slice a ++ concat (map t_slice ts2) ++ t_slice b) ++ concat (map t_slice ts3)).
    2:{ rewrite <- Hcat, <- !app_assoc. reflexivity. }
    replace (t_end b) with (t_start a + blen (t_slice a ++ concat (map t_slice ts2) ++ t_slice b)) by (rewrite !blen_app; lia).
    rewrite Ha1. apply bslice_app.
  - rewrite (proj2 (Nat.ltb_ge _ _)) by lia.
    replace text with (concat (map t_slice ts1) ++ (t_slice a ++ concat (map t_slice ts2)) ++ (t_slice b ++ concat (map t_slice ts3))).
    2:{ rewrite <- Hcat, <- !app_assoc. reflexivity. }
    replace (t_start b) with (t_start a + blen (t_slice a ++ concat (map t_slice ts2))) by (rewrite !blen_app; lia).
    rewrite Ha1. apply bslice_app.
Qed.
Print Assumptions C09_slice_between_tokens.

(** C10: the grammar accepts every text, every pair maps to a token, and every repetition in it
    consumes input, so tokenizing never falls back, panics or loops. *)
Theorem C10_lexer_accepts_everything : forall text, exists ps,
  run g_document 0 text = Some (ps, text, []) /\ convert_pairs ps <> None.
Proof.
  intros text. unfold g_document.
  destruct (run (PStar g_token) 0 text) as [[[ps m] r]|] eqn:E; [|cbn [run] in E; discriminate].
  pose proof (run_split _ _ _ _ _ _ E) as Hs.
  assert (Heq : run (PSeq (PStar g_token) (PRule R_EOI PEnd)) 0 text =
    match run (PRule R_EOI PEnd) (0 + blen m) r with Some (p2, m2, r2) => Some (ps ++ p2, m ++ m2, r2) | None => None end).
  { cbn [run] in E |- *. destruct (star (run g_token) _ _ _) as [[? ?] ?]. injection E as -> -> ->. reflexivity. }
  rewrite Heq. apply run_star_rel in E; [|apply token_nonempty]. apply lex_star in E.
  destruct E as (-> & ts & Hc & _). rewrite app_nil_r in Hs. subst m. cbn [run]. rewrite app_nil_r.
  eexists. split; [reflexivity|]. rewrite convert_pairs_app, Hc. discriminate.
Qed.
Print Assumptions C10_lexer_accepts_everything.
Theorem C10_repetitions_make_progress :
  Forall nonempty [g_token; g_nonspace; g_char; NEWLINE; PAlt (PStr [32%N]) (PStr [9%N]);
                   PAlt ASCII_ALPHANUMERIC ASCII_DIGIT; PStr [126%N]; PStr [45%N]; PStr [62%N];
                   PSeq (PNot (PAlts [NEWLINE; PStr [32%N]; PStr [124%N]; PStr [91%N]; PStr [93%N]])) ANY].
Proof.
  assert (Hset : forall (g : peg rule) (f : N -> bool),
    (forall (pos : nat) (s : str), run g pos s = match s with c :: r => if f c then Some ([], [c], r) else None | [] => None end) -> nonempty g).
  { intros g f Hg pos s ps m r H. rewrite Hg in H. destruct s as [|c s]; [discriminate|]. destruct (f c); congruence. }
  repeat apply Forall_cons; try apply Forall_nil.
  - apply token_nonempty.
  - eapply (Hset _ nonspace). unfold g_nonspace. apply run_not_any. apply nonspace_stop.
  - intros pos s ps m r H. apply g_char_inv in H. destruct H as (_ & [(c & -> & _)|(c & -> & _)]); discriminate.
  - intros pos s ps m r H. apply newline_inv in H. destruct H as (_ & _ & [->|[->|[-> _]]]); discriminate.
  - intros pos s ps m r H. apply run_alt_inv in H. destruct H as [H|[_ H]]; apply run_str_inv in H; destruct H as (_ & -> & _); discriminate.
  - intros pos s ps m r H. apply run_alt_inv in H. destruct H as [H|[_ H]]; apply run_set_inv in H; destruct H as (? & _ & _ & -> & _); discriminate.
  - intros pos s ps m r H. apply run_str_inv in H; destruct H as (_ & -> & _); discriminate.
  - intros pos s ps m r H. apply run_str_inv in H; destruct H as (_ & -> & _); discriminate.
  - intros pos s ps m r H. apply run_str_inv in H; destruct H as (_ & -> & _); discriminate.
  - eapply (Hset _ url_char). apply run_not_any. apply url_stop.
Qed.
Print Assumptions C10_repetitions_make_progress.
Example C10_case : run g_document 0 (lit "x@") = Some ([Pair R_identifier 0 (lit "x") []; Pair R_other 1 (lit "@") []; Pair R_EOI 2 [] []], lit "x@", []).
Proof. vm_compute. reflexivity. Qed.

(** C11: every token between the two sentinels has the text its kind requires; that text determines
    the kind; and the repetitive kinds are as long as they can be. *)
Theorem C11_token_shapes : forall text z t, tokenize text = Some z -> In t (tz_tokens z) ->
  t_token t = TInputStart \/ t_token t = TInputEnd \/ shape (t_token t) (t_slice t).
Proof.
  intros text z t Hz Ht. destruct (extract_all_spec text) as (mid & He & _ & _ & Hs & _).
  unfold tokenize in Hz. rewrite He in Hz. injection Hz as <-. simpl in Ht. destruct Ht as [<-|Ht]; auto.
  apply in_app_or in Ht. destruct Ht as [Ht|[<-|[]]]; auto. right; right. rewrite Forall_forall in Hs. auto.
Qed.
Print Assumptions C11_token_shapes.
Theorem C11_text_determines_kind : forall t t' s, shape t s -> shape t' s -> t = t'.
Proof. intros t t' s H H'. apply kind_spec in H, H'. congruence. Qed.
Print Assumptions C11_text_determines_kind.
Theorem C11_longest : forall text z ts1 a b ts2, tokenize text = Some z ->
  tz_tokens z = ts1 ++ a :: b :: ts2 -> ~ In (t_token a, t_token b) never_adjacent.
Proof.
  intros text z ts1 a b ts2 Hz Hts. destruct (extract_all_spec text) as (mid & He & _ & _ & _ & Hc).
  unfold tokenize in Hz. rewrite He in Hz. injection Hz as <-. simpl in Hts.
  destruct ts1 as [|t0 ts1]; simpl in Hts; injection Hts as <- Hts; [simpl; intuition discriminate|].
  clear He. revert ts1 Hts. induction Hc as [|t|t u ts Hn _ Hc IH]; intros ts1 Hts.
  - destruct ts1 as [|? [|? ?]]; discriminate.
  - destruct ts1 as [|t1 ts1]; simpl in Hts.
    + injection Hts as <- <- _. simpl. intuition discriminate.
    + injection Hts as <- Hts. destruct ts1 as [|? [|? ?]]; discriminate.
  - destruct ts1 as [|t1 ts1]; simpl in Hts.
    + injection Hts as <- <- _. exact Hn.
    + injection Hts as <- Hts. eapply IH. exact Hts.
Qed.
Print Assumptions C11_longest.
(** ... and two equal marks in a row are never read as two tokens. *)
Theorem C11_doubled : forall text z ts1 a b ts2 c v, tokenize text = Some z ->
  tz_tokens z = ts1 ++ a :: b :: ts2 -> In c doubled -> t_slice a = [c] -> t_slice b <> c :: v.
Proof.
  intros text z ts1 a b ts2 c v Hz Hts Hd Ha. destruct (extract_all_spec text) as (mid & He & _ & _ & _ & Hc).
  unfold tokenize in Hz. rewrite He in Hz. injection Hz as <-. simpl in Hts.
  destruct ts1 as [|t0 ts1]; simpl in Hts; injection Hts as <- Hts; [discriminate|].
  clear He. revert ts1 Hts. induction Hc as [|t|t u ts _ Hn Hc IH]; intros ts1 Hts.
  - destruct ts1 as [|? [|? ?]]; discriminate.
  - destruct ts1 as [|t1 ts1]; simpl in Hts.
    + injection Hts as <- <- _. discriminate.
    + injection Hts as <- Hts. destruct ts1 as [|? [|? ?]]; discriminate.
  - destruct ts1 as [|t1 ts1]; simpl in Hts.
    + injection Hts as <- <- _. exact (Hn c v Hd Ha).
    + injection Hts as <- Hts. eapply IH. exact Hts.
Qed.
Print Assumptions C11_doubled.
Example C11_case : option_map (fun z => map t_token (tz_tokens z)) (tokenize ([10; 13; 10; 32; 9; 43; 43; 42; 45; 45; 45; 45]%N)) =
  Some [TInputStart; TParagraphBreak; TWhitespace; THeading; TTripleDash; TInputEnd].
Proof. vm_compute. reflexivity. Qed.

(** C12 is false: the lexer has an email rule but no text whatsoever makes it produce an Email
    token, because the first repetition of the rule swallows the @ sign. *)
Theorem C12_email_tokens_refuted : forall text z t, tokenize text = Some z -> In t (tz_tokens z) -> t_token t <> TEmail.
Proof.
  intros text z t Hz Ht E. destruct (C11_token_shapes text z t Hz Ht) as [H|[H|H]]; try congruence.
  rewrite E in H. inversion H as [k s Hk| | | | | | | | | | | | | | | ]; subst. simpl in Hk.
  repeat (destruct Hk as [Hk|Hk]; [discriminate|]). contradiction.
Qed.
Print Assumptions C12_email_tokens_refuted.
Example C12_case : option_map (fun z => map t_token (tz_tokens z)) (tokenize (lit "user@example.com")) =
  Some [TInputStart; TIdentifier; TOther; TIdentifier; TOther; TIdentifier; TInputEnd].
Proof. vm_compute. reflexivity. Qed.

(** C14, tokens: for a non-empty text every token converts, to the numbers of UTF-16 code units
    before its start and before its end. *)
Theorem C14_tokens_to_utf16 : forall text z t, text <> [] -> tokenize text = Some z -> In t (tz_tokens z) ->
  exists pre mid post, text = pre ++ mid ++ post /\ t_start t = blen pre /\ t_end t = blen (pre ++ mid) /\ t_slice t = mid /\
    to_utf16_indices (utf16_new text) t = Some (XT (t_token t) mid (len16 pre) (len16 (pre ++ mid))).
Proof.
  intros text z t Hne Hz Ht. destruct (extract_all_spec text) as (mid & He & Hct & Hcc & _ & _).
  unfold tokenize in Hz. rewrite He in Hz. injection Hz as <-. simpl in Ht.
  assert (G : exists pre m post, text = pre ++ m ++ post /\ t_start t = blen pre /\ t_end t = blen (pre ++ m) /\ t_slice t = m).
  { destruct Ht as [<-|Ht]; [exists [], [], text; auto|].
    apply in_app_or in Ht. destruct Ht as [Ht|[<-|[]]].
    - destruct (contiguous_boundary _ _ _ Hct [] [] eq_refl t Ht) as (p & (q & Hp) & H1 & H2).
      rewrite app_nil_r in Hp. simpl in Hp. rewrite Hcc in Hp. exists p, (t_slice t), q. auto.
    - exists text, [], []. simpl. rewrite app_nil_r. auto. }
  destruct G as (pre & m & post & -> & H1 & H2 & H3). exists pre, m, post. repeat split; auto.
  unfold to_utf16_indices. rewrite H1, H2, H3.
  rewrite (utf16_exact (pre ++ m ++ post) pre (blen pre)); auto; [|exists (m ++ post); auto].
  rewrite (utf16_exact (pre ++ m ++ post) (pre ++ m) (blen (pre ++ m))); auto.
  exists post. rewrite <- app_assoc. auto.
Qed.
Print Assumptions C14_tokens_to_utf16.
(** ... but for the empty text every token panics. *)
Theorem C14_empty_text_refuted : exists z, tokenize [] = Some z /\
  Forall (fun t => to_utf16_indices (utf16_new []) t = None) (tz_tokens z).
Proof. eexists. split; [vm_compute; reflexivity|]. repeat constructor. Qed.
Print Assumptions C14_empty_text_refuted.
Example C14_case : (* e-acute, then bold *)
  option_map (fun z => map (to_utf16_indices (utf16_new (233%N :: lit "**"))) (tz_tokens z)) (tokenize (233%N :: lit "**")) =
  Some [Some (XT TInputStart [] 0 0); Some (XT TOther [233%N] 0 1); Some (XT TBold (lit "**") 1 3); Some (XT TInputEnd [] 3 3)].
Proof. vm_compute. reflexivity. Qed.

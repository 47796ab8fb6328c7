(** PropStrings.v -- properties C13, C28, C29, C31, C32, C33, C45 of the string helpers. *)
From Verif Require Import Base BaseLemmas Strings SpecStrings StringsLemmas.

(** C13: for every character boundary of a non-empty text the index map gives the number of UTF-16
    code units before it, and any other index panics ([None]). *)
Theorem C13_utf16_index_exact : forall text, text <> [] ->
  (forall pre b, boundary text pre b -> get_index (utf16_new text) b = Some (len16 pre)) /\
  (forall b, (forall pre, ~ boundary text pre b) -> get_index (utf16_new text) b = None).
Proof. intros text H. split; intros; [eapply utf16_exact|apply utf16_panics]; eauto. Qed.
Print Assumptions C13_utf16_index_exact.
Example C13_case :  (* "a" U+1F600 e-acute: boundaries 0 1 5 7 *)
  map (get_index (utf16_new [97; 128512; 233]%N)) [0; 1; 2; 5; 7; 8] =
  [Some 0; Some 1; None; Some 3; Some 4; None].
Proof. reflexivity. Qed.
(** The empty text is excluded for a reason: even index 0, the only boundary, panics. *)
Theorem C13_empty_text_panics : forall i, get_index (utf16_new []) i = None.
Proof. exact utf16_empty. Qed.
Print Assumptions C13_empty_text_panics.

(** C28: the result is the ids of the input, in order, each prefixed unless it already is, joined
    by single spaces; and isolating twice changes nothing. *)
Theorem C28_ids_isolated : forall s ws, words is_ws s ws ->
  exists ws', Forall2 isolated_id ws ws' /\ isolate_ids s = join [32%N] ws'.
Proof.
  intros s ws H. exists (map iso ws). split; [|apply isolate_words; auto].
  clear H. induction ws; constructor; auto. apply iso_isolated.
Qed.
Print Assumptions C28_ids_isolated.
Theorem C28_words_exist : forall s, exists ws, words is_ws s ws.
Proof. intro. apply words_total. Qed.
Print Assumptions C28_words_exist.
Theorem C28_ids_isolated_idempotent : forall s, isolate_ids (isolate_ids s) = isolate_ids s.
Proof. exact isolate_idem. Qed.
Print Assumptions C28_ids_isolated_idempotent.
Example C28_case : isolate_ids (lit "  apple u-banana  u cherry ") = lit "u-apple u-banana u-u u-cherry".
Proof. reflexivity. Qed.

(** C29: escaped text has no markup characters, every ampersand in it starts an entity, and it
    decodes to the input (NUL as space). *)
Theorem C29_escape_safe : forall s, Forall (fun c => ~ In c [60; 62; 34; 39; 0]%N) (escape s).
Proof. exact escape_safe. Qed.
Print Assumptions C29_escape_safe.
Theorem C29_escape_ampersands : forall s a b, escape s = a ++ 38%N :: b ->
  exists e r, In e entities /\ 38%N :: b = e ++ r.
Proof. exact escape_amp. Qed.
Print Assumptions C29_escape_ampersands.
Theorem C29_escape_lossless : forall s, html_decode (escape s) = nul_to_space s.
Proof. exact escape_decode. Qed.
Print Assumptions C29_escape_lossless.
Example C29_case : escape (lit "<a href='x&amp;'>" ++ [0; 34]%N)
  = lit "&lt;a href=&#39;x&amp;amp;&#39;&gt; &quot;".
Proof. reflexivity. Qed.

(** C31: a quoted string decodes (unknown escapes verbatim), in particular quoting then parsing is
    the identity; anything else is returned unchanged; no input panics. *)
Theorem C31_quoted_string_decodes : forall m t, decodes m t -> parse_string (34%N :: m ++ [34%N]) = Some t.
Proof. exact parse_string_decodes. Qed.
Print Assumptions C31_quoted_string_decodes.
Theorem C31_quote_parse_roundtrip : forall t, parse_string (34%N :: quote_inside t ++ [34%N]) = Some t.
Proof. intro t. apply parse_string_decodes, quote_decodes. Qed.
Print Assumptions C31_quote_parse_roundtrip.
Theorem C31_unquoted_unchanged : forall s, (forall m, s <> 34%N :: m ++ [34%N]) -> parse_string s = Some s.
Proof. intros s H. unfold parse_string. rewrite slice_middle_unquoted; auto. Qed.
Print Assumptions C31_unquoted_unchanged.
(** What happens to a lone backslash at the very end of the quoted part: it is dropped. *)
Theorem C31_trailing_backslash_dropped : forall m t, decodes m t ->
  parse_string (34%N :: (m ++ [92%N]) ++ [34%N]) = Some t.
Proof. exact parse_string_trailing. Qed.
Print Assumptions C31_trailing_backslash_dropped.
(** These cover all inputs: parse_string never panics. *)
Theorem C31_total : forall s, exists t, parse_string s = Some t.
Proof.
  intro s. destruct s as [|c r]; [eexists; reflexivity|].
  destruct (N.eq_dec c 34) as [->|Hc].
  - destruct r as [|x r] using rev_ind.
    + eexists. reflexivity.
    + destruct (N.eq_dec x 34) as [->|Hx].
      * destruct (decodes_total _ r (le_n _)) as [[t Hd]|(m' & t & -> & Hd)].
        -- eexists. apply parse_string_decodes; eauto.
        -- eexists. apply parse_string_trailing; eauto.
      * eexists. apply C31_unquoted_unchanged. intros m E. injection E as E.
        apply app_inj_tail in E as [_ ->]. auto.
  - eexists. apply C31_unquoted_unchanged. intros m E. congruence.
Qed.
Print Assumptions C31_total.
Example C31_case : parse_string ([34%N] ++ lit "a\n\x\\" ++ [34%N]) = Some (lit "a" ++ [10%N] ++ lit "\x\").
Proof. reflexivity. Qed.

(** C32: exactly the eight words, any ASCII case, surrounded by any white space. *)
Theorem C32_boolean : forall s b, parse_boolean s = Some b <->
  exists l core r, s = l ++ core ++ r /\ Forall (fun c => is_ws c = true) l /\ Forall (fun c => is_ws c = true) r /\
    In (slower core) (if b then [lit "true"; lit "t"; lit "1"; lit "yes"]
                      else [lit "false"; lit "f"; lit "0"; lit "no"]).
Proof.
  intros s b. unfold parse_boolean. rewrite bool_lookup_spec.
  2: { intros n1 b1 n2 b2 H1 H2. simpl in H1, H2.
       repeat (destruct H1 as [[= <- <-]|H1]; [|]); try contradiction;
       repeat (destruct H2 as [[= <- <-]|H2]; [|]); try contradiction; intro E; auto; discriminate E. }
  assert (K : forall core, (exists n, In (n, b) BOOL_NAMES /\ slower n = slower core) <->
     In (slower core) (if b then [lit "true"; lit "t"; lit "1"; lit "yes"] else [lit "false"; lit "f"; lit "0"; lit "no"])).
  { intro core. split.
    - intros (n & Hin & <-). simpl in Hin.
      repeat (destruct Hin as [[= <- <-]|Hin]; [vm_compute; auto 10|]). contradiction.
    - intro H. destruct b; simpl in H.
      all: destruct H as [<-|[<-|[<-|[<-|[]]]]]; match goal with |- exists n, _ /\ slower n = ?w => exists w end; (split; [vm_compute; auto 20|reflexivity]). }
  destruct (trim_spec s) as (pa & pc & Etr & Ha & Hc). split.
  - intro H. apply K in H. exists pa, (trim s), pc. rewrite !Forall_forall.
    rewrite forallb_forall in Ha, Hc. auto.
  - intros (l & core & r & -> & Hl & Hr & H). clear Etr Ha Hc pa pc. apply K. 
    enough (trim (l ++ core ++ r) = core) as -> by exact H.
    rewrite Forall_forall in Hl, Hr. rewrite <- forallb_forall in Hl, Hr.
    assert (Hx : forall c, In c core -> is_ws c = false).
    { intros c Hin. apply (in_map lower) in Hin. fold (slower core) in Hin.
      assert (Hc' : is_ws c = is_ws (lower c)).
      { unfold lower. destruct (is_upper c) eqn:Eu; auto. unfold is_upper in Eu.
        apply andb_true_iff in Eu as [E1 E2]. apply N.leb_le in E1, E2.
        assert (Hc1 : is_ws c = false).
        { unfold is_ws. repeat (apply orb_false_iff; split); try apply andb_false_iff;
          rewrite ?N.leb_gt, ?N.eqb_neq; lia. }
        rewrite Hc1. symmetry. unfold is_ws. repeat (apply orb_false_iff; split); try apply andb_false_iff;
          rewrite ?N.leb_gt, ?N.eqb_neq; lia. }
      rewrite Hc'. clear Hc'. destruct b; cbn [In] in H;
        destruct H as [H|[H|[H|[H|[]]]]]; rewrite <- H in Hin; clear H K Hl Hr; simpl in Hin; repeat (destruct Hin as [Hin|Hin]; [rewrite <- Hin; reflexivity|]); contradiction. }
    apply trim_unique; auto.
    + intros c t ->. apply Hx. left; auto.
    + intros c t ->. apply Hx. apply in_app_iff. right; left; auto.
    + intros ->. destruct b; cbn in H; intuition discriminate.
Qed.
Print Assumptions C32_boolean.
Example C32_case : parse_boolean (lit "  YeS ") = Some true /\ parse_boolean (lit "on") = None.
Proof. split; reflexivity. Qed.

(** C33: [check] and [parse] of element conditions. *)
Theorem C33_condition_check : forall cs values, cond_check cs values = true <->
  (forall c, In c cs -> c_type c = Required -> In (c_value c) values) /\
  (forall c, In c cs -> c_type c = Prohibited -> ~ In (c_value c) values) /\
  ((exists c, In c cs /\ c_type c = Present) ->
   exists c, In c cs /\ c_type c = Present /\ In (c_value c) values).
Proof. exact cond_check_spec. Qed.
Print Assumptions C33_condition_check.
Theorem C33_condition_parse : forall s ws, words (fun c => ceqb c 32) s ws ->
  Forall2 condition_of ws (cond_parse s).
Proof.
  intros s ws H. unfold cond_parse.
  change (fun s0 : list N => match s0 with [] => false | _ :: _ => true end) with nonempty.
  rewrite (words_split_char _ _ _ H). clear H.
  induction ws as [|w ws IH]; cbn [map]; constructor; auto. unfold get_spec.
  destruct (strip_prefix [43%N] w) as [v|] eqn:E1; [apply strip_prefix_inv in E1 as ->; constructor|].
  destruct (strip_prefix [45%N] w) as [v|] eqn:E2; [apply strip_prefix_inv in E2 as ->; constructor|].
  constructor; intros v ->; [cbn in E1|cbn in E2]; discriminate.
Qed.
Print Assumptions C33_condition_parse.
Example C33_case : cond_parse (lit " +a -b  c d") =
    [Cond Required (lit "a"); Cond Prohibited (lit "b"); Cond Present (lit "c"); Cond Present (lit "d")]
  /\ cond_check (cond_parse (lit " +a -b  c d")) [lit "a"; lit "d"] = true
  /\ cond_check (cond_parse (lit " +a -b  c d")) [lit "a"] = false.
Proof. repeat split. Qed.

(** C45: any sequence of pushes and pops behaves as on a plain stack above an unremovable bottom;
    the vector is never empty and [last] is its last item. *)
Theorem C45_stack : forall A (ops : list (stack_op A)) x l,
  let '(outs, v) := nev_run ops (NEV x l) in
  outs = fst (spec_stack ops l) /\ nev_to_list v = x :: snd (spec_stack ops l)
  /\ nev_len v = length (nev_to_list v)
  /\ (nev_is_single v = true <-> nev_len v = 1).
Proof.
  intros A ops x l. rewrite nev_run_spec. cbn. repeat split.
  - unfold nev_len. cbn. lia.
  - unfold nev_is_single, nev_len. cbn. destruct (snd _); [auto|discriminate].
  - unfold nev_is_single, nev_len. cbn. destruct (snd _); cbn; [auto|lia].
Qed.
Print Assumptions C45_stack.
Theorem C45_last : forall A (v : nev A), exists l, nev_to_list v = l ++ [nev_last v].
Proof. intros. apply nev_last_spec. Qed.
Print Assumptions C45_last.
Example C45_case : nev_run [Pop; Push 2; Push 3; Pop; Pop; Pop] (nev_new 1) = ([None; Some 3; Some 2; None], nev_new 1).
Proof. reflexivity. Qed.

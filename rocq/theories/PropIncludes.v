(** PropIncludes.v -- properties C15 to C20 and C47. *)
From Verif Require Import Base BaseLemmas Regex PreprocLemmas Peg PegLemmas Links LinksLemmas Includes SpecIncludes IncludesLemmas.

(** C15: with page syntax disabled nothing happens. *)
Theorem C15_disabled : forall St E (I : includer St E) inv compat st input,
  include St E I inv false compat st input = IOk input [].
Proof. reflexivity. Qed.
Print Assumptions C15_disabled.

(** C15: if no line of the text starts an include block, the text comes back unchanged with no pages
    (the includer is asked for nothing and must answer nothing). *)
Theorem C15_no_block : forall St E (I : includer St E) inv compat st st' input,
  (forall pre b rest page args, input = pre ++ b ++ rest -> ends_line_start pre -> block_extent b rest -> ~ block_text page args b) ->
  include_pages St E I st [] = (st', inl []) ->
  include St E I inv true compat st input = IOk input [].
Proof.
  intros St E I inv compat st st' input Hno Hans. unfold include. cbn [negb]. rewrite find_includes_all.
  assert (H : forall rest pre, input = pre ++ rest -> scan_blocks compat (blen pre) (last_char pre) rest = []).
  { induction rest as [|c rest IH]; intros pre Ht; [reflexivity|]. cbn [scan_blocks].
    specialize (IH (pre ++ [c])). rewrite <- app_assoc, blen_app, last_char_snoc in IH. cbn [blen] in IH. rewrite Nat.add_0_r in IH.
    rewrite IH by auto. rewrite app_nil_r. destruct (bolb (last_char pre)) eqn:Hb; [|reflexivity].
    destruct (parse_block_cases compat (c :: rest)) as [->|(inc & b & r & page & args & _ & Es & Hbt & Hext & _)]; [reflexivity|].
    exfalso. eapply (Hno pre b r page args); auto.
    - rewrite Ht, Es. reflexivity.
    - apply bolb_iff in Hb. unfold ends_line_start. destruct Hb as [Hb|Hb].
      + left. unfold last_char in Hb. destruct (rev pre) eqn:Er; [|discriminate]. rewrite <- (rev_involutive pre), Er. reflexivity.
      + right. apply last_char_snoc_inv in Hb as (p & ->). eauto. }
  specialize (H input [] eq_refl). change (scan_blocks compat (blen []) (last_char []) input) with (scan_blocks compat 0 None input) in H.
  rewrite H. cbn [map]. rewrite Hans. reflexivity.
Qed.
Print Assumptions C15_no_block.
Definition echo_includer : includer unit unit :=
  Includer unit unit (fun st incs => (st, inl (map (fun i => FP (ir_page i) (if seqb (pr_page (ir_page i)) (lit "missing") then None else Some (lit "<{$x}{$y}>"))) incs)))
    (fun st p => (st, inl (lit "no " ++ pr_page p))).
Example C15_case : include unit unit echo_includer tt true true tt (lit "no [[include a]] here") = IOk (lit "no [[include a]] here") [].
Proof. vm_compute. reflexivity. Qed.

(** C16: a text recognised as an include block is "[[ include page | arguments ]]", and extends to the
    first "]]" that ends a line. *)
Theorem C16_block_form : forall compat s inc b rest, isblock compat s inc b rest ->
  exists page args, block_text page args b /\ block_extent b rest /\ pr_parse page = Good (ir_page inc).
Proof.
  intros compat s inc b rest (H & Hs). destruct (parse_block_cases compat s) as [E|(inc' & b' & r' & page & args & E & Es & H1 & H2 & H3 & H4)]; [congruence|].
  rewrite E in H. injection H as -> Hb. rewrite Es in Hs.
  assert (b' = b /\ r' = rest) as [-> ->].
  { pose proof (bsplit_app b' r') as B1. pose proof (bsplit_app b rest) as B2. rewrite Hs, Hb in B1. rewrite B1 in B2. split; congruence. }
  eauto 6.
Qed.
Print Assumptions C16_block_form.

(** C16: for tidy texts, on success the output is the text with every include block at the start of
    a line replaced by its page's content (after substitution) or the no-such-include text; everything
    else is copied; the pages are those of the blocks, in order; the includer was asked exactly for
    these blocks.  Missing for the full statement: texts that open a block inside an open one. *)
Theorem C16_only_blocks_replaced_partial : forall St E (I : includer St E) inv compat st input out pages,
  tidy input -> include St E I inv true compat st input = IOk out pages ->
  exists incs fetched rs st', included (isblock compat) None input incs rs out /\
    include_pages St E I st incs = (st', inl fetched) /\ map fp_page fetched = pages /\ pages = map ir_page incs /\
    Forall2 (fun '(inc, f) r => replacement St E I inc f r) (combine incs fetched) rs /\ length fetched = length incs.
Proof.
  intros St E I inv compat st input out pages Ht H. unfold include in H. cbn [negb] in H. rewrite find_includes_all in H.
  set (L := scan_blocks compat 0 None input) in *.
  destruct (include_pages St E I st (map snd L)) as [st' [fetched|e]] eqn:Ef; [|discriminate].
  destruct (Nat.eqb_spec (length L) (length fetched)) as [Hlen|]; cbn [negb] in H; [|discriminate].
  apply loop_ok in H as (rs & H1 & H2 & Hp). cbn [app] in Hp.
  assert (Hrs : length rs = length L).
  { apply F2_length in H1. rewrite rev_length, combine_length in H1. lia. }
  destruct (tidy_ranges compat input Ht (S (length input)) input [] (rev rs)) as (o & R1 & R2); [lia|reflexivity|rewrite rev_length; exact Hrs|].
  change (scan_blocks compat (blen []) (last_char []) input) with L in R1, R2.
  apply (ranges_replace _ _ _ _) with (pre := []) in R1; [|reflexivity]. cbn [app] in R1.
  assert (Eo : out = o).
  { rewrite <- combine_rev in R1 by (rewrite rev_length, map_length; auto). rewrite rev_involutive in R1.
    rewrite map_rev in H2. replace (map (fun x : nat * nat * include_ref * Includes.fetched => fst (fst x)) (combine L fetched)) with (map rng L) in H2.
    - congruence.
    - rewrite <- (map_fst_combine L fetched) at 1 by auto. rewrite map_map. reflexivity. }
  subst o. exists (map snd L), fetched, (rev rs), st'.
  assert (HF : Forall2 (fun x r => ir_page (snd (fst x)) = fp_page (snd x) /\ replacement St E I (snd (fst x)) (snd x) r) (combine L fetched) (rev rs)).
  { assert (HR : forall A B (P : A -> B -> Prop) l1 l2, Forall2 P l1 l2 -> Forall2 P (rev l1) (rev l2)).
    { clear. intros A B P l1 l2 H. induction H as [|x y l1 l2 Hxy H IH]; cbn [rev]; auto. apply Forall2_app; auto. }
    rewrite <- (rev_involutive (combine L fetched)). apply HR. exact H1. }
  assert (Hpg : pages = map ir_page (map snd L)).
  { rewrite Hp, map_rev, rev_involutive. rewrite map_map. clear -Hlen. revert fetched Hlen. induction L as [|x L IH]; intros [|f fs] Hl; try discriminate; auto.
    cbn [combine map fst snd]. rewrite IH; auto. }
  split; [exact R2|]. split; [exact Ef|]. split; [|split; [exact Hpg|split]].
  - rewrite Hpg. clear -HF Hlen. revert fetched HF Hlen. generalize (rev rs) as rr. induction L as [|x L IH]; intros rr [|f fs] HF Hl; try discriminate; auto.
    cbn [combine] in HF. inversion HF as [|? ? ? ? [Hx _] HF']; subst. cbn [map]. cbn [fst snd] in Hx. rewrite Hx. f_equal. eapply IH; eauto.
  - clear -HF. revert fetched HF. generalize (rev rs) as rr. induction L as [|x L IH]; intros rr [|f fs] HF; cbn [combine map] in *; inversion HF as [|? ? ? ? [_ Hx] HF']; subst; constructor; auto.
  - rewrite map_length. auto.
Qed.
Print Assumptions C16_only_blocks_replaced_partial.
Example C16_tidy_case : include unit unit echo_includer tt true false tt (lit "a
[[include page x=1 | y = {$y}]]
b [[include p]]
[[INCLUDE missing]]") = IOk (lit "a
<1 {$y}>
b [[include p]]
no missing") [PR None (lit "page"); PR None (lit "missing")].
Proof. vm_compute. reflexivity. Qed.

(** A decidable sufficient condition for tidiness, used to show that tidy texts with several blocks
    exist: every line that starts with "[[" ends with "]]". *)
Definition line_tidy (text : str) : Prop :=
  forall pre mid post, text = pre ++ lit "[[" ++ mid ++ [10%N] ++ post -> ends_line_start pre -> ~ In 10%N mid ->
    exists x, lit "[[" ++ mid = x ++ lit "]]".
Lemma line_tidy_tidy text : line_tidy text -> tidy text.
Proof.
  intros H pre mid post E Hp.
  assert (Hs : exists m1 m2, mid ++ [10%N] = m1 ++ 10%N :: m2 /\ ~ In 10%N m1).
  { clear. induction mid as [|c mid IH]; [exists [], []; auto|]. destruct (N.eq_dec c 10) as [->|Hc].
    - exists [], (mid ++ [10%N]). auto.
    - destruct IH as (m1 & m2 & E & Hm). exists (c :: m1), m2. cbn [app]. rewrite E. split; [auto|]. intros [|]; auto. }
  destruct Hs as (m1 & m2 & Em & Hm).
  destruct (H pre m1 (m2 ++ lit "[[" ++ post)) as (x & Ex); auto.
  { rewrite E. f_equal. f_equal. rewrite app_assoc, Em. rewrite <- app_assoc. reflexivity. }
  destruct m2 as [|d m2].
  - apply app_inj_tail in Em as [-> _]. exists x, (lit "]]"). split; auto. exists [10%N]. split; [auto|right; eauto].
  - assert (exists m3, 10%N :: d :: m2 = m3 ++ [10%N] /\ mid = m1 ++ m3) as (m3 & E3 & ->).
    { destruct (exists_last (l := 10%N :: d :: m2)) as (m3 & z & E3); [discriminate|]. rewrite E3, app_assoc in Em. apply app_inj_tail in Em as [-> <-]. exists m3. auto. }
    exists x, (lit "]]" ++ m3). split; [rewrite app_assoc, Ex, <- app_assoc; reflexivity|]. exists (10%N :: d :: m2). rewrite E3, <- app_assoc. split; auto. right. exists 10%N, (d :: m2). auto.
Qed.
Example C16_hypothesis_met : tidy (lit "x
[[include a]]
[[include b]]
y").
Proof.
  apply line_tidy_tidy. intros pre mid post E Hp Hm.
  assert (Hc : pre = [] \/ pre = lit "x
" \/ pre = lit "x
[[include a]]
" \/ (~ ends_line_start pre) \/ length pre > 28).
  { clear -E. 
    assert (Hlen : length pre <= 28 \/ length pre > 28) by lia. destruct Hlen as [Hl|Hl]; [|auto 6].
    assert (Ep : pre = firstn (length pre) (lit "x
[[include a]]
[[include b]]
y")) by (rewrite E, firstn_app, firstn_all, Nat.sub_diag; cbn [firstn]; rewrite app_nil_r; reflexivity).
    revert Ep. generalize (length pre) Hl. clear Hl E. intros n Hn ->.
    do 29 (destruct n as [|n]; [vm_compute; try (right; right; right; left; intros [H|(p & H)]; [discriminate|];
        apply (f_equal (@rev N)) in H; rewrite rev_app_distr in H; vm_compute in H; discriminate); auto|]). lia. }
  destruct Hc as [->|[->|[->|[Hc|Hc]]]].
  - cbn in E. discriminate.
  - cbn in E. injection E as E. destruct (take_while_stop (fun c => negb (ceqb c 10)) mid 10%N post) as [T _].
    + apply forallb_forall. intros c Hc. apply negb_true_iff, ceqb_neq. intros ->. auto.
    + reflexivity.
    + rewrite <- E in T. vm_compute in T. rewrite <- T. exists (lit "[[include a"). reflexivity.
  - cbn in E. injection E as E. destruct (take_while_stop (fun c => negb (ceqb c 10)) mid 10%N post) as [T _].
    + apply forallb_forall. intros c Hc. apply negb_true_iff, ceqb_neq. intros ->. auto.
    + reflexivity.
    + rewrite <- E in T. vm_compute in T. rewrite <- T. exists (lit "[[include b"). reflexivity.
  - contradiction.
  - exfalso. apply (f_equal (@length N)) in E. rewrite !app_length in E. cbn [length lit] in E. lia.
Qed.

(** C17: on tidy texts include never panics. *)
Theorem C17_no_panic_partial : forall St E (I : includer St E) inv enable compat st input,
  tidy input -> include St E I inv enable compat st input <> IPanic.
Proof.
  intros St E I inv enable compat st input Ht. unfold include. destruct enable; cbn [negb]; [|discriminate].
  rewrite find_includes_all. set (L := scan_blocks compat 0 None input).
  destruct (include_pages St E I st (map snd L)) as [st' [fetched|e]]; [|discriminate].
  destruct (Nat.eqb_spec (length L) (length fetched)) as [Hlen|]; cbn [negb]; [|discriminate].
  intros H. apply loop_panic in H as (l1 & l2 & rs & El & Hrs & Hn).
  assert (Elf : combine L fetched = rev l2 ++ rev l1) by (rewrite <- rev_app_distr, <- El, rev_involutive; reflexivity).
  assert (EL : map rng L = map (fun x => fst (fst x)) (rev l2) ++ map (fun x => fst (fst x)) (rev l1)).
  { rewrite <- (map_fst_combine L fetched) at 1 by auto. rewrite map_map, Elf, map_app. reflexivity. }
  destruct (tidy_ranges compat input Ht (S (length input)) input [] (repeat [] (length l2) ++ rev rs)) as (o & R1 & _); [lia|reflexivity| |].
  { change (scan_blocks compat (blen []) (last_char []) input) with L. rewrite app_length, repeat_length, rev_length, Hrs.
    apply (f_equal (@length _)) in Elf. rewrite combine_length, app_length, !rev_length in Elf. lia. }
  change (scan_blocks compat (blen []) (last_char []) input) with L in R1. rewrite EL in R1.
  rewrite combine_app in R1 by (rewrite repeat_length, map_length, rev_length; reflexivity).
  apply ranges_suffix in R1 as (o' & R1). apply ranges_replace with (pre := []) in R1; [|reflexivity]. cbn [app] in R1.
  rewrite map_rev in R1. rewrite combine_rev in R1 by (rewrite map_length; auto). rewrite rev_involutive in R1. congruence.
Qed.
Print Assumptions C17_no_panic_partial.
(** C17, C16: the unrestricted statements are false.  A block whose last argument's value contains a
    second block is recorded twice, with overlapping ranges: a short answer makes include panic ... *)
Definition const_includer (c : str) : includer unit unit :=
  Includer unit unit (fun st incs => (st, inl (map (fun i => FP (ir_page i) (Some c)) incs))) (fun st p => (st, inl [])).
Theorem C17_no_panic_refuted : exists input,
  include unit unit (const_includer []) tt true true tt input = IPanic.
Proof.
  exists (lit "[[include a x=
[[include b]]"). vm_compute. reflexivity.
Qed.
Print Assumptions C17_no_panic_refuted.
(** ... and otherwise part of the substituted text or of the rest of the document is lost. *)
Theorem C16_only_blocks_replaced_refuted : exists input out pages,
  include unit unit (const_includer (lit "0")) tt true true tt input = IOk out pages /\ pages = [PR None (lit "a"); PR None (lit "b")] /\
  ~ (exists incs rs, included (isblock true) None input incs rs out) /\ substr (lit "kept") input /\ ~ substr (lit "kept") out.
Proof.
  exists (lit "[[include a x=
[[include b]]
kept some other text"), (lit "0ther text"), [PR None (lit "a"); PR None (lit "b")].
  split; [vm_compute; reflexivity|]. split; [reflexivity|].
  assert (Hlast : forall isb prev s incs rs out, @included include_ref isb prev s incs rs out -> True) by auto.
  split; [|split].
  - intros (incs & rs & H).
    assert (Hp : exists inc0, parse_include_block true (lit "[[include a x=
[[include b]]
kept some other text") 0 = Good (inc0, 28)) by (eexists; vm_compute; reflexivity). destruct Hp as (inc0 & Hp).
    remember (lit "[[include a x=
[[include b]]
kept some other text") as s0 eqn:Es. remember None as prev eqn:Eprev. remember (lit "0ther text") as o eqn:Eo.
    destruct H as [prev|prev s inc b c rest incs r rs out Hl (Hb & Hs) H|prev c rest incs rs out Hnot H]; [discriminate| |].
    + (* the first block ends before the newline of "kept" *)
      rewrite Hp in Hb. injection Hb as _ Hb.
      assert (Hrest : rest = lit "
kept some other text").
      { pose proof (bsplit_app (b ++ [c]) rest) as B. rewrite <- Hs, <- Hb, Es in B. vm_compute in B. injection B as _ B. exact (eq_sym B). }
      subst rest.
      (* nothing in the rest is a block, so it is copied: 21 characters *)
      assert (Hlen : forall isb prev s incs rs out, @included include_ref isb prev s incs rs out ->
                (forall x y inc b r, s = x ++ y -> ~ isb y inc b r) -> length out = length s).
      { clear. induction 1 as [|prev s inc b c rest incs r rs out Hl Hb H IH|prev c rest incs rs out Hn H IH]; intros Hno; auto.
        - exfalso. eapply (Hno [] s); [reflexivity|exact Hb].
        - cbn [length]. rewrite IH; auto. intros x y inc b r -> Hi. eapply (Hno (c :: x) y); [reflexivity|exact Hi]. }
      apply Hlen in H.
      * apply (f_equal (@length N)) in Eo. rewrite app_length, H in Eo. cbn [length lit] in Eo. lia.
      * intros x y inc' b' r' Exy (Hi & _).
        assert (Ey : y = skipn (length x) (lit "
kept some other text")) by (rewrite Exy, skipn_app, skipn_all, Nat.sub_diag; reflexivity).
        assert (Hx : length x <= 21) by (apply (f_equal (@length N)) in Exy; rewrite app_length in Exy; cbn [length lit] in Exy; lia).
        assert (Hall : forallb (fun n => match parse_include_block true (skipn n (lit "
kept some other text")) 0 with Bad => true | _ => false end) (seq 0 22) = true) by (vm_compute; reflexivity).
        rewrite forallb_forall in Hall. specialize (Hall (length x) ltac:(apply in_seq; lia)). rewrite <- Ey, Hi in Hall. discriminate.
    + apply Hnot. split; [left; auto|]. rewrite Es.
      exists inc0, (lit "[[include a x=
[[include b]]"), (lit "
kept some other text"). split; [rewrite Es in Hp; rewrite Hp; vm_compute; reflexivity|reflexivity].
  - exists (lit "[[include a x=
[[include b]]
"), (lit " some other text"). reflexivity.
  - intros (a & b & H). do 7 (destruct a as [|? a]; [discriminate H|injection H as _ H]).
    apply (f_equal (@length N)) in H. rewrite !app_length in H. cbn [length lit] in H. lia.
Qed.
Print Assumptions C16_only_blocks_replaced_refuted.

(** C18: a wrong number of answers gives the invalid-return error. *)
Theorem C18_wrong_count : forall St E (I : includer St E) inv compat st st' input answers,
  (forall incs, include_pages St E I st incs = (st', inl (answers incs)) /\ length (answers incs) <> length incs) ->
  include St E I inv true compat st input = IErr inv.
Proof.
  intros St E I inv compat st st' input answers H. unfold include. cbn [negb]. rewrite find_includes_all.
  destruct (H (map snd (scan_blocks compat 0 None input))) as (-> & Hl). rewrite map_length in Hl.
  destruct (Nat.eqb_spec (length (scan_blocks compat 0 None input)) (length (answers (map snd (scan_blocks compat 0 None input))))); [congruence|].
  reflexivity.
Qed.
Print Assumptions C18_wrong_count.
(** C18: success implies that every answer had the requested reference, in order (for every text). *)
Theorem C18_answers_match : forall St E (I : includer St E) inv compat st input out pages,
  include St E I inv true compat st input = IOk out pages ->
  exists incs fetched st', include_pages St E I st incs = (st', inl fetched) /\ map fp_page fetched = map ir_page incs /\ pages = map ir_page incs.
Proof.
  intros St E I inv compat st input out pages H. unfold include in H. cbn [negb] in H. rewrite find_includes_all in H.
  set (L := scan_blocks compat 0 None input) in *.
  destruct (include_pages St E I st (map snd L)) as [st' [fetched|e]] eqn:Ef; [|discriminate].
  destruct (Nat.eqb_spec (length L) (length fetched)) as [Hlen|]; cbn [negb] in H; [|discriminate].
  apply loop_ok in H as (rs & H1 & _ & Hp). cbn [app] in Hp. exists (map snd L), fetched, st'. split; [exact Ef|].
  assert (HF : Forall (fun x => ir_page (snd (fst x)) = fp_page (snd x)) (combine L fetched)).
  { rewrite <- (rev_involutive (combine L fetched)). apply Forall_rev. clear -H1. induction H1 as [|x r l rs [Hx _] H IH]; constructor; auto. }
  split.
  - clear -HF Hlen. revert fetched HF Hlen. induction L as [|x L IH]; intros [|f fs] HF Hl; try discriminate; auto.
    cbn [combine] in HF. inversion HF as [|? ? Hx HF']; subst. cbn [map]. cbn [fst snd] in Hx. rewrite Hx. f_equal. eapply IH; eauto.
  - rewrite Hp, map_rev, rev_involutive, map_map. clear -Hlen. revert fetched Hlen. induction L as [|x L IH]; intros [|f fs] Hl; try discriminate; auto.
    cbn [combine map fst snd]. rewrite IH; auto.
Qed.
Print Assumptions C18_answers_match.
(** C18: hence, when some answer has another reference, the result is the invalid-return error (tidy
    texts, includers that do not fail themselves). *)
Theorem C18_mismatch_rejected_partial : forall St E (I : includer St E) inv compat st st' input answers,
  tidy input ->
  (forall incs, include_pages St E I st incs = (st', inl (answers incs)) /\ map fp_page (answers incs) <> map ir_page incs) ->
  (forall s p e s', no_such_include St E I s p <> (s', inr e)) ->
  include St E I inv true compat st input = IErr inv.
Proof.
  intros St E I inv compat st st' input answers Ht Ha Hn.
  destruct (include St E I inv true compat st input) as [out pages|e|] eqn:H.
  - exfalso. apply C18_answers_match in H as (incs & fetched & st'' & H1 & H2 & _). destruct (Ha incs) as [H3 H4]. rewrite H3 in H1. congruence.
  - f_equal. unfold include in H. cbn [negb] in H. rewrite find_includes_all in H.
    destruct (Ha (map snd (scan_blocks compat 0 None input))) as [H3 _]. rewrite H3 in H.
    destruct (negb _) in H; [congruence|]. eapply loop_err; eauto.
  - exfalso. eapply C17_no_panic_partial; eauto.
Qed.
Print Assumptions C18_mismatch_rejected_partial.
Definition liar : includer unit unit :=
  Includer unit unit (fun st incs => (st, inl (map (fun i => FP (PR None (lit "other")) (Some (lit "x"))) incs))) (fun st p => (st, inl [])).
Example C18_case : include unit unit liar tt true true tt (lit "[[include a]]") = IErr tt.
Proof. vm_compute. reflexivity. Qed.

(** C19: substituting variables is total, and its result is determined by the one-pass
    specification. *)
Theorem C19_single_pass : forall content vars, exists out,
  replace_variables content vars = Some out /\ substituted (vm_get vars) content out /\
  (forall out', substituted (vm_get vars) content out' -> out' = out).
Proof.
  intros content vars. destruct (replace_variables_ok content vars) as (out & H1 & H2). exists out. repeat split; auto.
  intros out' H. eapply substituted_det; eauto.
Qed.
Print Assumptions C19_single_pass.
Example C19_case : replace_variables (lit "{$a}{$b}{$c}{{$a}}{$a b}") [(lit "a", lit "{$b}"); (lit "b", lit "B")] = Some (lit "{$b}B{$c}{{$b}}{$a b}").
Proof. vm_compute. reflexivity. Qed.

(** C20: the variables of a block are given by the first usable argument for each key; the arguments
    are those written in the block. *)
Theorem C20_first_usable : forall compat s inc b rest, isblock compat s inc b rest ->
  exists page args, block_text page args b /\ pr_parse page = Good (ir_page inc) /\
    forall k, vm_get (ir_vars inc) k = first_usable args k.
Proof.
  intros compat s inc b rest (H & Hs). destruct (parse_block_cases compat s) as [E|(inc' & b' & r' & page & args & E & Es & H1 & H2 & H3 & H4)]; [congruence|].
  rewrite E in H. injection H as -> Hb. rewrite Es in Hs.
  assert (b' = b) as ->.
  { pose proof (bsplit_app b' r') as B1. pose proof (bsplit_app b rest) as B2. rewrite Hs, Hb in B1. rewrite B1 in B2. congruence. }
  eauto 6.
Qed.
Print Assumptions C20_first_usable.
(** The written arguments are determined by the text of the block body. *)
Theorem C20_arguments_unique : forall s args1 args2, args_text args1 s -> args_text args2 s -> args1 = args2.
Proof.
  assert (Hsp : forall (P : char -> Prop) a1 b1 a2 b2, a1 ++ b1 = a2 ++ b2 -> Forall P a1 -> Forall P a2 ->
     (forall c r, b1 = c :: r -> ~ P c) -> (forall c r, b2 = c :: r -> ~ P c) -> a1 = a2 /\ b1 = b2).
  { intros P. induction a1 as [|x a1 IH]; intros b1 a2 b2 E H1 H2 N1 N2; destruct a2 as [|y a2]; cbn [app] in E.
    - auto.
    - exfalso. inversion H2; subst. eapply (N1 y); [reflexivity|auto].
    - exfalso. inversion H1; subst. eapply (N2 x); [reflexivity|auto].
    - injection E as -> E. inversion H1; inversion H2; subst. destruct (IH _ _ _ E) as [-> ->]; auto. }
  intros s args1 args2 H1. revert args2. induction H1 as [w Hw|w k w1 w2 c v args rest Hw Hk Hw1 Hw2 Hc Hv Hr H IH]; intros args2 H2.
  - inversion H2 as [|w' k' w1' w2' c' v' args' rest' Hw' Hk' ]; subst; [reflexivity|exfalso].
    rewrite !Forall_app in Hw. destruct Hw as (_ & Hw & _). destruct Hk' as [Hk1 Hk2]. destruct k' as [|x k']; [congruence|].
    inversion Hw; inversion Hk2; subst. unfold blank in *. lia.
  - remember (w ++ k ++ w1 ++ [61%N] ++ w2 ++ (c :: v) ++ rest) as s eqn:Es.
    destruct H2 as [w' Hw'|w' k' w1' w2' c' v' args' rest' Hw' Hk' Hw1' Hw2' Hc' Hv' Hr' H'].
    + exfalso. subst w'. rewrite !Forall_app in Hw'. destruct Hw' as (_ & Hw' & _). destruct Hk as [Hk1 Hk2]. destruct k as [|x k]; [congruence|].
      inversion Hw'; inversion Hk2; subst. unfold blank in *. lia.
    + apply Hsp with (P := fun c => blank c \/ c = 124%N) in Es as [-> Es]; auto.
      2:{ intros x r Ex. destruct Hk' as [Hk1 Hk2]. destruct k' as [|y k']; [congruence|]. injection Ex as <- _. inversion Hk2; subst. unfold blank. lia. }
      2:{ intros x r Ex. destruct Hk as [Hk1 Hk2]. destruct k as [|y k]; [congruence|]. injection Ex as <- _. inversion Hk2; subst. unfold blank. lia. }
      apply Hsp with (P := fun c => (48 <= c <= 57 \/ 65 <= c <= 90 \/ 97 <= c <= 122 \/ c = 95 \/ c = 45)%N) in Es as [-> Es];
        [|apply Hk'|apply Hk| |].
      2:{ intros x r Ex. destruct w1' as [|y w1']; injection Ex as <- _; [lia|]. inversion Hw1'; subst. unfold blank in *. lia. }
      2:{ intros x r Ex. destruct w1 as [|y w1]; injection Ex as <- _; [lia|]. inversion Hw1; subst. unfold blank in *. lia. }
      apply Hsp with (P := blank) in Es as [-> Es]; auto.
      2:{ intros x r Ex. injection Ex as <- _. unfold blank. lia. }
      2:{ intros x r Ex. injection Ex as <- _. unfold blank. lia. }
      injection Es as Es. apply Hsp with (P := blank) in Es as [-> Es]; auto.
      2:{ intros x r Ex. injection Ex as <- _. auto. }
      2:{ intros x r Ex. injection Ex as <- _. auto. }
      change ((c' :: v') ++ rest' = (c :: v) ++ rest) in Es. apply Hsp with (P := fun c => c <> 124%N) in Es as [Ev Er].
      * injection Ev as -> ->. subst rest'. f_equal. auto.
      * apply Forall_forall. intros x Hx ->. auto.
      * apply Forall_forall. intros x Hx ->. auto.
      * intros x r Ex. destruct Hr' as [->|(r' & ->)]; [discriminate|]. injection Ex as <- _. auto.
      * intros x r Ex. destruct Hr as [->|(r' & ->)]; [discriminate|]. injection Ex as <- _. auto.
Qed.
Print Assumptions C20_arguments_unique.
Example C20_case : exists vars, parse_include_block true (lit "[[include a | w={$w}|w=300px|w=1]]") 0 = Good (IR (PR None (lit "a")) vars, 34)
  /\ vm_get vars (lit "w") = Some (lit "300px").
Proof. eexists. split; [vm_compute; reflexivity|reflexivity]. Qed.

(** C47: NullIncluder is documented to replace include blocks with nothing; instead every text with
    at least one include block at the start of a line is rejected with the invalid-return error. *)
Theorem C47_null_includer_refuted : forall E (inv : E) compat pre s inc b rest,
  ends_line_start pre -> isblock compat s inc b rest ->
  include unit E NullIncluder inv true compat tt (pre ++ s) = IErr inv.
Proof.
  intros E inv compat pre s inc b rest Hpre (Hb & Hs). unfold include. cbn [negb]. rewrite find_includes_all.
  cbn [include_pages NullIncluder length].
  assert (H : exists x, In x (scan_blocks compat 0 None (pre ++ s))).
  { assert (HH : forall p off prev, (p = [] -> line_start prev) -> (p <> [] -> exists q, p = q ++ [10%N]) -> exists x, In x (scan_blocks compat off prev (p ++ s))).
    { induction p as [|c p IH]; intros off prev H1 H2.
      - cbn [app]. specialize (H1 eq_refl). apply bolb_iff in H1. destruct s as [|c s].
        + destruct (parse_block_cases compat []) as [E0|(i & b' & r & page & args & _ & Es & (w1 & kw & w2 & body & Eb & _) & _)]; [congruence|].
          subst b'. discriminate.
        + cbn [scan_blocks]. rewrite H1, Hb. eexists. left. reflexivity.
      - cbn [app scan_blocks]. destruct (IH (off + utf8_len c) (Some c)) as (x & Hx).
        + intros ->. right. destruct (H2 ltac:(discriminate)) as (q & Eq). destruct q as [|y q]; cbn [app] in Eq; [congruence|]. destruct q; discriminate.
        + intros Hp. destruct (H2 ltac:(discriminate)) as (q & Eq). destruct q as [|y q]; [cbn in Eq; injection Eq as _ ->; congruence|].
          injection Eq as _ ->. eauto.
        + exists x. apply in_app_iff. auto. }
    apply HH; [intros _; left; reflexivity|]. destruct Hpre as [->|Hpre]; [congruence|auto]. }
  destruct H as (x & Hx). destruct (scan_blocks compat 0 None (pre ++ s)); [destruct Hx|]. reflexivity.
Qed.
Print Assumptions C47_null_includer_refuted.
Example C47_case : include unit unit NullIncluder tt true true tt (lit "[[include a]]") = IErr tt.
Proof. vm_compute. reflexivity. Qed.

(** BlocksLex.v -- the tokens of the pages of SpecBlocks.v. *)
From Verif Require Import Base BaseLemmas Strings StringsLemmas Lexer SpecLexer LexerLemmas Peg PegLemmas PState ParseInv ProseLemmas SpecStrings SpecWriting WritingLex VerbatimLex SpecBlocks.

(** The lexer reads the piece where it stands. *)
Definition lex1 (k : token) (z rest : str) : Prop :=
  z <> [] /\ forall pos, exists ps, run g_token pos (z ++ rest) = Some (ps, z, rest) /\ convert_pairs ps = Some [XT k z pos (pos + blen z)].
Fixpoint lx (cs : list piece) (rest : str) : Prop :=
  match cs with [] => True | (k, z) :: cs' => lex1 k z (flat cs' ++ rest) /\ lx cs' rest end.
Lemma lx_app a b rest : lx (a ++ b) rest <-> lx a (flat b ++ rest) /\ lx b rest.
Proof. induction a as [|[k z] a IH]; cbn [app lx]; [tauto|]. rewrite flat_app, <- app_assoc. tauto. Qed.
Lemma star_nil pos : star_rel (run g_token) pos [] [] [] []. Proof. apply sr_stop. destruct (run g_token pos []) as [[[ps m] r]|] eqn:E; auto. Qed.
Lemma lx_lxs cs rest : lx cs rest -> lxs cs rest.
Proof.
  induction cs as [|[k z] cs IH]; intro H; [constructor|]. destruct H as [[Hz H] Hc]. change ((k, z) :: cs) with ([(k, z)] ++ cs). assert (E : flat [(k, z)] = z) by apply app_nil_r.
  apply ls_step; [rewrite E; exact Hz|rewrite E; exact H|auto].
Qed.
Lemma lxs_star cs : lxs cs [] -> forall pos, exists ps, star_rel (run g_token) pos (flat cs) ps (flat cs) [] /\ convert_pairs ps = Some (place pos cs).
Proof.
  intro H. remember [] as z eqn:Ez. induction H as [z|xs cs z Hn Hr Hc IH]; intro pos; subst z; [exists []; split; [apply star_nil|reflexivity]|].
  destruct (Hr pos) as (ps & E & C). destruct (IH eq_refl (pos + blen (flat xs))) as (ps' & E' & C'). exists (ps ++ ps'). rewrite app_nil_r in E. rewrite flat_app, place_app. split; [eapply sr_more; eauto|].
  rewrite convert_pairs_app, C, C'. reflexivity.
Qed.
Lemma lex_all cs : lxs cs [] -> extract_all (flat cs) = Some (XT TInputStart [] 0 0 :: place 0 cs ++ [XT TInputEnd [] (blen (flat cs)) (blen (flat cs))]).
Proof.
  intro H. destruct (lxs_star cs H 0) as (ps & Hs & Hc). unfold extract_all, g_document.
  destruct (run (PStar g_token) 0 (flat cs)) as [[[ps0 m] r]|] eqn:E; [|cbn [run] in E; discriminate].
  assert (Heq : run (PSeq (PStar g_token) (PRule R_EOI PEnd)) 0 (flat cs) =
    match run (PRule R_EOI PEnd) (0 + blen m) r with Some (p2, m2, r2) => Some (ps0 ++ p2, m ++ m2, r2) | None => None end).
  { cbn [run] in E |- *. destruct (star (run g_token) _ _ _) as [[? ?] ?]. injection E as -> -> ->. reflexivity. }
  rewrite Heq. apply run_star_rel in E; [|apply token_nonempty]. destruct (star_rel_det _ _ _ _ _ _ E _ _ _ Hs) as (-> & -> & ->). cbn [run].
  rewrite convert_pairs_app, Hc. cbn. rewrite Nat.add_0_r. reflexivity.
Qed.

(** *** Single tokens. *)
Lemma lex1_run q k z rest : get_from_rule q = Some k -> z <> [] -> (forall pos, run g_token pos (z ++ rest) = Some ([Pair q pos z []], z, rest)) -> lex1 k z rest.
Proof. intros Hq Hz H. split; auto. intro pos. eexists. split; [apply H|]. unfold convert_pairs, convert_pair. cbn [p_rule p_slice p_start p_end]. rewrite Hq. reflexivity. Qed.
(** From the shapes of the tokens that could be read here. *)
Lemma lex1_shape k z rest : (forall k' z' r', shape k' z' -> follow_ok k' r' -> z' ++ r' = z ++ rest -> k' = k /\ z' = z) ->
  (exists c r, z = c :: r /\ c <> 91%N /\ c <> 93%N) -> lex1 k z rest.
Proof.
  intros H (c & r0 & Ez & Hc1 & Hc2). split; [subst z; discriminate|]. intro pos.
  destruct (run g_token pos (z ++ rest)) as [[[ps m] r]|] eqn:E.
  2:{ exfalso. subst z. revert E. apply token_some. }
  pose proof (run_split _ _ _ _ _ _ E) as Hsp. apply token_step in E as (ts & Hc & Hct & Hm & Hsh & Hx).
  destruct Hx as (t0 & [[-> Hf]|(t1 & -> & Hk)]).
  - inversion Hsh as [|? ? Ht _]; subst. cbn [map concat] in *. rewrite app_nil_r in *. destruct (H _ _ _ Ht Hf (eq_sym Hsp)) as [Hk Hz]. rewrite Hz in *. apply app_inv_head in Hsp. subst r.
    exists ps. split; [auto|]. rewrite Hc. f_equal. inversion Hct as [|? ? ? ? ? Hs He Hi]; subst. inversion Hi; subst. destruct t0. cbn in *. subst. reflexivity.
  - exfalso. inversion Hsh as [|? ? Ht Hsh']; subst. assert (X : In (hd 0%N (t_slice t0)) [91; 93]%N).
    { assert (X : forallb (fun kz => negb (tok_eqb (fst kz) TLeftBracket || tok_eqb (fst kz) TRightLink) || cmem (hd 0%N (snd kz)) [91; 93]%N) symbols = true) by (vm_compute; reflexivity).
      destruct Ht as [k' z' Hz| | | | | | | | | | | | | | |]; try (destruct Hk as [[Hk _]|[Hk _]]; cbn in Hk; discriminate Hk).
      rewrite forallb_forall in X. specialize (X _ Hz). cbn [fst snd] in X. cbn [t_token] in Hk. apply cmem_In. destruct Hk as [[-> _]|[-> _]]; exact X. }
    cbn [map concat] in Hsp. assert (Hne : t_slice t0 <> []) by (eapply shape_nonempty; eauto). destruct (t_slice t0) as [|d w]; [congruence|]. injection Hsp as <- _. cbn in X. intuition congruence.
Qed.

Lemma shape_ident z : letters z -> shape TIdentifier z. Proof. intros [H1 H2]. apply sh_identifier; auto. apply Forall_forall. auto. Qed.
Lemma symbol_heads : forallb (fun kz => match snd kz with c :: r => cmem c special && (negb (cmem c alone) || match r with d :: _ => cmem d special | [] => false end) | [] => false end) symbols = true.
Proof. vm_compute. reflexivity. Qed.
Lemma symbol_head k z : In (k, z) symbols -> exists c r, z = c :: r /\ In c special /\ (In c alone -> exists d r', r = d :: r' /\ In d special).
Proof.
  intro H. pose proof symbol_heads as X. rewrite forallb_forall in X. specialize (X _ H). cbn [snd] in X. destruct z as [|c r]; [discriminate|]. exists c, r.
  apply andb_true_iff in X as [X1 X2]. apply cmem_In in X1. conj; auto. intro Ha. apply cmem_In in Ha. rewrite Ha in X2. destruct r as [|d r']; [discriminate|]. exists d, r'. split; auto. apply cmem_In; auto.
Qed.
Lemma special_not_alnum c : In c special -> is_alnum c = false.
Proof. assert (X : forallb (fun c => negb (is_alnum c)) special = true) by (vm_compute; reflexivity). rewrite forallb_forall in X. intro H. apply X in H. apply negb_true_iff in H. auto. Qed.
Lemma special_not_sp c : In c special -> is_sp c = false.
Proof. assert (X : forallb (fun c => negb (is_sp c)) special = true) by (vm_compute; reflexivity). rewrite forallb_forall in X. intro H. apply X in H. apply negb_true_iff in H. auto. Qed.

(** *** By trying the alternatives. *)
Lemma alts_skip (pre : list (peg rule)) p post pos s x : Forall (fun q => run q pos s = None) pre -> run p pos s = Some x -> run (PAlts (pre ++ p :: post)) pos s = Some x.
Proof.
  induction 1 as [|q pre Hq _ IH]; intro Hp; cbn [app].
  - destruct post as [|b post]; cbn [PAlts]; auto. cbn [run]. rewrite Hp. reflexivity.
  - specialize (IH Hp). destruct (pre ++ p :: post) as [|b l] eqn:E; [destruct pre; discriminate|]. change (PAlts (q :: b :: l)) with (PAlt q (PAlts (b :: l))). cbn [run]. cbn [run] in Hq. rewrite Hq. exact IH.
Qed.
Lemma token_nth n p pos s x : nth_error token_alts n = Some p -> Forall (fun q => run q pos s = None) (firstn n token_alts) -> run p pos s = Some x -> run g_token pos s = Some x.
Proof.
  intros Hn Hf Hp. unfold g_token. pose proof (firstn_skipn n token_alts) as H. rewrite <- H. clear H.
  assert (Hs : skipn n token_alts = p :: skipn (S n) token_alts). { clear -Hn. revert Hn. generalize token_alts. induction n as [|n IH]; intros [|a l] H; cbn [nth_error] in H; try discriminate; [injection H as ->; reflexivity|apply IH; auto]. }
  rewrite Hs. apply alts_skip; auto.
Qed.
Ltac skip_alts := cbn [firstn token_alts]; repeat (apply Forall_cons; [try (apply email_never); try reflexivity|]); try apply Forall_nil.
Ltac ev := cbn -[ceqb]; change (ceqb 91 91) with true; change (ceqb 93 93) with true; change (ceqb 124 124) with true; cbn -[ceqb].
Lemma lex_open c rest : ~ In c [91; 36; 35; 42; 47]%N -> lex1 TLeftBlock (lit "[[") (c :: rest).
Proof.
  intro H. eapply (lex1_run R_left_block); [reflexivity|discriminate|]. intro pos. eapply (token_nth 18); [reflexivity| |reflexivity].
  assert (E : forall d, In d [91; 36; 35; 42; 47]%N -> ceqb d c = false) by (intros d Hd; apply ceqb_neq; intros ->; auto).
  skip_alts; ev; rewrite E by (cbn; tauto); reflexivity.
Qed.
Lemma lex_star_open rest : lex1 TLeftBlockStar (lit "[[*") rest.
Proof. eapply (lex1_run R_left_block_star); [reflexivity|discriminate|]. intro pos. eapply (token_nth 16); [reflexivity| |reflexivity]. skip_alts. Qed.
Lemma lex_close rest : lex1 TLeftBlockEnd (lit "[[/") rest.
Proof. eapply (lex1_run R_left_block_end); [reflexivity|discriminate|]. intro pos. eapply (token_nth 17); [reflexivity| |reflexivity]. skip_alts. Qed.
Lemma lex_right rest : head_not (ceqb 93) rest -> lex1 TRightBlock (lit "]]") rest.
Proof.
  intro H. eapply (lex1_run R_right_block); [reflexivity|discriminate|]. intro pos. eapply (token_nth 25); [reflexivity| |reflexivity].
  destruct rest as [|c rest]; skip_alts; cbn -[ceqb] in H; ev; rewrite H; reflexivity.
Qed.
Lemma lex_equals rest : lex1 TEquals (lit "=") rest.
Proof. eapply (lex1_run R_equals); [reflexivity|discriminate|]. intro pos. eapply (token_nth 49); [reflexivity| |reflexivity]. skip_alts. Qed.
Lemma lex_pipe c rest : c <> 124%N -> lex1 TPipe (lit "|") (c :: rest).
Proof.
  intro H. eapply (lex1_run R_pipe); [reflexivity|discriminate|]. intro pos. eapply (token_nth 48); [reflexivity| |reflexivity].
  assert (E : ceqb 124 c = false) by (apply ceqb_neq; congruence). skip_alts; ev; rewrite E; reflexivity.
Qed.
(** Links. *)
Lemma lex_link c rest : c <> 91%N -> c <> 42%N -> lex1 TLeftLink (lit "[[[") (c :: rest).
Proof.
  intros H1 H2. eapply (lex1_run R_left_link); [reflexivity|discriminate|]. intro pos. eapply (token_nth 13); [reflexivity| |reflexivity].
  assert (E1 : ceqb 91 c = false) by (apply ceqb_neq; congruence). assert (E2 : ceqb 42 c = false) by (apply ceqb_neq; congruence). skip_alts; ev; rewrite ?E1, ?E2; reflexivity.
Qed.
Lemma lex_link_star rest : lex1 TLeftLinkStar (lit "[[[*") rest.
Proof. eapply (lex1_run R_left_link_star); [reflexivity|discriminate|]. intro pos. eapply (token_nth 12); [reflexivity| |reflexivity]. skip_alts. Qed.
Lemma lex_link_end rest : head_not (ceqb 93) rest -> lex1 TRightLink (lit "]]]") rest.
Proof.
  intro H. eapply (lex1_run R_right_link); [reflexivity|discriminate|]. intro pos. eapply (token_nth 23); [reflexivity| |reflexivity].
  destruct rest as [|c rest]; skip_alts; cbn -[ceqb] in H; ev; rewrite H; reflexivity.
Qed.
Lemma lex_bracket c rest : ~ In c [33; 91; 35; 42]%N -> lex1 TLeftBracket (lit "[") (c :: rest).
Proof.
  intro H. eapply (lex1_run R_left_bracket); [reflexivity|discriminate|]. intro pos. eapply (token_nth 21); [reflexivity| |reflexivity].
  assert (E : forall d, In d [33; 91; 35; 42]%N -> ceqb d c = false) by (intros d Hd; apply ceqb_neq; intros ->; auto).
  skip_alts; ev; rewrite ?E by (cbn; tauto); reflexivity.
Qed.
Lemma lex_bracket_star rest : lex1 TLeftBracketStar (lit "[*") rest.
Proof. eapply (lex1_run R_left_bracket_star); [reflexivity|discriminate|]. intro pos. eapply (token_nth 20); [reflexivity| |reflexivity]. skip_alts. Qed.
Lemma lex_bracket_anchor rest : lex1 TLeftBracketAnchor (lit "[#") rest.
Proof. eapply (lex1_run R_left_bracket_anchor); [reflexivity|discriminate|]. intro pos. eapply (token_nth 19); [reflexivity| |reflexivity]. skip_alts. Qed.
Lemma lex_bracket_end rest : head_not (ceqb 93) rest -> lex1 TRightBracket (lit "]") rest.
Proof.
  intro H. eapply (lex1_run R_right_bracket); [reflexivity|discriminate|]. intro pos. eapply (token_nth 26); [reflexivity| |reflexivity].
  destruct rest as [|c rest]; skip_alts; cbn -[ceqb] in H; ev; rewrite H; reflexivity.
Qed.
Lemma lex_colon rest : lex1 TColon (lit ":") rest.
Proof. eapply (lex1_run R_colon); [reflexivity|discriminate|]. intro pos. eapply (token_nth 50); [reflexivity| |reflexivity]. skip_alts. Qed.
Lemma lex_plus c rest : c <> 43%N -> c <> 42%N -> lex1 THeading (lit "+") (c :: rest).
Proof.
  intros H1 H2. eapply (lex1_run R_heading); [reflexivity|discriminate|]. assert (E1 : ceqb 43 c = false) by (apply ceqb_neq; congruence). assert (E2 : ceqb 42 c = false) by (apply ceqb_neq; congruence).
  intro pos. eapply (token_nth 53); [reflexivity| |cbn -[ceqb]; change (ceqb 43 43) with true; cbn -[ceqb]; rewrite E1, E2; reflexivity]. skip_alts; cbn -[ceqb]; rewrite ?E1, ?E2; reflexivity.
Qed.
Lemma lex_number c rest : c <> 35%N -> lex1 TNumberedItem (lit "#") (c :: rest).
Proof.
  intro H. eapply (lex1_run R_numbered_item); [reflexivity|discriminate|]. assert (E : ceqb 35 c = false) by (apply ceqb_neq; congruence).
  intro pos. eapply (token_nth 55); [reflexivity| |cbn -[ceqb]; change (ceqb 35 35) with true; cbn -[ceqb]; rewrite E; reflexivity]. skip_alts; cbn -[ceqb]; change (ceqb 35 35) with true; cbn -[ceqb]; rewrite E; reflexivity.
Qed.
Definition url_text (url : str) : Prop := exists scheme r, In scheme (map lit ["http"; "https"; "ftp"]%string) /\ url = scheme ++ lit "://" ++ r /\ r <> [] /\ (forall c, In c r -> ~ In c ([10; 13; 32]%N ++ lit "[]|")).
Lemma url_char_in c : ~ In c ([10; 13; 32]%N ++ lit "[]|") -> url_char c = true.
Proof. intro H. unfold url_char, is_nl. rewrite !andb_true_iff, !negb_true_iff, ?orb_false_iff, !ceqb_neq. cbn in H. intuition congruence. Qed.
Lemma run_seq_eq (a b : peg rule) pos s : run (PSeq a b) pos s = match run a pos s with Some (p1, m1, r1) => match run b (pos + blen m1) r1 with Some (p2, m2, r2) => Some (p1 ++ p2, m1 ++ m2, r2) | None => None end | None => None end.
Proof. reflexivity. Qed.
Lemma lex_url url rest : url_text url -> lex1 TUrl url (32%N :: rest).
Proof.
  intros (scheme & r & Hs & -> & Hr & Hc). assert (Hn : scheme <> []) by (cbn in Hs; intuition (subst; discriminate)).
  assert (Hrun : forall pos, run (R:=rule) (PPlus (PSeq (PNot (PAlts [NEWLINE; PStr [32%N]; PStr [124%N]; PStr [91%N]; PStr [93%N]])) ANY)) pos (r ++ 32%N :: rest) = Some ([], r, 32%N :: rest)).
  { intro pos. rewrite (run_PPlus_set _ _ (run_not_any _ _ url_stop)). assert (Hr' : Forall (fun c => url_char c = true) r) by (apply Forall_forall; intros c Hi; apply url_char_in; auto). clear Hc Hs.
    destruct r as [|c r]; [congruence|]. inversion Hr' as [|? ? H1 H2]; subst. cbn [app]. rewrite H1. clear -H2. assert (X : take_while url_char (r ++ 32%N :: rest) = r /\ drop_while url_char (r ++ 32%N :: rest) = 32%N :: rest) by (induction H2 as [|d r Hd _ [IH1 IH2]]; [split; reflexivity|cbn [app take_while drop_while]; rewrite Hd; split; congruence]).
    destruct X as [-> ->]. reflexivity. }
  eapply (lex1_run R_url); [reflexivity|destruct scheme; [congruence|discriminate]|]. intro pos. rewrite <- !app_assoc.
  cbn in Hs. destruct Hs as [<-|[<-|[<-|[]]]]; (eapply (token_nth 5); [reflexivity|skip_alts|]); unfold g_url; rewrite run_atom_eq; cbn [PSeqs]; rewrite run_seq_eq;
    match goal with |- context [run ?p pos (?s ++ ?t)] => replace (run p pos (s ++ t)) with (Some ([] : list (pair rule), s, t)) by reflexivity end;
    rewrite run_seq_eq; match goal with |- context [run ?p ?q (lit "://" ++ ?t)] => replace (run p q (lit "://" ++ t)) with (Some ([] : list (pair rule), lit "://", t)) by reflexivity end; rewrite Hrun; reflexivity.
Qed.
(** Tables drawn with bars, lines. *)
Lemma lex_column c rest : ~ In c (lit "~<>=") -> lex1 TTableColumn (lit "||") (c :: rest).
Proof.
  intro H. eapply (lex1_run R_table_column); [reflexivity|discriminate|]. intro pos. eapply (token_nth 40); [reflexivity| |reflexivity].
  assert (E : forall d, In d (lit "~<>=") -> ceqb d c = false) by (intros d Hd; apply ceqb_neq; intros ->; auto).
  skip_alts; ev; rewrite E by (vm_compute; tauto); reflexivity.
Qed.
Lemma lex_column_end : lex1 TTableColumn (lit "||") [].
Proof. eapply (lex1_run R_table_column); [reflexivity|discriminate|]. intro pos. eapply (token_nth 40); [reflexivity| |reflexivity]. skip_alts. Qed.
Lemma lex_title rest : lex1 TTableColumnTitle (lit "||~") rest.
Proof. eapply (lex1_run R_table_column_title); [reflexivity|discriminate|]. intro pos. eapply (token_nth 36); [reflexivity| |reflexivity]. skip_alts. Qed.
Lemma lex_left rest : lex1 TTableColumnLeft (lit "||<") rest.
Proof. eapply (lex1_run R_table_column_left); [reflexivity|discriminate|]. intro pos. eapply (token_nth 37); [reflexivity| |reflexivity]. skip_alts. Qed.
Lemma lex_toright rest : lex1 TTableColumnRight (lit "||>") rest.
Proof. eapply (lex1_run R_table_column_right); [reflexivity|discriminate|]. intro pos. eapply (token_nth 38); [reflexivity| |reflexivity]. skip_alts. Qed.
Lemma lex_center rest : lex1 TTableColumnCenter (lit "||=") rest.
Proof. eapply (lex1_run R_table_column_center); [reflexivity|discriminate|]. intro pos. eapply (token_nth 39); [reflexivity| |reflexivity]. skip_alts. Qed.
Lemma pmin3 c n rest pos : 3 <= n -> head_not (ceqb c) rest -> run (R:=rule) (PMin 3 (PStr [c])) pos (repeat c n ++ rest) = Some ([], repeat c n, rest).
Proof.
  intros Hn Hr. destruct n as [|[|[|n]]]; try lia. clear Hn. cbn [repeat app]. unfold PMin. cbn [PTimes]. rewrite run_seq_eq.
  assert (Ec : ceqb c c = true) by (unfold ceqb; apply N.eqb_refl).
  assert (X : run (R:=rule) (PSeq (PStr [c]) (PSeq (PStr [c]) (PStr [c]))) pos (c :: c :: c :: repeat c n ++ rest) = Some ([], [c; c; c], repeat c n ++ rest)).
  { cbn [run strip_prefix]. do 3 (rewrite Ec; cbv iota). reflexivity. }
  rewrite X. rewrite run_star_char.
  assert (Y : count c (repeat c n ++ rest) = n /\ drop_while (ceqb c) (repeat c n ++ rest) = rest).
  { clear -Ec Hr. induction n as [|n [IH1 IH2]]; cbn [repeat app count drop_while]; [|rewrite Ec; split; congruence]. destruct rest as [|d rest]; [split; reflexivity|]. cbn in Hr. cbn [count drop_while]. rewrite Hr. split; reflexivity. }
  destruct Y as [-> ->]. reflexivity.
Qed.
Lemma lex_dashes n rest : 3 <= n -> head_not (ceqb 45) rest -> lex1 TTripleDash (repeat 45%N n) rest.
Proof.
  intros Hn Hr. eapply (lex1_run R_triple_dash); [reflexivity|destruct n; [lia|discriminate]|]. intro pos. eapply (token_nth 44); [reflexivity| |].
  - destruct n as [|[|[|n]]]; try lia. cbn [repeat app]. skip_alts.
  - unfold g_triple_dash. rewrite run_atom_eq, pmin3 by auto. reflexivity.
Qed.
Definition clear_token (w : option bool) : token := match w with Some true => TClearFloatLeft | Some false => TClearFloatRight | None => TClearFloatBoth end.
Definition clear_end (w : option bool) : str := lit match w with Some true => "<" | Some false => ">" | None => "" end.
Lemma tildes_end n x rest pos c q : 3 <= n -> head_not (ceqb 126) (c :: rest) -> ceqb x c = false -> run (R:=rule) (PAtom q (PSeq (PMin 3 (PStr [126%N])) (PStr [x]))) pos (repeat 126%N n ++ c :: rest) = None.
Proof. intros Hn Hr Hx. rewrite run_atom_eq, run_seq_eq, pmin3 by auto. cbn [run strip_prefix]. rewrite Hx. reflexivity. Qed.
Lemma tildes_end0 n x pos q : 3 <= n -> run (R:=rule) (PAtom q (PSeq (PMin 3 (PStr [126%N])) (PStr [x]))) pos (repeat 126%N n ++ []) = None.
Proof. intros Hn. rewrite run_atom_eq, run_seq_eq, pmin3 by (cbn; auto). reflexivity. Qed.
Lemma lex_clear w n rest : 3 <= n -> (w = None -> rest = [] \/ exists r, rest = 10%N :: r) -> lex1 (clear_token w) (repeat 126%N n ++ clear_end w) rest.
Proof.
  intros Hn Hr. assert (Hne : repeat 126%N n ++ clear_end w <> []) by (destruct n; [lia|discriminate]).
  destruct w as [[]|].
  - eapply (lex1_run R_clear_float_left); [reflexivity|exact Hne|]. intro pos. rewrite <- app_assoc. eapply (token_nth 41); [reflexivity| |].
    + destruct n as [|[|[|n]]]; try lia. cbn [repeat app]. skip_alts.
    + unfold g_clear_float_left. rewrite run_atom_eq, run_seq_eq, pmin3 by (auto; reflexivity). reflexivity.
  - eapply (lex1_run R_clear_float_right); [reflexivity|exact Hne|]. intro pos. rewrite <- app_assoc. eapply (token_nth 42); [reflexivity| |].
    + assert (X : run g_clear_float_left pos (repeat 126%N n ++ clear_end (Some false) ++ rest) = None) by (apply tildes_end; auto; reflexivity).
      destruct n as [|[|[|n]]]; try lia. cbn [repeat app] in *. skip_alts. exact X.
    + unfold g_clear_float_right. rewrite run_atom_eq, run_seq_eq, pmin3 by (auto; reflexivity). reflexivity.
  - eapply (lex1_run R_clear_float); [reflexivity|exact Hne|]. intro pos. rewrite <- app_assoc. cbn [clear_end lit app] in *. change (lit "" ++ rest) with rest in *. eapply (token_nth 43); [reflexivity| |].
    + assert (X : run g_clear_float_left pos (repeat 126%N n ++ rest) = None /\ run g_clear_float_right pos (repeat 126%N n ++ rest) = None).
      { destruct (Hr eq_refl) as [->|[r ->]]; split; [apply tildes_end0; auto..|apply tildes_end; auto; reflexivity|apply tildes_end; auto; reflexivity]. }
      destruct X as [X1 X2]. destruct n as [|[|[|n]]]; try lia. cbn [repeat app] in *. skip_alts; auto.
    + unfold g_clear_float. rewrite run_atom_eq, pmin3 by (auto; destruct (Hr eq_refl) as [->|[r ->]]; reflexivity). change (lit "") with (@nil char). rewrite app_nil_r. reflexivity.
Qed.
(** Strings. *)
Lemma char_star b : string_body b -> forall pos rest, exists ps, star_rel (run g_char) pos (b ++ 34%N :: rest) ps b (34%N :: rest).
Proof.
  induction 1 as [|c b Hc Hb IH|c b Hc Hb IH]; intros pos rest.
  - exists []. apply sr_stop. destruct (run g_char pos _) as [[[ps m] r]|] eqn:E; auto.
  - destruct (IH (pos + blen [c]) rest) as [ps H]. exists ([] ++ ps). change (c :: b) with ([c] ++ b). eapply sr_more; [|discriminate|exact H].
    unfold g_char. cbn [run]. change (([c] ++ b) ++ 34%N :: rest) with (c :: b ++ 34%N :: rest). assert (X : char_plain c = true).
    { unfold char_plain, is_nl. rewrite !andb_true_iff, !negb_true_iff, orb_false_iff, !ceqb_neq. cbn in Hc. intuition congruence. }
    pose proof (run_not_any (PAlts [NEWLINE; PStr [34%N]; PStr [92%N]]) char_plain plain_stop pos (c :: b ++ 34%N :: rest)) as Y. cbn [run] in Y. rewrite Y, X. reflexivity.
  - destruct (IH (pos + blen [92%N; c]) rest) as [ps H]. exists ([] ++ ps). change (92%N :: c :: b) with ([92%N; c] ++ b). eapply sr_more; [|discriminate|exact H].
    unfold g_char. cbn [run]. change (([92%N; c] ++ b) ++ 34%N :: rest) with (92%N :: c :: b ++ 34%N :: rest).
    pose proof (run_not_any (PAlts [NEWLINE; PStr [34%N]; PStr [92%N]]) char_plain plain_stop pos (92%N :: c :: b ++ 34%N :: rest)) as Y. cbn [run] in Y. rewrite Y. change (char_plain 92) with false. cbv iota.
    cbn [PSeqs run strip_prefix]. change (ceqb 92 92) with true. cbv iota.
    assert (X : negb (is_nl c) = true). { unfold is_nl. rewrite negb_true_iff, orb_false_iff, !ceqb_neq. cbn in Hc. intuition congruence. }
    pose proof (run_not_any NEWLINE (fun c => negb (is_nl c)) ltac:(intros; rewrite newline_none, negb_true_iff; tauto) (pos + blen [92%N]) (c :: b ++ 34%N :: rest)) as Z. cbn [run] in Z. rewrite Z, X. reflexivity.
Qed.
Lemma lex_string b rest : string_body b -> lex1 TString (34%N :: b ++ [34%N]) rest.
Proof.
  intro H. eapply (lex1_run R_string); [reflexivity|discriminate|]. intro pos. eapply (token_nth 9); [reflexivity|skip_alts|].
  change ((34%N :: b ++ [34%N]) ++ rest) with (34%N :: (b ++ [34%N]) ++ rest). rewrite <- app_assoc. cbn [app]. unfold g_string. rewrite run_atom_eq. cbn [PSeqs].
  destruct (char_star b H (pos + blen [34%N]) rest) as [ps Hs].
  destruct (run (PStar g_char) (pos + blen [34%N]) (b ++ 34%N :: rest)) as [[[ps0 m] r]|] eqn:E; [|cbn [run] in E; destruct (star _ _ _ _) as [[? ?] ?]; discriminate].
  pose proof E as E'. apply run_star_rel in E'. 2:{ intros p t qs n u Hr. apply g_char_inv in Hr. destruct Hr as [_ [(c & -> & _)|(c & -> & _)]]; discriminate. }
  destruct (star_rel_det _ _ _ _ _ _ E' _ _ _ Hs) as (-> & -> & ->).
  change (run (PSeq (PStr [34%N]) (PSeq (PStar g_char) (PStr [34%N]))) pos (34%N :: b ++ 34%N :: rest)) with
    (match run (PSeq (PStar g_char) (PStr [34%N])) (pos + blen [34%N]) (b ++ 34%N :: rest) with Some (p2, m2, r2) => Some ([] ++ p2, [34%N] ++ m2, r2) | None => None end).
  change (run (PSeq (PStar g_char) (PStr [34%N])) (pos + blen [34%N]) (b ++ 34%N :: rest)) with
    (match run (PStar g_char) (pos + blen [34%N]) (b ++ 34%N :: rest) with Some (p1, m1, r1) => match run (PStr [34%N]) (pos + blen [34%N] + blen m1) r1 with Some (p2, m2, r2) => Some (p1 ++ p2, m1 ++ m2, r2) | None => None end | None => None end).
  rewrite E. cbn [run strip_prefix]. change (ceqb 34 34) with true. cbv iota. reflexivity.
Qed.

(** *** From the shapes. *)
Lemma run_prefix (f : char -> bool) : forall z u y v, z ++ u = y ++ v -> Forall (fun c => f c = true) z -> Forall (fun c => f c = true) y -> head_not f u -> head_not f v -> z = y /\ u = v.
Proof.
  induction z as [|c z IH]; intros u y v H Hz Hy Hu Hv; cbn [app] in H.
  - destruct y as [|d y]; [auto|]. subst u. inversion Hy; subst. cbn in Hu. congruence.
  - destruct y as [|d y]; cbn [app] in H.
    + subst v. inversion Hz; subst. cbn in Hv. congruence.
    + injection H as -> H. inversion Hz; subst. inversion Hy; subst. destruct (IH _ _ _ H H3 H5 Hu Hv) as [-> ->]. auto.
Qed.
Lemma alnum_sp c : is_alnum c = true -> is_sp c = false.
Proof. intro H. destruct (is_sp c) eqn:E; auto. unfold is_sp in E. apply orb_true_iff in E as [E|E]; apply ceqb_eq in E; subst; discriminate. Qed.
Lemma shape_head k z c r : shape k z -> z = c :: r ->
  (k = TIdentifier /\ Forall (fun c => is_alnum c = true) z) \/ (k = TUrl /\ exists scheme s, In scheme [lit "http"; lit "https"; lit "ftp"] /\ z = scheme ++ lit "://" ++ s) \/
  (k = TWhitespace /\ Forall (fun c => In c [32; 9]%N) z) \/ (k = TOther /\ z = [c] /\ is_alnum c = false /\ ~ In c (lit "[]|=:_>+*# " ++ [9; 10; 13]%N)) \/
  (In c special /\ (In c alone -> exists d r', r = d :: r' /\ In d special)).
Proof.
  intros H E. destruct H as [k z Hi|z Hn Hf|scheme s Hs Hn Hf|s Hn Hf|s Hf|n Hn|n Hn|n Hn|n Hn|n Hn|n Hn|n Hn|s Hn|n s Hn Hs|s Hn Hf|c' Hc Hs].
  - do 4 right. destruct (symbol_head _ _ Hi) as (c' & r' & -> & X). injection E as -> ->. exact X.
  - left. auto.
  - right. left. split; auto. exists scheme, s. auto.
  - do 4 right. injection E as <- _. split; [vm_compute; tauto|intro X; vm_compute in X; intuition discriminate].
  - do 4 right. injection E as <- _. split; [vm_compute; tauto|intro X; vm_compute in X; intuition discriminate].
  - do 4 right. destruct n as [|n]; [lia|]. injection E as <- _. split; [vm_compute; tauto|intro X; vm_compute in X; intuition discriminate].
  - do 4 right. destruct n as [|n]; [lia|]. injection E as <- _. split; [vm_compute; tauto|intro X; vm_compute in X; intuition discriminate].
  - do 4 right. destruct n as [|n]; [lia|]. injection E as <- _. split; [vm_compute; tauto|intro X; vm_compute in X; intuition discriminate].
  - do 4 right. destruct n as [|[|n]]; [lia|lia|]. injection E as <- <-. split; [vm_compute; tauto|]. intros _. eexists _, _. split; [reflexivity|vm_compute; tauto].
  - do 4 right. destruct n as [|n]; [lia|]. injection E as <- _. split; [vm_compute; tauto|intro X; vm_compute in X; intuition discriminate].
  - do 4 right. destruct n as [|n]; [lia|]. injection E as <- _. split; [vm_compute; tauto|intro X; vm_compute in X; intuition discriminate].
  - do 4 right. destruct n as [|n]; [lia|]. injection E as <- _. split; [vm_compute; tauto|intro X; vm_compute in X; intuition discriminate].
  - do 4 right. destruct (newlines_head _ _ Hn) as (c' & r' & -> & X). injection E as -> _. unfold is_nl in X. apply orb_true_iff in X as [X|X]; apply ceqb_eq in X; subst; (split; [vm_compute; tauto|intro X; vm_compute in X; intuition discriminate]).
  - do 4 right. destruct n as [|n]; [lia|]. destruct (newlines_head _ _ Hs) as (c' & r' & -> & X). injection E as -> _. unfold is_nl in X. apply orb_true_iff in X as [X|X]; apply ceqb_eq in X; subst; (split; [vm_compute; tauto|intro X; vm_compute in X; intuition discriminate]).
  - right. right. left. auto.
  - right. right. right. left. injection E as -> <-. auto.
Qed.
Lemma lex_ident_ z rest : letters z -> head_not is_alnum rest -> (forall r, rest <> lit "://" ++ r) -> lex1 TIdentifier z rest.
Proof.
  intros [Hn Hl] Hr Hc. assert (Hz : Forall (fun c => is_alnum c = true) z) by (apply Forall_forall; auto). destruct z as [|c z]; [congruence|]. clear Hn.
  assert (Hca : is_alnum c = true) by (inversion Hz; auto). assert (Hcs : ~ In c special) by (intro X; apply special_not_alnum in X; congruence).
  apply lex1_shape.
  - intros k' z' r' Hs Hf E. destruct (shape_ne _ _ Hs) as (c' & w & Hz'). pose proof E as E0. rewrite Hz' in E0. injection E0 as -> _.
    destruct (shape_head _ _ _ _ Hs Hz') as [[-> X]|[(-> & scheme & s & Hi & X)|[[-> X]|[(-> & X & Y & _)|[X _]]]]].
    + split; auto. cbn [follow_ok] in Hf. destruct (run_prefix _ _ _ _ _ E X Hz Hf Hr) as [? _]. auto.
    + exfalso. rewrite X in E. rewrite <- !app_assoc in E. assert (Hsc : Forall (fun c => is_alnum c = true) scheme).
      { apply Forall_forall. apply forallb_forall. assert (W : forallb (forallb is_alnum) [lit "http"; lit "https"; lit "ftp"] = true) by (vm_compute; reflexivity). rewrite forallb_forall in W. auto. }
      destruct (run_prefix _ _ _ _ _ E Hsc Hz) as [_ E2]; [reflexivity|auto|]. eapply Hc. symmetry. exact E2.
    + exfalso. rewrite Hz' in X. inversion X as [|? ? Y _]; subst. cbn in Y. destruct Y as [<-|[<-|[]]]; discriminate.
    + congruence.
    + contradiction.
  - exists c, z. conj; auto; intros ->; discriminate.
Qed.
Lemma lex_ident z rest : letters z -> head_not is_alnum rest -> head_not (ceqb 58) rest -> lex1 TIdentifier z rest.
Proof. intros H1 H2 H3. apply lex_ident_; auto. intros r ->. discriminate H3. Qed.
Lemma lex_blank z rest : z <> [] -> Forall (fun c => is_sp c = true) z -> head_not is_sp rest -> lex1 TWhitespace z rest.
Proof.
  intros Hn Hz Hr. destruct z as [|c z]; [congruence|]. clear Hn. assert (Hc : is_sp c = true) by (inversion Hz; auto).
  assert (Hc' : c = 32%N \/ c = 9%N). { unfold is_sp in Hc. apply orb_true_iff in Hc as [X|X]; apply ceqb_eq in X; auto. }
  apply lex1_shape.
  - intros k' z' r' Hs Hf E. destruct (shape_ne _ _ Hs) as (c' & w & Hz'). pose proof E as E0. rewrite Hz' in E0. injection E0 as -> _.
    destruct (shape_head _ _ _ _ Hs Hz') as [[-> X]|[(-> & scheme & s & Hi & X)|[[-> X]|[(-> & X & Y & Z)|[X _]]]]].
    + exfalso. rewrite Hz' in X. inversion X as [|? ? Y _]; subst. apply alnum_sp in Y. congruence.
    + exfalso. rewrite Hz' in X. cbn in Hi. destruct Hi as [<-|[<-|[<-|[]]]]; injection X as X _; destruct Hc' as [-> | ->]; discriminate X.
    + split; auto. cbn [follow_ok] in Hf. assert (X2 : Forall (fun c => is_sp c = true) z') by (eapply Forall_impl; [|exact X]; cbn; intros d [<-|[<-|[]]]; reflexivity). destruct (run_prefix is_sp _ _ _ _ E X2 Hz Hf Hr) as [? _]. auto.
    + exfalso. apply Z. destruct Hc' as [-> | ->]; vm_compute; tauto.
    + exfalso. apply special_not_sp in X. congruence.
  - exists c, z. conj; auto; intros ->; discriminate.
Qed.
(** A character that stands for itself. *)
Lemma lex_other c rest : is_alnum c = false -> is_sp c = false -> ~ In c special \/ In c alone /\ (exists d post', rest = d :: post' /\ ~ In d special) -> lex1 TOther [c] rest.
Proof.
  intros Ha Hb Hc. apply lex1_shape.
  - intros k' z' r' Hs Hf E. destruct (shape_ne _ _ Hs) as (c' & w & Hz'). pose proof E as E0. rewrite Hz' in E0. injection E0 as -> E0.
    destruct (shape_head _ _ _ _ Hs Hz') as [[-> X]|[(-> & scheme & s & Hi & X)|[[-> X]|[(-> & X & Y & Z)|[X X2]]]]].
    + exfalso. rewrite Hz' in X. inversion X; subst. congruence.
    + exfalso. rewrite Hz' in X. cbn in Hi. destruct Hi as [<-|[<-|[<-|[]]]]; injection X as -> _; discriminate.
    + exfalso. rewrite Hz' in X. inversion X as [|? ? Y _]; subst. cbn in Y. destruct Y as [<-|[<-|[]]]; discriminate.
    + auto.
    + exfalso. destruct Hc as [Hc|(Hc & d & post' & -> & Hd)]; [auto|]. destruct (X2 Hc) as (d' & r2 & -> & Hd'). injection E0 as -> _. auto.
  - exists c, []. conj; auto; intros ->; (destruct Hc as [Hc|[Hc _]]; [apply Hc; vm_compute; tauto|vm_compute in Hc; intuition discriminate]).
Qed.
(** Line ends. *)
Lemma lex_newline rest : no_nl rest -> lex1 TLineBreak [10%N] rest.
Proof.
  intro Hr. apply lex1_shape; [|exists 10%N, []; conj; auto; discriminate]. intros k' z' r' Hs Hf E. destruct (shape_ne _ _ Hs) as (c' & w & Hz'). pose proof E as E0. rewrite Hz' in E0. injection E0 as -> _.
  destruct (nl_shape _ _ Hs) as (n & Hn & Hk); [subst; reflexivity|]. destruct (nl_prefix 1 rest z' r' (S n) E Hr Hn) as (Hle & Hz & _). assert (n = 0) by lia. subst n. destruct Hk as [[-> _]|[_ ?]]; [auto|lia].
Qed.
Lemma lex_break rest : no_nl rest -> lex1 TParagraphBreak [10; 10]%N rest.
Proof.
  intro Hr. apply lex1_shape; [|exists 10%N, [10%N]; conj; auto; discriminate]. intros k' z' r' Hs Hf E. destruct (shape_ne _ _ Hs) as (c' & w & Hz'). pose proof E as E0. rewrite Hz' in E0. injection E0 as -> _.
  destruct (nl_shape _ _ Hs) as (n & Hn & Hk); [subst; reflexivity|]. destruct (nl_prefix 2 rest z' r' (S n) E Hr Hn) as (Hle & Hz & Hu). destruct Hk as [[-> ->]|[-> Hk]].
  - exfalso. cbn in Hu. subst r'. cbn in Hf. discriminate.
  - assert (n = 1) by lia. subst n. auto.
Qed.

(** *** The pieces of plain text: words, blanks and other characters. *)
Definition kind_of (c : char) : token := if is_alnum c then TIdentifier else if is_sp c then TWhitespace else TOther.
Fixpoint pieces (s : str) : list piece :=
  match s with
  | [] => []
  | c :: r => match pieces r with
              | (k, z) :: ws => if tok_eqb k (kind_of c) && negb (tok_eqb k TOther) then (k, c :: z) :: ws else (kind_of c, [c]) :: (k, z) :: ws
              | [] => [(kind_of c, [c])]
              end
  end.
Lemma flat_pieces s : flat (pieces s) = s.
Proof. induction s as [|c s IH]; auto. cbn [pieces]. destruct (pieces s) as [|[k z] ws]; [cbn in IH |- *; congruence|]. destruct (_ && _); cbn [flat flat_map snd] in IH |- *; cbn [app]; congruence. Qed.
Definition word_piece (x : piece) : Prop :=
  match fst x with TIdentifier => letters (snd x) | TWhitespace => snd x <> [] /\ Forall (fun c => is_sp c = true) (snd x) | TOther => exists c, snd x = [c] /\ is_alnum c = false /\ is_sp c = false | _ => False end.
Lemma kind_of_ident c : kind_of c = TIdentifier -> is_alnum c = true. Proof. unfold kind_of. destruct (is_alnum c); auto. destruct (is_sp c); discriminate. Qed.
Lemma kind_of_blank c : kind_of c = TWhitespace -> is_sp c = true. Proof. unfold kind_of. destruct (is_alnum c); try discriminate. destruct (is_sp c); auto; discriminate. Qed.
Lemma word_one c : word_piece (kind_of c, [c]).
Proof.
  unfold kind_of, word_piece. cbn [fst snd]. destruct (is_alnum c) eqn:A; [split; [discriminate|intros d [<-|[]]; auto]|]. destruct (is_sp c) eqn:B; [split; [discriminate|repeat constructor; auto]|]. exists c. auto.
Qed.
Lemma pieces_word s : Forall word_piece (pieces s).
Proof.
  induction s as [|c s IH]; [constructor|]. cbn [pieces]. destruct (pieces s) as [|[k z] ws]; [constructor; [apply word_one|constructor]|]. inversion IH as [|? ? Hk Hw]; subst. destruct (_ && _) eqn:E.
  - constructor; auto. apply andb_true_iff in E as [E1 E2]. apply tok_eqb_true in E1. unfold word_piece in *. cbn [fst snd] in *. destruct k; try contradiction; [| |discriminate].
    + destruct Hk as [Hk1 Hk2]. split; [discriminate|]. constructor; auto. apply kind_of_blank; auto.
    + destruct Hk as [Hk1 Hk2]. split; [discriminate|]. intros d [<-|Hd]; auto. apply kind_of_ident; auto.
  - constructor; [apply word_one|constructor; auto].
Qed.
(** The text stops: what follows cannot belong to it. *)
Definition halts (s rest : str) : Prop := forall d r, rest = d :: r -> is_alnum d = false /\ d <> 58%N /\ (is_sp d = true -> forall c, In c s -> is_sp c = false).
Definition plain_in (s : str) : Prop := forall pre c post, s = pre ++ c :: post -> ~ In c special \/ In c alone /\ exists d post', post = d :: post' /\ ~ In d special.
Lemma plain_tail c s : plain_in (c :: s) -> plain_in s.
Proof. intros H pre d post E. apply (H (c :: pre) d post). rewrite E. reflexivity. Qed.
Definition fine1 (k : token) (z rest : str) : Prop :=
  match k with
  | TIdentifier => head_not is_alnum rest /\ head_not (ceqb 58) rest
  | TWhitespace => head_not is_sp rest
  | _ => match z with [c] => ~ In c special \/ In c alone /\ exists d post', rest = d :: post' /\ ~ In d special | _ => False end
  end.
Fixpoint fine (cs : list piece) (rest : str) : Prop := match cs with [] => True | (k, z) :: cs' => fine1 k z (flat cs' ++ rest) /\ fine cs' rest end.
Lemma fine_lx cs rest : Forall word_piece cs -> fine cs rest -> lx cs rest.
Proof.
  induction cs as [|[k z] cs IH]; [auto|]. intros Hw [H1 H2]. inversion Hw as [|? ? Hk Hw']; subst. split; [|auto]. unfold word_piece in Hk. cbn [fst snd] in Hk. destruct k; try contradiction; cbn [fine1] in H1.
  - destruct Hk. apply lex_blank; auto.
  - destruct H1. apply lex_ident; auto.
  - destruct Hk as (c & -> & Ha & Hb). apply lex_other; auto.
Qed.
Lemma alone_special c : In c alone -> is_alnum c = false /\ is_sp c = false.
Proof. assert (X : forallb (fun c => negb (is_alnum c) && negb (is_sp c)) alone = true) by (vm_compute; reflexivity). rewrite forallb_forall in X. intro H. apply X in H. apply andb_true_iff in H as [H1 H2]. apply negb_true_iff in H1, H2. auto. Qed.
Lemma kind_of_cases c : (kind_of c = TIdentifier /\ is_alnum c = true) \/ (kind_of c = TWhitespace /\ is_sp c = true /\ is_alnum c = false) \/ (kind_of c = TOther /\ is_alnum c = false /\ is_sp c = false).
Proof. unfold kind_of. destruct (is_alnum c); [auto|]. destruct (is_sp c); auto. Qed.
Lemma pieces_fine s : forall rest, plain_in s -> halts s rest -> fine (pieces s) rest.
Proof.
  induction s as [|c s IH]; intros rest Hp Hh; [exact I|].
  assert (Hh' : halts s rest). { intros d r Hd. destruct (Hh d r Hd) as (H1 & H2 & H3). conj; auto. intros X e He. apply H3; auto. right. auto. }
  specialize (IH rest (plain_tail _ _ Hp) Hh'). pose proof (flat_pieces s) as Hfl. pose proof (pieces_word s) as Hw. cbn [pieces].
  pose proof (Hp [] c s eq_refl) as Hc. cbn [app] in Hc.
  destruct (pieces s) as [|[k z] ws].
  - cbn in Hfl. subst s. cbn [fine flat flat_map app]. split; auto. destruct Hc as [Hc|(_ & d & p & X & _)]; [|discriminate].
    assert (Hr : forall d r, rest = d :: r -> is_alnum d = false /\ d <> 58%N /\ (is_sp d = true -> is_sp c = false)). { intros d r X. destruct (Hh d r X) as (H1 & H2 & H3). conj; auto. intro Y. apply H3; auto. left. auto. }
    destruct (kind_of_cases c) as [[-> Ha]|[(-> & Hs & _)|(-> & _)]]; cbn [fine1]; auto.
    + destruct rest as [|d rest]; [split; exact I|]. destruct (Hr d rest eq_refl) as (H1 & H2 & _). split; [exact H1|]. apply ceqb_neq. congruence.
    + destruct rest as [|d rest]; [exact I|]. destruct (Hr d rest eq_refl) as (_ & _ & H3). cbn. destruct (is_sp d); auto. rewrite H3 in Hs; auto; discriminate.
  - destruct IH as [IH1 IH2]. inversion Hw as [|? ? Hk Hw']; subst. cbn [flat flat_map snd] in *. destruct (tok_eqb k (kind_of c) && negb (tok_eqb k TOther)) eqn:E.
    + cbn [fine]. split; auto. apply andb_true_iff in E as [E1 E2]. apply tok_eqb_true in E1. unfold word_piece in Hk. cbn [fst] in Hk. destruct k; try contradiction; try discriminate E2; cbn [fine1] in IH1 |- *; auto.
    + assert (Hz : exists d z', z = d :: z' /\ kind_of d = k).
      { unfold word_piece in Hk. cbn [fst snd] in Hk. destruct k; try contradiction.
        - destruct Hk as [Hn Hf]. destruct z as [|d z]; [congruence|]. exists d, z. split; auto. inversion Hf; subst. unfold kind_of. destruct (is_alnum d) eqn:X; [apply alnum_sp in X; congruence|]. rewrite H1. auto.
        - destruct Hk as [Hn Hf]. destruct z as [|d z]; [congruence|]. exists d, z. split; auto. unfold kind_of. rewrite Hf by (left; auto). auto.
        - destruct Hk as (d & -> & H1 & H2). exists d, []. split; auto. unfold kind_of. rewrite H1, H2. auto. }
      destruct Hz as (d & z' & -> & Hd). cbn [fine]. split; [|split; auto]. cbn [flat flat_map snd app]. fold (flat ws).
      destruct (kind_of_cases c) as [[Hkc Ha]|[(Hkc & Hs & Ha)|(Hkc & Ha & Hs)]]; rewrite Hkc in *; cbn [fine1].
      * destruct (kind_of_cases d) as [[Hkd Hda]|[(Hkd & Hds & Hda)|(Hkd & Hda & Hds)]].
        -- rewrite Hkd in Hd. subst k. discriminate E.
        -- split; [exact Hda|]. cbn. apply ceqb_neq. intros <-. discriminate.
        -- split; [exact Hda|]. cbn. apply ceqb_neq. intros <-. rewrite Hkd in Hd. subst k. cbn [fine1] in IH1. destruct z' as [|? ?]; [|contradiction].
           destruct IH1 as [X|[X _]]; vm_compute in X; intuition discriminate.
      * destruct (kind_of_cases d) as [[Hkd Hda]|[(Hkd & Hds & Hda)|(Hkd & Hda & Hds)]]; cbn.
        -- apply alnum_sp; auto.
        -- rewrite Hkd in Hd. subst k. discriminate E.
        -- auto.
      * destruct Hc as [Hc|(Hc & e & p & X & Hx)]; [left; auto|right]. split; auto. injection X as -> _. eexists _, _. split; [reflexivity|auto].
Qed.
Lemma pieces_lx s rest : plain_in s -> halts s rest -> lx (pieces s) rest.
Proof. intros H1 H2. apply fine_lx; [apply pieces_word|apply pieces_fine; auto]. Qed.

(** *** Names. *)
Definition name_pieces (o : str) : list piece :=
  match o with
  | c :: _ => if ceqb c 61 then map (fun c => (TEquals, [c])) o else if ceqb c 60 then [(TOther, o)] else if ceqb c 62 then [(TQuote, o)] else [(TIdentifier, o)]
  | [] => []
  end.
Definition signs : list str := [lit "="; lit "=="; lit "<"; lit ">"].
Lemma lower_alnum c : is_alnum (lower c) = true -> is_alnum c = true.
Proof. unfold lower. destruct (is_upper c) eqn:E; auto. intros _. unfold is_alnum, is_alpha. rewrite E. reflexivity. Qed.
Lemma slower_letters s : letters (slower s) -> letters s.
Proof. intros [H1 H2]. split; [intros ->; apply H1; reflexivity|]. intros c Hc. apply lower_alnum. apply H2. unfold slower. apply in_map. auto. Qed.
Lemma lower_fix c d : lower c = d -> is_alnum d = false -> c = d.
Proof. unfold lower. destruct (is_upper c) eqn:E; auto. intros <- H. exfalso. unfold is_alnum, is_alpha, is_lower, is_upper in *. apply andb_true_iff in E as [E1 E2]. apply N.leb_le in E1, E2.
  assert (X : ((97 <=? c + 32) && (c + 32 <=? 122))%N = true) by (apply andb_true_iff; split; apply N.leb_le; lia). rewrite X, orb_true_r in H. discriminate. Qed.
Lemma slower_fix : forall s t, slower s = t -> (forall c, In c t -> is_alnum c = false) -> s = t.
Proof. induction s as [|c s IH]; intros [|d t] H Ht; try discriminate; auto. injection H as H1 H2. f_equal; [apply lower_fix; auto; apply Ht; left; auto|apply IH; auto; intros e He; apply Ht; right; auto]. Qed.
Lemma box_names_letters k o : named (box_names k) o -> letters o.
Proof.
  intro H. apply slower_letters. assert (X : forallb (fun k => forallb (fun n => forallb is_alnum n && negb (seqb n [])) (box_names k)) [Strong; Emphasis; Underlined; Struck; Lowered; Raised; Mono; Marked; Inserted; Deleted; Span; Hidden; Invisible; Anchored false; Anchored true] = true) by (vm_compute; reflexivity).
  rewrite forallb_forall in X. assert (Hk : In k [Strong; Emphasis; Underlined; Struck; Lowered; Raised; Mono; Marked; Inserted; Deleted; Span; Hidden; Invisible; Anchored false; Anchored true]) by (destruct k as [| | | | | | | | | | | | |[]]; cbn; tauto).
  specialize (X k Hk). rewrite forallb_forall in X. specialize (X _ H). apply andb_true_iff in X as [X1 X2]. rewrite forallb_forall in X1. split; [|auto]. intros Y. rewrite Y in X2. discriminate.
Qed.
Lemma group_names_letters g o : named (group_names g) o -> letters o \/ (In o signs /\ group_attributes g = []).
Proof.
  unfold named. intro H. destruct g as [a|w|a|f a].
  - left. apply slower_letters. cbn in H. destruct H as [<-|[]]. split; [discriminate|]. apply forallb_forall. reflexivity.
  - right. split; [|reflexivity]. destruct w; cbn in H; destruct H as [H|[]]; symmetry in H; (apply slower_fix in H; [rewrite H; vm_compute; tauto|intros c Hc; vm_compute in Hc; intuition (subst; reflexivity)]).
  - left. apply slower_letters. cbn in H. destruct H as [<-|[<-|[]]]; (split; [discriminate|]; apply forallb_forall; reflexivity).
  - left. apply slower_letters. cbn in H. destruct H as [<-|[]]. split; [discriminate|]. apply forallb_forall. reflexivity.
Qed.
Lemma letters_pieces o : letters o -> name_pieces o = [(TIdentifier, o)].
Proof.
  intros [H1 H2]. destruct o as [|c o]; [congruence|]. cbn [name_pieces]. assert (H : is_alnum c = true) by (apply H2; left; auto).
  destruct (ceqb c 61) eqn:E1; [apply ceqb_eq in E1; subst; discriminate|]. destruct (ceqb c 60) eqn:E2; [apply ceqb_eq in E2; subst; discriminate|]. destruct (ceqb c 62) eqn:E3; [apply ceqb_eq in E3; subst; discriminate|]. reflexivity.
Qed.
Lemma lex_less rest : lex1 TOther (lit "<") (93%N :: rest).
Proof. eapply (lex1_run R_other); [reflexivity|discriminate|]. intro pos. eapply (token_nth 59); [reflexivity|skip_alts|reflexivity]. Qed.
Lemma lex_greater rest : lex1 TQuote (lit ">") (93%N :: rest).
Proof. eapply (lex1_run R_quote); [reflexivity|discriminate|]. intro pos. eapply (token_nth 52); [reflexivity|skip_alts|reflexivity]. Qed.
Lemma name_flat o : flat (name_pieces o) = o.
Proof. unfold name_pieces. destruct o as [|c o]; auto. destruct (ceqb c 61); [|destruct (ceqb c 60); [cbn; rewrite app_nil_r; auto|destruct (ceqb c 62); cbn; rewrite app_nil_r; auto]].
  generalize (c :: o). induction l as [|d l IH]; auto. cbn [map flat flat_map snd app]. f_equal. exact IH. Qed.
Lemma name_lx o c rest : c = 93%N /\ In o signs \/ letters o /\ (c = 93 \/ c = 32)%N -> lx (name_pieces o) (c :: rest).
Proof.
  intros [[-> H]|[H Hc]].
  - cbn in H. destruct H as [<-|[<-|[<-|[<-|[]]]]]; cbn [name_pieces lit].
    + split; [apply lex_equals|exact I].
    + split; [apply lex_equals|split; [apply lex_equals|exact I]].
    + split; [apply lex_less|exact I].
    + split; [apply lex_greater|exact I].
  - rewrite letters_pieces by auto. split; [|exact I]. apply lex_ident; auto; destruct Hc as [-> | ->]; reflexivity.
Qed.

(** *** Attributes. *)
Definition attribute_pieces (kv : attribute) : list piece :=
  (TWhitespace, lit " ") :: pieces (fst kv) ++ [(TEquals, lit "="); (TString, 34%N :: quote_inside (snd kv) ++ [34%N])].
Lemma attribute_flat kv : flat (attribute_pieces kv) = attribute_source kv.
Proof. unfold attribute_pieces, attribute_source. cbn [flat flat_map snd]. rewrite flat_map_app. fold (flat (pieces (fst kv))). rewrite flat_pieces. cbn [flat_map snd app]. rewrite app_nil_r. reflexivity. Qed.
Lemma plain_cons c s : (~ In c special \/ In c alone /\ exists d post', s = d :: post' /\ ~ In d special) -> plain_in s -> plain_in (c :: s).
Proof. intros H Hs [|d pre] e post E; injection E as -> E; [subst post; auto|eapply Hs; eauto]. Qed.
Lemma plain_letters s : (forall c, In c s -> is_alnum c = true) -> plain_in s.
Proof. intros H pre c post ->. left. intro X. apply special_not_alnum in X. rewrite H in X; [discriminate|]. apply in_or_app. right. left. auto. Qed.
Lemma plain_app_letters s t : (forall c, In c s -> is_alnum c = true) -> plain_in t -> plain_in (s ++ t).
Proof. intros H Ht. induction s as [|c s IH]; auto. cbn [app]. apply plain_cons; [|apply IH; intros d Hd; apply H; right; auto]. left. intro X. apply special_not_alnum in X. rewrite H in X; [discriminate|left; auto]. Qed.
Lemma common_letters s : In s common_attributes -> letters s.
Proof.
  intro H. assert (X : forallb (fun n => forallb is_alnum n && negb (seqb n [])) common_attributes = true) by (vm_compute; reflexivity). rewrite forallb_forall in X. specialize (X _ H).
  apply andb_true_iff in X as [X1 X2]. rewrite forallb_forall in X1. split; [|auto]. intros ->. discriminate.
Qed.
(** Keys are made of letters, digits and one hyphen. *)
Definition key_name (s : str) : Prop := plain_in s /\ (exists c r, s = c :: r /\ is_alnum c = true) /\ forall c, In c s -> is_alnum c = true \/ c = 45%N.
Lemma letters_key s : letters s -> key_name s.
Proof. intros [H1 H2]. split; [apply plain_letters; auto|split; [|auto]]. destruct s as [|c s]; [congruence|]. exists c, s. split; auto. apply H2. left. auto. Qed.
Lemma good_key_name k : good_key k -> key_name k.
Proof.
  intros [H|[(r & Hr & _ & H)|[_ H]]]; [apply letters_key, slower_letters, common_letters; auto| |apply letters_key; auto].
  assert (X : key_name (lit "data" ++ [45%N] ++ r) /\ key_name (lit "aria" ++ [45%N] ++ r)).
  { assert (P : plain_in ([45%N] ++ r)). { destruct Hr as [Hn Hl]. cbn [app]. apply plain_cons; [|apply plain_letters; auto]. right. split; [vm_compute; tauto|]. destruct r as [|d r]; [congruence|]. exists d, r. split; auto. intro X. apply special_not_alnum in X. rewrite Hl in X; [discriminate|left; auto]. }
    assert (A : forall s, (forall c, In c s -> is_alnum c = true) -> s <> [] -> key_name (s ++ [45%N] ++ r)).
    { intros s Hs Hne. split; [apply plain_app_letters; auto|split].
      - destruct s as [|c s]; [congruence|]. exists c, (s ++ [45%N] ++ r). split; auto. apply Hs. left. auto.
      - intros c Hc. apply in_app_or in Hc as [Hc|[<-|Hc]]; auto. left. apply Hr. auto. }
    split; apply A; try discriminate; apply forallb_forall; reflexivity. }
  destruct X as [X1 X2], H as [-> | ->]; [exact X1|exact X2].
Qed.
Lemma quote_body v : ~ In 13%N v -> string_body (quote_inside v).
Proof.
  induction v as [|c v IH]; intro H; [constructor|]. unfold quote_inside. cbn [flat_map]. fold (quote_inside v). assert (Hv : string_body (quote_inside v)) by (apply IH; intro X; apply H; right; auto).
  destruct (N.eq_dec c 92) as [->|N1]; [apply (sb_esc 92); auto; vm_compute; intuition discriminate|]. destruct (N.eq_dec c 34) as [->|N2]; [apply (sb_esc 34); auto; vm_compute; intuition discriminate|].
  destruct (N.eq_dec c 10) as [->|N3]; [apply (sb_esc 110); auto; vm_compute; intuition discriminate|].
  assert (E : (match c with 92%N => [92; 92]%N | 34%N => [92; 34]%N | 10%N => [92; 110]%N | _ => [c] end) = [c]).
  { destruct c as [|q]; auto. repeat (destruct q as [q|q|]; auto; try congruence). }
  rewrite E. cbn [app]. apply sb_char; auto. cbn. intros [X|[X|[X|[X|[]]]]]; subst; try congruence. apply H. left. auto.
Qed.
Lemma attribute_lx kv rest : key_name (fst kv) -> ~ In 13%N (snd kv) -> lx (attribute_pieces kv) rest.
Proof.
  destruct kv as [k v]. cbn [fst snd]. intros (Hp & (c & r & Hc & Ha) & _) Hv. unfold attribute_pieces. cbn [fst snd lx]. split.
  - apply lex_blank; [discriminate|repeat constructor|]. rewrite flat_app, flat_pieces, Hc. cbn [app head_not]. apply alnum_sp. auto.
  - rewrite lx_app. split; [|split; [apply lex_equals|split; [apply lex_string, quote_body; auto|exact I]]]. apply pieces_lx; auto. intros d r' X. injection X as <- _. conj; auto; discriminate.
Qed.

(** *** The pieces of a page. *)
Definition open_piece (star : bool) : piece := if star then (TLeftBlockStar, lit "[[*") else (TLeftBlock, lit "[[").
Definition right_piece : piece := (TRightBlock, lit "]]").
Definition blank_piece : piece := (TWhitespace, lit " ").
Definition close_pieces (o : str) : list piece := (TLeftBlockEnd, lit "[[/") :: name_pieces o ++ [right_piece].
Definition head_pieces (star : bool) (o : str) (tail : list piece) : list piece := open_piece star :: name_pieces o ++ tail ++ [right_piece].
Definition optional_pieces (o : option str) (f : str -> list piece) : list piece := match o with Some s => f s | None => [] end.
Definition colon_piece : piece := (TColon, lit ":").
Definition target_pieces (p : page) : list piece :=
  optional_pieces (on_site p) (fun s => [colon_piece; (TIdentifier, s); colon_piece]) ++ optional_pieces (category p) (fun c => [(TIdentifier, c); colon_piece]) ++
  pieces (page_name p) ++ optional_pieces (path p) (fun s => pieces (47%N :: s)) ++ optional_pieces (spot p) (fun s => (TNumberedItem, lit "#") :: pieces s).
Definition caption_pieces (c : caption) : list piece := match c with Bare => [] | Title => [(TPipe, lit "|")] | Caption s => (TPipe, lit "|") :: pieces s end.
Definition address_pieces (a : address) : list piece := match a with Web url => [(TUrl, url)] | Local name more => pieces (47%N :: name) ++ optional_pieces more (fun s => pieces (47%N :: s)) end.
Definition link_open (tab : bool) : piece := if tab then (TLeftLinkStar, lit "[[[*") else (TLeftLink, lit "[[[").
Definition bracket_open (tab : bool) : piece := if tab then (TLeftBracketStar, lit "[*") else (TLeftBracket, lit "[").
Definition link_end : piece := (TRightLink, lit "]]]").
Definition bracket_end : piece := (TRightBracket, lit "]").
Definition sign_pieces (c : sign * str) : list piece := match fst c with Must => (THeading, lit "+") :: pieces (snd c) | MustNot => pieces (45%N :: snd c) | OneOf => pieces (snd c) end.
Definition condition_pieces (c : sign * str) : list piece := blank_piece :: sign_pieces c.
Definition line_piece : piece := (TLineBreak, [10%N]).
Fixpoint inline_pieces (x : inline) : list piece :=
  match x with
  | Text s => pieces s
  | Box k o a inside c => head_pieces (starred k) o (flat_map attribute_pieces a) ++ flat_map inline_pieces inside ++ close_pieces c
  | Size z inside => head_pieces false (lit "size") (blank_piece :: pieces z) ++ flat_map inline_pieces inside ++ close_pieces (lit "size")
  | User star name => head_pieces star (lit "user") (blank_piece :: pieces name)
  | Checkbox star a => head_pieces star (lit "checkbox") (flat_map attribute_pieces a)
  | Radio star name a => head_pieces star (lit "radio") (blank_piece :: pieces name ++ flat_map attribute_pieces a)
  | Ruby base above => head_pieces false (lit "rb") (blank_piece :: pieces base ++ (TPipe, lit "|") :: pieces above)
  | Character e => head_pieces false (lit "char") (blank_piece :: pieces e)
  | Equation name => head_pieces false (lit "eref") (blank_piece :: pieces name)
  | PageLink tab p c => link_open tab :: target_pieces p ++ caption_pieces c ++ [link_end]
  | Link tab a c => bracket_open tab :: address_pieces a ++ (blank_piece :: pieces c) ++ [bracket_end]
  | Jump o c => (TLeftBracketAnchor, lit "[#") :: optional_pieces o pieces ++ (blank_piece :: pieces c) ++ [bracket_end]
  | When b cs inside => head_pieces false (when_name b) (flat_map condition_pieces cs) ++ flat_map inline_pieces inside ++ close_pieces (when_name b)
  | Break => [line_piece]
  end.
Definition break_piece : piece := (TParagraphBreak, [10; 10]%N).
Definition join_pieces (f : block -> list piece) (bs : list block) : list piece :=
  match bs with [] => [] | b :: bs => f b ++ flat_map (fun b => break_piece :: f b) bs end.
Definition tag_pieces (name : String.string) (a : list attribute) (inside : list piece) : list piece := head_pieces false (lit name) (flat_map attribute_pieces a) ++ inside ++ close_pieces (lit name).
Definition each_pieces {A} (f : A -> list piece) (l : list A) : list piece := line_piece :: flat_map (fun x => f x ++ [line_piece]) l.
Definition cell_all (c : cell) : list attribute := cell_attributes c ++ (if wide c =? 1 then [] else [(lit "colspan", digits (wide c))]).
Definition cell_name (c : cell) : String.string := if heading c then "hcell" else "cell".
Definition item_pieces (i : list attribute * list inline) : list piece := tag_pieces "li" (fst i) (flat_map inline_pieces (snd i)).
Definition cell_pieces (c : cell) : list piece := tag_pieces (cell_name c) (cell_all c) (flat_map inline_pieces (contents c)).
Definition row_pieces (r : list attribute * list cell) : list piece := tag_pieces "row" (fst r) (each_pieces cell_pieces (snd r)).
Definition bar_piece : piece := (TTableColumn, lit "||").
Definition mark_piece (m : mark) : piece :=
  match m with
  | Usual => bar_piece | Head => (TTableColumnTitle, lit "||~") | ToLeft => (TTableColumnLeft, lit "||<") | ToMiddle => (TTableColumnCenter, lit "||=") | ToRight => (TTableColumnRight, lit "||>")
  end.
Definition said_pieces (l : list inline) : list piece := match l with [] => [] | l => flat_map inline_pieces l ++ [blank_piece] end.
Definition short_pieces (c : short) : list piece := repeat bar_piece (columns c - 1) ++ mark_piece (mark_of c) :: blank_piece :: said_pieces (said c).
Definition bars_pieces (r : list short) : list piece := flat_map short_pieces r ++ [bar_piece].
Fixpoint block_pieces (b : block) : list piece :=
  match b with
  | Par l => flat_map inline_pieces l
  | Group g o inside c =>
      head_pieces false o (flat_map attribute_pieces (group_attributes g)) ++ [line_piece] ++
      match inside with [] => [] | b :: bs => block_pieces b ++ flat_map (fun b => break_piece :: block_pieces b) bs ++ [line_piece] end ++ close_pieces c
  | Verbatim v o t c => head_pieces false o (flat_map attribute_pieces (verbatim_attributes v)) ++ line_piece :: text_pieces t ++ line_piece :: close_pieces c
  | Items numbered a items => tag_pieces (list_name numbered) a (each_pieces item_pieces items)
  | Grid a rows => tag_pieces "table" a (each_pieces row_pieces rows)
  | Bars rows => match rows with [] => [] | r :: rs => bars_pieces r ++ flat_map (fun r => line_piece :: bars_pieces r) rs end
  | Divider n => [(TTripleDash, repeat 45%N n)]
  | Clear w n => [(clear_token w, repeat 126%N n ++ clear_end w)]
  end.
Definition page_pieces (bs : list block) : list piece := join_pieces block_pieces bs.

(** *** Induction over a page. *)
Section InlineInd.
Variable P : inline -> Prop.
Hypotheses (HT : forall s, P (Text s)) (HB : forall k o a inside c, Forall P inside -> P (Box k o a inside c)) (HS : forall z inside, Forall P inside -> P (Size z inside))
  (HU : forall b n, P (User b n)) (HC : forall b a, P (Checkbox b a)) (HR : forall b n a, P (Radio b n a)) (HY : forall b a, P (Ruby b a)) (HE : forall e, P (Character e)) (HQ : forall n, P (Equation n))
  (HP : forall tab p c, P (PageLink tab p c)) (HL : forall tab a c, P (Link tab a c)) (HJ : forall o c, P (Jump o c))
  (HW : forall b cs inside, Forall P inside -> P (When b cs inside)) (HK : P Break).
Fixpoint inline_ind' (x : inline) : P x :=
  let fix all (l : list inline) : Forall P l := match l with [] => Forall_nil P | y :: l' => Forall_cons y (inline_ind' y) (all l') end in
  match x with
  | Text s => HT s | Box k o a inside c => HB k o a inside c (all inside) | Size z inside => HS z inside (all inside) | User b n => HU b n | Checkbox b a => HC b a
  | Radio b n a => HR b n a | Ruby b a => HY b a | Character e => HE e | Equation n => HQ n
  | PageLink tab p c => HP tab p c | Link tab a c => HL tab a c | Jump o c => HJ o c
  | When b cs inside => HW b cs inside (all inside) | Break => HK
  end.
End InlineInd.
Section BlockInd.
Variable P : block -> Prop.
Hypotheses (HP : forall l, P (Par l)) (HG : forall g o inside c, Forall P inside -> P (Group g o inside c)) (HV : forall v o t c, P (Verbatim v o t c)) (HI : forall n a items, P (Items n a items)) (HD : forall a rows, P (Grid a rows))
  (HB : forall rows, P (Bars rows)) (HN : forall n, P (Divider n)) (HC : forall w n, P (Clear w n)).
Fixpoint block_ind' (b : block) : P b :=
  let fix all (l : list block) : Forall P l := match l with [] => Forall_nil P | y :: l' => Forall_cons y (block_ind' y) (all l') end in
  match b with Par l => HP l | Group g o inside c => HG g o inside c (all inside) | Verbatim v o t c => HV v o t c | Items n a items => HI n a items | Grid a rows => HD a rows
  | Bars rows => HB rows | Divider n => HN n | Clear w n => HC w n end.
End BlockInd.
Definition good_inside (ents : str -> option str) (l : list inline) : Prop := apart l /\ Forall (good_inline ents) l.
Lemma all_Forall {A} (P : A -> Prop) (l : list A) : (fix all (l : list A) : Prop := match l with [] => True | y :: l' => P y /\ all l' end) l <-> Forall P l.
Proof. induction l as [|x l IH]; [split; auto|]. rewrite IH. split; [intros [H1 H2]; constructor; auto|inversion 1; auto]. Qed.
Lemma good_box ents k o a inside c : good_inline ents (Box k o a inside c) <-> named (box_names k) o /\ named (box_names k) c /\ good_attributes a /\ (a = [] -> starts_flush inside) /\ good_inside ents inside.
Proof. cbn [good_inline]. rewrite (all_Forall (good_inline ents)). unfold good_inside. tauto. Qed.
Lemma good_size ents z inside : good_inline ents (Size z inside) <-> value z /\ good_inside ents inside.
Proof. cbn [good_inline]. rewrite (all_Forall (good_inline ents)). unfold good_inside. tauto. Qed.
Lemma good_when ents b cs inside : good_inline ents (When b cs inside) <-> cs <> [] /\ Forall good_condition cs /\ good_inside ents inside.
Proof. cbn [good_inline]. rewrite all_Forall. unfold good_inside. tauto. Qed.
Lemma good_group_ ents g o inside c : good_block ents (Group g o inside c) <-> named (group_names g) o /\ named (group_names g) c /\ good_group g /\ Forall (good_block ents) inside.
Proof. cbn [good_block]. rewrite (all_Forall (good_block ents)). tauto. Qed.

(** *** The pieces spell the page. *)
Lemma flat_flat_map {A} (f : A -> list piece) (g : A -> str) l : (forall x, In x l -> flat (f x) = g x) -> flat (flat_map f l) = flat_map g l.
Proof. induction l as [|x l IH]; intro H; auto. cbn [flat_map]. rewrite flat_app, IH by (intros; apply H; right; auto). rewrite H by (left; auto). reflexivity. Qed.
Lemma attributes_flat a : flat (flat_map attribute_pieces a) = attributes_source a.
Proof. apply flat_flat_map. intros; apply attribute_flat. Qed.
Lemma head_flat star o tail : flat (head_pieces star o tail) = (if star then lit "[[*" else lit "[[") ++ o ++ flat tail ++ lit "]]".
Proof. unfold head_pieces. change (open_piece star :: ?l) with ([open_piece star] ++ l). rewrite !flat_app, name_flat. destruct star; reflexivity. Qed.
Lemma close_flat o : flat (close_pieces o) = lit "[[/" ++ o ++ lit "]]".
Proof. unfold close_pieces. change ((TLeftBlockEnd, lit "[[/") :: ?l) with ([(TLeftBlockEnd, lit "[[/")] ++ l). rewrite !flat_app, name_flat. reflexivity. Qed.
Lemma flat_blank l : flat (blank_piece :: l) = lit " " ++ flat l. Proof. reflexivity. Qed.
Lemma flat_cons k z l : flat ((k, z) :: l) = z ++ flat l. Proof. reflexivity. Qed.
Lemma optional_flat o f g : (forall s, flat (f s) = g ++ s) -> flat (optional_pieces o f) = match o with Some s => g ++ s | None => [] end.
Proof. intro H. destruct o; [apply H|reflexivity]. Qed.
Lemma target_flat p : flat (target_pieces p) = page_source p.
Proof.
  unfold target_pieces, page_source, full_name, more_of. rewrite !flat_app, flat_pieces. unfold before_sign, after, optional_pieces. destruct p as [[s|] [c|] n [m|] [q|]]; cbn [on_site category page_name path spot];
    unfold colon_piece; rewrite ?flat_cons, ?flat_pieces; cbn [flat flat_map]; rewrite ?app_nil_r, <- ?app_assoc; reflexivity.
Qed.
Lemma caption_flat c : flat (caption_pieces c) = caption_source c.
Proof. destruct c; auto. cbn [caption_pieces]. rewrite flat_cons, flat_pieces. reflexivity. Qed.
Lemma address_flat a : flat (address_pieces a) = address_source a.
Proof. destruct a as [u|n [m|]]; cbn [address_pieces optional_pieces]; [cbn; apply app_nil_r|rewrite flat_app, !flat_pieces; reflexivity|rewrite app_nil_r, flat_pieces]; cbn [address_source after]. rewrite app_nil_r. reflexivity. Qed.
Lemma condition_flat c : flat (condition_pieces c) = condition_source c.
Proof. destruct c as [[] v]; unfold condition_pieces, sign_pieces, condition_source; cbn [fst snd]; rewrite flat_blank, ?flat_cons, flat_pieces; reflexivity. Qed.
Lemma conditions_flat cs : flat (flat_map condition_pieces cs) = flat_map condition_source cs.
Proof. apply flat_flat_map. intros c _. apply condition_flat. Qed.
Lemma inline_flat x : flat (inline_pieces x) = inline_source x.
Proof.
  induction x as [s|k o a inside c IH|z inside IH|b n|b a|b n a|b a|e|n|b p c|b a c|o c|b cs inside IH|] using inline_ind'; cbn [inline_pieces inline_source].
  - apply flat_pieces.
  - rewrite !flat_app, head_flat, close_flat, attributes_flat, (flat_flat_map inline_pieces inline_source) by (rewrite Forall_forall in IH; auto). rewrite <- !app_assoc. reflexivity.
  - rewrite !flat_app, head_flat, close_flat, flat_blank, flat_pieces, (flat_flat_map inline_pieces inline_source) by (rewrite Forall_forall in IH; auto). rewrite <- !app_assoc. reflexivity.
  - rewrite head_flat, flat_blank, flat_pieces. destruct b; rewrite <- !app_assoc; reflexivity.
  - rewrite head_flat, attributes_flat. destruct b; reflexivity.
  - rewrite head_flat, flat_blank, flat_app, flat_pieces, attributes_flat. destruct b; rewrite <- !app_assoc; reflexivity.
  - rewrite head_flat, flat_blank, flat_app. change ((TPipe, lit "|") :: ?l) with ([(TPipe, lit "|")] ++ l). rewrite flat_app, !flat_pieces. rewrite <- !app_assoc. reflexivity.
  - rewrite head_flat, flat_blank, flat_pieces. rewrite <- !app_assoc. reflexivity.
  - rewrite head_flat, flat_blank, flat_pieces. rewrite <- !app_assoc. reflexivity.
  - rewrite <- target_flat, <- caption_flat. destruct b; unfold link_open; rewrite flat_cons, !flat_app; reflexivity.
  - rewrite <- address_flat. destruct b; unfold bracket_open; rewrite flat_cons, !flat_app, flat_blank, flat_pieces, <- !app_assoc; reflexivity.
  - rewrite flat_cons, !flat_app, flat_blank, flat_pieces. destruct o; cbn [optional_pieces]; rewrite ?flat_pieces, <- !app_assoc; reflexivity.
  - rewrite !flat_app, head_flat, close_flat, conditions_flat, (flat_flat_map inline_pieces inline_source) by (rewrite Forall_forall in IH; auto). rewrite <- !app_assoc. reflexivity.
  - reflexivity.
Qed.
Lemma inlines_flat l : flat (flat_map inline_pieces l) = flat_map inline_source l.
Proof. apply flat_flat_map. intros; apply inline_flat. Qed.
Lemma good_solid names t : good_text names t -> solid t.
Proof. intros (_ & (c & r & -> & Hc) & _). exists r, c. split; auto. unfold is_nl. apply orb_false_iff. split; apply ceqb_neq; intros ->; apply Hc; cbn; tauto. Qed.
Lemma good_pieces names t : good_text names t -> flat (text_pieces t) = t /\ Forall (fun x => shape (fst x) (snd x)) (text_pieces t) /\ forall y, lxs (text_pieces t) (10%N :: y).
Proof. intro H. apply text_pieces_ok. right. eapply good_solid; eauto. Qed.
Lemma tag_flat name a inside : flat (tag_pieces name a inside) = tagged name a (flat inside).
Proof. unfold tag_pieces, tagged. rewrite !flat_app, head_flat, close_flat, attributes_flat, <- !app_assoc. reflexivity. Qed.
Lemma each_flat {A} (f : A -> list piece) (g : A -> str) l : (forall x, In x l -> flat (f x) = g x) -> flat (each_pieces f l) = each_line g l.
Proof. intro H. unfold each_pieces, each_line, line_piece. rewrite flat_cons. f_equal. apply flat_flat_map. intros x Hx. rewrite flat_app, H by auto. reflexivity. Qed.
Lemma item_flat i : flat (item_pieces i) = tagged "li" (fst i) (flat_map inline_source (snd i)).
Proof. unfold item_pieces. rewrite tag_flat, inlines_flat. reflexivity. Qed.
Lemma cell_flat c : flat (cell_pieces c) = cell_source c.
Proof. unfold cell_pieces. rewrite tag_flat, inlines_flat. reflexivity. Qed.
Lemma row_flat r : flat (row_pieces r) = tagged "row" (fst r) (each_line cell_source (snd r)).
Proof. unfold row_pieces. rewrite tag_flat. f_equal. apply each_flat. intros c _. apply cell_flat. Qed.
Lemma mark_flat m l : flat (mark_piece m :: l) = mark_source m ++ flat l. Proof. destruct m; reflexivity. Qed.
Lemma short_flat c : flat (short_pieces c) = short_source c.
Proof.
  unfold short_pieces, short_source. rewrite flat_app, mark_flat, flat_blank. f_equal; [|f_equal; f_equal].
  - induction (columns c - 1) as [|k IH]; [reflexivity|]. cbn [repeat concat]. unfold bar_piece at 1. rewrite flat_cons, IH. reflexivity.
  - unfold said_pieces. destruct (said c) as [|x l]; [reflexivity|]. rewrite flat_app, inlines_flat. reflexivity.
Qed.
Lemma bars_flat r : flat (bars_pieces r) = bars_source r.
Proof. unfold bars_pieces, bars_source. rewrite flat_app, (flat_flat_map short_pieces short_source) by (intros; apply short_flat). reflexivity. Qed.
Lemma block_flat ents b : good_block ents b -> flat (block_pieces b) = block_source b.
Proof.
  induction b as [l|g o inside c IH|v o t c|n a items|a rows|rows|n|w n] using block_ind'; intro Hg; cbn [block_pieces block_source]; [apply inlines_flat| | |rewrite tag_flat; f_equal; apply each_flat; intros; apply item_flat|rewrite tag_flat; f_equal; apply each_flat; intros; apply row_flat| |apply app_nil_r|unfold flat; cbn [flat_map snd]; rewrite app_nil_r; reflexivity].
  - apply good_group_ in Hg as (_ & _ & _ & Hg). rewrite !flat_app, head_flat, close_flat, attributes_flat. rewrite <- !app_assoc. do 4 f_equal. cbn [flat flat_map snd line_piece app]. f_equal.
    destruct inside as [|b bs]; [reflexivity|]. inversion IH as [|? ? Hb Hbs]; subst. inversion Hg as [|? ? Hgb Hgbs]; subst. rewrite !flat_app, Hb by auto. rewrite <- !app_assoc. do 2 f_equal.
    apply flat_flat_map. intros x Hx. change (break_piece :: block_pieces x) with ([break_piece] ++ block_pieces x). rewrite flat_app. rewrite Forall_forall in Hbs, Hgbs. rewrite Hbs by auto. reflexivity.
  - destruct Hg as (_ & _ & _ & Hg). destruct (good_pieces _ _ Hg) as [Ht _]. rewrite flat_app, head_flat, attributes_flat. unfold line_piece. rewrite flat_cons, flat_app, flat_cons, close_flat, Ht. rewrite <- !app_assoc. reflexivity.
  - destruct rows as [|r rs]; [reflexivity|]. rewrite flat_app, bars_flat. f_equal. apply flat_flat_map. intros x _. unfold line_piece. rewrite flat_cons, bars_flat. reflexivity.
Qed.
Lemma page_flat ents bs : Forall (good_block ents) bs -> flat (page_pieces bs) = source bs.
Proof.
  intro H. destruct bs as [|b bs]; auto. inversion H as [|? ? H1 H2]; subst. rewrite Forall_forall in H2. unfold page_pieces, join_pieces, source. rewrite flat_app, (block_flat _ _ H1). f_equal. apply flat_flat_map. intros x Hx.
  change (break_piece :: block_pieces x) with ([break_piece] ++ block_pieces x). rewrite flat_app, (block_flat _ _ (H2 _ Hx)). reflexivity.
Qed.

(** *** The lexer reads the pieces. *)
Definition stop_at (rest : str) : Prop := match rest with [] => True | c :: _ => c = 91%N \/ c = 10%N \/ c = 124%N end.
Lemma value_first s : value s -> exists c r, s = c :: r /\ is_sp c = false /\ c <> 124%N.
Proof.
  intros ((Hn & Hp) & Hf & _). destruct s as [|c s]; [congruence|]. exists c, s. specialize (Hf c s eq_refl). unfold visible in Hf. conj; auto.
  - unfold is_sp. apply orb_false_iff. split; apply ceqb_neq; lia.
  - intros ->. destruct (Hp [] 124%N s eq_refl) as [X|[X _]]; [apply X; vm_compute; tauto|vm_compute in X; intuition discriminate].
Qed.
Lemma halts_char s c r : (c = 91 \/ c = 10 \/ c = 93 \/ c = 124)%N -> halts s (c :: r).
Proof. intros H d r' X. injection X as <- _. destruct H as [->|[->|[->| ->]]]; conj; auto; discriminate. Qed.
Lemma halts_word s c r : c = 32%N -> (forall d, In d s -> is_sp d = false) -> halts s (c :: r).
Proof. intros -> H d r' X. injection X as <- _. conj; auto; discriminate. Qed.
Lemma name_first o : letters o \/ In o signs -> exists c r, o = c :: r /\ ~ In c [91; 36; 35; 42; 47]%N.
Proof.
  intros [[H1 H2]|H].
  - destruct o as [|c o]; [congruence|]. exists c, o. split; auto. intro X. assert (Ha : is_alnum c = true) by (apply H2; left; auto). cbn in X. intuition (subst; discriminate).
  - cbn in H. intuition subst; eexists _, _; (split; [reflexivity|]); vm_compute; intuition discriminate.
Qed.
Lemma right_lx rest : head_not (ceqb 93) rest -> lx [right_piece] rest. Proof. intro H. split; [apply lex_right; auto|exact I]. Qed.
(** A head: what follows the name is a blank or the end. *)
Lemma head_lx star o tail rest : letters o \/ (In o signs /\ tail = []) -> lx tail (lit "]]" ++ rest) -> (tail = [] \/ exists r, flat tail = 32%N :: r) -> head_not (ceqb 93) rest -> lx (head_pieces star o tail) rest.
Proof.
  intros Ho Ht Hf Hr. unfold head_pieces. destruct (name_first o) as (c & r & Hc & Hcn); [tauto|].
  assert (Hop : lx [open_piece star] (flat (name_pieces o ++ tail ++ [right_piece]) ++ rest)).
  { rewrite flat_app, name_flat, Hc. destruct star; (split; [|exact I]); [apply lex_star_open|apply lex_open; auto]. }
  change (open_piece star :: ?l) with ([open_piece star] ++ l). rewrite lx_app. split; [exact Hop|]. rewrite !lx_app. split; [|split; [exact Ht|apply right_lx; auto]].
  rewrite flat_app. destruct Hf as [->|[r' Hf]].
  - cbn [flat flat_map app]. apply name_lx. destruct Ho as [Ho|[Ho _]]; auto.
  - destruct Ho as [Ho|[_ ->]]; [|discriminate]. rewrite Hf. cbn [app]. apply name_lx. right. auto.
Qed.
Lemma close_lx o rest : letters o \/ In o signs -> head_not (ceqb 93) rest -> lx (close_pieces o) rest.
Proof.
  intros Ho Hr. unfold close_pieces. cbn [lx]. split; [apply lex_close|]. rewrite lx_app. split; [|apply right_lx; auto]. apply name_lx. tauto.
Qed.
Lemma attributes_first a : flat_map attribute_pieces a = [] \/ exists r, flat (flat_map attribute_pieces a) = 32%N :: r.
Proof. rewrite attributes_flat. destruct a as [|kv a]; [auto|]. right. eexists. reflexivity. Qed.
Lemma attributes_lx a rest : (forall k v, In (k, v) a -> key_name k /\ ~ In 13%N v) -> lx (flat_map attribute_pieces a) rest.
Proof.
  intro H. revert rest. induction a as [|[k v] a IH]; intro rest; [exact I|]. cbn [flat_map]. rewrite lx_app. destruct (H k v (or_introl eq_refl)). split; [apply attribute_lx; auto|].
  apply IH. intros; apply H; right; auto.
Qed.
Lemma good_attribute_name k v : good_attribute k v -> key_name k.
Proof. intros [H|[H _]]; [apply good_key_name; exact H|]. apply letters_key, slower_letters. cbn in H. destruct H as [<-|[<-|[]]]; (split; [discriminate|apply forallb_forall; reflexivity]). Qed.
Lemma good_attributes_names a : good_attributes a -> forall k v, In (k, v) a -> key_name k /\ ~ In 13%N v.
Proof. intros [_ H] k v Hi. destruct (H k v Hi). split; auto. eapply good_attribute_name; eauto. Qed.
Lemma value_plain s : value s -> plain_in s. Proof. intros ((_ & H) & _). exact H. Qed.
Lemma value_lx s rest : value s -> halts s rest -> lx (blank_piece :: pieces s) rest.
Proof.
  intros Hv Hh. destruct (value_first s Hv) as (c & r & Hs & Hc & _). split; [|apply pieces_lx; auto; apply value_plain; auto]. apply lex_blank; [discriminate|repeat constructor|]. rewrite flat_pieces, Hs. exact Hc.
Qed.
Lemma plain_first s : plain s -> exists c r, s = c :: r /\ ceqb 93 c = false.
Proof. intros [Hn Hp]. destruct s as [|c s]; [congruence|]. exists c, s. split; auto. apply ceqb_neq. intros <-. destruct (Hp [] 93%N s eq_refl) as [X|[X _]]; [apply X; vm_compute; tauto|vm_compute in X; intuition discriminate]. Qed.
Lemma not_text_first x : (forall s, x <> Text s) -> x <> Break -> exists r, inline_source x = 91%N :: r.
Proof. intros H H'. destruct x as [s|k o a inside c|z inside|b n|b a|b n a|b a|e|n|b p c|b a c|o c|b cs inside|]; [destruct (H s eq_refl)|..|congruence]; try destruct b; cbn [inline_source]; try destruct (starred k); eexists; reflexivity. Qed.
Lemma stop_not93 rest : stop_at rest -> head_not (ceqb 93) rest.
Proof. destruct rest as [|c rest]; [auto|]. intros [-> |[-> | ->]]; reflexivity. Qed.
Lemma inlines_not93 ents l rest : Forall (good_inline ents) l -> head_not (ceqb 93) rest -> head_not (ceqb 93) (flat (flat_map inline_pieces l) ++ rest).
Proof.
  intros H Hr. rewrite inlines_flat. destruct l as [|x l]; [exact Hr|]. inversion H as [|? ? Hx _]; subst. cbn [flat_map]. destruct x as [s|k o a inside c|z inside|b n|b a|b n a|b a|e|n|b p c|b a c|o c|b cs inside|];
    try (match goal with |- context [inline_source ?x] => destruct (not_text_first x) as [r ->]; [discriminate|discriminate|reflexivity] end).
  2:{ reflexivity. }
  destruct (plain_first s Hx) as (c & r & -> & Hc). exact Hc.
Qed.
Lemma letters_value e : letters e -> plain_in e /\ (exists c r, e = c :: r /\ is_sp c = false).
Proof. intros [H1 H2]. split; [apply plain_letters; auto|]. destruct e as [|c e]; [congruence|]. exists c, e. split; auto. apply alnum_sp. apply H2. left. auto. Qed.
Lemma halts_in s c r : In c [91; 10; 93; 124; 47; 35]%N -> halts s (c :: r).
Proof. intros H d r' X. injection X as <- _. cbn in H. conj; intuition (subst; try discriminate; auto). Qed.
Lemma plain_first_not s : plain s -> exists c r, s = c :: r /\ ~ In c [91; 42; 35; 93; 124; 58; 10]%N.
Proof.
  intros (Hn & Hp). destruct s as [|c s]; [congruence|]. exists c, s. split; auto. intro Hc. destruct (Hp [] c s eq_refl) as [X|[X _]].
  - apply X. cbn in Hc. vm_compute. tauto.
  - vm_compute in X, Hc. intuition congruence.
Qed.
Lemma more_lx o rest : (forall s, o = Some s -> plain (47%N :: s)) -> (forall s, halts s rest) -> lx (optional_pieces o (fun s => pieces (47%N :: s))) rest.
Proof. intros H Hr. destruct o as [s|]; [|exact I]. apply pieces_lx; auto. destruct (H s eq_refl). auto. Qed.
Lemma target_lx p c rest : good_page_name p -> In c [93; 124]%N -> lx (target_pieces p) (c :: rest) /\ exists d r, flat (target_pieces p) = d :: r /\ ~ In d [91; 42]%N.
Proof.
  intros (Hn & Hsl & Hs & Hc & Hb & Hp & Hq) Hr. assert (Hend : forall s, halts s (c :: rest)) by (intro s; apply halts_in; cbn in Hr |- *; tauto).
  destruct (plain_first_not (page_name p)) as (d & r & Hd & Hdn); [apply Hn|]. assert (Hd47 : d <> 47%N) by (intros ->; apply Hsl; rewrite Hd; left; auto).
  unfold target_pieces. split.
  - assert (H5 : lx (optional_pieces (spot p) (fun s => (TNumberedItem, lit "#") :: pieces s)) (c :: rest) /\ forall s, halts s (flat (optional_pieces (spot p) (fun s => (TNumberedItem, lit "#") :: pieces s)) ++ c :: rest)).
    { destruct (spot p) as [s|]; [|split; [exact I|exact Hend]]. specialize (Hq s eq_refl). cbn [optional_pieces]. split; [|intro t; apply halts_in; cbn; tauto]. split; [|apply pieces_lx; auto; apply value_plain; auto].
      rewrite flat_pieces. destruct (plain_first_not s) as (e & r' & -> & He); [apply Hq|]. apply lex_number. intros ->. apply He. cbn. tauto. }
    destruct H5 as [H5 H5'].
    assert (H4 : lx (optional_pieces (path p) (fun s => pieces (47%N :: s)) ++ optional_pieces (spot p) (fun s => (TNumberedItem, lit "#") :: pieces s)) (c :: rest) /\
      forall s, halts s (flat (optional_pieces (path p) (fun s => pieces (47%N :: s)) ++ optional_pieces (spot p) (fun s => (TNumberedItem, lit "#") :: pieces s)) ++ c :: rest)).
    { rewrite lx_app, flat_app, <- app_assoc. split; [split; auto; apply more_lx; auto; intros s X; apply (Hp s X)|]. destruct (path p) as [s|]; [|exact H5']. intro t. cbn [optional_pieces]. rewrite flat_pieces. apply halts_in. cbn. tauto. }
    destruct H4 as [H4 H4'].
    assert (H3 : lx (pieces (page_name p) ++ optional_pieces (path p) (fun s => pieces (47%N :: s)) ++ optional_pieces (spot p) (fun s => (TNumberedItem, lit "#") :: pieces s)) (c :: rest)).
    { rewrite lx_app. split; auto. apply pieces_lx; auto. apply value_plain. auto. }
    assert (H3' : exists r', flat (pieces (page_name p) ++ optional_pieces (path p) (fun s => pieces (47%N :: s)) ++ optional_pieces (spot p) (fun s => (TNumberedItem, lit "#") :: pieces s)) ++ c :: rest = d :: r').
    { rewrite flat_app, flat_pieces, Hd. eexists. reflexivity. }
    revert H3 H3'. generalize (pieces (page_name p) ++ optional_pieces (path p) (fun s => pieces (47%N :: s)) ++ optional_pieces (spot p) (fun s => (TNumberedItem, lit "#") :: pieces s)). intros T H3 [r' H3'].
    assert (H2 : lx (optional_pieces (category p) (fun c => [(TIdentifier, c); colon_piece]) ++ T) (c :: rest)).
    { rewrite lx_app. split; auto. destruct (category p) as [k|]; [|exact I]. destruct (Hc k eq_refl) as [Hk _]. cbn [optional_pieces]. split; [|split; [apply lex_colon|exact I]]. cbn [flat flat_map snd app colon_piece]. rewrite H3'.
      apply lex_ident_; auto; [reflexivity|]. intros q X. injection X as X _. auto. }
    rewrite lx_app. split; auto. destruct (on_site p) as [k|]; [|exact I]. specialize (Hs k eq_refl). cbn [optional_pieces]. split; [apply lex_colon|split; [|split; [apply lex_colon|exact I]]]. change (flat [colon_piece]) with (lit ":").
    rewrite flat_app, <- app_assoc, H3'. apply lex_ident_; auto; [reflexivity|]. intros q X. destruct (category p) as [k'|]; cbn [optional_pieces flat flat_map snd app] in X.
    + destruct (Hc k' eq_refl) as [[Hk1 Hk2] _]. destruct k' as [|e k']; [congruence|]. injection X as X _. specialize (Hk2 e (or_introl eq_refl)). subst e. discriminate Hk2.
    + injection X as X _. auto.
  - destruct (on_site p) as [k|]; [eexists 58%N, _; split; [reflexivity|cbn; intuition discriminate]|]. cbn [optional_pieces app]. destruct (category p) as [k|]; cbn [optional_pieces app].
    + destruct (Hc k eq_refl) as [[Hk1 Hk2] _]. destruct k as [|e k]; [congruence|]. eexists e, _. split; [reflexivity|]. specialize (Hk2 e (or_introl eq_refl)). intros [<-|[<-|[]]]; discriminate.
    + rewrite flat_app, flat_pieces, Hd. eexists d, _. split; [reflexivity|]. cbn in Hdn |- *. tauto.
Qed.
Lemma lx_cons x cs rest : lex1 (fst x) (snd x) (flat cs ++ rest) -> lx cs rest -> lx (x :: cs) rest. Proof. destruct x. split; auto. Qed.
Lemma caption_lx c rest : good_caption c -> lx (caption_pieces c) (93%N :: rest) /\ exists d r, flat (caption_pieces c) ++ 93%N :: rest = d :: r /\ In d [93; 124]%N.
Proof.
  intro H. destruct c as [| |s]; cbn [caption_pieces].
  - split; [exact I|]. eexists _, _. split; [reflexivity|cbn; tauto].
  - split; [split; [apply lex_pipe; discriminate|exact I]|]. eexists _, _. split; [reflexivity|cbn; tauto].
  - destruct (plain_first_not s) as (d & r & Hd & Hn); [apply H|]. split; [|eexists _, _; split; [reflexivity|cbn; tauto]]. split; [|apply pieces_lx; [apply value_plain; exact H|apply halts_in; cbn; tauto]]. rewrite flat_pieces, Hd. apply lex_pipe. intros ->. apply Hn. cbn. tauto.
Qed.
Lemma word_halts s rest : word s -> halts s (32%N :: rest).
Proof. intros [_ H]. apply halts_word; auto. intros d Hd. specialize (H d Hd). unfold is_sp. apply orb_false_iff. split; apply ceqb_neq; intros <-; apply H; cbn; tauto. Qed.
Lemma address_lx a rest : good_address a -> lx (address_pieces a) (32%N :: rest) /\ exists d r, flat (address_pieces a) = d :: r /\ ~ In d [33; 91; 35; 42]%N.
Proof.
  destruct a as [u|n m]; intro H; cbn [address_pieces].
  - split; [split; [apply lex_url; exact H|exact I]|]. destruct H as (sc & r & Hi & -> & _). cbn [flat flat_map snd]. cbn in Hi. destruct Hi as [<-|[<-|[<-|[]]]]; (eexists _, _; split; [reflexivity|cbn; intuition discriminate]).
  - destruct H as (Hn & Hs & Hm). split; [|rewrite flat_app, flat_pieces; eexists _, _; split; [reflexivity|cbn; intuition discriminate]]. rewrite lx_app. split.
    + apply pieces_lx; [apply value_plain; apply Hn|]. destruct m as [m|]; cbn [optional_pieces]; [rewrite flat_pieces; apply halts_in; cbn; tauto|]. apply word_halts; auto.
    + destruct m as [m|]; [|exact I]. specialize (Hm m eq_refl). apply pieces_lx; [apply value_plain; apply Hm|apply word_halts; auto].
Qed.
Lemma blank_lx c rest : value c -> head_not (ceqb 93) rest -> lx ((blank_piece :: pieces c) ++ [bracket_end]) rest.
Proof. intros Hc Hr. rewrite lx_app. split; [|split; [apply lex_bracket_end; auto|exact I]]. apply value_lx; auto. apply halts_in. cbn. tauto. Qed.
Lemma word_sp s : word s -> forall d, In d s -> is_sp d = false.
Proof. intros [_ H] d Hd. specialize (H d Hd). unfold is_sp. apply orb_false_iff. split; apply ceqb_neq; intros <-; apply H; cbn; tauto. Qed.
Lemma condition_lx c rest : good_condition c -> (forall s, (forall d, In d s -> is_sp d = false) -> halts s rest) -> lx (condition_pieces c) rest.
Proof.
  intros [Hw Hf] Hh. destruct c as [k v]. cbn [fst snd] in *. destruct (value_first v (proj1 Hw)) as (d & r & Hd & Hsp & _). specialize (Hf d r Hd). pose proof (word_sp v Hw) as Hs.
  pose proof (value_plain v (proj1 Hw)) as Hp. unfold condition_pieces, sign_pieces. cbn [fst snd]. destruct k.
  - apply lx_cons; [apply lex_blank; [discriminate|repeat constructor|reflexivity]|]. apply lx_cons; [|apply pieces_lx; auto]. cbn [fst snd]. rewrite flat_pieces, Hd. apply lex_plus; intros ->; apply Hf; vm_compute; tauto.
  - apply lx_cons; [apply lex_blank; [discriminate|repeat constructor|rewrite flat_pieces; reflexivity]|]. apply pieces_lx.
    + apply plain_cons; auto. right. split; [vm_compute; tauto|]. exists d, r. auto.
    + apply Hh. intros x [<-|Hx]; auto.
  - apply lx_cons; [apply lex_blank; [discriminate|repeat constructor|rewrite flat_pieces, Hd; exact Hsp]|]. apply pieces_lx; auto.
Qed.
Lemma conditions_lx cs rest : Forall good_condition cs -> lx (flat_map condition_pieces cs) (93%N :: rest).
Proof.
  induction cs as [|c cs IH]; intro H; [exact I|]. inversion H; subst. cbn [flat_map]. rewrite lx_app. split; [|auto]. apply condition_lx; auto. intros s Hs.
  rewrite conditions_flat. destruct cs as [|c2 cs]; [apply halts_char; auto|apply halts_word; auto].
Qed.
Lemma when_letters b : letters (when_name b). Proof. destruct b; (split; [discriminate|apply forallb_forall; reflexivity]). Qed.
(** What stands side by side. *)
Definition tidy (l : list inline) : Prop := (forall front x y rest, l = front ++ x :: y :: rest -> beside x y) /\ forall r, l <> r ++ [Break].
Lemma apart_tidy l : apart l -> tidy l. Proof. intros [H1 H2]. split; [exact H1|]. intros r X. apply (proj2 (H2 r)). exact X. Qed.
Lemma tidy_tail x l : tidy (x :: l) -> tidy l.
Proof. intros [H1 H2]. split; [intros f y z r ->; apply (H1 (x :: f) y z r); reflexivity|]. intros r ->. apply (H2 (x :: r)). reflexivity. Qed.
Lemma tidy_head x y l : tidy (x :: y :: l) -> beside x y. Proof. intros [H _]. exact (H [] x y l eq_refl). Qed.
Lemma plain_not_nl s : plain s -> exists c r, s = c :: r /\ is_nl c = false.
Proof.
  intros [Hn Hp]. destruct s as [|c s]; [congruence|]. exists c, s. split; auto. unfold is_nl. apply orb_false_iff. split; apply ceqb_neq; intros ->;
    (destruct (Hp [] _ s eq_refl) as [X|[X _]]; [apply X; vm_compute; tauto|vm_compute in X; intuition discriminate]).
Qed.
Lemma inline_not_nl ents x : good_inline ents x -> x <> Break -> exists c r, inline_source x = c :: r /\ is_nl c = false.
Proof.
  intros Hg Hb. destruct x as [s|k o a inside c|z inside|b n|b a|b n a|b a|e|n|b p c|b a c|o c|b cs inside|]; try (match goal with |- context [inline_source ?x] => destruct (not_text_first x) as [r ->]; [discriminate|discriminate|eexists _, _; split; reflexivity] end); [|congruence].
  apply plain_not_nl. exact Hg.
Qed.
Definition inline_reads ents (x : inline) : Prop := good_inline ents x -> forall rest, head_not (ceqb 93) rest -> (forall s, x = Text s -> stop_at rest) -> (x = Break -> no_nl rest) -> lx (inline_pieces x) rest.
Lemma inlines_reads ents l : Forall (inline_reads ents) l -> Forall (good_inline ents) l -> tidy l -> forall rest, stop_at rest -> lx (flat_map inline_pieces l) rest.
Proof.
  induction l as [|x l IH]; intros HF Hg Ha rest Hr; [exact I|]. inversion HF as [|? ? Hx HF']; subst. inversion Hg as [|? ? Hgx Hg']; subst. cbn [flat_map]. rewrite lx_app. split.
  - apply Hx; auto; [eapply inlines_not93; eauto; apply stop_not93; auto|..].
    + intros s ->. rewrite inlines_flat. destruct l as [|y l]; [exact Hr|]. cbn [flat_map]. apply tidy_head in Ha.
      destruct y; try contradiction; try (match goal with |- context [inline_source ?x] => destruct (not_text_first x) as [r ->]; [discriminate|discriminate|left; reflexivity] end). right; left. reflexivity.
    + intros ->. rewrite inlines_flat. destruct l as [|y l]; [destruct (proj2 Ha [] eq_refl)|]. cbn [flat_map]. apply tidy_head in Ha. inversion Hg' as [|? ? Hy _]; subst.
      destruct (inline_not_nl ents y Hy) as (c & r & -> & Hc); [intros ->; exact Ha|]. intros d q X. injection X as <- _. exact Hc.
  - apply IH; auto. eapply tidy_tail; eauto.
Qed.
Lemma inline_lx ents x : inline_reads ents x.
Proof.
  assert (Hlist : forall l, Forall (inline_reads ents) l -> good_inside ents l -> forall rest, stop_at rest -> lx (flat_map inline_pieces l) rest) by (intros l HF [Ha Hg]; apply (inlines_reads ents); auto; apply apart_tidy; auto).
  induction x as [s|k o a inside c IH|z inside IH|b n|b a|b n a|b a|e|n|b p c|b a c|o c|b cs inside IH|] using inline_ind'; intros Hg rest Hr Hs Hk; cbn [inline_pieces].
  - destruct Hg as [Hn Hp]. apply pieces_lx; auto. specialize (Hs s eq_refl). destruct rest as [|c rest]; [intros ? ? ?; discriminate|]. apply halts_char. destruct Hs as [|[|]]; auto.
  - apply good_box in Hg as (Ho & Hc & Ha & _ & Hi). apply box_names_letters in Ho, Hc. rewrite !lx_app. split; [|split].
    + apply head_lx; auto; [apply attributes_lx, good_attributes_names; auto|apply attributes_first|]. rewrite flat_app, <- app_assoc. eapply inlines_not93; [apply Hi|]. rewrite close_flat. reflexivity.
    + apply Hlist; auto. rewrite close_flat. left. reflexivity.
    + apply close_lx; auto.
  - apply good_size in Hg as (Hz & Hi). assert (L : letters (lit "size")) by (split; [discriminate|apply forallb_forall; reflexivity]). rewrite !lx_app. split; [|split].
    + apply head_lx; auto; [apply value_lx; auto; apply halts_char; auto|right; eexists; reflexivity|]. rewrite flat_app, <- app_assoc. eapply inlines_not93; [apply Hi|]. rewrite close_flat. reflexivity.
    + apply Hlist; auto. rewrite close_flat. left. reflexivity.
    + apply close_lx; auto.
  - assert (L : letters (lit "user")) by (split; [discriminate|apply forallb_forall; reflexivity]). apply head_lx; auto; [apply value_lx; auto; apply halts_char; auto|right; eexists; reflexivity].
  - assert (L : letters (lit "checkbox")) by (split; [discriminate|apply forallb_forall; reflexivity]). apply head_lx; auto; [apply attributes_lx, good_attributes_names; auto|apply attributes_first].
  - assert (L : letters (lit "radio")) by (split; [discriminate|apply forallb_forall; reflexivity]). destruct Hg as [[Hv Hw] Ha]. apply head_lx; auto; [|right; eexists; reflexivity].
    change (blank_piece :: pieces n ++ ?l) with ((blank_piece :: pieces n) ++ l). rewrite lx_app. split; [|apply attributes_lx, good_attributes_names; auto]. apply value_lx; auto.
    destruct (attributes_first a) as [->|[r ->]]; [apply halts_char; auto|apply halts_word; auto]. intros d Hd. specialize (Hw d Hd). unfold is_sp. apply orb_false_iff. split; apply ceqb_neq; intros <-; apply Hw; cbn; tauto.
  - assert (L : letters (lit "rb")) by (split; [discriminate|apply forallb_forall; reflexivity]). destruct Hg as [Hb Ha]. apply head_lx; auto; [|right; eexists; reflexivity].
    change (blank_piece :: pieces b ++ ?l) with ((blank_piece :: pieces b) ++ l). rewrite lx_app. split; [apply value_lx; auto; apply halts_char; auto|]. destruct (value_first a Ha) as (c & r & Hc & _ & Hp).
    split; [rewrite flat_pieces, Hc; apply lex_pipe; auto|]. apply pieces_lx; [apply value_plain; auto|apply halts_char; auto].
  - assert (L : letters (lit "char")) by (split; [discriminate|apply forallb_forall; reflexivity]). destruct Hg as [Hl _]. apply head_lx; auto; [|right; eexists; reflexivity]. destruct (letters_value e Hl) as (Hp & c & r & Hc & Hsp).
    split; [|apply pieces_lx; auto; apply halts_char; auto]. apply lex_blank; [discriminate|repeat constructor|]. rewrite flat_pieces, Hc. exact Hsp.
  - assert (L : letters (lit "eref")) by (split; [discriminate|apply forallb_forall; reflexivity]). apply head_lx; auto; [apply value_lx; auto; apply halts_char; auto|right; eexists; reflexivity].
  - destruct Hg as [Hp Hc]. destruct (caption_lx c (93%N :: 93%N :: rest) Hc) as [H1 (d & r & H2 & H3)]. destruct (target_lx p d r Hp H3) as [H4 (e & r' & H5 & H6)]. apply lx_cons.
    + rewrite !flat_app, H5. cbn [app]. unfold link_open. destruct b; [apply lex_link_star|]. apply lex_link; intros ->; apply H6; cbn; tauto.
    + rewrite lx_app. split; [rewrite flat_app, <- app_assoc; cbn [flat flat_map snd link_end app lit]; cbn -[flat caption_pieces]; rewrite H2; exact H4|]. rewrite lx_app. split; [exact H1|]. split; [apply lex_link_end; auto|exact I].
  - destruct Hg as [Ha Hc]. destruct (address_lx a (flat (pieces c ++ [bracket_end]) ++ rest) Ha) as [H1 (d & r & H2 & H3)]. apply lx_cons.
    + rewrite flat_app, H2. cbn [app]. unfold bracket_open. destruct b; [apply lex_bracket_star|]. apply lex_bracket. exact H3.
    + rewrite lx_app. split; [exact H1|apply blank_lx; auto].
  - destruct Hg as [Ho Hc]. cbn [lx]. split; [apply lex_bracket_anchor|]. rewrite lx_app. split; [|apply blank_lx; auto]. destruct o as [o|]; [|exact I]. cbn [optional_pieces]. apply pieces_lx; [apply value_plain; apply (Ho o eq_refl)|]. apply word_halts. auto.
  - apply good_when in Hg as (Hn & Hc & Hi). rewrite !lx_app. split; [|split].
    + apply head_lx; auto; [left; apply when_letters|apply conditions_lx; auto|right; rewrite conditions_flat; destruct cs; [congruence|eexists; reflexivity]|]. rewrite flat_app, <- app_assoc. eapply inlines_not93; [apply Hi|]. rewrite close_flat. reflexivity.
    + apply Hlist; auto. rewrite close_flat. left. reflexivity.
    + apply close_lx; auto. left. apply when_letters.
  - split; [|exact I]. apply lex_newline. apply Hk. reflexivity.
Qed.

Lemma inlines_lx ents l : good_inside ents l -> forall rest, stop_at rest -> lx (flat_map inline_pieces l) rest.
Proof. intros [Ha Hg]. apply (inlines_reads ents); auto; [|apply apart_tidy; auto]. apply Forall_forall. intros x _. apply inline_lx. Qed.
Lemma tidy_lx ents l : tidy l -> Forall (good_inline ents) l -> forall rest, stop_at rest -> lx (flat_map inline_pieces l) rest.
Proof. intros Ha Hg. apply (inlines_reads ents); auto. apply Forall_forall. intros x _. apply inline_lx. Qed.
Lemma good_par ents l : good_block ents (Par l) -> l <> [] /\ good_inside ents l. Proof. intros (H1 & H2 & H3). split; auto. split; auto. Qed.
Lemma block_first ents b : good_block ents b -> exists c r, block_source b = c :: r /\ is_nl c = false.
Proof.
  destruct b as [l|g o inside c|v o t c|n a items|a rows|rows|n|w n]; intro H; [|eexists _, _; split; reflexivity..| | |].
  2:{ destruct H as [Hn H]. destruct rows as [|r rs]; [congruence|]. inversion H as [|? ? [Hr _] _]; subst. destruct r as [|c r]; [congruence|]. cbn [block_source]. unfold bars_source, short_source. cbn [flat_map].
      destruct (columns c - 1); [destruct (mark_of c); eexists _, _; split; reflexivity|eexists _, _; split; reflexivity]. }
  2:{ cbn [good_block] in H. destruct n; [lia|]. eexists _, _; split; reflexivity. }
  2:{ cbn [good_block] in H. destruct n; [lia|]. eexists _, _; split; reflexivity. }
  apply good_par in H as [Hn [[_ Ha] Hg]]. destruct l as [|x l]; [congruence|]. inversion Hg as [|? ? Hx _]; subst. cbn [block_source flat_map].
  destruct (inline_not_nl ents x Hx) as (c & r & -> & Hc); [intros ->; exact (proj1 (Ha l) eq_refl)|]. exists c, (r ++ flat_map inline_source l). split; auto.
Qed.
Lemma folding_names f : (forall s, show_label f = Some s \/ hide_label f = Some s -> ~ In 13%N s) -> forall k v, In (k, v) (folding_attributes f) -> key_name k /\ ~ In 13%N v.
Proof.
  intros H k v Hi. assert (L : forall n, forallb is_alnum (lit n) = true -> lit n <> [] -> key_name (lit n)) by (intros n H1 H2; apply letters_key; split; auto; apply forallb_forall; auto).
  unfold folding_attributes in Hi. rewrite !in_app_iff in Hi. destruct Hi as [Hi|[Hi|[Hi|Hi]]].
  - destruct (show_label f) as [s|]; [|destruct Hi]. destruct Hi as [Hi|[]]. apply pair_equal_spec in Hi as [<- <-]. split; [apply L; [reflexivity|discriminate]|apply H; auto].
  - destruct (hide_label f) as [s|]; [|destruct Hi]. destruct Hi as [Hi|[]]. apply pair_equal_spec in Hi as [<- <-]. split; [apply L; [reflexivity|discriminate]|apply H; auto].
  - destruct (starts_folded f) as [s|]; [|destruct Hi]. destruct Hi as [Hi|[]]. apply pair_equal_spec in Hi as [<- <-]. split; [apply L; [reflexivity|discriminate]|]. destruct s; vm_compute; intuition discriminate.
  - destruct (hide_at f) as [[s1 s2]|]; [|destruct Hi]. destruct Hi as [Hi|[]]. apply pair_equal_spec in Hi as [<- <-]. split; [apply L; [reflexivity|discriminate]|]. destruct s1, s2; vm_compute; intuition discriminate.
Qed.
Lemma group_attributes_names g : good_group g -> forall k v, In (k, v) (group_attributes g) -> key_name k /\ ~ In 13%N v.
Proof.
  destruct g as [a|w|a|f a]; cbn [good_group group_attributes]; [apply good_attributes_names|intros _ k v []|apply good_attributes_names|]. intros [Ha Hf] k v Hi. apply in_app_or in Hi as [Hi|Hi]; [eapply folding_names; eauto|eapply good_attributes_names; eauto].
Qed.
Lemma block_no_nl ents b rest : good_block ents b -> no_nl (flat (block_pieces b) ++ rest).
Proof. intros H. rewrite (block_flat _ _ H). destruct (block_first _ _ H) as (c & r & -> & Hc). intros d r' X. injection X as <- _. exact Hc. Qed.
Definition ends_block (rest : str) : Prop := rest = [] \/ exists r, rest = 10%N :: r.
Lemma join_lx (f : block -> list piece) bs : (forall b, In b bs -> (forall rest, ends_block rest -> lxs (f b) rest) /\ forall rest, no_nl (flat (f b) ++ rest)) -> forall rest, ends_block rest -> lxs (join_pieces f bs) rest.
Proof.
  destruct bs as [|b bs]; [intros; constructor|]. intros H rest Hr. unfold join_pieces.
  assert (HE : forall bs, (forall b, In b bs -> (forall rest, ends_block rest -> lxs (f b) rest) /\ forall rest, no_nl (flat (f b) ++ rest)) -> lxs (flat_map (fun b => break_piece :: f b) bs) rest /\ ends_block (flat (flat_map (fun b => break_piece :: f b) bs) ++ rest)).
  { clear -Hr. induction bs as [|b bs IH]; intro H; [split; [constructor|exact Hr]|]. destruct IH as [IH1 IH2]; [intros; apply H; right; auto|]. destruct (H b (or_introl eq_refl)) as [H1 H2]. cbn [flat_map]. split; [|right; eexists; reflexivity].
    apply lxs_app; auto. change (break_piece :: f b) with ([break_piece] ++ f b). apply lxs_app; [|apply H1; exact IH2]. apply lx_lxs. split; [apply lex_break; apply H2|exact I]. }
  destruct (HE bs) as [H1 H2]; [intros; apply H; right; auto|]. apply lxs_app; auto. apply H; [left; auto|]. exact H2.
Qed.
Lemma verbatim_names_letters v o : named (verbatim_names v) o -> letters o.
Proof. unfold named. intro H. apply slower_letters. destruct v; cbn in H; destruct H as [<-|[]]; (split; [discriminate|]; apply forallb_forall; reflexivity). Qed.
Lemma verbatim_attributes_names v : good_verbatim v -> forall k u, In (k, u) (verbatim_attributes v) -> key_name k /\ ~ In 13%N u.
Proof.
  destruct v as [[l|]|]; cbn [good_verbatim verbatim_attributes optional]; intros H k u Hi; [|destruct Hi..]. destruct Hi as [Hi|[]]. apply pair_equal_spec in Hi as [<- <-]. split; [|exact H].
  apply letters_key. split; [discriminate|]. apply forallb_forall. reflexivity.
Qed.
Lemma no_nl_close c rest : no_nl (flat (close_pieces c) ++ rest). Proof. rewrite close_flat. intros d r X. injection X as <- _. reflexivity. Qed.
Lemma tag_lx name a inside rest : letters (lit name) -> (forall k v, In (k, v) a -> key_name k /\ ~ In 13%N v) -> head_not (ceqb 93) (flat inside ++ lit "[[/" ++ lit name ++ lit "]]" ++ rest) -> head_not (ceqb 93) rest ->
  lx inside (lit "[[/" ++ lit name ++ lit "]]" ++ rest) -> lx (tag_pieces name a inside) rest.
Proof.
  intros Hn Ha H1 H2 Hi. unfold tag_pieces. rewrite !lx_app. rewrite close_flat, <- !app_assoc. split; [|split; [exact Hi|apply close_lx; auto]].
  apply head_lx; auto; [apply attributes_lx; auto|apply attributes_first|]. rewrite flat_app, close_flat, <- !app_assoc. exact H1.
Qed.
Lemma tag_no_nl name a inside rest : no_nl (flat (tag_pieces name a inside) ++ rest).
Proof. rewrite tag_flat. intros d r X. injection X as <- _. reflexivity. Qed.
Lemma each_lx {A} (f : A -> list piece) l rest : (forall x r, In x l -> lx (f x) (10%N :: r)) -> (forall x r, no_nl (flat (f x) ++ r)) -> no_nl rest -> lx (each_pieces f l) rest.
Proof.
  intros H Hf Hr. assert (X : lx (flat_map (fun x => f x ++ [line_piece]) l) rest /\ no_nl (flat (flat_map (fun x => f x ++ [line_piece]) l) ++ rest)).
  { induction l as [|x l IH]; [split; [exact I|exact Hr]|]. destruct IH as [I1 I2]; [intros; apply H; right; auto|]. cbn [flat_map]. split.
    - rewrite lx_app. split; [|exact I1]. rewrite lx_app. split; [apply H; left; auto|]. split; [apply lex_newline; exact I2|exact I].
    - rewrite flat_app, flat_app, <- !app_assoc. apply Hf. }
  destruct X as [X1 X2]. apply lx_cons; [apply lex_newline; exact X2|exact X1].
Qed.
Lemma closing_stop name rest : stop_at (lit "[[/" ++ lit name ++ rest). Proof. left. reflexivity. Qed.
Lemma closing_nl name rest : no_nl (lit "[[/" ++ lit name ++ rest). Proof. intros d r X. injection X as <- _. reflexivity. Qed.
Lemma tag_each {A} name a (f : A -> list piece) l rest : letters (lit name) -> good_attributes a -> head_not (ceqb 93) rest ->
  (forall x r, In x l -> lx (f x) (10%N :: r)) -> (forall x r, no_nl (flat (f x) ++ r)) -> lx (tag_pieces name a (each_pieces f l)) rest.
Proof. intros Hn Ha Hr H Hf. apply tag_lx; auto; [apply good_attributes_names; auto|reflexivity|]. apply each_lx; auto. apply closing_nl. Qed.
Lemma tag_inlines ents name a l rest : letters (lit name) -> (forall k v, In (k, v) a -> key_name k /\ ~ In 13%N v) -> good_inside ents l -> head_not (ceqb 93) rest -> lx (tag_pieces name a (flat_map inline_pieces l)) rest.
Proof.
  intros Hn Ha Hl Hr. apply tag_lx; auto; [eapply inlines_not93; [apply Hl|reflexivity]|]. eapply inlines_lx; [exact Hl|apply closing_stop].
Qed.
Lemma lit_letters n : forallb is_alnum (lit n) = true -> lit n <> [] -> letters (lit n). Proof. intros H Hn. split; auto. apply forallb_forall. exact H. Qed.
Lemma digits_cr n : ~ In 13%N (digits n).
Proof.
  assert (X : forall u, ~ In 13%N (lit (DecimalString.NilEmpty.string_of_uint u))) by (intro u; induction u; cbn; intro X; [destruct X|destruct X as [X|X]; [discriminate|auto]..]).
  unfold digits, DecimalString.NilZero.string_of_uint. destruct (Nat.to_uint n) eqn:E; try (rewrite <- E; apply X); try exact (X _). vm_compute. intuition discriminate.
Qed.
Lemma cell_names ents c : good_cell ents c -> forall k v, In (k, v) (cell_all c) -> key_name k /\ ~ In 13%N v.
Proof.
  intros (Ha & _) k v Hi. apply in_app_or in Hi as [Hi|Hi]; [eapply good_attributes_names; eauto|]. destruct (wide c =? 1); [destruct Hi|]. destruct Hi as [Hi|[]]. apply pair_equal_spec in Hi as [<- <-].
  split; [apply letters_key, lit_letters; [reflexivity|discriminate]|apply digits_cr].
Qed.
Lemma cell_letters c : letters (lit (cell_name c)). Proof. unfold cell_name. destruct (heading c); (apply lit_letters; [reflexivity|discriminate]). Qed.
Lemma cell_lx ents c rest : good_cell ents c -> head_not (ceqb 93) rest -> lx (cell_pieces c) rest.
Proof. intros Hc Hr. eapply tag_inlines; [apply cell_letters|eapply cell_names; eauto| |exact Hr]. destruct Hc as (_ & _ & _ & _ & _ & H1 & H2). split; [exact H1|exact H2]. Qed.
Lemma row_lx ents r rest : good_row ents r -> head_not (ceqb 93) rest -> lx (row_pieces r) rest.
Proof.
  intros [Ha Hc] Hr. apply tag_each; auto; [apply lit_letters; [reflexivity|discriminate]| |intros; apply tag_no_nl]. intros c q Hi. rewrite Forall_forall in Hc. eapply cell_lx; [apply Hc; exact Hi|reflexivity].
Qed.
Lemma item_lx ents i rest : good_item ents i -> head_not (ceqb 93) rest -> lx (item_pieces i) rest.
Proof. intros (Ha & _ & H1 & H2) Hr. eapply tag_inlines; [apply lit_letters; [reflexivity|discriminate]|apply good_attributes_names; auto|split; [exact H1|exact H2]|exact Hr]. Qed.
(** The rows drawn with bars. *)
Lemma tidy_pair l x t : tidy (l ++ [x]) -> match x with Text _ => False | Checkbox _ _ | Radio _ _ _ => flush t | _ => True end -> tidy ((l ++ [x]) ++ [Text t]).
Proof.
  intros [H H'] Hx. split; [|intros r X; apply app_inj_tail in X as [_ X]; discriminate]. intros f y u r X. destruct r as [|z r _] using rev_ind.
  - change (f ++ [y; u]) with (f ++ [y] ++ [u]) in X. rewrite app_assoc in X. apply app_inj_tail in X as [X <-]. apply app_inj_tail in X as [_ <-]. destruct x; exact Hx.
  - assert (Y : (l ++ [x]) ++ [Text t] = (f ++ y :: u :: r) ++ [z]) by (rewrite X, <- app_assoc; reflexivity). apply app_inj_tail in Y as [Y _]. apply (H f y u r). exact Y.
Qed.
Lemma blank_plain : plain (lit " "). Proof. split; [discriminate|]. intros pre c post X. left. destruct pre as [|d pre]; [injection X as <- _; vm_compute; intuition discriminate|]. injection X as _ X. destruct pre; discriminate. Qed.
Lemma plain_blank t : plain t -> plain (t ++ lit " ").
Proof.
  intros [Hn Hp]. split; [destruct t; [congruence|discriminate]|]. intros pre c post X. destruct post as [|d post _] using rev_ind.
  - apply app_inj_tail in X as [_ <-]. left. vm_compute. intuition discriminate.
  - change (pre ++ c :: post ++ [d]) with (pre ++ (c :: post) ++ [d]) in X. rewrite app_assoc in X. apply app_inj_tail in X as [X _]. destruct (Hp pre c post X) as [Y|(Y & e & q & -> & Z)]; [auto|]. right. split; auto. exists e, (q ++ [d]). auto.
Qed.
Lemma pieces_blank : forall t, (exists u c, t = u ++ [c] /\ is_sp c = false) -> pieces (t ++ lit " ") = pieces t ++ [blank_piece].
Proof.
  induction t as [|c t IH]; intros (u & d & X & Hd); [destruct u; discriminate|]. destruct t as [|c2 t].
  - destruct u as [|? [|? ?]]; try discriminate. injection X as <-. cbn [app pieces]. change (kind_of 32) with TWhitespace. destruct (kind_of_cases c) as [[-> _]|[(_ & Y & _)|(-> & _)]]; [reflexivity|congruence|reflexivity].
  - destruct u as [|e u]; [discriminate|]. injection X as <- X. remember (c2 :: t) as v eqn:Ev. cbn [app pieces]. rewrite IH by eauto. pose proof (flat_pieces v) as Hf. destruct (pieces v) as [|[k z] ws]; [subst v; discriminate|].
    cbn [app]. destruct (_ && _); reflexivity.
Qed.
(** With the blank at the end. *)
Lemma padded_split ents l : l <> [] -> firm l -> (forall x r, l = r ++ [x] -> match x with Checkbox _ _ | Radio _ _ _ => False | _ => True end) -> good_inside ents l ->
  exists l', tidy l' /\ Forall (good_inline ents) l' /\ flat_map inline_pieces l' = flat_map inline_pieces l ++ [blank_piece].
Proof.
  intros Hn [_ Hf] Hb [Ha Hg]. apply apart_tidy in Ha. destruct l as [|x l _] using rev_ind; [congruence|]. specialize (Hf x l eq_refl). specialize (Hb x l eq_refl). apply Forall_app in Hg as [Hg1 Hg2]. inversion Hg2 as [|? ? Hx _]; subst.
  assert (HT : (forall t, x <> Text t) -> exists l', tidy l' /\ Forall (good_inline ents) l' /\ flat_map inline_pieces l' = flat_map inline_pieces (l ++ [x]) ++ [blank_piece]).
  { intro Hnt. exists ((l ++ [x]) ++ [Text (lit " ")]). split; [|split; [|rewrite (flat_map_app _ (l ++ [x])); reflexivity]]; [apply tidy_pair; auto; destruct x; try contradiction; auto; destruct (Hnt s eq_refl)|].
    apply Forall_app. split; [apply Forall_app; auto|]. constructor; [apply blank_plain|constructor]. }
  destruct x as [t| | | | | | | | | | | | |]; try (apply HT; discriminate). clear HT. exists (l ++ [Text (t ++ lit " ")]). split; [|split].
  - split; [|intros r X; apply app_inj_tail in X as [_ X]; discriminate].
    intros f y u r X. destruct r as [|z r _] using rev_ind.
    + change (f ++ [y; u]) with (f ++ [y] ++ [u]) in X. rewrite app_assoc in X. apply app_inj_tail in X as [-> <-]. pose proof (proj1 Ha f y (Text t) []) as Hy. rewrite <- app_assoc in Hy. specialize (Hy eq_refl). destruct y; auto.
      * intros c w X. destruct Hx as [Hx _]. destruct t as [|d t]; [congruence|]. injection X as <- _. exact (Hy _ _ eq_refl).
      * intros c w X. destruct Hx as [Hx _]. destruct t as [|d t]; [congruence|]. injection X as <- _. exact (Hy _ _ eq_refl).
    + assert (Y : l ++ [Text (t ++ lit " ")] = (f ++ y :: u :: r) ++ [z]) by (rewrite X, <- app_assoc; reflexivity). apply app_inj_tail in Y as [Y _]. apply (proj1 Ha f y u (r ++ [Text t])). rewrite Y, <- app_assoc. reflexivity.
  - apply Forall_app. split; auto. constructor; [apply plain_blank; exact Hx|constructor].
  - rewrite !flat_map_app. cbn [flat_map inline_pieces]. rewrite !app_nil_r, <- app_assoc. f_equal. apply pieces_blank. destruct Hx as [Hx _]. destruct (exists_last Hx) as (u & c & ->). exists u, c. split; auto.
    specialize (Hf c u eq_refl). unfold visible in Hf. unfold is_sp. apply orb_false_iff. split; apply ceqb_neq; lia.
Qed.
Lemma said_lx ents c rest : good_short ents c -> stop_at rest -> lx (said_pieces (said c)) rest.
Proof.
  intros (_ & Hf & _ & Hb & Ha & Hg) Hr. unfold said_pieces. destruct (said c) as [|x l] eqn:X; [exact I|]. destruct (padded_split ents (x :: l)) as (l' & H0 & H1 & H2); auto; [discriminate|split; auto|]. rewrite <- H2. eapply tidy_lx; eauto.
Qed.
Lemma said_first ents c rest : good_short ents c -> head_not is_sp rest -> head_not is_sp (flat (said_pieces (said c)) ++ rest).
Proof.
  intros (_ & [Hf _] & _ & _ & [_ Ha] & Hg) Hr. unfold said_pieces. destruct (said c) as [|x l] eqn:X; [exact Hr|]. rewrite flat_app, inlines_flat. cbn [flat_map]. inversion Hg as [|? ? Hx _]; subst. specialize (Hf x l eq_refl).
  destruct x as [t|k o a inside c0|z inside|b n|b a|b n a|b a|e|n|b p c0|b a c0|o c0|b cs inside|]; try (match goal with |- context [inline_source ?x ++ _] => destruct (not_text_first x) as [r ->]; [discriminate|discriminate|reflexivity] end).
  2:{ destruct (proj1 (Ha l) eq_refl). }
  destruct Hx as [Hx _]. destruct t as [|d t]; [congruence|]. specialize (Hf d t eq_refl). unfold visible in Hf. cbn [inline_source app head_not]. unfold is_sp. apply orb_false_iff. split; apply ceqb_neq; lia.
Qed.
Definition bar_ok (rest : str) : Prop := match rest with [] => True | c :: _ => ~ In c (lit "~<>=") end.
Lemma bar_lx rest : bar_ok rest -> lex1 TTableColumn (lit "||") rest.
Proof. destruct rest as [|c rest]; intro H; [apply lex_column_end|apply lex_column; exact H]. Qed.
Lemma mark_lx m rest : bar_ok rest -> lx [mark_piece m] rest.
Proof. intro H. destruct m; (split; [|exact I]); [apply bar_lx; exact H|apply lex_title|apply lex_left|apply lex_center|apply lex_toright]. Qed.
Lemma bars_first k m cs : exists r, flat (repeat bar_piece k ++ mark_piece m :: cs) = 124%N :: 124%N :: r.
Proof. destruct k as [|k]; [cbn [repeat app]; rewrite mark_flat; destruct m; eexists; reflexivity|]. cbn [repeat app]. unfold bar_piece at 1. rewrite flat_cons. eexists. reflexivity. Qed.
Lemma bars_lx k m cs rest : bar_ok (flat cs ++ rest) -> lx cs rest -> lx (repeat bar_piece k ++ mark_piece m :: cs) rest.
Proof.
  intros H1 H2. induction k as [|k IH]; cbn [repeat app].
  - change (mark_piece m :: cs) with ([mark_piece m] ++ cs). rewrite lx_app. split; [apply mark_lx; exact H1|exact H2].
  - unfold bar_piece at 1. split; [|exact IH]. apply bar_lx. destruct (bars_first k m cs) as [r ->]. vm_compute. intuition discriminate.
Qed.
Lemma short_lx ents c r : good_short ents c -> lx (short_pieces c) (124%N :: 124%N :: r).
Proof.
  intro H. unfold short_pieces. apply bars_lx; [rewrite flat_blank; vm_compute; intuition discriminate|]. change (blank_piece :: said_pieces (said c)) with ([blank_piece] ++ said_pieces (said c)). rewrite lx_app.
  split; [split; [|exact I]; apply lex_blank; [discriminate|repeat constructor|eapply said_first; eauto; reflexivity]|]. eapply said_lx; eauto. right. right. reflexivity.
Qed.
Lemma row_first r rest : exists q, flat (bars_pieces r) ++ rest = 124%N :: 124%N :: q.
Proof.
  destruct r as [|c r]; [eexists; reflexivity|]. unfold bars_pieces. cbn [flat_map]. rewrite !flat_app, <- !app_assoc. unfold short_pieces. destruct (bars_first (columns c - 1) (mark_of c) (blank_piece :: said_pieces (said c))) as [q ->]. eexists. reflexivity.
Qed.
Lemma bars_row_lx ents r rest : Forall (good_short ents) r -> bar_ok rest -> lx (bars_pieces r) rest.
Proof.
  intros H Hr. induction H as [|c r Hc H IH]; [split; [apply bar_lx; exact Hr|exact I]|]. unfold bars_pieces in *. cbn [flat_map]. rewrite <- app_assoc, lx_app. split; [|exact IH].
  destruct (row_first r rest) as [q X]. unfold bars_pieces in X. rewrite X. eapply short_lx; eauto.
Qed.
Lemma bars_rows_lx ents rs rest : Forall (fun r => r <> [] /\ Forall (good_short ents) r) rs -> bar_ok rest -> lx (flat_map (fun r => line_piece :: bars_pieces r) rs) rest /\ bar_ok (flat (flat_map (fun r => line_piece :: bars_pieces r) rs) ++ rest).
Proof.
  intros H Hr. induction H as [|r rs [_ Hc] H [IH1 IH2]]; [split; [exact I|exact Hr]|]. cbn [flat_map]. split; [|vm_compute; intuition discriminate]. rewrite lx_app. split; [|exact IH1].
  apply lx_cons; [|eapply bars_row_lx; eauto]. apply lex_newline. destruct (row_first r (flat (flat_map (fun r => line_piece :: bars_pieces r) rs) ++ rest)) as [q ->]. intros d q' X. injection X as <- _. reflexivity.
Qed.
Lemma block_lx ents b : good_block ents b -> forall rest, ends_block rest -> lxs (block_pieces b) rest.
Proof.
  assert (Hend : forall rest, ends_block rest -> stop_at rest) by (intros rest [->|[r ->]]; [exact I|right; left; reflexivity]).
  induction b as [l|g o inside c IH|v o t c|n a items|a rows|rows|n|w n] using block_ind'; intros Hg rest Hr; cbn [block_pieces]; (assert (Hnr : head_not (ceqb 93) rest) by (apply stop_not93; auto)).
  - apply good_par in Hg as [_ Hg]. apply lx_lxs. eapply inlines_lx; eauto.
  - apply good_group_ in Hg as (Ho & Hc & Hgr & Hin). pose proof (group_names_letters _ _ Ho) as Ho'. assert (Hc' : letters c \/ In c signs) by (destruct (group_names_letters _ _ Hc) as [|[? _]]; auto).
    apply lxs_app; [|apply lxs_app; [|apply lxs_app]].
    + apply lx_lxs, head_lx; [|apply attributes_lx, group_attributes_names; auto|apply attributes_first|reflexivity]. destruct Ho' as [|[? X]]; auto. right. rewrite X. auto.
    + apply lx_lxs. split; [|exact I]. cbn [flat flat_map app]. apply lex_newline. fold (flat (close_pieces c)). destruct inside as [|b bs].
      * apply no_nl_close.
      * inversion Hin; subst. rewrite flat_app, flat_app, <- !app_assoc. eapply block_no_nl; eauto.
    + destruct inside as [|b bs]; [constructor|]. rewrite app_assoc. apply lxs_app; [|apply lx_lxs; split; [apply lex_newline, no_nl_close|exact I]].
      apply (join_lx block_pieces (b :: bs)); [|right; eexists; reflexivity]. intros x Hx. rewrite Forall_forall in IH, Hin. split; [apply IH; auto|]. intro r. eapply block_no_nl; eauto.
    + apply lx_lxs, close_lx; auto.
  - destruct Hg as (Ho & Hc & Hv & Ht). apply verbatim_names_letters in Ho, Hc. destruct (good_pieces _ _ Ht) as (Hf & _ & Hl). destruct Ht as ((d & r & Hd & Hdn) & _).
    apply lxs_app; [apply lx_lxs, head_lx; [auto|apply attributes_lx, verbatim_attributes_names; auto|apply attributes_first|reflexivity]|].
    change (line_piece :: text_pieces t ++ line_piece :: close_pieces c) with ([line_piece] ++ text_pieces t ++ [line_piece] ++ close_pieces c). apply lxs_app; [|apply lxs_app; [|apply lxs_app]].
    + apply lx_lxs. split; [|exact I]. apply lex_newline. rewrite flat_app, Hf, Hd. intros e r' X. injection X as <- _. unfold is_nl. apply orb_false_iff. split; apply ceqb_neq; intros ->; apply Hdn; cbn; tauto.
    + apply Hl.
    + apply lx_lxs. split; [apply lex_newline, no_nl_close|exact I].
    + apply lx_lxs, close_lx; auto.
  - destruct Hg as (Ha & _ & Hi). apply lx_lxs, tag_each; auto; [destruct n; (apply lit_letters; [reflexivity|discriminate])| |intros; apply tag_no_nl]. intros i q Hq. rewrite Forall_forall in Hi. eapply item_lx; [apply Hi; exact Hq|reflexivity].
  - destruct Hg as (Ha & Hi). apply lx_lxs, tag_each; auto; [apply lit_letters; [reflexivity|discriminate]| |intros; apply tag_no_nl]. intros i q Hq. rewrite Forall_forall in Hi. eapply row_lx; [apply Hi; exact Hq|reflexivity].
  - destruct Hg as [Hn Hg]. assert (Hb : bar_ok rest) by (destruct Hr as [->|[r ->]]; [exact I|vm_compute; intuition discriminate]). destruct rows as [|r rs]; [congruence|]. inversion Hg as [|? ? [_ Hr1] Hg']; subst.
    destruct (bars_rows_lx ents rs rest Hg' Hb) as [H1 H2]. apply lx_lxs. rewrite lx_app. split; [eapply bars_row_lx; eauto|exact H1].
  - apply lx_lxs. split; [|exact I]. apply lex_dashes; [exact Hg|]. cbn [flat flat_map app]. destruct Hr as [->|[r ->]]; [exact I|reflexivity].
  - apply lx_lxs. split; [|exact I]. apply lex_clear; [exact Hg|]. intros _. exact Hr.
Qed.
Lemma page_lx ents bs : (forall b, In b bs -> good_block ents b) -> lxs (page_pieces bs) [].
Proof. intro H. apply join_lx; [|left; auto]. intros b Hb. split; [eapply block_lx; eauto|]. intro r. eapply block_no_nl; eauto. Qed.

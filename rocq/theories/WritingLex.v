(** WritingLex.v -- the tokens of a page of SpecWriting.v. *)
From Verif Require Import Base BaseLemmas Strings Lexer SpecLexer LexerLemmas Peg PegLemmas SpecWriting PState ParseInv ProseLemmas.

Definition plain_kind (k : token) : bool :=
  match k with
  | TIdentifier | TString | TOther | TPipe | TRightBracket | TColon | TEquals | THeading | TBulletItem | TNumberedItem
  | TQuote | TUnderscore | TWhitespace => true
  | _ => false
  end.
Definition mark_token (opens : bool) (m : mark) : token :=
  match m with
  | Bold => TBold | Italics => TItalics | Underline => TUnderline | Superscript => TSuperscript | Subscript => TSubscript
  | StrikeTilde => TDoubleTilde | StrikeDash => TDoubleDash
  | Monospace => if opens then TLeftMonospace else TRightMonospace
  end.
(** The tokens of one item. *)
Inductive lexed : item -> list xtoken -> Prop :=
| lx_words s ts : concat (map t_slice ts) = s -> s <> [] ->
    Forall (fun t => shape (t_token t) (t_slice t) /\ plain_kind (t_token t) = true /\ (t_token t = TQuote -> t_slice t <> lit ">>")) ts -> lexed (IWords s) ts
| lx_newline t : t_token t = TLineBreak -> lexed INewline [t]
| lx_break k t : t_token t = (if k =? 1 then TLineBreak else TParagraphBreak) -> lexed (IBreak k) [t]
| lx_mark o m t : t_token t = mark_token o m -> lexed (IMark o m) [t]
| lx_head n (listed : bool) t w : t_token t = THeading -> t_slice t = repeat 43%N n ++ (if listed then [] else [42%N]) -> t_token w = TWhitespace -> lexed (IHead n listed) [t; w]
| lx_rule k t : t_token t = TTripleDash -> lexed (IRule k) [t]
| lx_bullet d (numbered : bool) (v : list xtoken) t w : match d with 0 => v = [] | _ => exists x, v = [x] /\ t_token x = TWhitespace /\ t_slice x = repeat 32%N d end ->
    t_token t = (if numbered then TNumberedItem else TBulletItem) -> t_token w = TWhitespace -> lexed (IBullet d numbered) (v ++ [t; w])
| lx_quote d t w : t_token t = TQuote -> t_slice t = repeat 62%N d -> t_token w = TWhitespace -> lexed (IQuote d) [t; w].
Definition slices (ts : list xtoken) : str := concat (map t_slice ts).
(** Every token but the brackets is what the lexer reads at that point. *)
Definition bracket (k : token) : bool := match k with TLeftBracket | TLeftLink | TRightLink | TRightBracket => true | _ => false end.
Definition read_here (t : xtoken) (rest : str) : Prop := exists pos ps, run g_token pos (t_slice t ++ rest) = Some (ps, t_slice t, rest) /\ convert_pairs ps = Some [t].
Fixpoint stepped (ts : list xtoken) : Prop :=
  match ts with [] => True | t :: ts' => (bracket (t_token t) = true \/ read_here t (slices ts')) /\ stepped ts' end.
Lemma stepped_star pos s ps m r : star_rel (run g_token) pos s ps m r -> forall ts, convert_pairs ps = Some ts -> stepped ts.
Proof.
  intro H. remember (run g_token) as f. induction H as [pos s Hn|pos s ps m r ps' m' r' E Hm Hrest IH]; subst f; intros ts Hc.
  - injection Hc as <-. exact I.
  - rewrite convert_pairs_app in Hc. destruct (convert_pairs ps) as [ts1|] eqn:E1; [|discriminate]. destruct (convert_pairs ps') as [ts2|] eqn:E2; [|discriminate]. injection Hc as <-.
    specialize (IH ts2 eq_refl). apply lex_star in Hrest as (-> & ts2' & E2' & _ & Hs2 & _). rewrite E2 in E2'. injection E2' as <-.
    pose proof (run_split _ _ _ _ _ _ E) as Hsp. pose proof E as E0. apply token_step in E as (ts1' & E1' & _ & Hs1 & _ & Hx). rewrite E1 in E1'. injection E1' as <-.
    destruct Hx as (t0 & [[-> Hf]|(t1 & -> & Hk)]).
    + cbn [app stepped]. split; auto. right. cbn in Hs1. rewrite app_nil_r in Hs1. exists pos, ps. unfold slices. rewrite Hs2, Hs1. subst s. split; auto.
    + cbn [app stepped]. destruct Hk as [[-> ->]|[-> ->]]; auto.
Qed.
Lemma extract_stepped text : exists mid,
  extract_all text = Some (XT TInputStart [] 0 0 :: mid ++ [XT TInputEnd [] (blen text) (blen text)]) /\
  slices mid = text /\ Forall (fun t => shape (t_token t) (t_slice t)) mid /\ chain mid /\ stepped mid.
Proof.
  unfold extract_all, g_document.
  destruct (run (PStar g_token) 0 text) as [[[ps m] r]|] eqn:E; [|cbn [run] in E; discriminate].
  pose proof (run_split _ _ _ _ _ _ E) as Hs.
  assert (Heq : run (PSeq (PStar g_token) (PRule R_EOI PEnd)) 0 text =
    match run (PRule R_EOI PEnd) (0 + blen m) r with Some (p2, m2, r2) => Some (ps ++ p2, m ++ m2, r2) | None => None end).
  { cbn [run] in E |- *. destruct (star (run g_token) _ _ _) as [[? ?] ?]. injection E as -> -> ->. reflexivity. }
  rewrite Heq. apply run_star_rel in E; [|apply token_nonempty]. pose proof (stepped_star _ _ _ _ _ E) as Hst. apply lex_star in E.
  destruct E as (-> & ts & Hc & Hct & Hcc & Hsh & Hch). rewrite app_nil_r in Hs. subst m. cbn [run].
  rewrite convert_pairs_app, Hc. cbn. exists ts. rewrite Nat.add_0_r. simpl in Hct. split; [reflexivity|]. split; [exact Hcc|]. split; [exact Hsh|]. split; [exact Hch|]. apply Hst. exact Hc.
Qed.
Definition okl (ts : list xtoken) : Prop := Forall (fun t => shape (t_token t) (t_slice t)) ts /\ chain ts /\ stepped ts.
Lemma okl_tail t ts : okl (t :: ts) -> okl ts.
Proof. intros (H1 & H2 & H3). split; [inversion H1; auto|]. split; [inversion H2; auto; constructor|]. apply H3. Qed.

(** Adjacent characters. *)
Fixpoint adj (s : str) : list (char * char) :=
  match s with a :: (b :: _) as r => (a, b) :: adj r | _ => [] end.
Lemma adj_in pre a b post : In (a, b) (adj (pre ++ a :: b :: post)).
Proof. induction pre as [|x pre IH]; [left; auto|]. cbn [app]. destruct (pre ++ a :: b :: post) eqn:E; [destruct pre; discriminate|]. right. exact IH. Qed.
Lemma adj_ex s a b : In (a, b) (adj s) -> exists pre post, s = pre ++ a :: b :: post.
Proof.
  induction s as [|x s IH]; [intros []|]. destruct s as [|y s]; [intros []|]. intros [H|H].
  - injection H as <- <-. exists [], s. auto.
  - destruct (IH H) as (pre & post & ->). exists (x :: pre), post. auto.
Qed.
Definition marks : str := lit "*/_^,{}~-".
Definition okpair (p : char * char) : bool := (negb (cmem (snd p) marks) || cmem (fst p) touchy) && negb (ceqb (snd p) 10).
Lemma okpair_no a x : okpair (a, x) = true -> (x = 10%N \/ (In x marks /\ ~ In a touchy)) -> False.
Proof.
  unfold okpair. cbn [fst snd]. intros H [-> | [H1 H2]]; apply andb_true_iff in H as [H H'].
  - discriminate H'.
  - apply orb_true_iff in H as [H|H]; [apply negb_true_iff in H; apply cmem_In in H1; congruence|]. apply cmem_In in H. auto.
Qed.
(** A token that starts inside some words does not reach beyond them. *)
Definition word_chars (s : str) : Prop :=
  (forall c, In c s -> ~ In c [10; 13; 91]%N) /\ (forall pre a b post, s = pre ++ a :: b :: post -> ~ In [a; b] pairs).
Definition stops (s rest : str) : Prop :=
  rest = [] \/ exists x r, rest = x :: r /\ (x = 10%N \/ (In x marks /\ before_mark s)).
Lemma levels {A} (a b c d : list A) : a ++ b = c ++ d -> (exists e, c = a ++ e /\ b = e ++ d) \/ (exists x e, a = c ++ x :: e /\ d = x :: e ++ b).
Proof.
  revert c. induction a as [|x a IH]; intros c H; [left; exists c; auto|]. destruct c as [|y c].
  - right. exists x, a. split; auto.
  - injection H as <- H. destruct (IH c H) as [(e & -> & ->)|(z & e & -> & ->)]; [left; exists e; auto|right; exists z, e; auto].
Qed.
Lemma snoc_ex {A} (s : list A) : s <> [] -> exists p a, s = p ++ [a].
Proof. intro H. destruct (exists_last H) as (p & a & ->). eauto. Qed.
Lemma words_pair s pre a b post : word_chars s -> s = pre ++ a :: b :: post -> ~ In [a; b] pairs.
Proof. intros [_ H]. apply H. Qed.
Ltac pair_of H X pre a b post := exfalso; refine (words_pair _ pre a b post H _ _); [rewrite X; cbn; reflexivity|cbn; tauto].
Lemma repeat_split {A} (c : A) n s x w : repeat c n = s ++ x :: w -> x = c /\ Forall (fun d => d = c) s.
Proof.
  intro H. assert (X : Forall (fun d => d = c) (s ++ x :: w)) by (rewrite <- H; clear; induction n; cbn; constructor; auto).
  apply Forall_app in X as [X1 X2]. inversion X2; auto.
Qed.
Lemma symbols_okpair : forallb (fun kz => ceqb (hd 0%N (snd kz)) 91 || forallb okpair (adj (snd kz))) symbols = true. Proof. vm_compute. reflexivity. Qed.
Lemma string_no_nl z : string_body z -> ~ In 10%N z.
Proof.
  induction 1 as [|c z Hc _ IH|c z Hc _ IH]; cbn; [auto| |]; intro H.
  - destruct H as [-> |H]; auto. apply Hc. cbn. auto.
  - destruct H as [H|[-> |H]]; [discriminate| |auto]. apply Hc. cbn. auto.
Qed.
Lemma newlines_chars n z : newlines n z -> Forall (fun c => In c [10; 13]%N) z.
Proof. induction 1; auto; repeat apply Forall_cons; auto; cbn; auto. Qed.
Lemma cross k sl u s rest : shape k sl -> sl ++ u = s ++ rest -> s <> [] -> word_chars s -> stops s rest -> exists s', s = sl ++ s'.
Proof.
  intros Hs E Hne Hw Hst. apply levels in E as [(e & -> & _)|(x & w & -> & Hr)]; eauto. exfalso.
  destruct Hst as [-> | (y & r & -> & Hy)]; [discriminate|]. injection Hr as <- Hr.
  destruct (snoc_ex s Hne) as (s0 & a & Es).
  assert (Ha : In a s) by (rewrite Es; apply in_or_app; right; left; auto).
  assert (Hy' : y = 10%N \/ (In y marks /\ ~ In a touchy)) by (destruct Hy as [? | [? [Hb _]]]; [auto|right; split; auto; eapply Hb; eauto]).
  assert (Hp : forall L pre post, L = pre ++ a :: y :: post -> forallb okpair (adj L) = true -> False).
  { intros L pre post -> HL. rewrite forallb_forall in HL. apply (okpair_no a y); auto. apply HL. apply adj_in. }
  assert (Hm : In y marks -> is_alnum y = false /\ ~ In y [10; 13; 32; 9; 62]%N) by (intro X; cbn in X; repeat (destruct X as [<-|X]; [split; [reflexivity|cbn; intuition discriminate]|]); destruct X).
  assert (Hsl : s ++ y :: w = s0 ++ a :: y :: w) by (rewrite Es, <- app_assoc; auto).
  assert (Hall : (forall c, In c (s ++ y :: w) -> In c touchy /\ c <> 10%N) -> False).
  { intro X. destruct (X y) as [_ X1]; [apply in_or_app; right; left; auto|]. destruct Hy' as [? | [_ X2]]; [auto|]. apply X2. apply (X a). apply in_or_app. auto. }
  assert (Hrep : forall n (c : N), (forall d, In d (repeat c n) -> d = c)) by (intros n c d X; apply repeat_spec in X; auto).
  assert (Hf : forall k L, shape k L -> L = s ++ y :: w -> False); [|eapply Hf; eauto].
  clear k Hs. intros k L HL EL. destruct HL as [k z Hk|z Hz Hz'|scheme z Hsc Hz Hz'|z Hz Hz'|z Hz|n Hn|n Hn|n Hn|n Hn|n Hn|n Hn|n Hn|z Hz|n z Hn Hz|z Hz Hz'|c Hz Hz'].
  - pose proof symbols_okpair as X. rewrite forallb_forall in X. specialize (X (k, z) Hk). cbn [snd] in X. apply orb_true_iff in X as [X|X].
    + destruct s as [|c1 s]; [congruence|]. rewrite EL in X. cbn in X. apply ceqb_eq in X. subst c1. destruct Hw as [Hw _]. apply (Hw 91%N); cbn; auto.
    + exact (Hp z s0 w (eq_trans EL Hsl) X).
  - rewrite EL, Hsl in Hz'. apply Forall_app in Hz' as [_ Hz']. inversion Hz' as [|? ? _ X]. inversion X; subst. destruct Hy' as [-> | [Y _]]; [discriminate|]. apply Hm in Y as [Y _]. congruence.
  - rewrite app_assoc in EL. apply levels in EL as [(e & X & _)|(x & e & X & X')].
    + destruct Hsc as [<-|[<-|[<-|[]]]].
      * pair_of Hw X (lit "http:") 47%N 47%N e.
      * pair_of Hw X (lit "https:") 47%N 47%N e.
      * pair_of Hw X (lit "ftp:") 47%N 47%N e.
    + injection X' as <- _. rewrite Es, <- app_assoc in X. apply (Hp _ _ _ X). destruct Hsc as [<-|[<-|[<-|[]]]]; vm_compute; reflexivity.
  - destruct s as [|c1 [|c2 s]]; [congruence| |].
    + injection EL as _ X _. rewrite <- X in Hy'. destruct Hy' as [Y|[Y _]]; [discriminate|]. cbn in Y. intuition discriminate.
    + injection EL as X Y _. rewrite <- X, <- Y in Hw. exact (words_pair _ (@nil N) 123%N 36%N s Hw eq_refl ltac:(cbn; tauto)).
  - destruct s as [|c1 s]; [congruence|]. injection EL as X1 X2. rewrite <- X1 in Hy.
    destruct Hy as [-> | [_ [_ Hq]]]; [|apply Hq; left; auto].
    assert (X : In 10%N (z ++ [34%N])) by (rewrite X2; apply in_or_app; right; left; auto).
    apply in_app_or in X as [X|[X|[]]]; [|discriminate]. eapply string_no_nl; eauto.
  - apply Hall. intros c X. rewrite <- EL in X. apply Hrep in X as ->. split; [cbn; tauto|discriminate].
  - apply Hall. intros c X. rewrite <- EL in X. apply in_app_or in X as [X|[<-|[]]]; [apply Hrep in X as ->|]; split; try discriminate; cbn; tauto.
  - apply Hall. intros c X. rewrite <- EL in X. apply in_app_or in X as [X|[<-|[]]]; [apply Hrep in X as ->|]; split; try discriminate; cbn; tauto.
  - apply Hall. intros c X. rewrite <- EL in X. apply Hrep in X as ->. split; [cbn; tauto|discriminate].
  - apply Hall. intros c X. rewrite <- EL in X. apply Hrep in X as ->. split; [cbn; tauto|discriminate].
  - apply Hall. intros c X. rewrite <- EL in X. apply Hrep in X as ->. split; [cbn; tauto|discriminate].
  - apply Hall. intros c X. rewrite <- EL in X. apply in_app_or in X as [X|[<-|[]]]; [apply Hrep in X as ->|]; split; try discriminate; cbn; tauto.
  - apply newlines_chars in Hz. rewrite Forall_forall in Hz. destruct Hw as [Hw _]. apply (Hw a Ha). assert (X : In a z) by (rewrite EL; apply in_or_app; auto). apply Hz in X. cbn in X |- *. tauto.
  - apply newlines_chars in Hz. rewrite Forall_forall in Hz. destruct Hw as [Hw _]. apply (Hw a Ha). assert (X : In a z) by (rewrite EL; apply in_or_app; auto). apply Hz in X. cbn in X |- *. tauto.
  - rewrite Forall_forall in Hz'. assert (X : In y z) by (rewrite EL; apply in_or_app; right; left; auto). apply Hz' in X. destruct Hy' as [-> | [Y _]].
    + cbn in X. intuition discriminate.
    + apply Hm in Y as [_ Y]. apply Y. cbn in X |- *. tauto.
  - destruct s as [|c1 [|? ?]]; [congruence| |]; discriminate.
Qed.
(** What kinds of token there are inside words. *)
Definition has_pair (z : str) : bool := existsb (fun p => existsb (fun q => seqb [fst p; snd p] q) pairs) (adj z).
Lemma has_pair_no z : word_chars z -> has_pair z = false.
Proof.
  intros [_ H]. destruct (has_pair z) eqn:E; auto. exfalso. unfold has_pair in E. apply existsb_exists in E as ((a & b) & Hin & E).
  apply existsb_exists in E as (q & Hq & E). apply seqb_eq in E. cbn [fst snd] in E. subst q. apply adj_ex in Hin as (pre & post & ->). eapply H; eauto.
Qed.
Lemma symbols_plain : forallb (fun kz => ceqb (hd 0%N (snd kz)) 91 || plain_kind (fst kz) || has_pair (snd kz)) symbols = true. Proof. vm_compute. reflexivity. Qed.
Lemma symbols_noquote : forallb (fun kz => negb (tok_eqb (fst kz) TQuote)) symbols = true. Proof. vm_compute. reflexivity. Qed.
Lemma kinds k sl : shape k sl -> word_chars sl -> plain_kind k = true /\ (k = TQuote -> sl <> lit ">>").
Proof.
  intros Hs Hw. pose proof (has_pair_no _ Hw) as Hn. destruct Hs as [k z Hk|z Hz Hz'|scheme z Hsc Hz Hz'|z Hz Hz'|z Hz|n Hn'|n Hn'|n Hn'|n Hn'|n Hn'|n Hn'|n Hn'|z Hz|n z Hn' Hz|z Hz Hz'|c Hz Hz'];
    try (split; [reflexivity|discriminate]).
  - pose proof symbols_plain as X. rewrite forallb_forall in X. specialize (X _ Hk). cbn [fst snd] in X. rewrite Hn, orb_false_r in X. apply orb_true_iff in X as [X|X].
    + exfalso. destruct z as [|c z]; [discriminate|]. cbn in X. apply ceqb_eq in X. subst c. destruct Hw as [Hw _]. apply (Hw 91%N); cbn; auto.
    + split; auto. intros ->. exfalso. pose proof symbols_noquote as Y. rewrite forallb_forall in Y. specialize (Y _ Hk). discriminate Y.
  - exfalso. destruct Hsc as [<-|[<-|[<-|[]]]].
    + exact (words_pair _ (lit "http:") 47%N 47%N z Hw eq_refl ltac:(cbn; tauto)).
    + exact (words_pair _ (lit "https:") 47%N 47%N z Hw eq_refl ltac:(cbn; tauto)).
    + exact (words_pair _ (lit "ftp:") 47%N 47%N z Hw eq_refl ltac:(cbn; tauto)).
  - exfalso. exact (words_pair _ (@nil N) 123%N 36%N (z ++ lit "}") Hw eq_refl ltac:(cbn; tauto)).
  - exfalso. destruct n as [|[|n]]; try lia. exact (words_pair _ (@nil N) 126%N 126%N (repeat 126%N n) Hw eq_refl ltac:(cbn; tauto)).
  - exfalso. destruct n as [|[|n]]; try lia. exact (words_pair _ (@nil N) 126%N 126%N (repeat 126%N n ++ [60%N]) Hw eq_refl ltac:(cbn; tauto)).
  - exfalso. destruct n as [|[|n]]; try lia. exact (words_pair _ (@nil N) 126%N 126%N (repeat 126%N n ++ [62%N]) Hw eq_refl ltac:(cbn; tauto)).
  - exfalso. destruct n as [|[|n]]; try lia. exact (words_pair _ (@nil N) 45%N 45%N (repeat 45%N n) Hw eq_refl ltac:(cbn; tauto)).
  - destruct n as [|[|n]]; try lia; [split; [reflexivity|discriminate]|].
    exfalso. exact (words_pair _ (@nil N) 62%N 62%N (repeat 62%N n) Hw eq_refl ltac:(cbn; tauto)).
  - exfalso. apply newlines_head in Hz as (c & r & -> & Hc). destruct Hw as [Hw _]. apply (Hw c); [left; auto|]. unfold is_nl in Hc. apply orb_true_iff in Hc as [Hc|Hc]; apply ceqb_eq in Hc; subst; cbn; auto.
  - exfalso. destruct n; [lia|]. apply newlines_head in Hz as (c & r & -> & Hc). destruct Hw as [Hw _]. apply (Hw c); [left; auto|]. unfold is_nl in Hc. apply orb_true_iff in Hc as [Hc|Hc]; apply ceqb_eq in Hc; subst; cbn; auto.
Qed.
Lemma word_chars_app a b : word_chars (a ++ b) -> word_chars a /\ word_chars b.
Proof.
  intros [H1 H2]. split; split.
  - intros c Hc. apply H1. apply in_or_app. auto.
  - intros pre x y post ->. apply (H2 pre x y (post ++ b)). rewrite <- app_assoc. auto.
  - intros c Hc. apply H1. apply in_or_app. auto.
  - intros pre x y post ->. apply (H2 (a ++ pre) x y post). rewrite <- app_assoc. auto.
Qed.
Lemma before_mark_suffix a b : b <> [] -> before_mark (a ++ b) -> before_mark b.
Proof.
  intros Hb [H1 H2]. split.
  - intros c pre ->. apply (H1 c (a ++ pre)). rewrite app_assoc. auto.
  - intro H. apply H2. apply in_or_app. auto.
Qed.
Definition inside_words (t : xtoken) : Prop :=
  shape (t_token t) (t_slice t) /\ plain_kind (t_token t) = true /\ (t_token t = TQuote -> t_slice t <> lit ">>").
Lemma split_words ts : forall s rest, okl ts -> slices ts = s ++ rest -> word_chars s -> stops s rest ->
  exists ts1 ts2, ts = ts1 ++ ts2 /\ slices ts1 = s /\ slices ts2 = rest /\ Forall inside_words ts1 /\ okl ts2.
Proof.
  induction ts as [|t ts IH]; intros s rest Ho He Hw Hst.
  - destruct s; [|discriminate]. exists [], []. conj; auto.
  - destruct s as [|c s]; [exists [], (t :: ts); conj; auto|]. remember (c :: s) as s1. assert (Hne : s1 <> []) by (subst; discriminate). clear Heqs1 c s.
    pose proof Ho as [Hsh _]. inversion Hsh as [|? ? Ht Hts]; subst. unfold slices in He. cbn [map concat] in He. fold (slices ts) in He.
    destruct (cross _ _ _ _ _ Ht He Hne Hw Hst) as [s' ->]. rewrite <- app_assoc in He. apply app_inv_head in He.
    destruct (word_chars_app _ _ Hw) as [Hw1 Hw2]. destruct (kinds _ _ Ht Hw1) as [Hk1 Hk2].
    assert (Hst' : stops s' rest \/ s' = []).
    { destruct s' as [|d s']; auto. left. destruct Hst as [-> | (x & r & -> & Hx)]; [left; auto|]. right. exists x, r. split; auto. destruct Hx as [? | [? Hx]]; auto. right. split; auto. apply before_mark_suffix in Hx; [auto|discriminate]. }
    destruct Hst' as [Hst'| ->].
    + destruct (IH s' rest (okl_tail _ _ Ho) He Hw2 Hst') as (ts1 & ts2 & -> & <- & <- & Hf & Ho2). exists (t :: ts1), ts2. conj; auto. constructor; auto. repeat split; auto.
    + exists [t], ts. split; [reflexivity|]. split; [unfold slices; cbn [map concat]; reflexivity|]. split; [exact He|]. split; [|eapply okl_tail; eauto]. constructor; auto. repeat split; auto.
Qed.
(** Line feeds. *)
Definition no_nl (rest : str) : Prop := forall c r, rest = c :: r -> is_nl c = false.
Lemma nl_shape k sl : shape k sl -> hd 0%N sl = 10%N -> exists n, newlines (S n) sl /\ (k = TLineBreak /\ n = 0 \/ k = TParagraphBreak /\ 1 <= n).
Proof.
  intros Hs Hd. destruct Hs as [k z Hk|z Hz Hz'|scheme z Hsc Hz Hz'|z Hz Hz'|z Hz|n Hn'|n Hn'|n Hn'|n Hn'|n Hn'|n Hn'|n Hn'|z Hz|n z Hn' Hz|z Hz Hz'|c Hz Hz'];
    try (destruct n; [lia|]; discriminate); try discriminate.
  - assert (X : forallb (fun kz => negb (ceqb (hd 0%N (snd kz)) 10)) symbols = true) by (vm_compute; reflexivity).
    rewrite forallb_forall in X. specialize (X _ Hk). cbn [snd] in X. rewrite Hd in X. discriminate.
  - destruct z as [|c z]; [congruence|]. cbn in Hd. subst c. inversion Hz'. discriminate.
  - destruct Hsc as [<-|[<-|[<-|[]]]]; discriminate.
  - exists 0. auto.
  - destruct n as [|n]; [lia|]. exists n. split; auto. right. split; auto. lia.
  - destruct z as [|c z]; [congruence|]. cbn in Hd. subst c. inversion Hz'. cbn in *. intuition discriminate.
  - cbn in Hd. subst c. exfalso. apply Hz'. cbn. tauto.
Qed.
Lemma nl_prefix k rest sl u n : sl ++ u = repeat 10%N k ++ rest -> no_nl rest -> newlines n sl -> n <= k /\ sl = repeat 10%N n /\ u = repeat 10%N (k - n) ++ rest.
Proof.
  intros E Hr Hn. revert k u E. induction Hn as [|n s Hn IH|n s Hn IH|n s Hx Hn IH]; intros k u E.
  - cbn in E. subst u. rewrite Nat.sub_0_r. conj; auto. lia.
  - destruct k as [|k]; [cbn in E; specialize (Hr _ _ (eq_sym E)); discriminate|]. injection E as E. destruct (IH _ _ E) as (H1 & -> & ->). conj; auto. lia.
  - destruct k as [|k]; [cbn in E; specialize (Hr _ _ (eq_sym E)); discriminate|]. discriminate.
  - destruct k as [|k]; [cbn in E; specialize (Hr _ _ (eq_sym E)); discriminate|]. discriminate.
Qed.
Lemma newlines_repeat n k : newlines n (repeat 10%N k) -> n = k.
Proof. revert n. induction k; intros n H; inversion H; subst; auto. Qed.
Lemma shape_ne k sl : shape k sl -> exists c r, sl = c :: r.
Proof. intro H. apply shape_nonempty in H. destruct sl; [congruence|eauto]. Qed.
Lemma split_nl ts k rest : okl ts -> slices ts = repeat 10%N k ++ rest -> 1 <= k -> no_nl rest ->
  exists t ts', ts = t :: ts' /\ slices ts' = rest /\ t_token t = (if k =? 1 then TLineBreak else TParagraphBreak) /\ okl ts'.
Proof.
  intros Ho E Hk Hr. destruct k as [|k]; [lia|]. destruct ts as [|t ts]; [discriminate|]. exists t, ts. pose proof Ho as (Hsh & Hch & _). inversion Hsh as [|? ? Ht Hts]; subst.
  unfold slices in E. cbn [map concat] in E. fold (slices ts) in E.
  assert (Hd : hd 0%N (t_slice t) = 10%N). { destruct (shape_ne _ _ Ht) as (c & r & Ec). rewrite Ec in E |- *. injection E as -> _. auto. }
  destruct (nl_shape _ _ Ht Hd) as (n & Hn & Hkind). destruct (nl_prefix _ _ _ _ _ E Hr Hn) as (H1 & H2 & H3).
  assert (Hkn : n = k).
  { destruct (Nat.eq_dec n k); auto. exfalso. destruct (S k - S n) as [|j] eqn:Ej; [lia|]. destruct ts as [|u ts]; [discriminate|].
    inversion Hts as [|? ? Hu _]; subst. inversion Hch as [| |? ? ? Hadj _ _]; subst.
    assert (Hd2 : hd 0%N (t_slice u) = 10%N). { destruct (shape_ne _ _ Hu) as (c & r & Ec). unfold slices in H3. cbn [map concat] in H3. rewrite Ec in H3 |- *. injection H3 as -> _. auto. }
    destruct (nl_shape _ _ Hu Hd2) as (n' & _ & Hkind'). apply Hadj. destruct Hkind as [[-> _]|[-> _]], Hkind' as [[-> _]|[-> _]]; cbn; tauto. }
  subst n. rewrite Nat.sub_diag in H3. conj; auto; [|eapply okl_tail; eauto]. destruct Hkind as [[-> ->]|[-> Hx]]; auto. destruct k; [lia|]. reflexivity.
Qed.
(** Marks. *)
Definition mark_char (o : bool) (m : mark) : char := hd 0%N (item_text (IMark o m)).
Lemma mark_text o m : item_text (IMark o m) = [mark_char o m; mark_char o m]. Proof. destruct o, m; reflexivity. Qed.
Definition mark_rest (m : mark) (rest : str) : Prop :=
  (m = StrikeTilde -> forall r, rest <> 126%N :: r) /\ (m = StrikeDash -> forall r, rest <> 45%N :: r /\ rest <> 93%N :: r).
Lemma symbols_marks o m : forallb (fun kz => negb (seqb (firstn 2 (snd kz)) (item_text (IMark o m))) || (seqb (snd kz) (item_text (IMark o m)) && tok_eqb (fst kz) (mark_token o m)) || seqb (snd kz) (lit "--]")) symbols = true.
Proof. destruct o, m; vm_compute; reflexivity. Qed.
Lemma mark_char_in o m : In (mark_char o m) marks /\ In (mark_char o m) doubled /\ is_alnum (mark_char o m) = false /\ In (mark_char o m) touchy.
Proof. destruct o, m; cbn; intuition auto 30. Qed.
Lemma split_mark ts o m rest : okl ts -> slices ts = item_text (IMark o m) ++ rest -> mark_rest m rest ->
  exists t ts', ts = t :: ts' /\ slices ts' = rest /\ t_token t = mark_token o m /\ okl ts'.
Proof.
  intros Ho E Hr. rewrite mark_text in E. destruct ts as [|t ts]; [discriminate|]. exists t, ts. pose proof Ho as (Hsh & Hch & _). inversion Hsh as [|? ? Ht Hts]; subst.
  unfold slices in E. cbn [map concat app] in E. fold (slices ts) in E.
  destruct (mark_char_in o m) as (_ & Hdo & Hal & _). set (c := mark_char o m) in *.
  destruct (t_slice t) as [|c1 [|c2 w]] eqn:Es; [apply shape_nonempty in Ht; congruence| |].
  - exfalso. injection E as -> E. destruct ts as [|u ts]; [discriminate|]. inversion Hts as [|? ? Hu _]; subst. inversion Hch as [| |? ? ? _ Hdb _]; subst.
    destruct (shape_ne _ _ Hu) as (d & r & Ed). unfold slices in E. cbn [map concat] in E. rewrite Ed in E. injection E as -> E. exact (Hdb c r Hdo Es Ed).
  - injection E as -> -> E. assert (Hm : t_token t = mark_token o m /\ w = []).
    { assert (Hgen : forall k L, shape k L -> L = c :: c :: w -> k = mark_token o m /\ w = []); [|eapply Hgen; eauto].
      clear Ht. intros k L HL EL. destruct HL as [k z Hk|z Hz Hz'|scheme z Hsc Hz Hz'|z Hz Hz'|z Hz|n Hn'|n Hn'|n Hn'|n Hn'|n Hn'|n Hn'|n Hn'|z Hz|n z Hn' Hz|z Hz Hz'|c1 Hz Hz'].
      - pose proof (symbols_marks o m) as X. rewrite forallb_forall in X. specialize (X _ Hk). cbn [fst snd] in X. rewrite EL in X. rewrite mark_text in X. fold c in X.
        replace (firstn 2 (c :: c :: w)) with [c; c] in X by reflexivity. rewrite (proj2 (seqb_eq _ _) eq_refl) in X. cbn [negb orb] in X.
        apply orb_true_iff in X as [X|X].
        + apply andb_true_iff in X as [X1 X2]. apply seqb_eq in X1. apply tok_eqb_true in X2. injection X1 as ->. auto.
        + apply seqb_eq in X. injection X as X1 X2 X3. exfalso. subst w. destruct Hr as [_ Hr]. assert (m = StrikeDash) by (unfold c in *; destruct o, m; try discriminate X1; auto). destruct (Hr H (slices ts)) as [_ Hr']. auto.
      - subst z. inversion Hz'. congruence.
      - exfalso. destruct Hsc as [<-|[<-|[<-|[]]]]; injection EL as X1 X2 _; unfold c in X1, X2; destruct o, m; discriminate.
      - exfalso. injection EL as X1 X2 _. rewrite <- X1 in X2. discriminate.
      - exfalso. injection EL as X1 _. unfold c in X1; destruct o, m; discriminate.
      - exfalso. destruct n as [|[|[|n]]]; try lia. injection EL as X1 _ X3. destruct Hr as [Hr _]. apply (Hr ltac:(unfold c in X1; destruct o, m; try discriminate; auto) (repeat 126%N n ++ slices ts)). rewrite <- E, <- X3. auto.
      - exfalso. destruct n as [|[|[|n]]]; try lia. injection EL as X1 _ X3. destruct Hr as [Hr _]. apply (Hr ltac:(unfold c in X1; destruct o, m; try discriminate; auto) ((repeat 126%N n ++ [60%N]) ++ slices ts)). rewrite <- E, <- X3. auto.
      - exfalso. destruct n as [|[|[|n]]]; try lia. injection EL as X1 _ X3. destruct Hr as [Hr _]. apply (Hr ltac:(unfold c in X1; destruct o, m; try discriminate; auto) ((repeat 126%N n ++ [62%N]) ++ slices ts)). rewrite <- E, <- X3. auto.
      - exfalso. destruct n as [|[|[|n]]]; try lia. injection EL as X1 _ X3. destruct Hr as [_ Hr]. destruct (Hr ltac:(unfold c in X1; destruct o, m; try discriminate; auto) (repeat 45%N n ++ slices ts)) as [Hr' _]. apply Hr'. rewrite <- E, <- X3. auto.
      - exfalso. destruct n as [|n]; try lia. injection EL as X1 _. unfold c in X1. destruct o, m; discriminate.
      - exfalso. destruct n as [|n]; try lia. injection EL as X1 _. unfold c in X1. destruct o, m; discriminate.
      - exfalso. destruct n as [|n]; try lia. injection EL as X1 _. unfold c in X1. destruct o, m; discriminate.
      - exfalso. apply newlines_head in Hz as (d & r & -> & Hd). injection EL as X1 _. subst d. unfold c in Hd. destruct o, m; discriminate.
      - exfalso. destruct n as [|n]; [lia|]. apply newlines_head in Hz as (d & r & -> & Hd). injection EL as X1 _. subst d. unfold c in Hd. destruct o, m; discriminate.
      - exfalso. subst z. inversion Hz' as [|? ? X _]. unfold c in X. destruct o, m; cbn in X; intuition discriminate.
      - discriminate. }
    destruct Hm as [Hm ->]. conj; auto. eapply okl_tail; eauto.
Qed.
(** The beginnings of lines, and rules. *)
Lemma bracket_head k z : shape k z -> bracket k = true -> In (hd 0%N z) [91; 93]%N.
Proof.
  intros Hs Hb. assert (X : forallb (fun kz => negb (bracket (fst kz)) || cmem (hd 0%N (snd kz)) [91; 93]%N) symbols = true) by (vm_compute; reflexivity).
  destruct Hs as [k z Hz| | | | | | | | | | | | | | |]; try discriminate Hb. rewrite forallb_forall in X. specialize (X _ Hz). cbn [fst snd] in X. rewrite Hb in X. apply cmem_In. exact X.
Qed.
Lemma first_token t ts q m r k : okl (t :: ts) -> (forall pos, run g_token pos (slices (t :: ts)) = Some ([Pair q pos m []], m, r)) -> get_from_rule q = Some k ->
  (forall x y, slices (t :: ts) = x :: y -> x <> 91%N /\ x <> 93%N) -> t_token t = k /\ t_slice t = m /\ slices ts = r.
Proof.
  intros (Hsh & _ & Hst & _) Hr Hk Hb. inversion Hsh as [|? ? Ht _]; subst. destruct Hst as [Hst|(pos & ps & H1 & H2)].
  - exfalso. pose proof (bracket_head _ _ Ht Hst) as X.
    destruct (shape_ne _ _ Ht) as (c & w & Ec). unfold slices in Hb. cbn [map concat] in Hb. rewrite Ec in Hb, X. destruct (Hb c _ eq_refl) as [Hb1 Hb2]. cbn in X. intuition congruence.
  - specialize (Hr pos). unfold slices in Hr. cbn [map concat] in Hr. fold (slices ts) in Hr. rewrite H1 in Hr. injection Hr as -> E1 E2. rewrite E1, E2. unfold convert_pairs, convert_pair in H2. cbn [p_rule p_slice p_start p_end] in H2. rewrite Hk in H2. injection H2 as <-. auto.
Qed.
Lemma follows t ts : okl (t :: ts) -> bracket (t_token t) = false -> follow_ok (t_token t) (slices ts).
Proof.
  intros (_ & _ & [H|(pos & ps & H1 & H2)] & _) Hb; [congruence|]. apply token_step in H1 as (ts' & E & _ & _ & _ & Hx). rewrite H2 in E. injection E as <-.
  destruct Hx as (t0 & [[X Hf]|(t1 & X & _)]); [injection X as <-; exact Hf|discriminate].
Qed.
Lemma head_shape k z c r : shape k z -> z = c :: r -> In c [32; 62]%N -> (c = 32%N /\ k = TWhitespace /\ Forall (fun x => In x [32; 9]%N) z) \/ (c = 62%N /\ (k = TQuote /\ (exists n, z = repeat 62%N n) \/ z = lit ">@")).
Proof.
  intros Hs E Hc. destruct Hs as [k z Hk|z Hz Hz'|scheme z Hsc Hz Hz'|z Hz Hz'|z Hz|n Hn'|n Hn'|n Hn'|n Hn'|n Hn'|n Hn'|n Hn'|z Hz|n z Hn' Hz|z Hz Hz'|x Hz Hz'];
    try (destruct n as [|n]; [lia|]; injection E as <- _; cbn in Hc; intuition discriminate).
  - right. assert (X : forallb (fun kz => negb (cmem (hd 0%N (snd kz)) [32; 62]%N) || seqb (snd kz) (lit ">@")) symbols = true) by (vm_compute; reflexivity).
    rewrite forallb_forall in X. specialize (X _ Hk). cbn [snd] in X. rewrite E in X. cbn [hd] in X. rewrite (proj2 (cmem_In _ _) Hc) in X. cbn [negb orb] in X. apply seqb_eq in X. injection X as -> ->. auto.
  - exfalso. subst z. inversion Hz' as [|? ? X _]. destruct Hc as [<-|[<-|[]]]; discriminate X.
  - exfalso. destruct Hsc as [<-|[<-|[<-|[]]]]; injection E as <- _; cbn in Hc; intuition discriminate.
  - exfalso. injection E as <- _. cbn in Hc; intuition discriminate.
  - exfalso. injection E as <- _. cbn in Hc; intuition discriminate.
  - right. destruct n as [|n]; [lia|]. injection E as <- _. split; auto. left. split; eauto.
  - exfalso. apply newlines_head in Hz as (d & w & -> & Hd). injection E as -> _. destruct Hc as [<-|[<-|[]]]; discriminate Hd.
  - exfalso. destruct n as [|n]; [lia|]. apply newlines_head in Hz as (d & w & -> & Hd). injection E as -> _. destruct Hc as [<-|[<-|[]]]; discriminate Hd.
  - left. subst z. inversion Hz' as [|? ? X X']. destruct Hc as [<-|[<-|[]]]; auto. exfalso. cbn in X. intuition discriminate.
  - exfalso. injection E as -> _. apply Hz'. destruct Hc as [<-|[<-|[]]]; cbn; tauto.
Qed.
Lemma repeat_prefix (f : char -> bool) c d : forall z u rest, f c = true -> z ++ u = repeat c d ++ rest -> head_not f rest -> head_not f u -> Forall (fun x => f x = true) z -> z = repeat c d /\ u = rest.
Proof.
  induction d as [|d IH]; intros z u rest Hf E Hr Hu Hz.
  - cbn in E |- *. destruct z as [|x z]; [auto|]. exfalso. destruct rest; [discriminate|]. injection E as -> _. inversion Hz; subst. cbn in Hr. congruence.
  - destruct z as [|x z]; cbn in E.
    + exfalso. subst u. cbn in Hu. congruence.
    + injection E as -> E. inversion Hz; subst. destruct (IH z u rest) as [-> ->]; auto.
Qed.
Lemma split_blank ts d rest : okl ts -> slices ts = repeat 32%N d ++ rest -> 1 <= d -> head_not is_sp rest ->
  exists t ts', ts = t :: ts' /\ t_token t = TWhitespace /\ t_slice t = repeat 32%N d /\ slices ts' = rest /\ okl ts'.
Proof.
  intros Ho E Hd Hr. destruct d as [|d]; [lia|]. destruct ts as [|t ts]; [discriminate|]. exists t, ts. pose proof Ho as (Hsh & _). inversion Hsh as [|? ? Ht _]; subst.
  unfold slices in E. cbn [map concat] in E. fold (slices ts) in E. destruct (shape_ne _ _ Ht) as (c & w & Ec). assert (Hc : c = 32%N) by (rewrite Ec in E; injection E as -> _; auto).
  subst c. destruct (head_shape _ _ _ _ Ht Ec) as [(_ & Hk & Hf)|[X _]]; [cbn; auto| |discriminate X].
  assert (Hfo := follows t ts Ho ltac:(rewrite Hk; auto)). rewrite Hk in Hfo.
  destruct (repeat_prefix is_sp 32%N (S d) (t_slice t) (slices ts) rest) as [E1 E2]; auto.
  - eapply Forall_impl; [|exact Hf]. intros x [<-|[<-|[]]]; reflexivity.
  - conj; auto. eapply okl_tail; eauto.
Qed.
Lemma split_quote ts d rest : okl ts -> slices ts = repeat 62%N d ++ 32%N :: rest -> 1 <= d ->
  exists t ts', ts = t :: ts' /\ t_token t = TQuote /\ t_slice t = repeat 62%N d /\ slices ts' = 32%N :: rest /\ okl ts'.
Proof.
  intros Ho E Hd. destruct d as [|d]; [lia|]. destruct ts as [|t ts]; [discriminate|]. exists t, ts. pose proof Ho as (Hsh & _). inversion Hsh as [|? ? Ht _]; subst.
  unfold slices in E. cbn [map concat] in E. fold (slices ts) in E. destruct (shape_ne _ _ Ht) as (c & w & Ec). assert (Hc : c = 62%N) by (rewrite Ec in E; injection E as -> _; auto).
  subst c. destruct (head_shape _ _ _ _ Ht Ec) as [[X _]|(_ & [[Hk [n Hf]]|X])]; [cbn; auto|discriminate X| |].
  - assert (Hfo := follows t ts Ho ltac:(rewrite Hk; auto)). rewrite Hk in Hfo.
    destruct (repeat_prefix (ceqb 62) 62%N (S d) (t_slice t) (slices ts) (32%N :: rest)) as [E1 E2]; auto.
    + reflexivity.
    + rewrite Hf. clear. induction n; cbn; constructor; auto.
    + conj; auto. eapply okl_tail; eauto.
  - exfalso. rewrite X in E. destruct d as [|d]; discriminate E.
Qed.
Lemma split_dash ts d rest : okl ts -> slices ts = repeat 45%N d ++ rest -> 3 <= d -> head_not (ceqb 45) rest ->
  exists t ts', ts = t :: ts' /\ t_token t = TTripleDash /\ slices ts' = rest /\ okl ts'.
Proof.
  intros Ho E Hd Hr. destruct d as [|[|[|d]]]; try lia. destruct ts as [|t ts]; [discriminate|]. exists t, ts. pose proof Ho as (Hsh & _ & Hst & _). inversion Hsh as [|? ? Ht _]; subst.
  assert (Hb : bracket (t_token t) = false).
  { destruct (shape_ne _ _ Ht) as (c & w & Ec). unfold slices in E. cbn [map concat repeat app] in E. rewrite Ec in E. injection E as -> _.
    destruct (bracket (t_token t)) eqn:Eb; auto. exfalso. pose proof (bracket_head _ _ Ht Eb) as X. rewrite Ec in X. cbn in X. intuition discriminate. }
  destruct Hst as [Hst|(pos & ps & H1 & H2)]; [congruence|]. unfold slices in E. cbn [map concat] in E. fold (slices ts) in E. rewrite E in H1.
  assert (Hdash : exists x, run g_triple_dash pos (repeat 45%N (S (S (S d))) ++ rest) = Some x).
  { cbn [repeat app]. unfold g_triple_dash. rewrite run_atom_eq. assert (Y : run (R:=rule) (PMin 3 (PStr [45%N])) pos (45%N :: 45%N :: 45%N :: repeat 45%N d ++ rest) <> None) by (apply run_seq_some; [discriminate|intros; discriminate]).
    destruct (run (PMin 3 (PStr [45%N])) _ _) as [[[? ?] ?]|]; [eauto|congruence]. }
  destruct Hdash as (x & Hx). cbn [repeat app] in H1, Hx.
  unfold g_token, token_alts in H1.
  repeat (apply run_PAlts_cons in H1; destruct H1 as [H1|[N1 H1]]; [first [discriminate H1|exfalso; rewrite (email_never _ _) in H1; discriminate H1|idtac]|first [congruence|clear N1]]).
  apply triple_dash_inv in H1 as (-> & Hsd & _ & Hf). cbn in H2. injection H2 as <-. cbn [t_token t_slice] in *.
  destruct (repeat_prefix (ceqb 45) 45%N (S (S (S d))) (t_slice t) (slices ts) rest) as [E1 E2]; auto.
  + inversion Hsd as [k0 z Hz| | | | | | | |n Hn| | | | | | |]; subst; [exfalso; cbn in Hz; repeat (destruct Hz as [Hz|Hz]; [discriminate|]); destruct Hz|].
    clear. induction n; cbn; constructor; auto.
  + conj; auto. eapply okl_tail; eauto.
Qed.
Lemma split_head ts n (listed : bool) rest : okl ts -> slices ts = repeat 43%N n ++ (if listed then [] else [42%N]) ++ 32%N :: rest -> 1 <= n <= 6 ->
  exists t ts', ts = t :: ts' /\ t_token t = THeading /\ t_slice t = repeat 43%N n ++ (if listed then [] else [42%N]) /\ slices ts' = 32%N :: rest /\ okl ts'.
Proof.
  intros Ho E Hn. destruct ts as [|t ts]; [destruct n, listed; discriminate|]. exists t, ts.
  destruct (first_token t ts R_heading (repeat 43%N n ++ (if listed then [] else [42%N])) (32%N :: rest) THeading Ho) as (H1 & H2 & H3); auto.
  - intro pos. rewrite E. destruct n as [|[|[|[|[|[|[|n]]]]]]]; try lia; destruct listed; reflexivity.
  - intros x y X. rewrite E in X. destruct n as [|n]; [lia|]. injection X as <- _. split; discriminate.
  - conj; auto. eapply okl_tail; eauto.
Qed.
Lemma split_bullet ts (numbered : bool) rest : okl ts -> slices ts = (if numbered then 35%N else 42%N) :: 32%N :: rest ->
  exists t ts', ts = t :: ts' /\ t_token t = (if numbered then TNumberedItem else TBulletItem) /\ slices ts' = 32%N :: rest /\ okl ts'.
Proof.
  intros Ho E. destruct ts as [|t ts]; [discriminate|]. exists t, ts.
  destruct (first_token t ts (if numbered then R_numbered_item else R_bullet_item) [if numbered then 35%N else 42%N] (32%N :: rest) (if numbered then TNumberedItem else TBulletItem) Ho) as (H1 & H2 & H3); auto.
  - intro pos. rewrite E. destruct numbered; reflexivity.
  - destruct numbered; auto.
  - intros x y X. rewrite E in X. injection X as <- _. destruct numbered; split; discriminate.
  - conj; auto. eapply okl_tail; eauto.
Qed.
(** The tokens of a laid-out page. *)
Definition item_ok (i : item) : Prop :=
  match i with IWords s => words s | IBreak k => 1 <= k | IHead n _ => 1 <= n <= 6 | IRule k => 3 <= k | IQuote d => 1 <= d | _ => True end.
Definition written (l : list item) : str := flat_map item_text l.
Lemma words_chars s : words s -> word_chars s. Proof. intros (_ & H1 & H2). split; auto. Qed.
(** What the text of an item starts with. *)
Definition first_in (i : item) (c : char) : Prop :=
  match i with
  | IWords s => exists r, s = c :: r
  | INewline | IBreak _ => c = 10%N
  | IMark o m => c = mark_char o m
  | IHead _ _ => c = 43%N | IRule _ => c = 45%N | IQuote _ => c = 62%N
  | IBullet _ _ => c = 32%N \/ c = 35%N \/ c = 42%N
  end.
Lemma item_char i : item_ok i -> exists c r, item_text i = c :: r /\ first_in i c.
Proof.
  intro Hi. destruct i as [s| |k|o m|n b|k|d b|d]; cbn [item_ok item_text first_in] in *.
  - destruct Hi as [Hi _]. destruct s; [congruence|eauto].
  - eauto.
  - destruct k as [|k]; [lia|]. cbn. eauto.
  - fold (item_text (IMark o m)). rewrite mark_text. eauto.
  - destruct n as [|n]; [lia|]. cbn. eauto.
  - destruct k as [|k]; [lia|]. cbn. eauto.
  - destruct d as [|d]; [destruct b; cbn; eauto 6|]. cbn. eauto 6.
  - destruct d as [|d]; [lia|]. cbn. eauto.
Qed.
Lemma written_char i l : item_ok i -> exists c r, written (i :: l) = c :: r /\ first_in i c.
Proof. intro H. destruct (item_char i H) as (c & r & E & Hc). exists c, (r ++ written l). unfold written. cbn [flat_map]. rewrite E. auto. Qed.
Lemma first_not_nl i c : item_ok i -> match i with INewline | IBreak _ => False | _ => True end -> first_in i c -> is_nl c = false.
Proof.
  assert (Hnnl : forall c, ~ In c [10; 13; 91]%N -> is_nl c = false).
  { intros x Hc. destruct (is_nl x) eqn:En; auto. exfalso. apply Hc. unfold is_nl in En. apply orb_true_iff in En as [En|En]; apply ceqb_eq in En; subst; cbn; auto. }
  intros Hi Hn Hc. destruct i as [s| |k|o m|n b|k|d b|d]; cbn [first_in] in Hc; try contradiction; try (subst c; reflexivity).
  - destruct Hc as (r & ->). apply Hnnl. destruct Hi as (_ & Hi & _). apply Hi. left. auto.
  - subst c. destruct o, m; reflexivity.
  - destruct Hc as [-> | [-> | ->]]; reflexivity.
Qed.
Lemma opens_line (i : item) l : Forall item_ok l -> match l with [] => False | j :: _ => beside (Some i) (Some j) end ->
  match i with IHead _ _ | IBullet _ _ | IQuote _ => True | _ => False end -> head_not is_sp (written l).
Proof.
  intros Hl Hn Hi. destruct l as [|j l]; [contradiction|]. inversion Hl as [|? ? Hj _]; subst. destruct (written_char j l Hj) as (c & r & E & Hc). rewrite E. cbn [head_not].
  assert (Hbl : ~ blank c -> is_sp c = false).
  { intro X. destruct (is_sp c) eqn:En; auto. exfalso. apply X. unfold is_sp in En. apply orb_true_iff in En as [En|En]; apply ceqb_eq in En; subst; cbn; auto. }
  destruct i; try contradiction; destruct j as [s| |k|o m|n' b'|k'|d' b'|d']; cbn [beside] in Hn; try contradiction; cbn [first_in] in Hc;
    try (destruct Hc as (w & ->); apply Hbl; eapply Hn; eauto); subst c; destruct o, m; reflexivity.
Qed.
Lemma lex_items l : forall a ts, okl ts -> slices ts = written l -> all_beside a l None -> Forall item_ok l ->
  exists tss, ts = concat tss /\ Forall2 lexed l tss.
Proof.
  induction l as [|i l IH]; intros a ts Ho E Hb Hi.
  - exists []. split; [|constructor]. destruct ts as [|t ts]; auto. exfalso. destruct Ho as [Hsh _]. inversion Hsh as [|? ? Ht _]; subst. apply shape_ne in Ht as (c & r & Ec). unfold slices in E. cbn [map concat] in E. rewrite Ec in E. discriminate.
  - destruct Hb as [_ Hb]. inversion Hi as [|? ? Hi1 Hi2]; subst. unfold written in E. cbn [flat_map] in E. fold (written l) in E.
    assert (Hnext : match l with [] => beside (Some i) None | j :: _ => beside (Some i) (Some j) end) by (destruct l; cbn in Hb; tauto).
    assert (Hdone : forall ts0 ts', ts = ts0 ++ ts' -> slices ts' = written l -> okl ts' -> lexed i ts0 -> exists tss, ts = concat tss /\ Forall2 lexed (i :: l) tss).
    { intros ts0 ts' -> E' Ho' Hl. destruct (IH (Some i) ts' Ho' E' Hb Hi2) as (tss & -> & Hf). exists (ts0 :: tss). split; auto. }
    assert (Hnn : match i with INewline | IBreak _ => no_nl (written l) | _ => True end).
    { destruct i; auto; (destruct l as [|j l]; [intros ? ? ?; discriminate|]; inversion Hi2 as [|? ? Hj _]; subst; intros c r Ec;
      destruct (written_char j l Hj) as (c' & r' & Ec' & Hc); rewrite Ec in Ec'; injection Ec' as <- _; eapply first_not_nl; eauto; destruct j; auto; cbn in Hnext; tauto). }
    assert (Hsp : match i with IHead _ _ | IBullet _ _ | IQuote _ => head_not is_sp (written l) | _ => True end).
    { destruct i as [| | | |n b|k|d b|d]; auto; (eapply opens_line; [exact Hi2| |]; [destruct l as [|j l]; [cbn in Hnext; tauto|exact Hnext]|auto]). }
    assert (Hw : forall ts, okl ts -> slices ts = 32%N :: written l -> head_not is_sp (written l) -> exists w ts', ts = w :: ts' /\ t_token w = TWhitespace /\ slices ts' = written l /\ okl ts').
    { intros us Ho1 E1 Hs1. destruct (split_blank us 1 (written l) Ho1 E1 ltac:(lia) Hs1) as (w & us' & -> & Hk & _ & Hsl & Ho2). exists w, us'. auto. }
    destruct i as [s| |k|o m|n b|k|d b|d].
    + destruct (split_words ts s (written l) Ho E (words_chars _ Hi1)) as (ts1 & ts2 & -> & E1 & E2 & Hf & Ho2).
      { destruct l as [|j l]; [left; auto|]. right. inversion Hi2 as [|? ? Hj _]; subst. destruct j as [s'| |k|o m|n' b'|k'|d' b'|d']; try (cbn in Hnext; tauto).
        - exists 10%N, (written l). split; auto.
        - destruct k as [|k]; [cbn in Hj; lia|]. exists 10%N, (repeat 10%N k ++ written l). split; auto.
        - exists (mark_char o m), (mark_char o m :: written l). split; [unfold written; cbn [flat_map]; rewrite mark_text; auto|]. right. split; [apply mark_char_in|exact Hnext]. }
      eapply Hdone; eauto. apply lx_words; auto. destruct Hi1; auto.
    + destruct (split_nl ts 1 (written l) Ho E ltac:(lia) Hnn) as (t & ts' & -> & E' & Hk & Ho'). apply (Hdone [t] ts'); auto. constructor; auto.
    + cbn in Hi1. destruct (split_nl ts k (written l) Ho E ltac:(lia) Hnn) as (t & ts' & -> & E' & Hk & Ho'). apply (Hdone [t] ts'); auto. constructor. destruct k as [|[|k]]; try lia; auto.
    + assert (Hmr : mark_rest m (written l)).
      { destruct l as [|j l]; [split; [|split]; discriminate|]. inversion Hi2 as [|? ? Hj _]; subst. destruct j as [s'| |k|o' m'|n' b'|k'|d' b'|d']; try (cbn in Hnext; tauto).
        - cbn in Hnext. destruct Hj as (Hj & _). destruct s' as [|d s']; [congruence|]. specialize (Hnext d s' eq_refl).
          split; [intros _ r X; injection X as -> _; apply Hnext; cbn; tauto|intros _ r; split; intro X; injection X as -> _; apply Hnext; cbn; tauto].
        - split; [discriminate|split; discriminate].
        - destruct k; [cbn in Hj; lia|]. split; [discriminate|split; discriminate].
        - cbn in Hnext. unfold written. cbn [flat_map]. rewrite mark_text. cbn [app].
          split; [intros -> r X; injection X as X _|intros -> r; split; intro X; injection X as X _]; destruct o', m'; try discriminate X; apply Hnext; cbn; auto. }
      destruct (split_mark ts o m (written l) Ho E Hmr) as (t & ts' & -> & E' & Hk & Ho'). apply (Hdone [t] ts'); auto. constructor; auto.
    + assert (E1 : slices ts = repeat 43%N n ++ (if b then [] else [42%N]) ++ 32%N :: written l) by (rewrite E; cbn [item_text]; rewrite <- app_assoc; destruct b; reflexivity).
      destruct (split_head ts n b (written l) Ho E1 Hi1) as (t & ts' & -> & Hk & Hsl & E' & Ho'). destruct (Hw ts' Ho' E' Hsp) as (w & ts2 & -> & Hwk & E2 & Ho2).
      apply (Hdone [t; w] ts2); auto. constructor; auto.
    + destruct (split_dash ts k (written l) Ho E Hi1) as (t & ts' & -> & Hk & E' & Ho').
      { destruct l as [|j l]; [exact I|]. inversion Hi2 as [|? ? Hj _]; subst. destruct (written_char j l Hj) as (c & r & Ec & Hc). rewrite Ec. cbn [head_not]. destruct j; cbn in Hnext; try contradiction. cbn in Hc. subst c. reflexivity. }
      apply (Hdone [t] ts'); auto. constructor; auto.
    + assert (E1 : slices ts = repeat 32%N d ++ (if b then 35%N else 42%N) :: 32%N :: written l) by (rewrite E; cbn [item_text]; rewrite <- app_assoc; destruct b; reflexivity).
      assert (exists v ts1, ts = v ++ ts1 /\ match d with 0 => v = [] | _ => exists x, v = [x] /\ t_token x = TWhitespace /\ t_slice x = repeat 32%N d end /\ okl ts1 /\ slices ts1 = (if b then 35%N else 42%N) :: 32%N :: written l) as (v & ts1 & -> & Hv & Ho1 & E2).
      { destruct d as [|d]; [exists [], ts; auto|]. destruct (split_blank ts (S d) _ Ho E1 ltac:(lia)) as (x & ts' & -> & Hk & Hsl & E' & Ho'); [destruct b; reflexivity|].
        exists [x], ts'. conj; eauto. }
      destruct (split_bullet ts1 b (written l) Ho1 E2) as (t & ts' & -> & Hk & E' & Ho'). destruct (Hw ts' Ho' E' Hsp) as (w & ts2 & -> & Hwk & E3 & Ho2).
      apply (Hdone (v ++ [t; w]) ts2); auto; [rewrite <- app_assoc; reflexivity|]. constructor; auto.
    + assert (E1 : slices ts = repeat 62%N d ++ 32%N :: written l) by (rewrite E; cbn [item_text]; rewrite <- app_assoc; reflexivity).
      destruct (split_quote ts d (written l) Ho E1 Hi1) as (t & ts' & -> & Hk & Hsl & E' & Ho'). destruct (Hw ts' Ho' E' Hsp) as (w & ts2 & -> & Hwk & E2 & Ho2).
      apply (Hdone [t; w] ts2); auto. constructor; auto.
Qed.

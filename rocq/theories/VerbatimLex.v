(** VerbatimLex.v -- the tokens of any text up to a line break do not depend on what follows it. *)
From Verif Require Import Base BaseLemmas Lexer SpecLexer LexerLemmas Peg PegLemmas.

(** What a match reads, without its place. *)
Definition sig (ps : list (pair rule)) : list (rule * str) := map (fun p => (p_rule p, p_slice p)) ps.
Notation result := (option (list (pair rule) * str * str)).
(** Two results of the same reading of [a], before [x] and before [y]. *)
Definition alike (K : str -> Prop) (a x y : str) (r r' : result) : Prop :=
  (r = None /\ r' = None) \/ exists ps ps' m a1, r = Some (ps, m, a1 ++ x) /\ r' = Some (ps', m, a1 ++ y) /\ sig ps = sig ps' /\ a = m ++ a1 /\ K a1.
(** [p] reads texts in [K] up to one in [K'], whatever comes after the line break. *)
Definition local (K K' : str -> Prop) (p : peg rule) : Prop := forall a y y' pos pos', K a -> alike K' a (10%N :: y) (10%N :: y') (run p pos (a ++ 10%N :: y)) (run p pos' (a ++ 10%N :: y')).
Definition any (_ : str) : Prop := True.
Definition solid (a : str) : Prop := exists b c, a = b ++ [c] /\ is_nl c = false.

Section Local.
Variables (K : str -> Prop).
Lemma local_seq K' p q : local K K' p -> local K' K' q -> local K K' (PSeq p q).
Proof.
  intros Hp Hq a y y' pos pos' Ha. cbn [run]. destruct (Hp a y y' pos pos' Ha) as [[-> ->]|(ps & ps' & m & a1 & -> & -> & Hs & -> & Ha1)]; [left; auto|].
  destruct (Hq a1 y y' (pos + blen m) (pos' + blen m) Ha1) as [[-> ->]|(qs & qs' & m' & a2 & -> & -> & Hs' & -> & Ha2)]; [left; auto|].
  right. exists (ps ++ qs), (ps' ++ qs'), (m ++ m'), a2. unfold sig in *. rewrite !map_app, Hs, Hs', <- app_assoc. auto.
Qed.
Lemma local_alt K' p q : local K K' p -> local K K' q -> local K K' (PAlt p q).
Proof.
  intros Hp Hq a y y' pos pos' Ha. cbn [run]. destruct (Hp a y y' pos pos' Ha) as [[-> ->]|(ps & ps' & m & a1 & -> & -> & H)]; [apply Hq; auto|]. right. exists ps, ps', m, a1. auto.
Qed.
Lemma local_opt p : local K K p -> local K K (POpt p).
Proof.
  intros Hp a y y' pos pos' Ha. cbn [run]. destruct (Hp a y y' pos pos' Ha) as [[-> ->]|(ps & ps' & m & a1 & -> & -> & H)]; right; [exists [], [], [], a; auto|exists ps, ps', m, a1; auto].
Qed.
Lemma local_star p : local K K p -> local K K (PStar p).
Proof.
  intros Hp a y y' pos pos' Ha. cbn [run]. right.
  assert (X : forall l a n n' pos pos', K a -> length a <= l -> length a < n -> length a < n' -> exists ps ps' m a1, star (run p) n pos (a ++ 10%N :: y) = (ps, m, a1 ++ 10%N :: y) /\ star (run p) n' pos' (a ++ 10%N :: y') = (ps', m, a1 ++ 10%N :: y') /\ sig ps = sig ps' /\ a = m ++ a1 /\ K a1).
  { clear a pos pos' Ha. induction l as [l IH] using lt_wf_ind. intros a n n' pos pos' Ha Hl Hn Hn'. destruct n as [|n]; [lia|]. destruct n' as [|n']; [lia|]. cbn [star].
    destruct (Hp a y y' pos pos' Ha) as [[-> ->]|(ps & ps' & m & a1 & -> & -> & Hs & -> & Ha1)]; [exists [], [], [], a; auto|]. destruct m as [|c m]; [exists [], [], [], a1; auto|].
    rewrite app_length in *. cbn [length] in *.
    destruct (IH (length a1)) with (a := a1) (n := n) (n' := n') (pos := pos + blen (c :: m)) (pos' := pos' + blen (c :: m)) as (qs & qs' & m' & a2 & -> & -> & Hs' & -> & Ha2); auto; try lia.
    exists (ps ++ qs), (ps' ++ qs'), ((c :: m) ++ m'), a2. unfold sig in *. rewrite !map_app, Hs, Hs', <- app_assoc. auto. }
  destruct (X (length a) a (length (a ++ 10%N :: y)) (length (a ++ 10%N :: y')) pos pos' Ha (le_n _)) as (ps & ps' & m & a1 & -> & -> & H); [rewrite app_length; cbn [length]; lia|rewrite app_length; cbn [length]; lia|]. exists ps, ps', m, a1. auto.
Qed.
Lemma local_not K' p : local K K' p -> local K K (PNot p).
Proof. intros Hp a y y' pos pos' Ha. cbn [run]. destruct (Hp a y y' pos pos' Ha) as [[-> ->]|(ps & ps' & m & a1 & -> & -> & H)]; [right; exists [], [], [], a; auto|left; auto]. Qed.
Lemma local_atom K' r p : local K K' p -> local K K' (PAtom r p).
Proof.
  intros Hp a y y' pos pos' Ha. cbn [run]. destruct (Hp a y y' pos pos' Ha) as [[-> ->]|(ps & ps' & m & a1 & -> & -> & H)]; [left; auto|]. right. eexists _, _, m, a1. split; [reflexivity|]. split; [reflexivity|]. split; [reflexivity|apply H].
Qed.
Lemma local_weaken (K0 K1 K' : str -> Prop) p : (forall a, K0 a -> K a) -> (forall a, K1 a -> K' a) -> local K K1 p -> local K0 K' p.
Proof. intros H1 H2 Hp a y y' pos pos' Ha. destruct (Hp a y y' pos pos' (H1 _ Ha)) as [H|(ps & ps' & m & a1 & Ea & Eb & Hs & Em & Hk)]; [left; auto|right; exists ps, ps', m, a1; auto 6]. Qed.
End Local.
Lemma local_any_str t : ~ In 10%N t -> local any any (PStr t).
Proof.
  intros Ht a y y' pos pos' _. cbn [run]. revert a Ht. induction t as [|c t IH]; intros a Ht; [right; exists [], [], [], a; unfold any; auto|].
  destruct a as [|d a]; cbn [app strip_prefix].
  - destruct (ceqb c 10) eqn:X; [apply ceqb_eq in X; subst; destruct Ht; left; auto|left; auto].
  - destruct (ceqb c d) eqn:X; [|left; auto]. apply ceqb_eq in X. subst d. destruct (IH a ltac:(intro Z; apply Ht; right; auto)) as [[E1 E2]|(ps & ps' & m & a1 & E1 & E2 & Hs & -> & _)].
    + left. destruct (strip_prefix t (a ++ 10%N :: y)); [discriminate|]. destruct (strip_prefix t (a ++ 10%N :: y')); [discriminate|]. auto.
    + right. destruct (strip_prefix t (_ ++ 10%N :: y)) as [r1|]; [|discriminate]. destruct (strip_prefix t (_ ++ 10%N :: y')) as [r2|]; [|discriminate]. exists [], [], (c :: t), a1.
      assert (t = m /\ r1 = a1 ++ 10%N :: y) as [-> ->] by (split; congruence). assert (r2 = a1 ++ 10%N :: y') as -> by congruence. unfold any. auto 6.
Qed.
Lemma local_any_set f : f 10%N = false -> local any any (PSet f).
Proof. intros Hf a y y' pos pos' _. cbn [run]. destruct a as [|d a]; cbn [app]; [rewrite Hf; left; auto|]. destruct (f d); [|left; auto]. right. exists [], [], [d], a. unfold any. auto 6. Qed.
(** Any character but some that a newline is among. *)
Definition decided (p : peg rule) : Prop := forall a y y' pos pos', run p pos (a ++ 10%N :: y) = None <-> run p pos' (a ++ 10%N :: y') = None.
Lemma decided_str t z : ~ In 10%N t -> z = [] \/ z = [10%N] -> decided (PStr (t ++ z)).
Proof.
  intros Ht Hz a y y' pos pos'. cbn [run]. revert a. induction t as [|c t IH]; intro a.
  - cbn [app]. destruct Hz as [-> | ->]; cbn [strip_prefix]; [split; discriminate|]. destruct a as [|d a]; cbn [app]; [split; discriminate|]. destruct (ceqb 10 d); split; intro Z; solve [auto|discriminate].
  - cbn [app strip_prefix]. destruct a as [|d a]; cbn [app].
    + destruct (ceqb c 10) eqn:X; [apply ceqb_eq in X; subst; destruct Ht; left; auto|split; auto].
    + destruct (ceqb c d); [|split; auto]. specialize (IH ltac:(intro Z; apply Ht; right; auto) a). destruct (strip_prefix (t ++ z) (a ++ 10%N :: y)), (strip_prefix (t ++ z) (a ++ 10%N :: y')); split; intro Z; auto; try discriminate; destruct IH as [I1 I2]; [specialize (I2 eq_refl)|specialize (I1 eq_refl)]; discriminate.
Qed.
Lemma decided_alt p q : decided p -> decided q -> decided (PAlt p q).
Proof.
  intros Hp Hq a y y' pos pos'. specialize (Hp a y y' pos pos'). specialize (Hq a y y' pos pos'). cbn [run]. destruct (run p pos _), (run p pos' _); try tauto; split; intro Z; try discriminate; destruct Hp as [H1 H2]; first [discriminate (H1 eq_refl)|discriminate (H2 eq_refl)].
Qed.
Lemma decided_newline : decided NEWLINE.
Proof. unfold NEWLINE, PAlts. apply decided_alt; [|apply decided_alt]; [apply (decided_str [] [10%N])|apply (decided_str [13%N] [10%N])|apply (decided_str [13%N] [])]; cbn; try (intuition discriminate); auto. Qed.
Lemma guarded p : decided p -> (forall y pos, run p pos (10%N :: y) <> None) -> local any any (PSeq (PNot p) ANY).
Proof.
  intros Hd Hs a y y' pos pos' _. specialize (Hd a y y' pos pos'). cbn [run]. destruct (run p pos (a ++ 10%N :: y)) eqn:E1; [left; split; auto; destruct (run p pos' (a ++ 10%N :: y')); auto; destruct Hd as [_ Hd]; discriminate (Hd eq_refl)|].
  assert (E2 : run p pos' (a ++ 10%N :: y') = None) by (apply Hd; auto). rewrite E2. unfold ANY. cbn [run]. destruct a as [|c a]; [exfalso; exact (Hs _ _ E1)|]. cbn [app]. right. exists [], [], [c], a. unfold any. auto 6.
Qed.
Lemma solid_app m a1 : solid (m ++ a1) -> a1 <> [] -> solid a1.
Proof. intros (b & c & E & H) Hn. destruct a1 as [|x a1 _] using rev_ind; [congruence|]. rewrite app_assoc in E. apply app_inj_tail in E as [_ ->]. exists a1, c. auto. Qed.
Lemma local_newline : local solid solid NEWLINE.
Proof.
  intros a y y' pos pos' Ha. destruct a as [|c a]; [destruct Ha as ([|] & ? & E & _); discriminate|]. unfold NEWLINE, PAlts. cbn [run strip_prefix app].
  assert (Hone : forall d, c :: a = [d] -> is_nl d = false) by (intros d X; destruct Ha as (b & e & E & H); rewrite X in E; destruct b as [|? [|]]; try discriminate; injection E as ->; exact H).
  destruct (ceqb 10 c) eqn:E1; [apply ceqb_eq in E1; subst c; right; exists [], [], [10%N], a; do 4 (split; [reflexivity|]); apply (solid_app [10%N]); auto; intros ->; discriminate (Hone _ eq_refl)|].
  destruct (ceqb 13 c) eqn:E2; [|left; auto]. apply ceqb_eq in E2. subst c. destruct a as [|d a]; [discriminate (Hone _ eq_refl)|]. cbn [app]. 
  destruct (ceqb 10 d) eqn:E3; [|right; exists [], [], [13%N], (d :: a); do 4 (split; [reflexivity|]); apply (solid_app [13%N]); auto; discriminate].
  apply ceqb_eq in E3. subst d. right. exists [], [], [13%N; 10%N], a. do 4 (split; [reflexivity|]). apply (solid_app [13%N; 10%N]); auto. intros ->. destruct Ha as (b & e & E & H). destruct b as [|? [|? [|]]]; try discriminate. injection E as _ <-. discriminate.
Qed.
Lemma local_alts K K' l : l <> [] -> Forall (local K K') l -> local K K' (PAlts l).
Proof. intros Hn H. induction H as [|p l Hp Hl IH]; [congruence|]. destruct l as [|q l]; [exact Hp|]. apply local_alt; [exact Hp|apply IH; discriminate]. Qed.
Ltac newline_first := intros y pos X; cbn in X; discriminate X.
Ltac localise := repeat first
  [ apply guarded; [unfold PAlts; repeat first [apply decided_newline|apply decided_alt|match goal with |- decided (PStr ?t) => rewrite <- (app_nil_r t); apply decided_str; [let Y := fresh in intro Y; vm_compute in Y; intuition discriminate|left; reflexivity] end]|newline_first]
  | apply local_atom | apply local_any_str; (let X := fresh in intro X; vm_compute in X; intuition discriminate)
  | apply local_any_set; reflexivity | apply local_star | apply local_opt | eapply local_not | apply local_seq | apply local_alt ].
Lemma local_token : local solid any g_token.
Proof.
  unfold g_token. apply local_alts; [discriminate|]. unfold token_alts.
  repeat match goal with
  | |- Forall _ [] => constructor
  | |- Forall _ (g_line_break :: _) => constructor; [apply local_atom; apply (local_weaken solid solid solid any); [auto|constructor|apply local_newline]|]
  | |- Forall _ (g_paragraph_break :: _) => constructor; [apply local_atom; apply (local_weaken solid solid solid any); [auto|constructor|]; unfold PMin, PTimes; apply local_seq; [apply local_seq; apply local_newline|apply local_star, local_newline]|]
  | |- Forall _ (g_other :: _) => constructor; [apply local_atom; intros a y y' pos pos' Ha; destruct a as [|c a]; [destruct Ha as ([|] & ? & E & _); discriminate|]; right; exists [], [], [c], a; unfold any; auto 6|]
  | |- Forall _ (_ :: _) => constructor; [apply (local_weaken any solid any any); [constructor|constructor|]; unfold TK, g_url, g_identifier, g_email, g_nonspace, g_variable, g_string, g_char, g_clear_float_left, g_clear_float_right, g_clear_float, g_triple_dash, g_double_dash, g_double_tilde, g_quote, g_heading, g_bullet_item, g_numbered_item, g_space, PPlus, PSeqs, PMin, PTimes, PUpTo, g_identifier, PPlus, ASCII_ALPHANUMERIC, ASCII_DIGIT; localise|]
  end.
Qed.

(** Pieces of text, each with the kind of its token. *)
Notation piece := (token * str)%type (only parsing).
Definition flat (cs : list piece) : str := flat_map snd cs.
Fixpoint place (pos : nat) (cs : list piece) : list xtoken :=
  match cs with [] => [] | (k, z) :: cs' => XT k z pos (pos + blen z) :: place (pos + blen z) cs' end.
Lemma flat_app a b : flat (a ++ b) = flat a ++ flat b. Proof. apply flat_map_app. Qed.
Lemma place_app a b : forall pos, place pos (a ++ b) = place pos a ++ place (pos + blen (flat a)) b.
Proof.
  induction a as [|[k z] a IH]; intro pos; [cbn; rewrite Nat.add_0_r; reflexivity|]. cbn [app place flat flat_map snd]. rewrite IH.
  fold (flat a). rewrite blen_app, Nat.add_assoc. reflexivity.
Qed.

(** *** Reading a text piece by piece. *)
Inductive lxs : list piece -> str -> Prop :=
| ls_nil rest : lxs [] rest
| ls_step xs cs rest : flat xs <> [] ->
    (forall pos, exists ps, run g_token pos (flat xs ++ flat cs ++ rest) = Some (ps, flat xs, flat cs ++ rest) /\ convert_pairs ps = Some (place pos xs)) ->
    lxs cs rest -> lxs (xs ++ cs) rest.
Lemma lxs_app a b rest : lxs a (flat b ++ rest) -> lxs b rest -> lxs (a ++ b) rest.
Proof.
  intros Ha Hb. remember (flat b ++ rest) as z eqn:Ez. induction Ha as [|xs cs z Hn Hr Hc IH]; [exact Hb|]. subst z. rewrite <- app_assoc. apply ls_step; auto. intro pos. rewrite flat_app, <- app_assoc. apply Hr.
Qed.
Definition kind_slice (t : xtoken) : piece := (t_token t, t_slice t).
Lemma convert_sig ps : forall ps' ts, sig ps = sig ps' -> convert_pairs ps = Some ts -> exists ts', convert_pairs ps' = Some ts' /\ map kind_slice ts' = map kind_slice ts.
Proof.
  induction ps as [|p ps IH]; intros [|p' ps'] ts Hs Hc; try discriminate; [exists ts; cbn in *; auto|]. unfold sig in Hs. cbn [map] in Hs. assert (Hr : p_rule p = p_rule p' /\ p_slice p = p_slice p') by (split; congruence).
  assert (Hs' : sig ps = sig ps') by (unfold sig; congruence). cbn [convert_pairs] in *. unfold convert_pair in *. destruct Hr as [R1 R2]. rewrite <- R1. destruct (get_from_rule (p_rule p)) as [k|]; [|discriminate]. destruct (convert_pairs ps) as [us|] eqn:E; [|discriminate].
  destruct (IH _ _ Hs' eq_refl) as (us' & -> & Hu). injection Hc as <-. eexists. split; [reflexivity|]. cbn [map]. unfold kind_slice at 1 3. cbn [t_token t_slice]. rewrite Hu, R2. reflexivity.
Qed.
Lemma contiguous_place pos ts e : contiguous pos ts e -> ts = place pos (map kind_slice ts).
Proof.
  induction 1 as [|a t ts b Hs He Hn _ IH]; [reflexivity|]. cbn [map place kind_slice]. unfold kind_slice at 1. destruct t as [k z s0 e0]. cbn [t_token t_slice t_start t_end] in *. subst. f_equal. exact IH.
Qed.
Lemma flat_kinds ts : flat (map kind_slice ts) = concat (map t_slice ts).
Proof. induction ts as [|t ts IH]; [reflexivity|]. cbn [map concat]. rewrite <- IH. reflexivity. Qed.
(** The pieces of a text that a line break follows. *)
Fixpoint text_pieces_n (n : nat) (s : str) : list piece :=
  match n, s with
  | S n', _ :: _ => match run g_token 0 (s ++ [10%N]) with
                    | Some (ps, m, _) => match convert_pairs ps with Some ts => map kind_slice ts ++ text_pieces_n n' (skipn (length m) s) | None => [] end
                    | None => []
                    end
  | _, _ => []
  end.
Definition text_pieces (s : str) : list piece := text_pieces_n (length s) s.
Lemma text_pieces_ok_n n : forall s, length s <= n -> s = [] \/ solid s ->
  flat (text_pieces_n n s) = s /\ Forall (fun x => shape (fst x) (snd x)) (text_pieces_n n s) /\ forall y, lxs (text_pieces_n n s) (10%N :: y).
Proof.
  induction n as [|n IH]; intros s Hl Hs; [destruct s; [|cbn [length] in Hl; lia]; split; [reflexivity|]; split; [constructor|]; intro y; apply ls_nil|].
  destruct s as [|c s]; [split; [reflexivity|]; split; [constructor|]; intro y; apply ls_nil|]. destruct Hs as [Hs|Hs]; [discriminate|]. cbn [text_pieces_n].
  destruct (run g_token 0 ((c :: s) ++ [10%N])) as [[[ps m] r]|] eqn:E; [|exfalso; revert E; apply token_some].
  pose proof (token_step _ _ _ _ _ E) as (ts & Hc & Hct & Hm & Hsh & _). rewrite Hc.
  assert (Hmn : m <> []) by (eapply token_nonempty; eauto).
  assert (Hloc : forall y pos, exists ps' a1, run g_token pos ((c :: s) ++ 10%N :: y) = Some (ps', m, a1 ++ 10%N :: y) /\ sig ps = sig ps' /\ c :: s = m ++ a1).
  { intros y pos. destruct (local_token (c :: s) [] y 0 pos Hs) as [[X _]|(q & q' & m' & a1 & X & Y & Z & Z2 & _)]; rewrite E in X; [discriminate|]. assert (ps = q /\ m = m') as [-> ->] by (split; congruence). exists q', a1. auto. }
  destruct (Hloc [] 0) as (_ & a1 & _ & _ & Ha). assert (Hsk : skipn (length m) (c :: s) = a1) by (rewrite Ha, skipn_app, skipn_all, Nat.sub_diag; reflexivity). rewrite Hsk.
  destruct (IH a1) as (I1 & I2 & I3).
  { assert (X : length (c :: s) = length m + length a1) by (rewrite Ha, app_length; reflexivity). destruct m; [congruence|]. cbn [length] in *. lia. }
  { destruct a1 as [|d a1]; [left; auto|right]. rewrite Ha in Hs. eapply solid_app; [exact Hs|discriminate]. }
  split; [rewrite flat_app, I1, flat_kinds, Hm; auto|]. split; [apply Forall_app; split; auto; apply Forall_map; exact Hsh|].
  intro y. apply ls_step; auto; [rewrite flat_kinds, Hm; auto|]. intro pos. destruct (Hloc y pos) as (ps' & a1' & H1 & H2 & H3). assert (a1' = a1) as -> by (rewrite Ha in H3; apply app_inv_head in H3; auto).
  exists ps'. rewrite I1, flat_kinds, Hm. rewrite Ha in H1. rewrite <- app_assoc in H1. split; [exact H1|].
  destruct (convert_sig _ _ _ H2 Hc) as (ts' & Hc' & Hk). pose proof (token_step _ _ _ _ _ H1) as (us & Hu & Hcu & _). rewrite Hc' in Hu. injection Hu as <-. rewrite Hc', <- Hk. f_equal. eapply contiguous_place; eauto.
Qed.
Lemma text_pieces_ok s : s = [] \/ solid s -> flat (text_pieces s) = s /\ Forall (fun x => shape (fst x) (snd x)) (text_pieces s) /\ forall y, lxs (text_pieces s) (10%N :: y).
Proof. intro H. apply text_pieces_ok_n; auto. Qed.

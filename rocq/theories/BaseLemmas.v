(** BaseLemmas.v -- facts about the string operations of Base.v. *)
From Verif Require Import Base.


Lemma ceqb_eq a b : ceqb a b = true <-> a = b.
Proof. unfold ceqb. apply N.eqb_eq. Qed.
Lemma ceqb_refl a : ceqb a a = true.
Proof. apply N.eqb_refl. Qed.
Lemma ceqb_neq a b : ceqb a b = false <-> a <> b.
Proof. unfold ceqb. apply N.eqb_neq. Qed.

Lemma seqb_eq a b : seqb a b = true <-> a = b.
Proof.
  revert b; induction a as [|x a IH]; intros [|y b]; simpl; split; intro H; try discriminate; auto.
  - apply andb_true_iff in H as [H1 H2]. apply ceqb_eq in H1. apply IH in H2. congruence.
  - injection H as -> ->. rewrite ceqb_refl. apply IH. reflexivity.
Qed.
Lemma seqb_refl a : seqb a a = true.
Proof. apply seqb_eq; reflexivity. Qed.
Lemma seqb_neq a b : seqb a b = false <-> a <> b.
Proof. rewrite <- not_true_iff_false, seqb_eq. reflexivity. Qed.

Lemma utf8_len_pos c : 1 <= utf8_len c.
Proof. unfold utf8_len. repeat destruct (_ <? _)%N; lia. Qed.
Lemma utf16_len_pos c : 1 <= utf16_len c.
Proof. unfold utf16_len. destruct (_ <? _)%N; lia. Qed.

Lemma blen_app a b : blen (a ++ b) = blen a + blen b.
Proof. induction a as [|c a IH]; simpl; lia. Qed.
Lemma len16_app a b : len16 (a ++ b) = len16 a + len16 b.
Proof. induction a as [|c a IH]; simpl; lia. Qed.
Lemma blen_zero s : blen s = 0 -> s = [].
Proof. destruct s as [|c s]; auto. simpl. pose proof (utf8_len_pos c). lia. Qed.
Lemma blen_length s : length s <= blen s.
Proof. induction s as [|c s IH]; simpl; auto. pose proof (utf8_len_pos c). lia. Qed.

Lemma bsplit_app a b : bsplit (a ++ b) (blen a) = Some (a, b).
Proof.
  induction a as [|c a IH]; simpl.
  - destruct b; reflexivity.
  - pose proof (utf8_len_pos c).
    destruct (utf8_len c + blen a) as [|n] eqn:E; [lia|].
    destruct (Nat.ltb_spec (S n) (utf8_len c)) as [Hl|Hl]; [lia|].
    replace (S n - utf8_len c) with (blen a) by lia. rewrite IH. reflexivity.
Qed.

Lemma bsplit_0 s : bsplit s 0 = Some ([], s).
Proof. destruct s; reflexivity. Qed.

Lemma bsplit_inv s n a b : bsplit s n = Some (a, b) -> s = a ++ b /\ n = blen a.
Proof.
  revert n a b; induction s as [|c s IH]; intros [|n] a b; cbn [bsplit]; intro H;
    try discriminate; try (injection H as <- <-; auto; fail).
  destruct (Nat.ltb_spec (S n) (utf8_len c)) as [Hl|Hl]; [discriminate|].
  destruct (bsplit s (S n - utf8_len c)) as [[a' b']|] eqn:E; [|discriminate].
  injection H as <- <-. apply IH in E as [-> E2]. split; [reflexivity|]. simpl. lia.
Qed.

Lemma bslice_app a m b : bslice (a ++ m ++ b) (blen a) (blen a + blen m) = Some m.
Proof.
  unfold bslice. destruct (Nat.ltb_spec (blen a + blen m) (blen a)); [lia|].
  rewrite bsplit_app. replace (blen a + blen m - blen a) with (blen m) by lia.
  rewrite bsplit_app. reflexivity.
Qed.

Lemma bslice_inv s i j m :
  bslice s i j = Some m -> exists a b, s = a ++ m ++ b /\ i = blen a /\ j = blen a + blen m.
Proof.
  unfold bslice. destruct (Nat.ltb_spec j i); [discriminate|].
  destruct (bsplit s i) as [[a r]|] eqn:E1; [|discriminate].
  destruct (bsplit r (j - i)) as [[m' b]|] eqn:E2; [|discriminate].
  intro Hm; injection Hm as ->. apply bsplit_inv in E1 as [-> ->]. apply bsplit_inv in E2 as [-> E2].
  exists a, b. repeat split; auto. lia.
Qed.

Lemma replace_range_app a m b r :
  replace_range (a ++ m ++ b) (blen a) (blen a + blen m) r = Some (a ++ r ++ b).
Proof.
  unfold replace_range. destruct (Nat.ltb_spec (blen a + blen m) (blen a)); [lia|].
  rewrite bsplit_app. replace (blen a + blen m - blen a) with (blen m) by lia.
  rewrite bsplit_app. reflexivity.
Qed.

Lemma strip_prefix_app p s : strip_prefix p (p ++ s) = Some s.
Proof. induction p as [|x p IH]; simpl; auto. rewrite ceqb_refl. auto. Qed.
Lemma strip_prefix_inv p s r : strip_prefix p s = Some r -> s = p ++ r.
Proof.
  revert s; induction p as [|x p IH]; intros s; simpl; intro H.
  - congruence.
  - destruct s as [|y s]; [discriminate|]. destruct (ceqb x y) eqn:E; [|discriminate].
    apply ceqb_eq in E as ->. f_equal. auto.
Qed.
Lemma starts_with_iff p s : starts_with p s = true <-> exists r, s = p ++ r.
Proof.
  unfold starts_with. split.
  - destruct (strip_prefix p s) as [r|] eqn:E; [|discriminate]. intros _.
    exists r. apply strip_prefix_inv; auto.
  - intros [r ->]. rewrite strip_prefix_app. reflexivity.
Qed.
Lemma ends_with_iff p s : ends_with p s = true <-> exists r, s = r ++ p.
Proof.
  unfold ends_with. rewrite starts_with_iff. split; intros [r H].
  - exists (rev r). rewrite <- (rev_involutive s), H, rev_app_distr, rev_involutive. reflexivity.
  - exists (rev r). rewrite H, rev_app_distr. reflexivity.
Qed.

Lemma take_drop_while f s : take_while f s ++ drop_while f s = s.
Proof. induction s as [|c s IH]; simpl; auto. destruct (f c); simpl; congruence. Qed.
Lemma take_while_all f s : forallb f (take_while f s) = true.
Proof. induction s as [|c s IH]; simpl; auto. destruct (f c) eqn:E; simpl; auto. rewrite E; auto. Qed.
Lemma drop_while_head f s c r : drop_while f s = c :: r -> f c = false.
Proof.
  induction s as [|x s IH]; simpl; [discriminate|]. destruct (f x) eqn:E; auto.
  intro H; injection H as <- <-; auto.
Qed.
Lemma drop_while_id f s : match s with [] => True | c :: _ => f c = false end -> drop_while f s = s.
Proof. destruct s as [|c s]; simpl; auto. intros ->. reflexivity. Qed.
Lemma drop_while_app_all f a b : forallb f a = true -> drop_while f (a ++ b) = drop_while f b.
Proof.
  induction a as [|c a IH]; simpl; auto. intro H. apply andb_true_iff in H as [-> H]. auto.
Qed.
Lemma drop_while_nil f s : drop_while f s = [] <-> forallb f s = true.
Proof.
  induction s as [|c s IH]; simpl; [tauto|]. destruct (f c); simpl; auto. split; discriminate.
Qed.
Lemma drop_while_length f s : length (drop_while f s) <= length s.
Proof. induction s as [|c s IH]; simpl; auto. destruct (f c); simpl; lia. Qed.

Lemma forallb_rev {A} (f : A -> bool) l : forallb f (rev l) = forallb f l.
Proof.
  induction l as [|x l IH]; simpl; auto. rewrite forallb_app, IH. simpl.
  rewrite andb_true_r. apply andb_comm.
Qed.

(** [trim s] is the middle of [s]: what is cut off on both sides is whitespace and the middle, if
    not empty, starts and ends with a non-whitespace character. *)
Lemma trim_spec s : exists a b, s = a ++ trim s ++ b
  /\ forallb is_ws a = true /\ forallb is_ws b = true.
Proof.
  exists (take_while is_ws s).
  exists (rev (take_while is_ws (rev (trim_start s)))). split; [|split].
  - unfold trim, trim_end. rewrite <- rev_app_distr, take_drop_while, rev_involutive.
    unfold trim_start. symmetry; apply take_drop_while.
  - apply take_while_all.
  - rewrite forallb_rev. apply take_while_all.
Qed.
Lemma trim_head s c r : trim s = c :: r -> is_ws c = false.
Proof.
  unfold trim, trim_end, trim_start. intro H.
  destruct (drop_while is_ws s) as [|d t] eqn:E; [simpl in H; discriminate|].
  assert (Hd : is_ws d = false) by (eapply drop_while_head; eauto).
  assert (Hc : exists q, drop_while is_ws (rev (d :: t)) = q ++ [d]).
  { simpl. generalize (rev t) as u. induction u as [|x u IH]; simpl.
    - rewrite Hd. exists []; reflexivity.
    - destruct (is_ws x); auto. exists (x :: u). reflexivity. }
  destruct Hc as [q Hq]. rewrite Hq, rev_app_distr in H. simpl in H. congruence.
Qed.
Lemma trim_last s c r : trim s = r ++ [c] -> is_ws c = false.
Proof.
  unfold trim, trim_end. intro H. apply (f_equal (@rev char)) in H.
  rewrite rev_involutive, rev_app_distr in H. simpl in H. eapply drop_while_head; eauto.
Qed.
Lemma trim_id s : (forall c r, s = c :: r -> is_ws c = false) ->
  (forall c r, s = r ++ [c] -> is_ws c = false) -> trim s = s.
Proof.
  intros Hh Hl. unfold trim, trim_end, trim_start.
  rewrite (drop_while_id is_ws s).
  2:{ destruct s; auto. eapply Hh; eauto. }
  rewrite (drop_while_id is_ws (rev s)). { apply rev_involutive. }
  destruct (rev s) as [|c r] eqn:E; auto. eapply Hl.
  rewrite <- (rev_involutive s), E. reflexivity.
Qed.
Lemma drop_while_app_stop f a c b : f c = false ->
  exists q, drop_while f (a ++ c :: b) = q ++ c :: b.
Proof.
  intros Hc. induction a as [|x a IH]; cbn [app drop_while].
  - rewrite Hc. exists []. reflexivity.
  - destruct (f x); auto. exists (x :: a). reflexivity.
Qed.
Lemma trim_unique l core r : forallb is_ws l = true -> forallb is_ws r = true ->
  (forall c t, core = c :: t -> is_ws c = false) -> (forall c t, core = t ++ [c] -> is_ws c = false) ->
  core <> [] -> trim (l ++ core ++ r) = core.
Proof.
  intros Hl Hr Hh Ht Hn. unfold trim, trim_end, trim_start.
  rewrite drop_while_app_all by auto. rewrite (drop_while_id is_ws (core ++ r)).
  2: { destruct core; [contradiction|]. simpl. eapply Hh; eauto. }
  rewrite rev_app_distr, drop_while_app_all by (rewrite forallb_rev; auto).
  rewrite drop_while_id; [apply rev_involutive|].
  destruct (rev core) as [|c q] eqn:E; auto. apply (Ht c (rev q)).
  rewrite <- (rev_involutive core), E. reflexivity.
Qed.
Lemma trim_trim s : trim (trim s) = trim s.
Proof.
  apply trim_id; intros c r H; [eapply trim_head | eapply trim_last]; eauto.
Qed.

Lemma app_cons_notin_inj {A} (d : A) a b a' b' :
  a ++ d :: b = a' ++ d :: b' -> ~ In d a -> ~ In d a' -> a = a' /\ b = b'.
Proof.
  revert a'; induction a as [|x a IH]; intros [|y a'] H Hn Hn'; simpl in *.
  - injection H as H; auto.
  - injection H as H1 H2. exfalso; apply Hn'; left; auto.
  - injection H as H1 H2. exfalso; apply Hn; left; auto.
  - injection H as H1 H2. destruct (IH a' H2) as [-> ->]; try tauto. subst; auto.
Qed.
Lemma split_once_sound d s a b : split_once d s = Some (a, b) -> s = a ++ d :: b /\ ~ In d a.
Proof.
  revert a b; induction s as [|c s IH]; intros a b; simpl; [discriminate|].
  destruct (ceqb c d) eqn:E.
  - apply ceqb_eq in E as ->. intro H; injection H as <- <-. simpl; auto.
  - apply ceqb_neq in E. destruct (split_once d s) as [[a' b']|] eqn:E2; [|discriminate].
    intro H; injection H as <- <-. destruct (IH _ _ eq_refl) as [-> Hn].
    split; auto. intros [H|H]; auto.
Qed.
Lemma split_once_none d s : split_once d s = None <-> ~ In d s.
Proof.
  induction s as [|c s IH]; simpl; [tauto|].
  destruct (ceqb c d) eqn:E.
  - apply ceqb_eq in E. split; [discriminate|tauto].
  - apply ceqb_neq in E. destruct (split_once d s) as [[a b]|].
    + split; [discriminate|]. intro H. assert (Hn : ~ In d s) by tauto. apply IH in Hn. discriminate.
    + split; auto. intros _ [H|H]; auto. apply IH in H; auto.
Qed.

Lemma split_once_some d s a b : split_once d s = Some (a, b) <-> s = a ++ d :: b /\ ~ In d a.
Proof.
  split; [apply split_once_sound|]. intros [-> Hn].
  destruct (split_once d (a ++ d :: b)) as [[a' b']|] eqn:E.
  - apply split_once_sound in E as [H Hn'].
    destruct (app_cons_notin_inj _ _ _ _ _ H Hn Hn') as [-> ->]; auto.
  - apply split_once_none in E. exfalso; apply E, in_elt.
Qed.

Lemma is_ws_newline : is_ws 10 = true. Proof. reflexivity. Qed.
Lemma smem_In x l : smem x l = true <-> In x l.
Proof.
  induction l as [|y l IH]; simpl; [split; [discriminate|tauto]|].
  rewrite orb_true_iff, seqb_eq, IH. intuition congruence.
Qed.
Lemma cmem_In c s : cmem c s = true <-> In c s.
Proof.
  unfold cmem. rewrite existsb_exists. split.
  - intros [x [H1 H2]]. apply ceqb_eq in H2 as ->; auto.
  - intro H. exists c. split; auto. apply ceqb_refl.
Qed.

Lemma split_char_nonempty d s : split_char d s <> [].
Proof.
  destruct s as [|c s]; simpl; [discriminate|]. destruct (ceqb c d); [discriminate|].
  destruct (split_char d s); discriminate.
Qed.
Lemma join_split_char d s : join [d] (split_char d s) = s.
Proof.
  induction s as [|c s IH]; simpl; auto.
  destruct (ceqb c d) eqn:E.
  - apply ceqb_eq in E as ->. pose proof (split_char_nonempty d s).
    destruct (split_char d s) as [|w ws]; [congruence|]. simpl. simpl in IH. congruence.
  - pose proof (split_char_nonempty d s). destruct (split_char d s) as [|w ws]; [congruence|].
    destruct ws as [|w2 ws]; simpl in *; congruence.
Qed.

Lemma find_char_split d s : find_char d s = match split_once d s with Some (a, _) => Some (blen a) | None => None end.
Proof.
  induction s as [|c s IH]; cbn [find_char split_once]; auto.
  destruct (ceqb c d); auto. rewrite IH. destruct (split_once d s) as [[a b]|]; reflexivity.
Qed.
Lemma bfrom_app a b : bfrom (a ++ b) (blen a) = Some b.
Proof. unfold bfrom. rewrite bsplit_app. reflexivity. Qed.
Lemma str_replace_aux_skip p r a b : str_replace_aux p r (a ++ b) (length a) = str_replace_aux p r b 0.
Proof.
  induction a as [|c a IH]; [reflexivity|]. cbn [app length str_replace_aux]. exact IH.
Qed.
Lemma str_replace_match p r s : p <> [] -> str_replace p r (p ++ s) = r ++ str_replace p r s.
Proof.
  intro Hp. unfold str_replace. destruct p as [|c p]; [contradiction|].
  cbn [app str_replace_aux]. assert (starts_with (c :: p) (c :: p ++ s) = true) as -> by (apply starts_with_iff; exists s; reflexivity).
  f_equal. replace (length (c :: p) - 1) with (length p) by (cbn [length]; lia). apply str_replace_aux_skip.
Qed.
Lemma str_replace_other p r c s : starts_with p (c :: s) = false -> str_replace p r (c :: s) = c :: str_replace p r s.
Proof. intro H. unfold str_replace. cbn [str_replace_aux]. rewrite H. reflexivity. Qed.

(** IncludesLemmas.v -- facts about the include model. *)
From Verif Require Import Base BaseLemmas Regex PreprocLemmas Peg PegLemmas Links LinksLemmas Includes SpecIncludes.

(** *** Regex search, one character at a time *)
Lemma mt_sound r : forall st st1 c, In (st1, c) (mt r st) ->
  exists k, r_rest st = k ++ r_rest st1 /\ r_pos st1 = r_pos st + length k /\ r_prev st1 = upd (r_prev st) k.
Proof.
  assert (Happ : forall st st1 st2 k k',
    r_rest st = k ++ r_rest st1 /\ r_pos st1 = r_pos st + length k /\ r_prev st1 = upd (r_prev st) k ->
    r_rest st1 = k' ++ r_rest st2 /\ r_pos st2 = r_pos st1 + length k' /\ r_prev st2 = upd (r_prev st1) k' ->
    r_rest st = (k ++ k') ++ r_rest st2 /\ r_pos st2 = r_pos st + length (k ++ k') /\ r_prev st2 = upd (r_prev st) (k ++ k')).
  { intros st st1 st2 k k' (H1 & H2 & H3) (H4 & H5 & H6). rewrite app_length, <- app_assoc, <- H4. repeat split; auto; [lia|].
    rewrite H6, H3. unfold upd. rewrite last_char_app. destruct (last_char k'); auto. }
  assert (Hnil : forall st : rstate, r_rest st = [] ++ r_rest st /\ r_pos st = r_pos st + length (@nil N) /\ r_prev st = upd (r_prev st) []).
  { intros st. simpl. auto. }
  induction r as [|p|a IHa b IHb|a IHa b IHb|g a IHa| | | | |n a IHa]; intros st st1 c H; cbn [mt] in H.
  - destruct H as [H|[]]. injection H as <- <-. exists []. auto.
  - destruct st as [pos prev rest]. cbn [r_rest r_pos] in *. destruct rest as [|x rest]; [destruct H|].
    destruct (p x); [|destruct H]. destruct H as [H|[]]. injection H as <- <-. exists [x]. simpl. repeat split; lia.
  - apply in_flat_map in H as ((sa & ca) & Ha & H). apply in_map_iff in H as ((sb & cb) & E & Hb).
    injection E as <- <-. apply IHa in Ha as (k & Hk). apply IHb in Hb as (k' & Hk'). exists (k ++ k'). eapply Happ; eauto.
  - apply in_app_iff in H as [H|H]; eauto.
  - revert H. generalize (length (r_rest st)) as fuel. intros fuel. revert st st1 c. induction fuel as [|fuel IH]; intros st st1 c H.
    + destruct H as [H|[]]. injection H as <- <-. exists []. auto.
    + cbn [star_all] in H.
      assert (H' : (st1, c) = (st, []) \/ In (st1, c) (flat_map (fun '(st1, c1) =>
            if length (r_rest st1) <? length (r_rest st)
            then map (fun '(st2, c2) => (st2, c2 ++ c1)) (star_all (mt a) g fuel st1)
            else []) (mt a st))).
      { destruct g; [apply in_app_iff in H as [H|[H|[]]]; auto|destruct H as [H|H]; auto]. }
      destruct H' as [H'|H'].
      * injection H' as -> ->. exists []. auto.
      * apply in_flat_map in H' as ((sa & ca) & Ha & H'). destruct (_ <? _); [|destruct H'].
        apply in_map_iff in H' as ((sb & cb) & E & Hb). injection E as <- <-.
        apply IHa in Ha as (k & Hk). apply IH in Hb as (k' & Hk'). exists (k ++ k'). eapply Happ; eauto.
  - destruct (at_bol st); [|destruct H]. destruct H as [H|[]]. injection H as <- <-. exists []; auto.
  - destruct (at_eol st); [|destruct H]. destruct H as [H|[]]. injection H as <- <-. exists []; auto.
  - destruct (r_prev st) eqn:E; [destruct H|]. destruct H as [H|[]]. injection H as <- <-. exists []. rewrite E. simpl. auto.
  - destruct (r_rest st) eqn:E; [|destruct H]. destruct H as [H|[]]. injection H as <- <-. exists []. rewrite E. simpl. auto.
  - apply in_map_iff in H as ((sa & ca) & E & Ha). injection E as <- <-. eauto.
Qed.

(** A pattern whose matches are never empty. *)
Definition consuming (r : re) : Prop := forall st st1 c, In (st1, c) (mt r st) -> r_pos st < r_pos st1.

Section Iter.
Variable r : re.
Hypothesis Hr : consuming r.

Definition fi (pos : nat) (prev : option char) (rest : str) : list rmatch := find_iter_aux (S (length rest)) r pos prev rest.

Lemma find_from_eq pos prev rest : find_from r pos prev rest =
  match mt r (RS pos prev rest) with
  | (st1, c) :: _ => Some (RM pos (r_pos st1) c)
  | [] => match rest with [] => None | c :: rest' => find_from r (S pos) (Some c) rest' end
  end.
Proof. destruct rest; reflexivity. Qed.

Lemma find_from_spec : forall rest pos prev m, find_from r pos prev rest = Some m ->
  exists g rest' st1 c l, rest = g ++ rest' /\ mt r (RS (pos + length g) (upd prev g) rest') = (st1, c) :: l /\
    m = RM (pos + length g) (r_pos st1) c.
Proof.
  induction rest as [|x rest IH]; intros pos prev m H; rewrite find_from_eq in H.
  - destruct (mt _ _) as [|[st1 c] l] eqn:E; [discriminate|]. injection H as <-.
    exists [], [], st1, c, l. simpl. rewrite Nat.add_0_r. auto.
  - destruct (mt _ _) as [|[st1 c] l] eqn:E.
    + apply IH in H as (g & rest' & st1 & c & l & -> & E' & ->). exists (x :: g), rest', st1, c, l.
      split; [reflexivity|]. cbn [length]. replace (pos + S (length g)) with (S pos + length g) by lia.
      split; [|reflexivity]. rewrite <- E'. f_equal. f_equal.
      unfold upd. change (x :: g) with ([x] ++ g). rewrite last_char_app. destruct (last_char g); reflexivity.
    + injection H as <-. exists [], (x :: rest), st1, c, l. simpl. rewrite Nat.add_0_r. auto.
Qed.

Lemma fi_aux_step fuel pos prev rest m : find_from r pos prev rest = Some m ->
  find_iter_aux (S fuel) r pos prev rest =
  m :: find_iter_aux fuel r (m_end m) (upd prev (firstn (m_end m - pos) rest)) (skipn (m_end m - pos) rest).
Proof. intros H. cbn [find_iter_aux]. rewrite H. unfold upd. reflexivity. Qed.

Lemma from_len pos prev rest m : find_from r pos prev rest = Some m -> pos < m_end m <= pos + length rest.
Proof.
  intros H. apply find_from_spec in H as (g & rest' & st1 & c & l & -> & E & ->). cbn [m_end].
  assert (Hi : In (st1, c) (mt r (RS (pos + length g) (upd prev g) rest'))) by (rewrite E; left; auto).
  pose proof (Hr _ _ _ Hi) as Hlt. apply mt_sound in Hi as (k & H1 & H2 & H3). cbn [r_rest r_pos] in *.
  subst rest'. rewrite !app_length. lia.
Qed.

Lemma fi_fuel : forall fuel pos prev rest, length rest < fuel -> find_iter_aux fuel r pos prev rest = fi pos prev rest.
Proof.
  assert (H : forall n fuel fuel' pos prev rest, length rest < n -> length rest < fuel -> length rest < fuel' ->
    find_iter_aux fuel r pos prev rest = find_iter_aux fuel' r pos prev rest).
  { induction n as [|n IH]; intros fuel fuel' pos prev rest Hn H1 H2; [lia|].
    destruct fuel as [|fuel]; [lia|]. destruct fuel' as [|fuel']; [lia|].
    destruct (find_from r pos prev rest) as [m|] eqn:E.
    - rewrite !(fi_aux_step _ _ _ _ _ E). f_equal. pose proof (from_len _ _ _ _ E).
      apply IH; rewrite skipn_length; lia.
    - cbn [find_iter_aux]. rewrite E. reflexivity. }
  intros. unfold fi. apply (H (S (length rest))); lia.
Qed.

Lemma fi_eq pos prev rest : fi pos prev rest =
  match mt r (RS pos prev rest) with
  | (st1, c) :: _ => RM pos (r_pos st1) c :: fi (r_pos st1) (r_prev st1) (r_rest st1)
  | [] => match rest with [] => [] | c :: rest' => fi (S pos) (Some c) rest' end
  end.
Proof.
  unfold fi at 1. destruct (mt r (RS pos prev rest)) as [|[st1 c] l] eqn:E.
  - destruct rest as [|x rest].
    + cbn [find_iter_aux]. rewrite find_from_eq, E. reflexivity.
    + destruct (find_from r (S pos) (Some x) rest) as [m|] eqn:F.
      * assert (F' : find_from r pos prev (x :: rest) = Some m) by (rewrite find_from_eq, E; exact F).
        rewrite (fi_aux_step _ _ _ _ _ F'). pose proof (from_len _ _ _ _ F) as Hl.
        unfold fi. rewrite (fi_aux_step _ _ _ _ _ F). f_equal.
        replace (m_end m - pos) with (S (m_end m - S pos)) by lia. cbn [skipn firstn].
        assert (U : upd prev (x :: firstn (m_end m - S pos) rest) = upd (Some x) (firstn (m_end m - S pos) rest)).
        { unfold upd. change (x :: firstn (m_end m - S pos) rest) with ([x] ++ firstn (m_end m - S pos) rest).
          rewrite last_char_app. destruct (last_char _); reflexivity. }
        rewrite U. rewrite fi_fuel; [|rewrite skipn_length; cbn [length]; lia].
        rewrite fi_fuel; [reflexivity|rewrite skipn_length; lia].
      * cbn [find_iter_aux]. rewrite find_from_eq, E, F. unfold fi. cbn [find_iter_aux]. rewrite F. reflexivity.
  - assert (F : find_from r pos prev rest = Some (RM pos (r_pos st1) c)) by (rewrite find_from_eq, E; reflexivity).
    rewrite (fi_aux_step _ _ _ _ _ F). cbn [m_end]. f_equal.
    assert (Hi : In (st1, c) (mt r (RS pos prev rest))) by (rewrite E; left; auto).
    pose proof (Hr _ _ _ Hi) as Hlt. apply mt_sound in Hi as (k & H1 & H2 & H3). cbn [r_rest r_pos r_prev] in *.
    replace (r_pos st1 - pos) with (length k) by lia.
    rewrite H1. rewrite firstn_app, firstn_all, Nat.sub_diag. cbn [firstn]. rewrite app_nil_r.
    rewrite skipn_app, skipn_all, Nat.sub_diag. cbn [skipn app]. rewrite <- H3.
    apply fi_fuel. rewrite app_length. destruct k; cbn [length] in *; lia.
Qed.
End Iter.

(** *** Replacing ranges backwards *)
Inductive ranges : nat -> str -> list (str * (nat * nat)) -> str -> Prop :=
| rg_nil off rest : ranges off rest [] rest
| rg_cons off g b r rest l out : ranges (off + blen g + blen b) rest l out ->
    ranges off (g ++ b ++ rest) ((r, (off + blen g, off + blen g + blen b)) :: l) (g ++ r ++ out).

Lemma ranges_char off c rest l out : ranges (off + utf8_len c) rest l out -> ranges off (c :: rest) l (c :: out).
Proof.
  intros H. inversion H; subst.
  - constructor.
  - assert (E : off + utf8_len c + blen g = off + blen (c :: g)) by (simpl; lia). rewrite E.
    change (c :: g ++ b ++ rest0) with ((c :: g) ++ b ++ rest0).
    change (c :: g ++ r ++ out0) with ((c :: g) ++ r ++ out0). constructor. rewrite <- E. auto.
Qed.
Lemma ranges_str off a rest l out : ranges (off + blen a) rest l out -> ranges off (a ++ rest) l (a ++ out).
Proof.
  revert off; induction a as [|c a IH]; intros off H; cbn [blen] in H.
  - rewrite Nat.add_0_r in H. exact H.
  - apply ranges_char. apply IH. rewrite <- Nat.add_assoc. exact H.
Qed.
Lemma replace_all_app l1 : forall l2 s, replace_all s (l1 ++ l2) = match replace_all s l1 with Some s' => replace_all s' l2 | None => None end.
Proof.
  induction l1 as [|[v [a b]] l1 IH]; intros l2 s; simpl; auto. destruct (replace_range s a b v); auto.
Qed.
Lemma ranges_replace off rest l out : ranges off rest l out -> forall pre, off = blen pre ->
  replace_all (pre ++ rest) (rev l) = Some (pre ++ out).
Proof.
  induction 1 as [off rest|off g b r rest l out H IH]; intros pre ->; cbn [rev].
  - reflexivity.
  - rewrite replace_all_app. replace (pre ++ g ++ b ++ rest) with ((pre ++ g ++ b) ++ rest) by (rewrite <- !app_assoc; reflexivity).
    rewrite IH by (rewrite !blen_app; lia). cbn [replace_all].
    replace ((pre ++ g ++ b) ++ out) with ((pre ++ g) ++ b ++ out) by (rewrite <- !app_assoc; reflexivity).
    rewrite <- blen_app. rewrite replace_range_app. rewrite <- app_assoc. reflexivity.
Qed.

(** *** Variables *)
Definition var_head (s : str) : option (str * str) :=
  match strip_prefix (lit "{$") s with
  | Some r1 => match take_while var_char r1, drop_while var_char r1 with
               | n :: ns, 125%N :: r => Some (n :: ns, r)
               | _, _ => None
               end
  | None => None
  end.

Lemma runs_close start : forall s pos prev,
  after (ch 125) (map (fun '(st1, c1) => (st1, (1, (start, r_pos st1)) :: c1)) (runs var_char pos prev s))
  = match drop_while var_char s with
    | 125%N :: r => [(RS (pos + length (take_while var_char s) + 1) (Some 125%N) r, [(1, (start, pos + length (take_while var_char s)))])]
    | _ => []
    end.
Proof.
  induction s as [|x s IH]; intros pos prev; cbn [runs take_while drop_while].
  - cbn [app map]. rewrite after_one. reflexivity.
  - destruct (var_char x) eqn:E.
    + rewrite map_app, after_app, IH. cbn [map]. rewrite after_one.
      assert (mt (ch 125) (RS pos prev (x :: s)) = []) as ->.
      { unfold ch. rewrite mt_chr. destruct (ceqb 125 x) eqn:F; [|reflexivity].
        apply ceqb_eq in F. subst x. discriminate. }
      cbn [map]. rewrite app_nil_r. destruct (drop_while var_char s) as [|y r]; [reflexivity|].
      cbn [length]. replace (pos + S (length (take_while var_char s))) with (S pos + length (take_while var_char s)) by lia.
      reflexivity.
    + cbn [app map]. rewrite after_one. unfold ch. rewrite mt_chr. cbn [length].
      destruct (ceqb 125 x) eqn:F.
      * apply ceqb_eq in F. subst x. cbn [map app r_pos]. rewrite Nat.add_0_r, Nat.add_1_r. reflexivity.
      * destruct x as [|p]; [reflexivity|]. apply ceqb_neq in F. cbn [map].
        repeat (destruct p as [p|p|]; try reflexivity). congruence.
Qed.

Lemma mt_VARIABLE pos prev rest : mt VARIABLE_REGEX (RS pos prev rest) =
  match var_head rest with
  | Some (n, r) => [(RS (pos + length (var_ref n)) (Some 125%N) r, [(1, (pos + 2, pos + 2 + length n))])]
  | None => []
  end.
Proof.
  unfold VARIABLE_REGEX, var_head.
  pose proof (open2 123 36 (Seq (Grp 1 (plus (Chr var_char))) (ch 125)) pos prev rest) as H.
  change (lit "{$") with [123%N; 36%N].
  destruct (strip_prefix [123%N; 36%N] rest) as [r1|]; [|exact H].
  destruct H as (p & ->). rewrite mt_seq_after. change (mt (Grp 1 (plus (Chr var_char))) (RS (pos + 2) p r1))
    with (map (fun '(st1, c1) => (st1, (1, (pos + 2, r_pos st1)) :: c1)) (mt (plus (Chr var_char)) (RS (pos + 2) p r1))).
  rewrite mt_plus. cbn [r_rest r_pos].
  destruct r1 as [|c r1]; [reflexivity|]. cbn [take_while drop_while]. destruct (var_char c); [|reflexivity].
  rewrite runs_close. destruct (drop_while var_char r1) as [|x r]; [reflexivity|].
  destruct x as [|q]; [reflexivity|]. repeat (destruct q as [q|q|]; try reflexivity).
  unfold var_ref. rewrite !app_length. cbn [length lit]. 
  replace (S (pos + 2) + length (take_while var_char r1) + 1) with (pos + (2 + (S (length (take_while var_char r1)) + 1))) by lia.
  replace (S (pos + 2) + length (take_while var_char r1)) with (pos + 2 + S (length (take_while var_char r1))) by lia.
  reflexivity.
Qed.

Lemma VARIABLE_consuming : consuming VARIABLE_REGEX.
Proof.
  intros [pos prev rest] st1 c H. rewrite mt_VARIABLE in H. destruct (var_head rest) as [[n r]|]; [|destruct H].
  destruct H as [H|[]]. injection H as <- <-. cbn [r_pos]. unfold var_ref. rewrite app_length. cbn [length lit]. lia.
Qed.

Lemma var_char_spec c : var_char c = true <->
  (48 <= c <= 57 \/ 65 <= c <= 90 \/ 97 <= c <= 122 \/ c = 95 \/ c = 45)%N.
Proof.
  unfold var_char, is_alnum, is_alpha, is_upper, is_lower, is_digit, ceqb.
  rewrite !orb_true_iff, !andb_true_iff, !N.leb_le, !N.eqb_eq. lia.
Qed.
Lemma var_name_chars n : var_name n <-> n <> [] /\ forallb var_char n = true.
Proof.
  unfold var_name. rewrite forallb_forall, Forall_forall. split; intros [H1 H2]; split; auto; intros x Hx; apply var_char_spec; auto.
Qed.
Lemma take_while_stop f a c b : forallb f a = true -> f c = false -> take_while f (a ++ c :: b) = a /\ drop_while f (a ++ c :: b) = c :: b.
Proof.
  induction a as [|x a IH]; simpl; intros H Hc.
  - rewrite Hc. auto.
  - apply andb_true_iff in H as [-> H]. destruct (IH H Hc) as [-> ->]. auto.
Qed.
Lemma var_head_ref n r : var_name n -> var_head (var_ref n ++ r) = Some (n, r).
Proof.
  intros H. apply var_name_chars in H as [Hn H]. unfold var_head, var_ref. rewrite <- app_assoc, strip_prefix_app.
  rewrite <- app_assoc. change (lit "}" ++ r) with (125%N :: r).
  destruct (take_while_stop var_char n 125%N r H eq_refl) as [-> ->]. destruct n; [congruence|reflexivity].
Qed.
Lemma var_head_inv s n r : var_head s = Some (n, r) -> s = var_ref n ++ r /\ var_name n.
Proof.
  unfold var_head. destruct (strip_prefix (lit "{$") s) as [r1|] eqn:E; [|discriminate].
  apply strip_prefix_inv in E. destruct (take_while var_char r1) as [|x xs] eqn:Et; [discriminate|].
  destruct (drop_while var_char r1) as [|y r2] eqn:Ed; [discriminate|].
  assert (H : forall A (a : A), match y with 125%N => Some a | _ => None end <> None -> y = 125%N).
  { intros A a. destruct y as [|q]; [congruence|]. repeat (destruct q as [q|q|]; try congruence). }
  intros Hm. assert (Hy : y = 125%N) by (apply (H _ (x :: xs, r2)); rewrite Hm; discriminate). subst y.
  injection Hm as <- <-. pose proof (take_drop_while var_char r1) as T. rewrite Et, Ed in T. split.
  - rewrite E, <- T. unfold var_ref. rewrite <- !app_assoc. reflexivity.
  - apply var_name_chars. split; [discriminate|]. rewrite <- Et. apply take_while_all.
Qed.

Lemma substitution content vars : forall k rest pre, length rest < k -> content = pre ++ rest ->
  exists l out, collect_vars content vars (fi VARIABLE_REGEX (length pre) (last_char pre) rest) = Some l
    /\ ranges (blen pre) rest l out /\ substituted (vm_get vars) rest out.
Proof.
  induction k as [|k IH]; intros rest pre Hk ->; [lia|].
  rewrite (fi_eq _ VARIABLE_consuming), mt_VARIABLE. destruct (var_head rest) as [[n r]|] eqn:E.
  - apply var_head_inv in E as [-> Hn]. cbn [r_pos r_prev r_rest].
    destruct (IH r (pre ++ var_ref n)) as (l & out & H1 & H2 & H3).
    { unfold var_ref in Hk. rewrite !app_length in Hk. cbn [length lit] in Hk. lia. }
    { rewrite <- app_assoc. reflexivity. }
    rewrite app_length in H1. replace (last_char (pre ++ var_ref n)) with (Some 125%N) in H1.
    2:{ unfold var_ref. rewrite !app_assoc. symmetry. apply last_char_snoc. }
    cbn [collect_vars m_caps m_start m_end cap_get Nat.eqb]. rewrite H1.
    assert (Hname : bslice (pre ++ var_ref n ++ r) (byte_of (pre ++ var_ref n ++ r) (length pre + 2))
             (byte_of (pre ++ var_ref n ++ r) (length pre + 2 + length n)) = Some n).
    { replace (pre ++ var_ref n ++ r) with ((pre ++ lit "{$") ++ n ++ lit "}" ++ r).
      2:{ unfold var_ref. rewrite <- !app_assoc. reflexivity. }
      replace (length pre + 2) with (length (pre ++ lit "{$")) by (rewrite app_length; reflexivity).
      rewrite byte_of_app2, byte_of_app. apply bslice_app. }
    rewrite Hname. rewrite byte_of_app, byte_of_app2. rewrite blen_app in H2.
    destruct (vm_get vars n) as [v|] eqn:G.
    + eexists _, (v ++ out). split; [reflexivity|]. split.
      * pose proof (rg_cons (blen pre) [] (var_ref n) v r l out) as Hc. cbn [blen app] in Hc. rewrite Nat.add_0_r in Hc. auto.
      * apply su_var; auto.
    + exists l, (var_ref n ++ out). split; [reflexivity|]. split; [apply ranges_str; auto|apply su_unbound; auto].
  - destruct rest as [|c rest].
    + exists [], []. split; [reflexivity|]. split; constructor.
    + destruct (IH rest (pre ++ [c])) as (l & out & H1 & H2 & H3).
      { cbn [length] in Hk; lia. }
      { rewrite <- app_assoc. reflexivity. }
      rewrite app_length, Nat.add_1_r, last_char_snoc in H1. exists l, (c :: out). split; [auto|].
      rewrite blen_app in H2. cbn [blen] in H2. rewrite Nat.add_0_r in H2. split; [apply ranges_char; auto|].
      apply su_char; auto. intros n r Hn Heq. rewrite Heq, var_head_ref in E by auto. discriminate.
Qed.
Lemma replace_variables_ok content vars : exists out, replace_variables content vars = Some out /\ substituted (vm_get vars) content out.
Proof.
  destruct (substitution content vars (S (length content)) content [] ltac:(lia) eq_refl) as (l & out & H1 & H2 & H3).
  exists out. split; auto. unfold replace_variables. unfold fi in H1. unfold find_iter. cbn [length last_char rev] in H1. rewrite H1.
  apply (ranges_replace _ _ _ _ H2 [] eq_refl).
Qed.
Lemma substituted_det get s o1 : substituted get s o1 -> forall o2, substituted get s o2 -> o1 = o2.
Proof.
  assert (Hinj : forall n r n' r', var_name n -> var_name n' -> var_ref n ++ r = var_ref n' ++ r' -> n = n' /\ r = r').
  { intros n r n' r' H H' E. apply var_head_ref with (r := r) in H. apply var_head_ref with (r := r') in H'.
    rewrite E in H. rewrite H' in H. split; congruence. }
  assert (Hne : forall n r, var_ref n ++ r <> []) by (intros; unfold var_ref; discriminate).
  induction 1 as [|n v rest out Hn G H IH|n rest out Hn G H IH|c rest out Hc H IH]; intros o2 H2.
  - clear -H2. inversion H2; reflexivity.
  - remember (var_ref n ++ rest) as s0 eqn:E. destruct H2 as [|n' v' rest' out' Hn' G' H'|n' rest' out' Hn' G' H'|c' rest' out' Hc' H'].
    + exfalso; eapply Hne; symmetry; exact E.
    + apply Hinj in E as [-> ->]; auto. f_equal; [congruence|auto].
    + apply Hinj in E as [-> ->]; auto. congruence.
    + exfalso. eapply Hc'; [exact Hn|exact E].
  - remember (var_ref n ++ rest) as s0 eqn:E. destruct H2 as [|n' v' rest' out' Hn' G' H'|n' rest' out' Hn' G' H'|c' rest' out' Hc' H'].
    + exfalso; eapply Hne; symmetry; exact E.
    + apply Hinj in E as [-> ->]; auto. congruence.
    + apply Hinj in E as [-> ->]; auto. f_equal; auto.
    + exfalso. eapply Hc'; [exact Hn|exact E].
  - remember (c :: rest) as s0 eqn:E. destruct H2 as [|n' v' rest' out' Hn' G' H'|n' rest' out' Hn' G' H'|c' rest' out' Hc' H'].
    + discriminate.
    + exfalso. eapply Hc; [exact Hn'|reflexivity].
    + exfalso. eapply Hc; [exact Hn'|reflexivity].
    + injection E as -> ->. f_equal. auto.
Qed.

(** *** Arguments *)
Lemma vm_get_app m1 m2 k : vm_get (m1 ++ m2) k = match vm_get m1 k with Some v => Some v | None => vm_get m2 k end.
Proof. induction m1 as [|[k' v'] m1 IH]; simpl; auto. destruct (seqb k' k); auto. Qed.

Definition arg_pair (p : pair irule) (k v : str) : Prop :=
  exists ra a pk iv rk rv, p = Pair ra a pk [Pair rk (fst iv) k []; Pair rv (snd iv) v []].
Lemma process_args_ok : forall ps args vars, Forall2 (fun p kv => arg_pair p (fst kv) (snd kv)) ps args ->
  exists vars', process_args vars ps = Good vars' /\
    forall k, vm_get vars' k = match vm_get vars k with Some v => Some v | None => first_usable args k end.
Proof.
  induction ps as [|p ps IH]; intros args vars H; inversion H as [|p' [k v] ps' args' Hp Hps]; subst; cbn [process_args].
  - exists vars. split; auto. intros k. simpl. destruct (vm_get vars k); auto.
  - destruct Hp as (ra & a & pk & iv & rk & rv & ->). cbn [p_inner p_slice fst snd].
    edestruct IH as (vars' & H1 & H2); [exact Hps|]. eexists. split; [exact H1|]. intros k0. rewrite H2. cbn [first_usable].
    change (lit "{$" ++ k ++ lit "}") with (var_ref k).
    destruct (vm_get vars k) as [w|] eqn:G; cbn [negb andb].
    + destruct (list_eq_dec N.eq_dec k k0) as [->|]; [|reflexivity]. rewrite G. reflexivity.
    + destruct (seqb v (var_ref k)) eqn:E; cbn [negb].
      * apply seqb_eq in E. destruct (list_eq_dec N.eq_dec k k0) as [->|]; [|reflexivity].
        destruct (list_eq_dec N.eq_dec v (var_ref k0)); [reflexivity|congruence].
      * apply seqb_neq in E. rewrite vm_get_app. cbn [vm_get].
        destruct (list_eq_dec N.eq_dec k k0) as [->|Hk].
        -- rewrite G, seqb_refl. destruct (list_eq_dec N.eq_dec v (var_ref k0)); [congruence|reflexivity].
        -- destruct (vm_get vars k0); [reflexivity|]. destruct (seqb k k0) eqn:E2; [|reflexivity].
           apply seqb_eq in E2. congruence.
Qed.

(** *** The include grammar *)
Notation peg := (Peg.peg irule).
(** Expressions that produce no pairs / only argument pairs. *)
Definition nopairs (p : peg) : Prop := forall pos s ps m r, run p pos s = Some (ps, m, r) -> ps = [].
Lemma np_str t : nopairs (PStr t).
Proof. intros pos s ps m r H. apply run_str_inv in H as (H & _). auto. Qed.
Lemma np_seq a b : nopairs a -> nopairs b -> nopairs (PSeq a b).
Proof.
  intros Ha Hb pos s ps m r H. apply run_seq_inv in H as (p1 & m1 & r1 & p2 & m2 & H1 & H2 & -> & _).
  rewrite (Ha _ _ _ _ _ H1), (Hb _ _ _ _ _ H2). reflexivity.
Qed.
Lemma np_opt a : nopairs a -> nopairs (POpt a).
Proof. intros Ha pos s ps m r H. apply run_opt_inv in H as [H|[_ H]]; [eauto|congruence]. Qed.

(** Spaces. *)
Definition blankb (c : char) : bool := ceqb 32 c || ceqb 10 c || ceqb 9 c.
Lemma blankb_iff c : blankb c = true <-> blank c.
Proof. unfold blankb, blank. rewrite !orb_true_iff, !ceqb_eq. intuition. Qed.
Lemma run_str1 c pos s : run (R:=irule) (PStr [c]) pos s = match s with x :: r => if ceqb c x then Some ([], [x], r) else None | [] => None end.
Proof.
  destruct s as [|x s]; [reflexivity|]. cbn [run strip_prefix]. destruct (ceqb c x) eqn:E; [|reflexivity].
  apply ceqb_eq in E. subst. reflexivity.
Qed.
Lemma run_alts1 (l : list char) : l <> [] -> forall pos s, run (R:=irule) (PAlts (map (fun c => PStr [c]) l)) pos s =
  match s with x :: r => if existsb (fun c => ceqb c x) l then Some ([], [x], r) else None | [] => None end.
Proof.
  induction l as [|a l IH]; intros Hl pos s; [congruence|]. destruct l as [|b l].
  - cbn [map PAlts existsb]. rewrite run_str1. destruct s; [reflexivity|]. rewrite orb_false_r. reflexivity.
  - change (PAlts (map (fun c => PStr [c]) (a :: b :: l))) with (PAlt (R:=irule) (PStr [a]) (PAlts (map (fun c => PStr [c]) (b :: l)))).
    change (run (PAlt (PStr [a]) (PAlts (map (fun c => PStr [c]) (b :: l)))) pos s) with
      (match run (R:=irule) (PStr [a]) pos s with Some x => Some x | None => run (PAlts (map (fun c => PStr [c]) (b :: l))) pos s end).
    rewrite run_str1, IH by discriminate. destruct s as [|x s]; [reflexivity|].
    change (existsb (fun c => ceqb c x) (a :: b :: l)) with (ceqb a x || existsb (fun c => ceqb c x) (b :: l)).
    destruct (ceqb a x); reflexivity.
Qed.
Lemma run_space pos s : run i_space pos s =
  match s with c :: r => if blankb c then Some ([], c :: take_while blankb r, drop_while blankb r) else None | [] => None end.
Proof.
  unfold i_space. apply (run_PPlus_set _ blankb). intros p s0.
  rewrite (run_alts1 [32%N; 10%N; 9%N]) by discriminate. destruct s0 as [|c s0]; [reflexivity|].
  cbn [existsb]. unfold blankb. rewrite orb_false_r, <- orb_assoc. reflexivity.
Qed.
Lemma run_space_inv pos s ps m r : run i_space pos s = Some (ps, m, r) -> ps = [] /\ s = m ++ r /\ Forall blank m /\ m <> [] /\
  (forall c r', r = c :: r' -> ~ blank c).
Proof.
  intros H. pose proof (run_split _ _ _ _ _ _ H) as Hs. rewrite run_space in H. destruct s as [|c s]; [discriminate|].
  destruct (blankb c) eqn:E; [|discriminate]. injection H as <- <- <-. split; [reflexivity|]. split; [auto|].
  split; [|split; [discriminate|]].
  - constructor; [apply blankb_iff; auto|]. apply Forall_forall. intros x Hx. apply blankb_iff.
    pose proof (take_while_all blankb s) as T. rewrite forallb_forall in T. auto.
  - intros x r' Hr Hb. apply drop_while_head in Hr. apply blankb_iff in Hb. congruence.
Qed.
Lemma run_ospace_inv pos s ps m r : run (POpt i_space) pos s = Some (ps, m, r) -> ps = [] /\ s = m ++ r /\ Forall blank m /\
  (forall c r', r = c :: r' -> ~ blank c).
Proof.
  intros H. apply run_opt_inv in H as [H|[H E]].
  - apply run_space_inv in H. intuition.
  - injection E as -> -> ->. repeat split; auto. intros c r' -> Hb. rewrite run_space in H. apply blankb_iff in Hb. rewrite Hb in H. discriminate.
Qed.

(** The end marker. *)
Lemma closes_run pos s : closes s <-> exists x, run i_include_end pos s = Some x.
Proof.
  unfold closes. split.
  - intros (r & -> & Hr). unfold i_include_end. cbn [run]. rewrite strip_prefix_app.
    destruct Hr as [-> | (c & r' & -> & [-> | ->])].
    + eexists. reflexivity.
    + eexists. reflexivity.
    + destruct r' as [|d r']; [eexists; reflexivity|]. cbn [NEWLINE PAlts run strip_prefix].
      change (ceqb 10 13) with false. change (ceqb 13 13) with true. cbv iota. destruct (ceqb 10 d); eexists; reflexivity.
  - intros ([[ps m] r] & H). unfold i_include_end in H. apply run_seq_inv in H as (p1 & m1 & r1 & p2 & m2 & H1 & H2 & _ & _).
    apply run_str_inv in H1 as (_ & _ & ->). exists r1. split; [reflexivity|].
    apply run_and_inv in H2 as ((y & H2) & _). apply run_alt_inv in H2 as [H2|[_ H2]].
    + apply run_PAlts_some in H2 as (l1 & p & l2 & El & Hp & _).
      assert (Hin : In p [PStr [10%N]; PStr [13%N; 10%N]; PStr [13%N]]) by (rewrite El; apply in_elt).
      destruct y as [[yp ym] yr].
      destruct Hin as [<-|[<-|[<-|[]]]]; apply run_str_inv in Hp as (_ & _ & ->); right; eexists _, _; split; cbn; eauto.
    + cbn [run] in H2. destruct r1; [left; reflexivity|discriminate].
Qed.
Lemma run_end_inv pos s ps m r : run i_include_end pos s = Some (ps, m, r) -> ps = [] /\ m = lit "]]" /\ s = m ++ r /\ line_end r.
Proof.
  intros H. assert (Hc : closes s) by (apply (closes_run pos); eauto). pose proof (run_split _ _ _ _ _ _ H) as Hs.
  unfold i_include_end in H. apply run_seq_inv in H as (p1 & m1 & r1 & p2 & m2 & H1 & H2 & -> & ->).
  apply run_str_inv in H1 as (-> & -> & ->). apply run_and_inv in H2 as (_ & H2). injection H2 as -> -> ->.
  rewrite app_nil_r. repeat split; auto. destruct Hc as (r' & E & Hr). apply app_inv_head in E. subst. auto.
Qed.

(** Characters: identifiers, page names, values. *)
Lemma run_ident_inv pos s ps m r : run i_identifier pos s = Some (ps, m, r) ->
  ps = [Pair I_identifier pos m []] /\ s = m ++ r /\ var_name m.
Proof.
  intros H. pose proof (run_split _ _ _ _ _ _ H) as Hs. unfold i_identifier in H. apply run_rule_inv in H as (ps' & H & ->).
  rewrite (run_PPlus_set _ var_char) in H.
  - destruct s as [|c s]; [discriminate|]. destruct (var_char c) eqn:E; [|discriminate]. injection H as <- <- <-.
    repeat split; auto; [discriminate|]. apply (proj2 (proj2 (var_name_chars (c :: take_while var_char s)) ltac:(split; [discriminate|cbn [forallb]; rewrite E; apply take_while_all]))).
  - clear. intros p s0. cbn [PAlts]. 
    change (run (PAlt ASCII_ALPHANUMERIC (PAlt (PStr [45%N]) (PStr [95%N]))) p s0) with
     (match run (R:=irule) ASCII_ALPHANUMERIC p s0 with Some x => Some x | None =>
        match run (R:=irule) (PStr [45%N]) p s0 with Some x => Some x | None => run (R:=irule) (PStr [95%N]) p s0 end end).
    rewrite !run_str1. destruct s0 as [|c s0]; [reflexivity|]. unfold var_char. cbn [ASCII_ALPHANUMERIC run].
    destruct (is_alnum c); [reflexivity|]. cbn [orb]. rewrite (N.eqb_sym : forall a b, ceqb a b = ceqb b a) with (a := 45%N).
    destruct (ceqb c 45) eqn:E1.
    + destruct (ceqb c 95); reflexivity.
    + rewrite (N.eqb_sym : forall a b, ceqb a b = ceqb b a) with (a := 95%N). destruct (ceqb c 95); reflexivity.
Qed.

Lemma run_not_any (g : peg) (f : char -> bool) : (forall pos s, run g pos s = match s with c :: r => if f c then Some ([], [c], r) else None | [] => None end) ->
  forall pos s, run (PSeq (PNot g) ANY) pos s = match s with c :: r => if negb (f c) then Some ([], [c], r) else None | [] => None end.
Proof.
  intros Hg pos s. change (run (PSeq (PNot g) ANY) pos s) with
    (match (match run g pos s with Some _ => None | None => Some ([], [], s) end) with
     | None => None | Some (p1, m1, r1) => match run (R:=irule) ANY (pos + blen m1) r1 with None => None | Some (p2, m2, r2) => Some (p1 ++ p2, m1 ++ m2, r2) end end).
  rewrite Hg. destruct s as [|c s]; [reflexivity|]. destruct (f c); reflexivity.
Qed.
Definition namechar (l : str) (c : char) : bool := negb (existsb (fun x => ceqb x c) l).
Lemma run_name (l : str) pos s ps m r : l <> [] ->
  run (R:=irule) (PPlus (PSeq (PNot (PAlts (map (fun c => PStr [c]) l))) ANY)) pos s = Some (ps, m, r) ->
  ps = [] /\ s = m ++ r /\ m <> [] /\ forallb (namechar l) m = true /\ (forall c r', r = c :: r' -> namechar l c = false).
Proof.
  intros Hl H. pose proof (run_split _ _ _ _ _ _ H) as Hs.
  rewrite (run_PPlus_set _ (namechar l)) in H by (intros; apply run_not_any; intros; apply run_alts1; auto).
  destruct s as [|c s]; [discriminate|]. destruct (namechar l c) eqn:E; [|discriminate]. injection H as <- <- <-.
  repeat split; auto; [discriminate| |].
  - cbn [forallb]. rewrite E. apply take_while_all.
  - intros x r' Hx. eapply drop_while_head; eauto.
Qed.
Definition pagechar (c : char) : Prop := ~ blank c /\ c <> 91%N /\ c <> 93%N /\ c <> 124%N.
Lemma namechar_iff l c : namechar l c = true <-> ~ In c l.
Proof.
  unfold namechar. rewrite negb_true_iff, <- not_true_iff_false, existsb_exists. split.
  - intros H Hc. apply H. exists c. rewrite ceqb_refl. auto.
  - intros H (x & Hx & E). apply ceqb_eq in E. subst. auto.
Qed.
Lemma run_page_inv pos s ps m r : run i_page_ref pos s = Some (ps, m, r) ->
  exists i, ps = [Pair I_page_ref pos m i] /\ s = m ++ r /\ m <> [] /\ Forall pagechar m /\
  (forall c r', r = c :: r' -> ~ pagechar c).
Proof.
  intros H. pose proof (run_split _ _ _ _ _ _ H) as Hs. unfold i_page_ref in H. apply run_rule_inv in H as (ps' & H & ->).
  apply run_seq_inv in H as (p1 & m1 & r1 & p2 & m2 & H1 & H2 & -> & ->).
  assert (Hpc : forall c, namechar [32%N; 10%N; 9%N; 91%N; 124%N; 93%N] c = true <-> pagechar c).
  { intros c. rewrite namechar_iff. unfold pagechar, blank. cbn [In]. intuition. }
  exists (p1 ++ p2). split; [reflexivity|]. split; [auto|].
  unfold i_page_name in H2. apply (run_name [32%N; 10%N; 9%N; 91%N; 124%N; 93%N]) in H2 as (_ & _ & Hne & Hf & Hr); [|discriminate].
  split; [destruct m1; [auto|discriminate]|]. split.
  - apply Forall_app. split.
    + apply run_opt_inv in H1 as [H1|[_ H1]]; [|injection H1 as -> -> ->; constructor].
      cbn [PSeqs] in H1. apply run_seq_inv in H1 as (q1 & n1 & t1 & q2 & n2 & H1 & H3 & _ & ->).
      apply run_str_inv in H1 as (_ & -> & _). apply run_seq_inv in H3 as (q3 & n3 & t3 & q4 & n4 & H3 & H4 & _ & ->).
      apply run_str_inv in H4 as (_ & -> & _).
      unfold i_site_name in H3. apply (run_name [32%N; 10%N; 9%N; 91%N; 124%N; 93%N; 58%N]) in H3 as (_ & _ & _ & Hf' & _); [|discriminate].
      assert (Hcol : pagechar 58) by (unfold pagechar, blank; repeat split; try discriminate; intros [|[|]]; discriminate).
      apply Forall_app; split; [constructor; auto|]. apply Forall_app; split; [|constructor; auto].
      apply Forall_forall. intros c Hc. rewrite forallb_forall in Hf'. apply Hf' in Hc. apply namechar_iff in Hc.
      apply Hpc. apply namechar_iff. cbn [In] in *. intuition.
    + apply Forall_forall. intros c Hc. rewrite forallb_forall in Hf. apply Hpc. auto.
  - intros c r' E Hp. apply Hr in E. apply Hpc in Hp. congruence.
Qed.

(** No end marker starts inside [m] when [m] is followed by [r]. *)
Definition noend (m r : str) : Prop := forall x y, m = x ++ y -> y <> [] -> ~ closes (y ++ r).
Lemma noend_app m1 m2 r : noend m1 (m2 ++ r) -> noend m2 r -> noend (m1 ++ m2) r.
Proof.
  intros H1 H2 x y E Hy Hc. destruct (app_eq_app _ _ _ _ E) as (z & [[-> ->]|[-> ->]]).
  - destruct z as [|c z]; [cbn [app] in *; eapply (H2 [] m2); eauto|].
    eapply (H1 x (c :: z)); [reflexivity|discriminate|]. rewrite <- app_assoc in Hc. auto.
  - eapply (H2 z y); eauto.
Qed.
Lemma noend_nobr m r : ~ In 93%N m -> noend m r.
Proof.
  intros H x y -> Hy (t & E & _). destruct y as [|c y]; [congruence|]. injection E as -> _.
  apply H. apply in_app_iff. right. left. reflexivity.
Qed.
Lemma noend_nil r : noend [] r.
Proof. intros x y E Hy. symmetry in E. apply app_eq_nil in E as [_ E]. congruence. Qed.

(** Values. *)
Lemma run_valchar pos s ps m r : run (PSeq (PNot (PAlt i_include_end (PStr [124%N]))) ANY) pos s = Some (ps, m, r) ->
  exists c, ps = [] /\ m = [c] /\ s = c :: r /\ c <> 124%N /\ ~ closes s.
Proof.
  intros H. apply run_seq_inv in H as (p1 & m1 & r1 & p2 & m2 & H1 & H2 & -> & ->).
  apply run_not_inv in H1 as [H1 E]. injection E as -> -> ->. apply run_set_inv in H2 as (c & _ & -> & -> & ->).
  exists c. repeat split; auto.
  - intros ->. cbn [run] in H1. destruct (run i_include_end _ _); [discriminate|]. discriminate.
  - intros Hc. apply (closes_run pos) in Hc as (x & Hx).
    change (run (PAlt i_include_end (PStr [124%N])) pos (c :: r)) with
      (match run i_include_end pos (c :: r) with Some x => Some x | None => run (R:=irule) (PStr [124%N]) pos (c :: r) end) in H1.
    rewrite Hx in H1. discriminate.
Qed.
Lemma run_value_inv pos s ps m r : run i_value pos s = Some (ps, m, r) ->
  ps = [Pair I_value pos m []] /\ s = m ++ r /\ m <> [] /\ ~ In 124%N m /\ noend m r /\
  (r = [] \/ (exists r', r = 124%N :: r') \/ closes r).
Proof.
  intros H. pose proof (run_split _ _ _ _ _ _ H) as Hs. unfold i_value in H. apply run_rule_inv in H as (ps' & H & ->).
  unfold PPlus in H. apply run_seq_inv in H as (p1 & m1 & r1 & p2 & m2 & H1 & H2 & -> & ->).
  apply run_valchar in H1 as (c & -> & -> & Hs1 & Hc & Hcl).
  apply run_star_rel in H2.
  2:{ intros pos' s' ps' m' r' H. apply run_valchar in H as (c' & _ & -> & _). discriminate. }
  assert (HH : p2 = [] /\ ~ In 124%N m2 /\ noend m2 r /\ (r = [] \/ (exists r', r = 124%N :: r') \/ closes r)).
  { clear -H2. revert H2. generalize (pos + blen [c]) as pos0, r1 as s0. intros pos0 s0 H2. clear c pos r1. rename pos0 into pos', s0 into s'. remember (run (PSeq (PNot (PAlt i_include_end (PStr [124%N]))) ANY)) as f eqn:Ef.
    induction H2 as [pos s Hn|pos s ps1 m1 r1 ps2 m2 r2 E Hm H IH].
    - repeat split; auto; [apply noend_nil|]. destruct s as [|c s]; [auto|right].
      destruct (run (PAlt i_include_end (PStr [124%N])) pos (c :: s)) as [[[q n] t]|] eqn:E.
      + apply run_alt_inv in E as [E|[_ E]].
        * right. apply (closes_run pos). eauto.
        * left. apply run_str_inv in E as (_ & _ & E). exists t. exact E.
      + exfalso. rewrite Ef in Hn. 
        change (run (PSeq (PNot (PAlt i_include_end (PStr [124%N]))) ANY) pos (c :: s)) with
        (match (match run (PAlt i_include_end (PStr [124%N])) pos (c :: s) with Some _ => None | None => Some ([], [], c :: s) end) with
         | None => None | Some (p1, m1, r1) => match run (R:=irule) ANY (pos + blen m1) r1 with None => None | Some (p2, m2, r2) => Some (p1 ++ p2, m1 ++ m2, r2) end end) in Hn.
        rewrite E in Hn. discriminate.
    - destruct IH as (-> & I1 & I2 & I3). rewrite Ef in E. apply run_valchar in E as (c & -> & -> & -> & Hc & Hcl).
      repeat split; auto.
      + cbn [app In]. intuition.
      + apply noend_app; auto. intros x y Exy Hy Hcy. destruct x as [|x0 x].
        * cbn [app] in Exy. subst y. apply Hcl. cbn [app] in Hcy.
          assert (r1 = m2 ++ r2) as ->.
          { rewrite Ef in H. eapply star_rel_split. exact H. }
          exact Hcy.
        * injection Exy as -> Exy. symmetry in Exy. apply app_eq_nil in Exy as [_ ->]. congruence. }
  destruct HH as (-> & H3 & H4 & H5). split; [reflexivity|]. split; [auto|]. split; [discriminate|]. split.
  - cbn [app In]. intuition.
  - split; [|auto]. apply noend_app; auto. intros x y Exy Hy Hcy. destruct x as [|x0 x].
    + cbn [app] in Exy. subst y. apply Hcl. rewrite Hs. rewrite <- app_assoc. exact Hcy.
    + injection Exy as -> Exy. symmetry in Exy. apply app_eq_nil in Exy as [_ ->]. congruence.
Qed.

Lemma blank_nobr w : Forall blank w -> ~ In 93%N w.
Proof. intros H Hi. rewrite Forall_forall in H. apply H in Hi. destruct Hi as [|[|]]; discriminate. Qed.
Lemma var_char_facts c : var_char c = true -> ~ blank c /\ c <> 93%N /\ c <> 124%N /\ c <> 91%N.
Proof. rewrite var_char_spec. unfold blank. intros H. repeat split; lia. Qed.
Lemma var_name_nobr k : var_name k -> ~ In 93%N k.
Proof.
  intros H Hi. apply var_name_chars in H as [_ H]. rewrite forallb_forall in H. apply H in Hi. discriminate.
Qed.

Lemma run_argument_inv pos s ps m r : run i_argument pos s = Some (ps, m, r) ->
  exists p k w1 w2 c v, ps = [p] /\ arg_pair p k (c :: v) /\ m = k ++ w1 ++ [61%N] ++ w2 ++ c :: v /\ s = m ++ r /\
   var_name k /\ Forall blank w1 /\ Forall blank w2 /\ ~ blank c /\ ~ In 124%N (c :: v) /\ noend m r /\
   (r = [] \/ (exists r', r = 124%N :: r') \/ closes r).
Proof.
  intros H. pose proof (run_split _ _ _ _ _ _ H) as Hs. unfold i_argument in H. apply run_rule_inv in H as (ps' & H & ->).
  cbn [PSeqs] in H.
  apply run_seq_inv in H as (p1 & m1 & r1 & q1 & n1 & H1 & H & -> & ->).
  apply run_ident_inv in H1 as (-> & -> & Hk).
  apply run_seq_inv in H as (p2 & m2 & r2 & q2 & n2 & H2 & H & -> & ->).
  apply run_ospace_inv in H2 as (-> & -> & Hw1 & _).
  apply run_seq_inv in H as (p3 & m3 & r3 & q3 & n3 & H3 & H & -> & ->).
  apply run_str_inv in H3 as (-> & -> & ->).
  apply run_seq_inv in H as (p4 & m4 & r4 & q4 & n4 & H4 & H & -> & ->).
  apply run_ospace_inv in H4 as (-> & -> & Hw2 & Hns).
  apply run_value_inv in H as (-> & -> & Hne & Hbar & Hno & Hr).
  destruct n4 as [|c v]; [congruence|].
  exists (Pair I_argument pos (m1 ++ m2 ++ [61%N] ++ m4 ++ c :: v) ([Pair I_identifier pos m1 []] ++ [] ++ [] ++ [] ++ [Pair I_value (pos + blen m1 + blen m2 + blen [61%N] + blen m4) (c :: v) []])), m1, m2, m4, c, v.
  split; [reflexivity|]. split.
  { exists I_argument, pos, (m1 ++ m2 ++ [61%N] ++ m4 ++ c :: v), (pos, pos + blen m1 + blen m2 + blen [61%N] + blen m4), I_identifier, I_value. reflexivity. }
  split; [reflexivity|]. split; [auto|]. split; [auto|]. split; [auto|]. split; [auto|].
  split; [eapply Hns; reflexivity|]. split; [auto|]. split; [|auto].
  apply noend_app; [apply noend_nobr, var_name_nobr; auto|]. apply noend_app; [apply noend_nobr, blank_nobr; auto|].
  apply noend_app; [apply noend_nobr; intros [E|[]]; discriminate|]. apply noend_app; [apply noend_nobr, blank_nobr; auto|]. auto.
Qed.

Definition sepc (c : char) : Prop := blank c \/ c = 124%N.
Lemma blank_sep w : Forall blank w -> Forall sepc w.
Proof. intros H. eapply Forall_impl; [|exact H]. unfold sepc. auto. Qed.
Lemma args_prepend w args s : Forall sepc w -> args_text args s -> args_text args (w ++ s).
Proof.
  intros Hw H. destruct H as [w'|w' k w1 w2 c v args rest].
  - constructor. apply Forall_app; auto.
  - rewrite app_assoc. constructor; auto. apply Forall_app; auto.
Qed.
Lemma sep_nobr w : Forall sepc w -> ~ In 93%N w.
Proof. intros H Hi. rewrite Forall_forall in H. apply H in Hi. destruct Hi as [[|[|]]|]; discriminate. Qed.

(** One or more arguments, each followed by a bar. *)
Definition i_args1 : peg := PSeqs [i_argument; POpt i_space; PStr [124%N]; POpt i_space].
Lemma run_args1 pos s ps m r : run i_args1 pos s = Some (ps, m, r) ->
  exists p k c v, ps = [p] /\ arg_pair p k (c :: v) /\ s = m ++ r /\ noend m r /\ (exists x y, m = x :: y /\ var_char x = true) /\
   forall args tail, args_text args tail -> args_text ((k, c :: v) :: args) (m ++ tail).
Proof.
  intros H. pose proof (run_split _ _ _ _ _ _ H) as Hs. unfold i_args1 in H. cbn [PSeqs] in H.
  apply run_seq_inv in H as (p1 & m1 & r1 & q1 & n1 & H1 & H & -> & ->).
  apply run_argument_inv in H1 as (p & k & w1 & w2 & c & v & -> & Hp & -> & -> & Hk & Hw1 & Hw2 & Hc & Hb & Hno & Hr).
  apply run_seq_inv in H as (p2 & m2 & r2 & q2 & n2 & H2 & H & -> & ->).
  apply run_ospace_inv in H2 as (-> & -> & Hw3 & _).
  apply run_seq_inv in H as (p3 & m3 & r3 & q3 & n3 & H3 & H & -> & ->).
  apply run_str_inv in H3 as (-> & -> & ->). apply run_ospace_inv in H as (-> & -> & Hw4 & _).
  assert (m2 = []) as ->.
  { destruct m2 as [|x m2]; auto. exfalso. inversion Hw3 as [|? ? Hx _]; subst.
    destruct Hr as [Hr|[(r' & Hr)|(r' & Hr & _)]]; [discriminate|injection Hr as -> _|injection Hr as -> _]; destruct Hx as [|[|]]; discriminate. }
  exists p, k, c, v. split; [reflexivity|]. split; [auto|]. split; [auto|]. split; [|split].
  - apply noend_app.
    + change ([] ++ [124%N] ++ n3) with ([124%N] ++ n3). rewrite <- app_assoc. exact Hno.
    + apply noend_nobr, sep_nobr. constructor; [right; reflexivity|]. apply blank_sep; auto.
  - apply var_name_chars in Hk as [Hk Hkc]. destruct k as [|x k]; [congruence|]. cbn [forallb] in Hkc. apply andb_true_iff in Hkc as [Hx _].
    eexists _, _. split; [reflexivity|exact Hx].
  - intros args tail Ht.
    replace (((k ++ w1 ++ [61%N] ++ w2 ++ c :: v) ++ [] ++ [124%N] ++ n3) ++ tail)
      with ([] ++ k ++ w1 ++ [61%N] ++ w2 ++ (c :: v) ++ (124%N :: n3 ++ tail)).
    2:{ rewrite <- !app_assoc. cbn [app]. reflexivity. }
    apply at_arg; auto; [eauto|]. apply (args_prepend (124%N :: n3)); auto.
    constructor; [right; reflexivity|]. apply blank_sep; auto.
Qed.
Lemma run_args_star pos s ps m r : run (PStar i_args1) pos s = Some (ps, m, r) ->
  exists args, Forall2 (fun p kv => arg_pair p (fst kv) (snd kv)) ps args /\ s = m ++ r /\ noend m r /\
   (m = [] \/ exists x y, m = x :: y /\ var_char x = true) /\ (m = [] -> args = []) /\
   forall args' tail, args_text args' tail -> args_text (args ++ args') (m ++ tail).
Proof.
  intros H. apply run_star_rel in H.
  2:{ intros pos' s' ps' m' r' H'. apply run_args1 in H' as (p & k & c & v & _ & _ & _ & _ & (x & y & -> & _) & _). discriminate. }
  remember (run i_args1) as f eqn:Ef. induction H as [pos s Hn|pos s ps1 m1 r1 ps2 m2 r2 E Hm H IH].
  - exists []. repeat split; auto using noend_nil.
  - destruct IH as (args & I1 & I2 & I3 & I4 & _ & I5). rewrite Ef in E.
    apply run_args1 in E as (p & k & c & v & -> & Hp & -> & Hno & Hx & Hargs).
    exists ((k, c :: v) :: args). split; [constructor; auto|]. split; [rewrite <- app_assoc; congruence|].
    split; [apply noend_app; [rewrite <- I2; exact Hno|exact I3]|]. split; [|split].
    + right. destruct Hx as (x & y & -> & Hx). eexists _, _. split; [reflexivity|auto].
    + intros E. apply app_eq_nil in E as [E _]. congruence.
    + intros args' tail Ht. rewrite <- app_assoc. cbn [app]. apply Hargs. auto.
Qed.
(** The last argument. *)
Lemma run_args_last pos s ps m r : run (POpt (PSeqs [i_argument; POpt i_space; POpt (PStr [124%N])])) pos s = Some (ps, m, r) ->
  exists args, Forall2 (fun p kv => arg_pair p (fst kv) (snd kv)) ps args /\ s = m ++ r /\ noend m r /\
   (m = [] \/ exists x y, m = x :: y /\ var_char x = true) /\ (m = [] -> args = []) /\
   (closes r \/ (exists c r', r = c :: r' /\ blank c) -> forall tail, Forall blank tail -> (closes r -> tail = []) -> args_text args (m ++ tail)).
Proof.
  intros H. apply run_opt_inv in H as [H|[_ E]].
  - pose proof (run_split _ _ _ _ _ _ H) as Hs. cbn [PSeqs] in H.
    apply run_seq_inv in H as (p1 & m1 & r1 & q1 & n1 & H1 & H & -> & ->).
    apply run_argument_inv in H1 as (p & k & w1 & w2 & c & v & -> & Hp & -> & -> & Hk & Hw1 & Hw2 & Hc & Hb & Hno & Hr).
    apply run_seq_inv in H as (p2 & m2 & r2 & q2 & n2 & H2 & H & -> & ->).
    apply run_ospace_inv in H2 as (-> & -> & Hw3 & _).
    assert (m2 = []) as ->.
    { destruct m2 as [|x m2]; auto. exfalso. inversion Hw3 as [|? ? Hx _]; subst.
      destruct Hr as [Hr|[(r' & Hr)|(r' & Hr & _)]]; [discriminate|injection Hr as -> _|injection Hr as -> _]; destruct Hx as [|[|]]; discriminate. }
    cbn [app] in *.
    assert (Hn2 : q2 = [] /\ (n2 = [] /\ r = r2 \/ n2 = [124%N] /\ r2 = 124%N :: r)).
    { apply run_opt_inv in H as [H|[_ H]].
      - apply run_str_inv in H as (-> & -> & ->). auto.
      - injection H as -> -> ->. auto. }
    destruct Hn2 as (-> & Hn2).
    exists [(k, c :: v)]. split; [constructor; [exact Hp|constructor]|]. split; [auto|]. split; [|split; [|split]].
    + apply noend_app.
      * assert (n2 ++ r = r2) as -> by (destruct Hn2 as [[-> ->]|[-> ->]]; reflexivity). exact Hno.
      * destruct Hn2 as [[-> _]|[-> _]]; [apply noend_nil|]. apply noend_nobr. intros [|[]]; discriminate.
    + right. apply var_name_chars in Hk as [Hk Hkc]. destruct k as [|x k]; [congruence|]. cbn [forallb] in Hkc. apply andb_true_iff in Hkc as [Hx _].
      eexists _, _. split; [reflexivity|exact Hx].
    + intros E. apply app_eq_nil in E as [E _]. apply app_eq_nil in E as [_ E]. apply app_eq_nil in E as [_ E]. discriminate.
    + intros Hcl tail Ht Htc.
      replace (((k ++ w1 ++ 61%N :: w2 ++ c :: v) ++ n2) ++ tail) with ([] ++ k ++ w1 ++ [61%N] ++ w2 ++ (c :: v) ++ (n2 ++ tail)).
      2:{ rewrite <- !app_assoc. cbn [app]. rewrite <- app_assoc. reflexivity. }
      apply at_arg; auto.
      * destruct Hn2 as [[-> ->]|[-> ->]]; [|right; eexists; reflexivity]. left. cbn [app]. apply Htc.
        destruct Hr as [->|[(r' & ->)|Hr]]; auto; exfalso.
        -- destruct Hcl as [(t & E & _)|(x & t & E & _)]; discriminate.
        -- destruct Hcl as [(t & E & _)|(x & t & E & Hx)]; [discriminate|]. injection E as <- _. destruct Hx as [|[|]]; discriminate.
      * constructor. apply Forall_app. split; [|apply blank_sep; auto].
        destruct Hn2 as [[-> _]|[-> _]]; [constructor|]. constructor; [right; reflexivity|constructor].
  - injection E as -> -> ->. exists []. repeat split; auto using noend_nil. intros _ tail Ht _. constructor. apply blank_sep; auto.
Qed.

Definition kw_ok (kwp : peg) : Prop := forall pos s ps m r, run kwp pos s = Some (ps, m, r) -> ps = [] /\ s = m ++ r /\ keyword m.
Lemma strip_i_slower p s m r : strip_prefix_i p s = Some (m, r) -> slower m = slower p.
Proof.
  revert s m r; induction p as [|x p IH]; intros s m r H; simpl in H.
  - injection H as <- <-. reflexivity.
  - destruct s as [|y s]; [discriminate|]. destruct (ceqb _ _) eqn:E; [|discriminate].
    destruct (strip_prefix_i p s) as [[m' r']|] eqn:E'; [|discriminate]. injection H as <- <-.
    apply ceqb_eq in E. simpl. rewrite E. f_equal. eapply IH. exact E'.
Qed.
Lemma kw_include : kw_ok (PStrI (lit "include")).
Proof.
  intros pos s ps m r H. pose proof (run_split _ _ _ _ _ _ H) as Hs. cbn [run] in H.
  destruct (strip_prefix_i _ s) as [[m' r']|] eqn:E; [|discriminate]. injection H as <- <- <-.
  split; [reflexivity|]. split; [auto|]. unfold keyword. rewrite (strip_i_slower _ _ _ _ E). reflexivity.
Qed.
Lemma kw_alt a b : kw_ok a -> kw_ok b -> kw_ok (PAlt a b).
Proof. intros Ha Hb pos s ps m r H. apply run_alt_inv in H as [H|[_ H]]; eauto. Qed.
Lemma keyword_nobr kw : keyword kw -> ~ In 93%N kw /\ ~ In 91%N kw.
Proof.
  unfold keyword. intros H. split; intros Hi.
  - assert (In (lower 93) (slower kw)) by (apply in_map; auto). rewrite H in H0. vm_compute in H0. intuition discriminate.
  - assert (In (lower 91) (slower kw)) by (apply in_map; auto). rewrite H in H0. vm_compute in H0. intuition discriminate.
Qed.

Lemma run_include_inv kwp pos s ps m r : kw_ok kwp -> run (i_include kwp) pos s = Some (ps, m, r) ->
  exists pp page i pps args, ps = [Pair I_include pos m (Pair I_page_ref pp page i :: pps)] /\ s = m ++ r /\
    Forall2 (fun p kv => arg_pair p (fst kv) (snd kv)) pps args /\ block_text page args m /\ block_extent m r.
Proof.
  intros Hkw H. pose proof (run_split _ _ _ _ _ _ H) as Hs. unfold i_include in H. apply run_rule_inv in H as (ps' & H & ->).
  change (PSeqs [i_argument; POpt i_space; PStr [124%N]; POpt i_space]) with i_args1 in H.
  rewrite Hs in *.
  remember (POpt (PSeqs [i_argument; POpt i_space; POpt (PStr [124%N])])) as LAST eqn:EL. remember i_args1 as A1 eqn:EA.
  cbn [PSeqs] in H. subst LAST A1.
  apply run_seq_inv in H as (p1 & m1 & r1 & q1 & n1 & H1 & H & -> & ->). apply run_str_inv in H1 as (-> & -> & E1).
  apply run_seq_inv in H as (p2 & m2 & r2 & q2 & n2 & H2 & H & -> & ->). apply run_ospace_inv in H2 as (-> & -> & Hw1 & _).
  apply run_seq_inv in H as (p3 & m3 & r3 & q3 & n3 & H3 & H & -> & ->). apply Hkw in H3 as (-> & -> & Hk).
  apply run_seq_inv in H as (p4 & m4 & r4 & q4 & n4 & H4 & H & -> & ->). apply run_space_inv in H4 as (-> & -> & Hw2 & Hw2n & _).
  apply run_seq_inv in H as (p5 & m5 & r5 & q5 & n5 & H5 & H & -> & ->). apply run_page_inv in H5 as (i & -> & -> & Hpn & Hpg & Hpr).
  apply run_seq_inv in H as (p6 & m6 & r6 & q6 & n6 & H6 & H & -> & ->). apply run_ospace_inv in H6 as (-> & -> & Hw3 & _).
  apply run_seq_inv in H as (p7 & m7 & r7 & q7 & n7 & H7 & H & -> & ->).
  assert (HB : p7 = [] /\ r6 = m7 ++ r7 /\ Forall sepc m7).
  { clear -H7. apply run_opt_inv in H7 as [H|[_ E]].
    - apply run_seq_inv in H as (a & b & c & d & e & H1 & H2 & -> & ->). apply run_str_inv in H1 as (-> & -> & ->).
      apply run_ospace_inv in H2 as (-> & -> & Hw & _). repeat split. constructor; [right; reflexivity|]. apply blank_sep; auto.
    - injection E as -> -> ->. repeat split. constructor. }
  destruct HB as (-> & -> & Hsep).
  apply run_seq_inv in H as (p8 & m8 & r8 & q8 & n8 & H8 & H & -> & ->).
  apply run_args_star in H8 as (args1 & A1 & -> & A3 & A4 & A5 & A6).
  apply run_seq_inv in H as (p9 & m9 & r9 & q9 & n9 & H9 & H & -> & ->).
  apply run_args_last in H9 as (args2 & B1 & -> & B3 & B4 & B5 & B6).
  apply run_seq_inv in H as (p10 & m10 & r10 & q10 & n10 & H10 & H & -> & ->).
  apply run_ospace_inv in H10 as (-> & -> & Hw5 & _).
  apply run_end_inv in H as (-> & -> & -> & Hle).
  cbn [app] in *. clear E1 Hs.
  assert (Hclose : closes (93%N :: 93%N :: r)) by (exists r; auto).
  assert (Hlast : args_text args2 (m9 ++ m10)).
  { apply B6; [|auto|].
    - destruct m10 as [|c m10]; [left; exact Hclose|]. right. exists c. eexists. split; [reflexivity|]. inversion Hw5; auto.
    - intros Hcl. destruct m10 as [|c m10]; [reflexivity|]. exfalso. inversion Hw5 as [|? ? Hc _]; subst.
      destruct Hcl as (t & E & _). injection E as -> _. destruct Hc as [|[|]]; discriminate. }
  eexists _, m5, i, (p8 ++ p9), (args1 ++ args2). split; [rewrite !app_nil_r; reflexivity|]. split; [reflexivity|]. split; [apply Forall2_app; auto|].
  split.
  - exists m2, m3, m4, (m6 ++ m7 ++ m8 ++ m9 ++ m10). split; [rewrite <- !app_assoc; reflexivity|].
    repeat (split; [solve [auto]|]). split.
    + intros Hargs. assert (Hvar : forall x, var_char x = true -> pagechar x).
      { intros x Hx. apply var_char_facts in Hx. unfold pagechar. tauto. }
      destruct m6 as [|c m6].
      2:{ exists c. eexists. split; [reflexivity|]. inversion Hw3; auto. }
      destruct m7 as [|c m7].
      2:{ exists c. eexists. split; [reflexivity|]. inversion Hsep as [|? ? Hc _]; subst. destruct Hc; auto. }
      exfalso. cbn [app] in Hpr. destruct A4 as [->|(x & y & -> & Hx)].
      * destruct B4 as [->|(x & y & -> & Hx)].
        -- rewrite (A5 eq_refl), (B5 eq_refl) in Hargs. apply Hargs. reflexivity.
        -- eapply (Hpr x); [reflexivity|]. auto.
      * eapply (Hpr x); [reflexivity|]. auto.
    + apply args_prepend; [apply blank_sep; auto|]. apply args_prepend; auto.
  - exists (m2 ++ m3 ++ m4 ++ m5 ++ m6 ++ m7 ++ m8 ++ m9 ++ m10). split; [rewrite <- !app_assoc; reflexivity|]. split; [auto|].
    assert (HN : noend (91%N :: 91%N :: m2 ++ m3 ++ m4 ++ m5 ++ m6 ++ m7 ++ m8 ++ m9 ++ m10) (lit "]]" ++ r)).
    { change (91%N :: 91%N :: m2 ++ m3 ++ m4 ++ m5 ++ m6 ++ m7 ++ m8 ++ m9 ++ m10) with ([91%N; 91%N] ++ m2 ++ m3 ++ m4 ++ m5 ++ m6 ++ m7 ++ m8 ++ m9 ++ m10).
      repeat apply noend_app.
      - apply noend_nobr. intros [|[|[]]]; discriminate.
      - apply noend_nobr, blank_nobr; auto.
      - apply noend_nobr, keyword_nobr; auto.
      - apply noend_nobr, blank_nobr; auto.
      - apply noend_nobr. intros Hi. rewrite Forall_forall in Hpg. apply Hpg in Hi. destruct Hi as (_ & _ & Hi & _). congruence.
      - apply noend_nobr, blank_nobr; auto.
      - apply noend_nobr, sep_nobr; auto.
      - rewrite <- !app_assoc. exact A3.
      - exact B3.
      - apply noend_nobr, blank_nobr; auto. }
    intros x y E Hc.
    assert (E' : (91%N :: 91%N :: m2 ++ m3 ++ m4 ++ m5 ++ m6 ++ m7 ++ m8 ++ m9 ++ m10) ++ lit "]]" = x ++ y)
      by (rewrite <- E; cbn [app lit]; rewrite <- !app_assoc; reflexivity).
    clear E. rename E' into E.
    destruct (app_eq_app _ _ _ _ E) as (z & [[E1 E2]|[E1 E2]]).
    + destruct z as [|c z]; [right; cbn [app] in E2; auto|]. exfalso. eapply (HN x (c :: z)); [exact E1|discriminate|].
      rewrite E2, <- app_assoc in Hc. exact Hc.
    + change (lit "]]") with [93%N; 93%N] in E2. destruct z as [|c [|d [|e z]]]; cbn [app] in E2.
      * right; auto.
      * injection E2 as <- <-. exfalso. destruct Hc as (t & Et & Hl). injection Et as Et. destruct Hle as [->|(x1 & r1 & -> & Hx)]; [discriminate|].
        injection Et as -> _. destruct Hx; discriminate.
      * injection E2 as <- <- <-. left; reflexivity.
      * discriminate.
Qed.

(** *** parse_include_block *)
Lemma pr_parse_no_panic s : pr_parse s <> Panic.
Proof.
  rewrite pr_parse_spec. cbv zeta. destruct (trim s) as [|c u]; [discriminate|]. destruct (ceqb c 58); [|discriminate].
  destruct (split_once 58 u) as [[[|x site] page]|]; discriminate.
Qed.

Lemma parse_block_cases compat s :
  parse_include_block compat s 0 = Bad \/
  exists inc b rest page args, parse_include_block compat s 0 = Good (inc, blen b) /\ s = b ++ rest /\
    block_text page args b /\ block_extent b rest /\ pr_parse page = Good (ir_page inc) /\
    (forall k, vm_get (ir_vars inc) k = first_usable args k).
Proof.
  unfold parse_include_block, bfrom. rewrite bsplit_0.
  destruct (run (if compat then i_compat else i_normal) 0 s) as [[[ps m] r]|] eqn:E; [|auto].
  assert (H : exists kwp, kw_ok kwp /\ run (i_include kwp) 0 s = Some (ps, m, r)).
  { destruct compat; eexists; (split; [|exact E]); auto using kw_include, kw_alt. }
  destruct H as (kwp & Hkw & H). apply run_include_inv in H as (pp & page & i & pps & args & -> & -> & Hargs & Ht & He); [|auto].
  cbn [p_inner process_pairs p_slice]. destruct (pr_parse page) as [pg| |] eqn:Ep; [|auto|destruct (pr_parse_no_panic _ Ep)].
  destruct (process_args_ok pps args [] Hargs) as (vars & -> & Hv).
  right. exists (IR pg vars), m, r, page, args. cbn [ir_page ir_vars]. repeat split; auto.
Qed.
Lemma parse_block_shift compat pre s : parse_include_block compat (pre ++ s) (blen pre) =
  match parse_include_block compat s 0 with Good (inc, e) => Good (inc, blen pre + e) | Bad => Bad | Panic => Panic end.
Proof.
  unfold parse_include_block, bfrom. rewrite bsplit_app, bsplit_0.
  destruct (run _ 0 s) as [[[[|f l] m] r]|]; auto. destruct (process_pairs (p_inner f)); auto.
Qed.

(** *** The search pattern *)
Lemma runs_in p w : Forall (fun c => p c = true) w -> forall pos prev rest,
  In (RS (pos + length w) (upd prev w) rest, []) (runs p pos prev (w ++ rest)).
Proof.
  induction w as [|c w IH]; intros Hw pos prev rest.
  - cbn [app length]. rewrite Nat.add_0_r. destruct rest as [|x rest]; cbn [runs]; [apply in_app_iff; right; left; reflexivity|].
    apply in_app_iff. right. left. reflexivity.
  - inversion Hw as [|? ? Hc Hw']; subst. cbn [app runs]. rewrite Hc. apply in_app_iff. left.
    replace (pos + length (c :: w)) with (S pos + length w) by (cbn [length]; lia).
    replace (upd prev (c :: w)) with (upd (Some c) w); [apply IH; auto|].
    unfold upd. change (c :: w) with ([c] ++ w). rewrite last_char_app. destruct (last_char w); reflexivity.
Qed.
Lemma after_in r l st1 c1 st2 c2 : In (st1, c1) l -> In (st2, c2) (mt r st1) -> In (st2, c2 ++ c1) (after r l).
Proof.
  intros H1 H2. Transparent after. unfold after. apply in_flat_map. exists (st1, c1). split; auto. apply in_map_iff. exists (st2, c2). auto.
Qed.
Global Opaque after.
Lemma after_in_inv r l st c : In (st, c) (after r l) -> exists st1 c1 c2, In (st1, c1) l /\ In (st, c2) (mt r st1) /\ c = c2 ++ c1.
Proof.
  Transparent after. unfold after. intros H. apply in_flat_map in H as ((st1 & c1) & H1 & H). apply in_map_iff in H as ((st2 & c2) & E & H2).
  injection E as <- <-. eauto 6.
Qed.
Global Opaque after.
Lemma chr_in p pos prev c rest : p c = true -> In (RS (S pos) (Some c) rest, []) (mt (Chr p) (RS pos prev (c :: rest))).
Proof. intros H. rewrite mt_chr, H. left. reflexivity. Qed.
Lemma chr_in_inv p st st1 c : In (st1, c) (mt (Chr p) st) -> exists x, r_rest st = x :: r_rest st1 /\ p x = true.
Proof.
  destruct st as [pos prev rest]. destruct rest as [|x rest]; [intros []|]. rewrite mt_chr. destruct (p x) eqn:E; [|intros []].
  intros [H|[]]. injection H as <- <-. cbn. eauto.
Qed.
Lemma kw_re_in kw : forall cs pos prev rest, slower kw = cs -> exists c,
  In (RS (pos + length kw) (upd prev kw) rest, c) (mt (fold_right Seq Eps (map (fun c => Chr (fun x => ceqb (lower x) c)) cs)) (RS pos prev (kw ++ rest))).
Proof.
  induction kw as [|x kw IH]; intros cs pos prev rest E; subst cs; cbn [slower map fold_right app length].
  - exists []. rewrite Nat.add_0_r. left. reflexivity.
  - destruct (IH (slower kw) (S pos) (Some x) rest eq_refl) as (c & Hc). exists (c ++ []). rewrite mt_seq_after.
    eapply after_in; [apply chr_in; apply ceqb_refl|]. replace (pos + S (length kw)) with (S pos + length kw) by lia.
    replace (upd prev (x :: kw)) with (upd (Some x) kw); [exact Hc|].
    unfold upd. change (x :: kw) with ([x] ++ kw). rewrite last_char_app. destruct (last_char kw); reflexivity.
Qed.
Lemma mt_INCLUDE_in pos prev w1 kw w2 rest :
  at_bol (RS pos prev []) = true -> Forall (fun c => is_ws c = true) w1 -> keyword kw -> Forall (fun c => is_ws c = true) w2 -> w2 <> [] ->
  mt INCLUDE_REGEX (RS pos prev (lit "[[" ++ w1 ++ kw ++ w2 ++ rest)) <> [].
Proof.
  intros Hb Hw1 Hkw Hw2 Hn. 
  assert (H : exists x, In x (mt INCLUDE_REGEX (RS pos prev (lit "[[" ++ w1 ++ kw ++ w2 ++ rest)))).
  { unfold INCLUDE_REGEX. destruct w2 as [|y w2]; [congruence|]. inversion Hw2 as [|? ? Hy Hw2']; subst.
    change (lit "[[" ++ w1 ++ kw ++ (y :: w2) ++ rest) with (91%N :: 91%N :: w1 ++ kw ++ y :: w2 ++ rest).
    destruct (kw_re_in kw (lit "include") (S (S pos) + length w1) (upd (Some 91%N) w1) (y :: w2 ++ rest) Hkw) as (ck & Hk).
    eexists. rewrite mt_seq_after. eapply after_in.
    { cbn [mt]. replace (at_bol (RS pos prev (91%N :: 91%N :: w1 ++ kw ++ y :: w2 ++ rest))) with true by (symmetry; exact Hb). left. reflexivity. }
    rewrite mt_seq_after. eapply after_in; [apply chr_in; reflexivity|].
    rewrite mt_seq_after. eapply after_in; [apply chr_in; reflexivity|].
    rewrite mt_seq_after. eapply after_in.
    { rewrite mt_star. cbn [r_rest]. rewrite star_runs by auto. apply runs_in; auto. }
    rewrite mt_seq_after. eapply after_in; [exact Hk|]. rewrite mt_plus. cbn [r_rest r_pos]. rewrite Hy. apply runs_in; auto. }
  destruct H as (x & Hx). intros E. rewrite E in Hx. destruct Hx.
Qed.
Lemma star_ws_inv p fuel : forall st st1 c, In (st1, c) (star_all (mt (Chr p)) true fuel st) ->
  exists w, r_rest st = w ++ r_rest st1 /\ Forall (fun c => p c = true) w.
Proof.
  induction fuel as [|fuel IH]; intros st st1 c H.
  - destruct H as [H|[]]. injection H as <- <-. exists []. auto.
  - cbn [star_all] in H. apply in_app_iff in H as [H|[H|[]]].
    + apply in_flat_map in H as ((sa & ca) & Ha & H). destruct (_ <? _); [|destruct H].
      apply in_map_iff in H as ((sb & cb) & E & Hb). injection E as <- <-.
      apply chr_in_inv in Ha as (x & Ex & Hx). apply IH in Hb as (w & Ew & Hw). exists (x :: w). rewrite Ex, Ew. split; auto.
    + injection H as <- <-. exists []. auto.
Qed.
Lemma kw_re_inv cs : forall st st1 c, In (st1, c) (mt (fold_right Seq Eps (map (fun c => Chr (fun x => ceqb (lower x) c)) cs)) st) ->
  exists kw, r_rest st = kw ++ r_rest st1 /\ slower kw = cs.
Proof.
  induction cs as [|y cs IH]; intros st st1 c H; cbn [map fold_right] in H.
  - destruct H as [H|[]]. injection H as <- <-. exists []. auto.
  - rewrite mt_seq_after in H. apply after_in_inv in H as (sa & ca & cb & Ha & Hb & _).
    apply chr_in_inv in Ha as (x & Ex & Hx). apply IH in Hb as (kw & Ek & Hk). apply ceqb_eq in Hx. exists (x :: kw).
    rewrite Ex, Ek. simpl. rewrite Hx, Hk. auto.
Qed.
Lemma mt_INCLUDE_inv st st1 c : In (st1, c) (mt INCLUDE_REGEX st) ->
  at_bol st = true /\ exists k, r_rest st = lit "[[" ++ k ++ r_rest st1 /\ ~ In 91%N k /\ k <> [].
Proof.
  unfold INCLUDE_REGEX. intros H. rewrite mt_seq_after in H. apply after_in_inv in H as (s0 & c0 & c0' & H0 & H & _).
  cbn [mt] in H0. destruct (at_bol st); [|destruct H0]. split; [reflexivity|]. destruct H0 as [H0|[]]. injection H0 as <- <-.
  rewrite mt_seq_after in H. apply after_in_inv in H as (s1 & c1 & c1' & H1 & H & _). apply chr_in_inv in H1 as (x1 & E1 & X1).
  rewrite mt_seq_after in H. apply after_in_inv in H as (s2 & c2 & c2' & H2 & H & _). apply chr_in_inv in H2 as (x2 & E2 & X2).
  rewrite mt_seq_after in H. apply after_in_inv in H as (s3 & c3 & c3' & H3 & H & _). rewrite mt_star in H3. apply star_ws_inv in H3 as (w1 & E3 & X3).
  rewrite mt_seq_after in H. apply after_in_inv in H as (s4 & c4 & c4' & H4 & H & _). apply kw_re_inv in H4 as (kw & E4 & X4).
  unfold plus in H. rewrite mt_seq_after in H. apply after_in_inv in H as (s5 & c5 & c5' & H5 & H & _). apply chr_in_inv in H5 as (x5 & E5 & X5).
  rewrite mt_star in H. apply star_ws_inv in H as (w2 & E6 & X6).
  apply ceqb_eq in X1, X2. subst x1 x2.
  exists (w1 ++ kw ++ x5 :: w2). rewrite E1, E2, E3, E4, E5, E6. split; [rewrite <- !app_assoc; reflexivity|].
  assert (Hws : forall w, Forall (fun c => is_ws c = true) w -> ~ In 91%N w).
  { intros w Hw Hi. rewrite Forall_forall in Hw. apply Hw in Hi. discriminate. }
  split; [|intros E; apply app_eq_nil in E as [_ E]; apply app_eq_nil in E as [_ E]; discriminate].
  rewrite !in_app_iff. intros [Hi|[Hi|[Hi|Hi]]].
  - exact (Hws _ X3 Hi).
  - apply keyword_nobr in X4 as [_ X4]. auto.
  - subst x5. discriminate.
  - exact (Hws _ X6 Hi).
Qed.
Lemma INCLUDE_consuming : consuming INCLUDE_REGEX.
Proof.
  intros st st1 c H. pose proof (mt_sound _ _ _ _ H) as (k & E & Ep & _). apply mt_INCLUDE_inv in H as (_ & k' & E' & _).
  rewrite Ep. destruct k; [|cbn [length]; lia]. exfalso. cbn [app] in E. rewrite E in E'.
  apply (f_equal (@length N)) in E'. rewrite !app_length in E'. cbn [length lit] in E'. lia.
Qed.

(** Inside the rest of a match nothing else matches. *)
Lemma fi_skip k : forall pos prev rest, ~ In 91%N k -> fi INCLUDE_REGEX pos prev (k ++ rest) = fi INCLUDE_REGEX (pos + length k) (upd prev k) rest.
Proof.
  induction k as [|c k IH]; intros pos prev rest Hk; cbn [app length].
  - rewrite Nat.add_0_r. reflexivity.
  - rewrite (fi_eq _ INCLUDE_consuming). destruct (mt INCLUDE_REGEX _) as [|[st1 c1] l] eqn:E.
    + rewrite IH by (intros Hi; apply Hk; right; auto). f_equal; [lia|].
      unfold upd. change (c :: k) with ([c] ++ k). rewrite last_char_app. destruct (last_char k); reflexivity.
    + exfalso. assert (Hi : In (st1, c1) (mt INCLUDE_REGEX (RS pos prev (c :: k ++ rest)))) by (rewrite E; left; auto).
      apply mt_INCLUDE_inv in Hi as (_ & k' & E' & _). cbn [r_rest lit] in E'. injection E' as E1 _. apply Hk. left. auto.
Qed.
(** Searching character by character. *)
Lemma fi_include_eq pos prev rest : fi INCLUDE_REGEX pos prev rest =
  match rest with
  | [] => []
  | c :: rest' => match mt INCLUDE_REGEX (RS pos prev rest) with
                  | (st1, cc) :: _ => [RM pos (r_pos st1) cc]
                  | [] => []
                  end ++ fi INCLUDE_REGEX (S pos) (Some c) rest'
  end.
Proof.
  rewrite (fi_eq _ INCLUDE_consuming). destruct (mt INCLUDE_REGEX _) as [|[st1 c1] l] eqn:E.
  - destruct rest; reflexivity.
  - assert (Hi : In (st1, c1) (mt INCLUDE_REGEX (RS pos prev rest))) by (rewrite E; left; auto).
    pose proof (mt_sound _ _ _ _ Hi) as (k & Ek & Ep & Epr). apply mt_INCLUDE_inv in Hi as (_ & k' & E' & Hk' & _).
    cbn [r_rest r_pos r_prev] in *. rewrite E'. cbn [lit app].
    f_equal. 
    assert (k = lit "[[" ++ k') as ->.
    { rewrite E' in Ek. change (lit "[[" ++ k' ++ r_rest st1) with ((lit "[[" ++ k') ++ r_rest st1) in Ek. apply app_inv_tail in Ek. auto. }
    rewrite (fi_eq _ INCLUDE_consuming (S pos)).
    destruct (mt INCLUDE_REGEX (RS (S pos) _ _)) as [|[st2 c2] l2] eqn:E2.
    + rewrite fi_skip by auto. f_equal; [rewrite Ep; cbn [lit app length]; lia|].
      rewrite Epr. unfold upd. change (lit "[[" ++ k') with ([91%N; 91%N] ++ k'). rewrite last_char_app. destruct (last_char k'); reflexivity.
    + exfalso. assert (Hi : In (st2, c2) (mt INCLUDE_REGEX (RS (S pos) (Some (N_of_ascii "[")) (N_of_ascii "[" :: k' ++ r_rest st1)))) by (rewrite E2; left; auto).
      apply mt_INCLUDE_inv in Hi as (Hi & _). discriminate.
Qed.

(** *** All blocks, found by looking at every position *)
Definition isblock (compat : bool) (s : str) (inc : include_ref) (b rest : str) : Prop :=
  parse_include_block compat s 0 = Good (inc, blen b) /\ s = b ++ rest.
Definition bolb (prev : option char) : bool := match prev with None => true | Some c => ceqb c 10 end.
Lemma bolb_iff prev : bolb prev = true <-> line_start prev.
Proof.
  unfold bolb, line_start. destruct prev as [c|]; [|intuition]. rewrite ceqb_eq. split; intros H.
  - right. congruence.
  - destruct H as [H|H]; congruence.
Qed.
Fixpoint scan_blocks (compat : bool) (off : nat) (prev : option char) (rest : str) : list (nat * nat * include_ref) :=
  match rest with
  | [] => []
  | c :: rest' =>
      (if bolb prev then match parse_include_block compat rest 0 with Good (inc, e) => [(off, off + e, inc)] | _ => [] end else [])
      ++ scan_blocks compat (off + utf8_len c) (Some c) rest'
  end.
Lemma blank_ws c : blank c -> is_ws c = true.
Proof. intros [->|[->| ->]]; reflexivity. Qed.
Lemma block_matches compat pos prev s : bolb prev = true -> parse_include_block compat s 0 <> Bad -> mt INCLUDE_REGEX (RS pos prev s) <> [].
Proof.
  intros Hb Hp. destruct (parse_block_cases compat s) as [E|(inc & b & rest & page & args & _ & -> & Ht & _)]; [congruence|].
  destruct Ht as (w1 & kw & w2 & body & -> & Hw1 & Hkw & Hw2 & Hn & _).
  replace ((lit "[[" ++ w1 ++ kw ++ w2 ++ page ++ body ++ lit "]]") ++ rest)
    with (lit "[[" ++ w1 ++ kw ++ w2 ++ (page ++ body ++ lit "]]" ++ rest)).
  2:{ rewrite <- !app_assoc. reflexivity. }
  apply mt_INCLUDE_in; auto; (eapply Forall_impl; [|eassumption]; apply blank_ws).
Qed.
Lemma find_includes_app compat text l1 : forall l2 b1, find_includes compat text l1 = Some b1 ->
  find_includes compat text (l1 ++ l2) = match find_includes compat text l2 with Some b2 => Some (b1 ++ b2) | None => None end.
Proof.
  induction l1 as [|m l1 IH]; intros l2 b1 H; cbn [app find_includes] in *.
  - injection H as <-. destruct (find_includes compat text l2); reflexivity.
  - destruct (parse_include_block compat text _) as [[inc e]| |]; [|auto|discriminate].
    destruct (find_includes compat text l1) as [b|] eqn:E; [|discriminate]. injection H as <-.
    rewrite (IH _ _ eq_refl). destruct (find_includes compat text l2); reflexivity.
Qed.
Lemma find_includes_scan compat text : forall rest pre, text = pre ++ rest ->
  find_includes compat text (fi INCLUDE_REGEX (length pre) (last_char pre) rest) = Some (scan_blocks compat (blen pre) (last_char pre) rest).
Proof.
  induction rest as [|c rest IH]; intros pre Ht; rewrite fi_include_eq; [reflexivity|]. cbn [scan_blocks].
  specialize (IH (pre ++ [c])). rewrite <- app_assoc in IH. specialize (IH Ht).
  rewrite app_length, Nat.add_1_r, last_char_snoc, blen_app in IH. cbn [blen] in IH. rewrite Nat.add_0_r in IH.
  erewrite find_includes_app with (b1 := if bolb (last_char pre) then
     match parse_include_block compat (c :: rest) 0 with Good (inc, e) => [(blen pre, blen pre + e, inc)] | _ => [] end else []).
  { rewrite IH. reflexivity. }
  destruct (mt INCLUDE_REGEX (RS (length pre) (last_char pre) (c :: rest))) as [|[st1 cc] l] eqn:E.
  - cbn [find_includes]. destruct (bolb (last_char pre)) eqn:Hb; [|reflexivity].
    destruct (parse_include_block compat (c :: rest) 0) as [[inc e]| |] eqn:Ep; [|reflexivity|reflexivity].
    exfalso. eapply block_matches; [exact Hb|rewrite Ep; discriminate|exact E].
  - assert (Hi : In (st1, cc) (mt INCLUDE_REGEX (RS (length pre) (last_char pre) (c :: rest)))) by (rewrite E; left; auto).
    apply mt_INCLUDE_inv in Hi as (Hb & _). assert (bolb (last_char pre) = true) as -> by exact Hb.
    cbn [find_includes m_start]. rewrite Ht, byte_of_app, parse_block_shift.
    destruct (parse_block_cases compat (c :: rest)) as [->|(inc & b & r & page & args & -> & _)]; reflexivity.
Qed.
Lemma find_includes_all compat text : find_includes compat text (find_iter INCLUDE_REGEX text) = Some (scan_blocks compat 0 None text).
Proof. apply (find_includes_scan compat text text [] eq_refl). Qed.

(** *** Tidy texts: the blocks do not overlap *)
Lemma scan_skip compat : forall k off prev rest,
  (forall x y, k = x ++ y -> y <> [] -> line_start (upd prev x) -> parse_include_block compat (y ++ rest) 0 = Bad) ->
  scan_blocks compat off prev (k ++ rest) = scan_blocks compat (off + blen k) (upd prev k) rest.
Proof.
  induction k as [|c k IH]; intros off prev rest H.
  - cbn [app blen]. rewrite Nat.add_0_r. reflexivity.
  - cbn [app scan_blocks].
    assert (E0 : (if bolb prev then match parse_include_block compat (c :: k ++ rest) 0 with Good (inc, e) => [(off, off + e, inc)] | _ => [] end else []) = []).
    { destruct (bolb prev) eqn:Hb; [|reflexivity]. apply bolb_iff in Hb.
      specialize (H [] (c :: k) eq_refl ltac:(discriminate) Hb). cbn [app] in H. rewrite H. reflexivity. }
    rewrite E0. cbn [app]. rewrite IH.
    + f_equal; [cbn [blen]; lia|]. unfold upd. change (c :: k) with ([c] ++ k). rewrite last_char_app. destruct (last_char k); reflexivity.
    + intros x y Ek Hy Hl. apply (H (c :: x) y); [cbn [app]; congruence|auto|].
      replace (upd prev (c :: x)) with (upd (Some c) x); auto. unfold upd. change (c :: x) with ([c] ++ x). rewrite last_char_app.
      destruct (last_char x); reflexivity.
Qed.
Lemma last_char_snoc_inv s c : last_char s = Some c -> exists s', s = s' ++ [c].
Proof.
  unfold last_char. destruct (rev s) as [|x r] eqn:E; [discriminate|]. intros H. injection H as ->.
  exists (rev r). rewrite <- (rev_involutive s), E. reflexivity.
Qed.
Lemma closes_ext s t : closes (s ++ [10%N]) -> closes (s ++ 10%N :: t).
Proof.
  intros (r & E & Hr). destruct Hr as [->|(c & r' & -> & Hc)].
  - exfalso. rewrite app_nil_r in E. change (lit "]]") with ([93%N] ++ [93%N]) in E. apply app_inj_tail in E as [_ E]. discriminate.
  - exists (c :: r' ++ t). split; [|right; eauto]. change (s ++ 10%N :: t) with (s ++ [10%N] ++ t). rewrite app_assoc, E. rewrite <- app_assoc. reflexivity.
Qed.
Lemma tidy_block compat text pre b rest c0 b' : tidy text -> text = pre ++ b ++ rest -> ends_line_start pre -> block_extent b rest ->
  b = c0 :: b' ->
  forall x y, b' = x ++ y -> y <> [] -> line_start (upd (Some c0) x) -> parse_include_block compat (y ++ rest) 0 = Bad.
Proof.
  intros Ht Etext Hpre (m & Eb & Hle & Hfirst) Ec x y Exy Hy Hl.
  destruct (parse_block_cases compat (y ++ rest)) as [E|(inc & b2 & r2 & page & args & _ & E2 & Hbt & _)]; [auto|exfalso].
  destruct Hbt as (w1 & kw & w2 & body & Eb2 & _). 
  assert (Ey : exists y2, y = lit "[[" ++ y2).
  { rewrite Eb2, <- app_assoc in E2. destruct y as [|c1 [|c2 y]]; [congruence| |].
    - exfalso. injection E2 as E2 _. subst c1.
      assert (EE : lit "[[" ++ m ++ lit "]]" = (c0 :: x) ++ [N_of_ascii "["]) by (rewrite <- Eb, Ec, Exy; reflexivity).
      change (lit "]]") with ([93%N] ++ [93%N]) in EE. rewrite !app_assoc in EE. apply app_inj_tail in EE as [_ EE]. discriminate.
    - injection E2 as -> -> _. exists y. reflexivity. }
  destruct Ey as (y2 & ->).
  assert (Ex : exists mid, c0 :: x = lit "[[" ++ mid ++ [10%N]).
  { assert (EE : lit "[[" ++ m ++ lit "]]" = (c0 :: x) ++ lit "[[" ++ y2) by (rewrite <- Eb, Ec, Exy; reflexivity).
    assert (Hlast : last_char (c0 :: x) = Some 10%N).
    { unfold upd in Hl. change (c0 :: x) with ([c0] ++ x). rewrite last_char_app.
      destruct (last_char x) as [z|]; [destruct Hl as [Hl|Hl]; congruence|]. destruct Hl as [Hl|Hl]; [discriminate|exact Hl]. }
    apply last_char_snoc_inv in Hlast as (z & Ez). rewrite Ez in *.
    destruct z as [|z1 [|z2 z]].
    - cbn [app lit] in EE. injection EE as EE _. discriminate.
    - cbn [app lit] in EE. injection EE as _ EE _. discriminate.
    - cbn [app lit] in EE. injection EE as <- <- _. exists z. reflexivity. }
  destruct Ex as (mid & Ex).
  assert (Ebb : b = lit "[[" ++ mid ++ [10%N] ++ lit "[[" ++ y2).
  { rewrite Ec, Exy. change (c0 :: x ++ lit "[[" ++ y2) with ((c0 :: x) ++ lit "[[" ++ y2). rewrite Ex. rewrite <- !app_assoc. reflexivity. }
  destruct (Ht pre mid (y2 ++ rest)) as (u & v & Euv & Hcl).
  { rewrite Etext, Ebb. rewrite <- !app_assoc. reflexivity. }
  { exact Hpre. }
  destruct (Hfirst u (v ++ 10%N :: lit "[[" ++ y2)) as [E|E].
  - rewrite Ebb. rewrite app_assoc, Euv. rewrite <- !app_assoc. reflexivity.
  - rewrite <- app_assoc. cbn [app]. apply closes_ext. exact Hcl.
  - destruct v; discriminate.
  - assert (Hin : In 10%N (lit "]]")) by (rewrite <- E; apply in_elt). destruct Hin as [|[|[]]]; discriminate.
Qed.

Definition rng (x : nat * nat * include_ref) : nat * nat := fst x.
Lemma tidy_ranges compat text : tidy text -> forall n rest pre rs, length rest < n -> text = pre ++ rest ->
  length rs = length (scan_blocks compat (blen pre) (last_char pre) rest) ->
  exists out, ranges (blen pre) rest (combine rs (map rng (scan_blocks compat (blen pre) (last_char pre) rest))) out /\
    included (isblock compat) (last_char pre) rest (map snd (scan_blocks compat (blen pre) (last_char pre) rest)) rs out.
Proof.
  intros Ht. induction n as [|n IH]; intros rest pre rs Hn Htext Hrs; [lia|].
  destruct rest as [|c rest].
  { exists []. cbn [scan_blocks length map combine] in *. destruct rs; [|discriminate]. split; constructor. }
  destruct (bolb (last_char pre)) eqn:Hb.
  - destruct (parse_block_cases compat (c :: rest)) as [E|(inc & b & r & page & args & E & Es & Hbt & Hext & _)].
    + (* not a block *)
      cbn [scan_blocks] in *. rewrite Hb, E in *. cbn [app] in *.
      specialize (IH rest (pre ++ [c]) rs). rewrite blen_app, last_char_snoc in IH. cbn [blen] in IH. rewrite Nat.add_0_r in IH.
      destruct IH as (out & I1 & I2); [cbn [length] in Hn; lia|rewrite <- app_assoc; auto|auto|].
      exists (c :: out). split; [apply ranges_char; auto|]. apply in_char; auto. intros (_ & inc & b & r & Hi & _). rewrite E in Hi. discriminate.
    + (* a block *)
      assert (Hb0 : exists b1 c1, b = b1 ++ [c1]).
      { destruct Hbt as (w1 & kw & w2 & body & -> & _). exists (lit "[[" ++ w1 ++ kw ++ w2 ++ page ++ body ++ [93%N]), 93%N.
        rewrite <- !app_assoc. reflexivity. }
      destruct Hb0 as (b1 & c1 & Eb1).
      destruct b as [|c' b']; [destruct b1; discriminate|]. cbn [app] in Es. injection Es as <- Es.
      assert (Hscan : scan_blocks compat (blen pre) (last_char pre) (c :: rest) =
         (blen pre, blen pre + blen (c :: b'), inc) :: scan_blocks compat (blen (pre ++ c :: b')) (last_char (pre ++ c :: b')) r).
      { cbn [scan_blocks]. rewrite Hb, E. cbn [app]. f_equal. rewrite Es. rewrite scan_skip.
        - f_equal; [rewrite blen_app; cbn [blen]; lia|].
          change (c :: b') with ([c] ++ b'). rewrite app_assoc, last_char_app. unfold upd. destruct (last_char b'); auto. rewrite last_char_snoc. reflexivity.
        - eapply (tidy_block compat text pre (c :: b') r c b'); auto.
          + rewrite Htext, Es. reflexivity.
          + apply bolb_iff in Hb. unfold ends_line_start. destruct Hb as [Hb|Hb].
            * left. unfold last_char in Hb. destruct (rev pre) eqn:Er; [|discriminate]. rewrite <- (rev_involutive pre), Er. reflexivity.
            * right. apply last_char_snoc_inv in Hb as (p & ->). eauto. }
      rewrite Hscan in *. cbn [length map] in Hrs. destruct rs as [|r0 rs]; [discriminate|]. injection Hrs as Hrs.
      specialize (IH r (pre ++ c :: b') rs). destruct IH as (out & I1 & I2).
      { rewrite Es in Hn. cbn [length] in Hn. rewrite app_length in Hn. lia. }
      { rewrite Htext, Es. rewrite <- app_assoc. reflexivity. }
      { exact Hrs. }
      exists (r0 ++ out). cbn [map combine rng fst snd]. split.
      * rewrite Es. change (c :: b' ++ r) with ([] ++ (c :: b') ++ r). change (r0 ++ out) with ([] ++ r0 ++ out).
        pose proof (rg_cons (blen pre) [] (c :: b') r0 r (combine rs (map rng (scan_blocks compat (blen (pre ++ c :: b')) (last_char (pre ++ c :: b')) r))) out) as Hc.
        change (blen []) with 0 in Hc. rewrite Nat.add_0_r in Hc. apply Hc. rewrite blen_app in I1 at 1. exact I1.
      * eapply (in_block _ _ _ inc b1 c1 r); [apply bolb_iff; auto| |].
        -- split; [rewrite <- Eb1; exact E|]. rewrite <- Eb1, Es. reflexivity.
        -- rewrite Eb1 in I2 at 1. rewrite app_assoc, last_char_snoc in I2. rewrite Eb1. rewrite Eb1 in I2. exact I2.
  - cbn [scan_blocks] in *. rewrite Hb in *. cbn [app] in *.
    specialize (IH rest (pre ++ [c]) rs). rewrite blen_app, last_char_snoc in IH. cbn [blen] in IH. rewrite Nat.add_0_r in IH.
    destruct IH as (out & I1 & I2); [cbn [length] in Hn; lia|rewrite <- app_assoc; auto|auto|].
    exists (c :: out). split; [apply ranges_char; auto|]. apply in_char; auto. intros (Hl & _). apply bolb_iff in Hl. congruence.
Qed.

(** *** The substitution loop *)
Lemma pr_eqb_eq a b : pr_eqb a b = true <-> a = b.
Proof.
  destruct a as [[sa|] pa], b as [[sb|] pb]; unfold pr_eqb; cbn [pr_site pr_page ostr_eqb andb];
    rewrite ?andb_true_iff, ?seqb_eq; split; intros H; try discriminate; try (destruct H; congruence); try congruence;
    injection H as <- <-; auto.

Qed.
Section Loop.
Variables (St E : Type).
Variable I : includer St E.
Variable inv : E.
(** The replacement [r] for a block. *)
Definition replacement (inc : include_ref) (f : fetched) (r : str) : Prop :=
  match fp_content f with
  | Some content => substituted (vm_get (ir_vars inc)) content r
  | None => exists st st', no_such_include St E I st (ir_page inc) = (st', inl r)
  end.
Definition items := list (nat * nat * include_ref * fetched).

Lemma loop_ok : forall (l : items) st out pages o ps, subst_loop St E I inv st out pages l = IOk o ps ->
  exists rs, Forall2 (fun x r => ir_page (snd (fst x)) = fp_page (snd x) /\ replacement (snd (fst x)) (snd x) r) l rs /\
    replace_all out (combine rs (map (fun x => fst (fst x)) l)) = Some o /\ ps = rev (pages ++ map (fun x => ir_page (snd (fst x))) l).
Proof.
  induction l as [|[[[a b] inc] f] l IH]; intros st out pages o ps H; cbn [subst_loop] in H.
  - injection H as <- <-. exists []. repeat split; [constructor|]. cbn [map]. rewrite app_nil_r. reflexivity.
  - destruct (pr_eqb (ir_page inc) (fp_page f)) eqn:Ep; cbn [negb] in H; [|discriminate]. apply pr_eqb_eq in Ep.
    assert (HH : exists st' r, replacement inc f r /\ match replace_range out a b r with
              | Some output' => subst_loop St E I inv st' output' (pages ++ [ir_page inc]) l
              | None => IPanic end = IOk o ps).
    { unfold replacement. destruct (fp_content f) as [content|].
      - destruct (replace_variables_ok content (ir_vars inc)) as (r & Hr & Hs). rewrite Hr in H. eauto.
      - destruct (no_such_include St E I st (ir_page inc)) as [st' [r|e]] eqn:En; [|discriminate]. exists st', r. split; eauto. }
    destruct HH as (st' & r & Hr & HH). destruct (replace_range out a b r) as [out'|] eqn:Er; [|discriminate].
    apply IH in HH as (rs & H1 & H2 & ->). exists (r :: rs). split; [constructor; auto|]. split.
    + cbn [map combine fst replace_all]. rewrite Er. exact H2.
    + cbn [map fst snd]. rewrite <- app_assoc. reflexivity.
Qed.
Lemma loop_panic : forall (l : items) st out pages, subst_loop St E I inv st out pages l = IPanic ->
  exists l1 l2 rs, l = l1 ++ l2 /\ length rs = length l1 /\ replace_all out (combine rs (map (fun x => fst (fst x)) l1)) = None.
Proof.
  induction l as [|[[[a b] inc] f] l IH]; intros st out pages H; cbn [subst_loop] in H; [discriminate|].
  destruct (pr_eqb (ir_page inc) (fp_page f)); cbn [negb] in H; [|discriminate].
  assert (HH : exists st' r, match replace_range out a b r with
              | Some output' => subst_loop St E I inv st' output' (pages ++ [ir_page inc]) l
              | None => IPanic end = IPanic).
  { destruct (fp_content f) as [content|].
    - destruct (replace_variables_ok content (ir_vars inc)) as (r & Hr & Hs). rewrite Hr in H. eauto.
    - destruct (no_such_include St E I st (ir_page inc)) as [st' [r|e]] eqn:En; [|discriminate]. eauto. }
  destruct HH as (st' & r & HH). destruct (replace_range out a b r) as [out'|] eqn:Er.
  - apply IH in HH as (l1 & l2 & rs & -> & Hl & Hn). exists ((a, b, inc, f) :: l1), l2, (r :: rs).
    split; [reflexivity|]. split; [cbn [length]; lia|]. cbn [map combine fst replace_all]. rewrite Er. exact Hn.
  - exists [(a, b, inc, f)], l, [r]. repeat split. cbn [map combine fst replace_all]. rewrite Er. reflexivity.
Qed.
Lemma loop_err : (forall st p e st', no_such_include St E I st p <> (st', inr e)) ->
  forall (l : items) st out pages e, subst_loop St E I inv st out pages l = IErr e -> e = inv.
Proof.
  intros Hns. induction l as [|[[[a b] inc] f] l IH]; intros st out pages e H; cbn [subst_loop] in H; [discriminate|].
  destruct (pr_eqb (ir_page inc) (fp_page f)); cbn [negb] in H; [|congruence].
  destruct (fp_content f) as [content|].
  - destruct (replace_variables content (ir_vars inc)); [|discriminate]. destruct (replace_range out a b l0); [eauto|discriminate].
  - destruct (no_such_include St E I st (ir_page inc)) as [st' [r|e']] eqn:En; [|destruct (Hns _ _ _ _ En)].
    destruct (replace_range out a b r); [eauto|discriminate].
Qed.
End Loop.

Lemma ranges_suffix off rest l1 : forall l2 out, ranges off rest (l1 ++ l2) out -> exists out', ranges off rest l2 out'.
Proof.
  revert off rest. induction l1 as [|x l1 IH]; intros off rest l2 out H; [eauto|]. cbn [app] in H. inversion H; subst.
  edestruct IH as (out' & H'); [eassumption|]. exists (g ++ b ++ out'). apply ranges_str. apply ranges_str. exact H'.
Qed.
Lemma combine_app {A B} (a1 a2 : list A) (b1 b2 : list B) : length a1 = length b1 -> combine (a1 ++ a2) (b1 ++ b2) = combine a1 b1 ++ combine a2 b2.
Proof. revert b1; induction a1 as [|x a1 IH]; intros [|y b1] H; try discriminate; simpl; auto. rewrite IH; auto. Qed.
Lemma combine_rev {A B} (a : list A) (b : list B) : length a = length b -> combine (rev a) (rev b) = rev (combine a b).
Proof.
  revert b; induction a as [|x a IH]; intros [|y b] H; try discriminate; auto. injection H as H. cbn [rev combine].
  rewrite combine_app by (rewrite !rev_length; auto). rewrite IH; auto.
Qed.
Lemma map_fst_combine {A B} (a : list A) (b : list B) : length a = length b -> map fst (combine a b) = a.
Proof. revert b; induction a as [|x a IH]; intros [|y b] H; try discriminate; simpl; auto. rewrite IH; auto. Qed.
Lemma F2_length {A B} (P : A -> B -> Prop) l1 l2 : Forall2 P l1 l2 -> length l1 = length l2.
Proof. induction 1; simpl; auto. Qed.

(** StringsLemmas.v *)
From Verif Require Import Base BaseLemmas Strings SpecStrings.

(** *** UTF-16 *)
Fixpoint entries (i8 i16 : nat) (text : str) : utf16_map :=
  match text with
  | [] => []
  | c :: r => (i8, i16) :: entries (i8 + utf8_len c) (i16 + utf16_len c) r
  end.
Lemma utf16_loop_eq text : forall m i8 i16 last,
  utf16_loop m i8 i16 last text =
    (rev (entries i8 i16 text) ++ m, i16 + len16 text,
     match text with [] => last | _ => Some (i8 + blen text) end).
Proof.
  induction text as [|c r IH]; intros m i8 i16 last; cbn [utf16_loop entries rev len16 blen].
  - simpl. rewrite Nat.add_0_r. reflexivity.
  - rewrite IH. rewrite <- app_assoc. cbn [app]. rewrite Nat.add_assoc. f_equal.
    destruct r; cbn [blen]; f_equal; lia.
Qed.
Lemma utf8_len_pos c : 0 < utf8_len c.
Proof. unfold utf8_len. repeat destruct (_ <? _)%N; lia. Qed.
Lemma entries_In text : forall i8 i16 k v, In (k, v) (entries i8 i16 text) <->
  exists pre c post, text = pre ++ c :: post /\ k = i8 + blen pre /\ v = i16 + len16 pre.
Proof.
  induction text as [|c r IH]; intros i8 i16 k v; cbn [entries]; split.
  - intros [].
  - intros (pre & c & post & E & _). destruct pre; discriminate.
  - intros [H|H].
    + injection H as <- <-. exists [], c, r. simpl. repeat split; lia.
    + apply IH in H as (pre & d & post & -> & -> & ->). exists (c :: pre), d, post. simpl. repeat split; lia.
  - intros (pre & d & post & E & -> & ->). destruct pre as [|x pre]; injection E as -> ->.
    + left. simpl. f_equal; lia.
    + right. apply IH. exists pre, d, post. simpl. repeat split; lia.
Qed.
Lemma blen_pos_cons c r : 0 < blen (c :: r).
Proof. simpl. pose proof (utf8_len_pos c). lia. Qed.
Lemma blen_app_inj a1 b1 a2 b2 : a1 ++ b1 = a2 ++ b2 -> blen a1 = blen a2 -> a1 = a2.
Proof.
  revert a2; induction a1 as [|c a1 IH]; intros [|d a2] E Hl; auto.
  - pose proof (blen_pos_cons d a2). simpl in *. lia.
  - pose proof (blen_pos_cons c a1). simpl in *. lia.
  - injection E as -> E. simpl in Hl. f_equal. apply IH; auto. lia.
Qed.
Lemma get_index_In m i v : (forall v', In (i, v') m -> v' = v) -> In (i, v) m -> get_index m i = Some v.
Proof.
  induction m as [|[k w] m IH]; intros Hu Hin; [contradiction|]. cbn [get_index].
  destruct (Nat.eqb_spec k i) as [->|Hk].
  - f_equal. apply Hu. left; auto.
  - apply IH; [intros v' H; apply Hu; right; auto|]. destruct Hin as [E|]; auto. congruence.
Qed.
Lemma get_index_None m i : (forall v, ~ In (i, v) m) -> get_index m i = None.
Proof.
  induction m as [|[k w] m IH]; intros Hu; auto. cbn [get_index].
  destruct (Nat.eqb_spec k i) as [->|Hk]; [exfalso; apply (Hu w); left; auto|].
  apply IH. intros v H. apply (Hu v). right; auto.
Qed.
Lemma utf16_new_In text k v : text <> [] ->
  In (k, v) (utf16_new text) <-> exists pre post, text = pre ++ post /\ k = blen pre /\ v = len16 pre.
Proof.
  intro Hne. unfold utf16_new. rewrite utf16_loop_eq.
  destruct text as [|c0 r0]; [contradiction|]. set (text := c0 :: r0) in *. rewrite app_nil_r. cbn [In].
  rewrite <- in_rev, entries_In. simpl plus. split.
  - intros [E|(pre & c & post & E & -> & ->)].
    + injection E as <- <-. exists text, []. rewrite app_nil_r. auto.
    + exists pre, (c :: post). auto.
  - intros (pre & post & E & -> & ->). destruct post as [|c post].
    + left. rewrite app_nil_r in E. subst. reflexivity.
    + right. exists pre, c, post. auto.
Qed.
Lemma utf16_exact text pre b : text <> [] -> boundary text pre b ->
  get_index (utf16_new text) b = Some (len16 pre).
Proof.
  intros Hne (post & E & ->). apply get_index_In.
  - intros v' H. apply utf16_new_In in H as (p & q & E' & Hb & ->); auto.
    f_equal. rewrite E in E'. symmetry. eapply blen_app_inj; eauto.
  - apply utf16_new_In; auto. eauto.
Qed.
Lemma utf16_panics text b : text <> [] -> (forall pre, ~ boundary text pre b) ->
  get_index (utf16_new text) b = None.
Proof.
  intros Hne Hb. apply get_index_None. intros v H. apply utf16_new_In in H as (p & q & E & -> & ->); auto.
  apply (Hb p). exists q. auto.
Qed.
Lemma utf16_empty i : get_index (utf16_new []) i = None.
Proof. reflexivity. Qed.

(** *** parse_string *)
Lemma bslice_middle a m b : utf8_len a = 1 -> utf8_len b = 1 ->
  bslice (a :: m ++ [b]) 1 (blen (a :: m ++ [b]) - 1) = Some m.
Proof.
  intros Ha Hb. replace (blen (a :: m ++ [b]) - 1) with (1 + blen m).
  - change (a :: m ++ [b]) with ([a] ++ m ++ [b]).
    replace 1 with (blen [a]) by (simpl; lia). apply bslice_app.
  - simpl. rewrite blen_app. simpl. lia.
Qed.
Lemma slice_middle_quoted m : slice_middle (34%N :: m ++ [34%N]) = Some (Some m).
Proof.
  unfold slice_middle.
  assert (E1 : blen (34%N :: m ++ [34%N]) <? 2 = false).
  { apply Nat.ltb_ge. simpl. rewrite blen_app. simpl. lia. }
  assert (E2 : ends_with [34%N] (34%N :: m ++ [34%N]) = true).
  { apply ends_with_iff. exists (34%N :: m). reflexivity. }
  rewrite E1, E2. simpl. rewrite bslice_middle by reflexivity. reflexivity.
Qed.
Lemma slice_middle_unquoted s : (forall m, s <> 34%N :: m ++ [34%N]) -> slice_middle s = Some None.
Proof.
  intro H. unfold slice_middle.
  destruct (blen s <? 2) eqn:E1; auto.
  destruct (starts_with [34%N] s) eqn:E2; auto.
  destruct (ends_with [34%N] s) eqn:E3; auto. exfalso.
  apply Nat.ltb_ge in E1. apply starts_with_iff in E2 as [r ->]. apply ends_with_iff in E3 as [p E3].
  destruct p as [|x p].
  - simpl in E3. injection E3 as ->. simpl in E1. lia.
  - simpl in E3. injection E3 as <- ->. apply (H p). reflexivity.
Qed.
Lemma ps_loop_decodes s t : decodes s t -> ps_loop false s = t.
Proof.
  induction 1 as [|c s t Hc Hd IH|e v s t Hin Hd IH|e s t Hn Hd IH]; cbn [ps_loop].
  - reflexivity.
  - destruct (ceqb c 92) eqn:E; [apply ceqb_eq in E; contradiction|]. congruence.
  - rewrite ceqb_refl. simpl in Hin.
    destruct Hin as [[= <- <-]|[[= <- <-]|[[= <- <-]|[[= <- <-]|[[= <- <-]|[[= <- <-]|[]]]]]]]; simpl; congruence.
  - rewrite ceqb_refl. replace (ps_escape_char e) with (@None N); [congruence|].
    unfold ps_escape_char. simpl in Hn.
    repeat match goal with |- context [ceqb e ?k] =>
      let E := fresh in destruct (ceqb e k) eqn:E; [apply ceqb_eq in E; exfalso; apply Hn; subst; auto 10|clear E] end.
    reflexivity.
Qed.
Lemma decodes_plain s : ~ In 92%N s -> decodes s s.
Proof.
  induction s as [|c s IH]; intro H; constructor.
  - intros ->. apply H. left; auto.
  - apply IH. intro X. apply H. right; auto.
Qed.
Lemma decodes_fun s t t' : decodes s t -> decodes s t' -> t = t'.
Proof. intros H H'. apply ps_loop_decodes in H, H'. congruence. Qed.
Lemma parse_string_decodes m t : decodes m t -> parse_string (34%N :: m ++ [34%N]) = Some t.
Proof.
  intro H. unfold parse_string. rewrite slice_middle_quoted.
  destruct (cmem 92 m) eqn:E; [f_equal; apply ps_loop_decodes; auto|].
  f_equal. apply (decodes_fun m); auto. apply decodes_plain. intro X. apply (cmem_In 92 m) in X. congruence.
Qed.
Lemma ps_loop_trailing s t : decodes s t -> ps_loop false (s ++ [92%N]) = t.
Proof.
  induction 1 as [|c s t Hc Hd IH|e v s t Hin Hd IH|e s t Hn Hd IH]; cbn [ps_loop app].
  - reflexivity.
  - destruct (ceqb c 92) eqn:E; [apply ceqb_eq in E; contradiction|]. congruence.
  - rewrite ceqb_refl. simpl in Hin.
    destruct Hin as [[= <- <-]|[[= <- <-]|[[= <- <-]|[[= <- <-]|[[= <- <-]|[[= <- <-]|[]]]]]]]; simpl; congruence.
  - rewrite ceqb_refl. replace (ps_escape_char e) with (@None N); [congruence|].
    unfold ps_escape_char. simpl in Hn.
    repeat match goal with |- context [ceqb e ?k] =>
      let E := fresh in destruct (ceqb e k) eqn:E; [apply ceqb_eq in E; exfalso; apply Hn; subst; auto 10|clear E] end.
    reflexivity.
Qed.
Lemma parse_string_trailing m t : decodes m t -> parse_string (34%N :: (m ++ [92%N]) ++ [34%N]) = Some t.
Proof.
  intro H. unfold parse_string. rewrite slice_middle_quoted.
  assert (cmem 92 (m ++ [92%N]) = true) as ->.
  { apply cmem_In. apply in_app_iff. right. left. auto. }
  f_equal. apply ps_loop_trailing; auto.
Qed.
Lemma decodes_total : forall n m, length m <= n -> (exists t, decodes m t) \/ exists m' t, m = m' ++ [92%N] /\ decodes m' t.
Proof.
  induction n as [|n IH]; intros m Hl; destruct m as [|c r]; try (left; exists []; constructor); [simpl in Hl; lia|].
  destruct (N.eq_dec c 92) as [->|Hc].
  - destruct r as [|e r]; [right; exists [], []; split; [reflexivity|constructor]|].
    assert (Hstep : forall t r', decodes r' t -> exists t', decodes (92%N :: e :: r') t').
    { intros t r' Hd. destruct (In_dec N.eq_dec e [92; 34; 39; 114; 110; 116]%N) as [Hin|Hin].
      - simpl in Hin. destruct Hin as [<-|[<-|[<-|[<-|[<-|[<-|[]]]]]]]; eexists; eapply dec_esc; eauto; simpl; auto 10.
      - eexists. apply dec_other; eauto. }
    destruct (IH r ltac:(simpl in Hl; lia)) as [[t Hd]|(m' & t & -> & Hd)].
    + left. eauto.
    + right. destruct (Hstep _ _ Hd) as [t' Ht']. exists (92%N :: e :: m'), t'. auto.
  - destruct (IH r ltac:(simpl in Hl; lia)) as [[t Hd]|(m' & t & -> & Hd)].
    + left. exists (c :: t). constructor; auto.
    + right. exists (c :: m'), (c :: t). split; auto. constructor; auto.
Qed.

(** *** parse_boolean *)
Lemma bool_lookup_spec l s b : (forall n1 b1 n2 b2, In (n1, b1) l -> In (n2, b2) l -> slower n1 = slower n2 -> b1 = b2) ->
  bool_lookup l s = Some b <-> exists n, In (n, b) l /\ slower n = slower s.
Proof.
  induction l as [|[n v] l IH]; intros Hu; cbn [bool_lookup].
  - split; [discriminate|]. intros (n & [] & _).
  - unfold eq_nocase. destruct (seqb (slower n) (slower s)) eqn:E.
    + apply seqb_eq in E. split.
      * intros [= ->]. exists n. split; [left; auto|auto].
      * intros (n' & [[= <- <-]|Hin] & E'); auto.
        f_equal. apply (Hu n v n' b); [left; auto|right; auto|congruence].
    + rewrite IH by (intros; eapply Hu; [right|right|]; eauto). split.
      * intros (n' & Hin & E'). exists n'. split; [right; auto|auto].
      * intros (n' & [[= <- <-]|Hin] & E'); [|eauto]. rewrite E', seqb_refl in E. discriminate.
Qed.

(** *** conditions *)
Lemma cond_loop_spec values cs : forall req pro pre had,
  cond_loop values cs (req, pro, pre, had) =
    (req && forallb (fun c => match c_type c with Required => smem (c_value c) values | _ => true end) cs,
     pro && forallb (fun c => match c_type c with Prohibited => negb (smem (c_value c) values) | _ => true end) cs,
     pre || existsb (fun c => match c_type c with Present => smem (c_value c) values | _ => false end) cs,
     had || existsb (fun c => match c_type c with Present => true | _ => false end) cs).
Proof.
  induction cs as [|c cs IH]; intros req pro pre had; cbn [cond_loop forallb existsb].
  - rewrite !andb_true_r, !orb_false_r. reflexivity.
  - destruct (c_type c); rewrite IH; cbn [andb orb]; rewrite ?andb_assoc, ?orb_assoc, ?orb_true_r, ?orb_true_l; try reflexivity.
Qed.
Lemma cond_check_spec cs values : cond_check cs values = true <->
  (forall c, In c cs -> c_type c = Required -> In (c_value c) values) /\
  (forall c, In c cs -> c_type c = Prohibited -> ~ In (c_value c) values) /\
  ((exists c, In c cs /\ c_type c = Present) -> exists c, In c cs /\ c_type c = Present /\ In (c_value c) values).
Proof.
  unfold cond_check. rewrite cond_loop_spec. cbn [andb orb]. rewrite !andb_true_iff, !forallb_forall.
  set (A := existsb (fun c => match c_type c with Present => true | _ => false end) cs).
  set (B := existsb (fun c => match c_type c with Present => smem (c_value c) values | _ => false end) cs).
  assert (HA : A = true <-> exists c, In c cs /\ c_type c = Present).
  { unfold A. rewrite existsb_exists. split; intros (c & Hc & H); exists c; split; auto; destruct (c_type c); auto; discriminate. }
  assert (HB : B = true <-> exists c, In c cs /\ c_type c = Present /\ In (c_value c) values).
  { unfold B. rewrite existsb_exists. split.
    - intros (c & Hc & H). exists c. destruct (c_type c) eqn:E; try discriminate. apply smem_In in H. auto.
    - intros (c & Hc & H1 & H2). exists c. rewrite H1. split; auto. apply smem_In. auto. }
  split.
  - intros [[H1 H2] H3]. repeat split.
    + intros c Hc E. specialize (H1 c Hc). rewrite E in H1. apply smem_In. auto.
    + intros c Hc E Hin. specialize (H2 c Hc). rewrite E in H2. apply smem_In in Hin. rewrite Hin in H2. discriminate.
    + intro He. apply HA in He. rewrite He in H3. apply HB. exact H3.
  - intros (H1 & H2 & H3). repeat split.
    + intros c Hc. destruct (c_type c) eqn:E; auto. apply smem_In. auto.
    + intros c Hc. destruct (c_type c) eqn:E; auto. apply negb_true_iff. destruct (smem (c_value c) values) eqn:Es; auto.
      apply smem_In in Es. exfalso. eapply H2; eauto.
    + destruct A; auto. simpl. apply HB, H3, HA. reflexivity.
Qed.

(** *** words *)
Lemma words_total sep s : exists ws, words sep s ws.
Proof.
  induction s as [|c s [ws H]]; [eexists; constructor|].
  destruct (sep c) eqn:E; [eexists; apply words_sep; eauto|].
  inversion H as [|d s' ws' Hd H'|w s' ws' Hw Hf Hs H']; subst.
  - exists [[c]]. apply (words_word sep [c] [] []); [discriminate|constructor; auto|auto|constructor].
  - exists ([c] :: ws). apply (words_word sep [c] (d :: s') ws); [discriminate|constructor; auto| |constructor; auto].
    right. eauto.
  - exists ((c :: w) :: ws'). apply (words_word sep (c :: w) s' ws'); auto. discriminate.
Qed.
Lemma split_char_nosep d w : Forall (fun c => ceqb c d = false) w -> split_char d w = [w].
Proof. induction 1 as [|c w Hc Hw IH]; simpl; auto. rewrite Hc, IH. reflexivity. Qed.
Lemma split_char_word d w s : Forall (fun c => ceqb c d = false) w ->
  split_char d (w ++ d :: s) = w :: split_char d s.
Proof.
  induction 1 as [|c w Hc Hw IH]; cbn [app split_char].
  - rewrite ceqb_refl. reflexivity.
  - rewrite Hc, IH. reflexivity.
Qed.
Definition nonempty (s : str) : bool := match s with [] => false | _ => true end.
Lemma words_split_char d s ws : words (fun c => ceqb c d) s ws -> filter nonempty (split_char d s) = ws.
Proof.
  induction 1 as [|c s ws Hc Hw IH|w s ws Hn Hf Hs Hw IH].
  - reflexivity.
  - cbn [split_char]. rewrite Hc. simpl. auto.
  - destruct Hs as [->|(c & s' & -> & Hc)].
    + rewrite app_nil_r, split_char_nosep by auto. simpl in *. destruct w; [contradiction|]. simpl. congruence.
    + apply ceqb_eq in Hc as ->. rewrite split_char_word by auto. cbn [filter].
      destruct w; [contradiction|]. cbn [nonempty]. f_equal.
      cbn [split_char] in IH. rewrite ceqb_refl in IH. simpl in IH. auto.
Qed.
Lemma split_ws_aux_word w : forall cur s, Forall (fun c => is_ws c = false) w ->
  split_ws_aux cur (w ++ s) = split_ws_aux (rev w ++ cur) s.
Proof.
  induction w as [|c w IH]; intros cur s H; auto. inversion H; subst. cbn [app split_ws_aux].
  rewrite H2, IH by auto. cbn [rev]. rewrite <- app_assoc. reflexivity.
Qed.
Lemma words_split_ws s ws : words is_ws s ws -> split_ws s = ws.
Proof.
  unfold split_ws. induction 1 as [|c s ws Hc Hw IH|w s ws Hn Hf Hs Hw IH].
  - reflexivity.
  - cbn [split_ws_aux]. rewrite Hc. auto.
  - rewrite split_ws_aux_word by auto. rewrite app_nil_r.
    destruct (rev w) as [|x r] eqn:E.
    { exfalso. apply Hn. rewrite <- (rev_involutive w), E. reflexivity. }
    destruct Hs as [->|(c & s' & -> & Hc)].
    + cbn [split_ws_aux]. cbn in IH. rewrite <- IH, <- E, rev_involutive. reflexivity.
    + cbn [split_ws_aux] in *. rewrite Hc in *. rewrite <- E, rev_involutive. f_equal. auto.
Qed.

(** *** isolate_ids *)
Definition iso (w : str) : str := if starts_with (lit "u-") w then w else lit "u-" ++ w.
Lemma iso_isolated w : isolated_id w (iso w).
Proof.
  unfold iso. destruct (starts_with (lit "u-") w) eqn:E.
  - apply starts_with_iff in E as [r ->]. apply iso_kept.
  - apply iso_added. intros r ->.
    assert (starts_with (lit "u-") (lit "u-" ++ r) = true) by (apply starts_with_iff; eauto). congruence.
Qed.
Lemma iso_nonempty w : w <> [] -> iso w <> [].
Proof. unfold iso. destruct (starts_with _ w); auto. discriminate. Qed.
Lemma isolate_loop_join ws : forall acc, Forall (fun w => w <> []) ws ->
  isolate_loop acc ws = match acc, ws with
    | [], _ => join [32%N] (map iso ws)
    | _, [] => acc
    | _, _ => acc ++ [32%N] ++ join [32%N] (map iso ws)
    end.
Proof.
  induction ws as [|w ws IH]; intros acc H; inversion H as [|? ? Hw Hws]; subst; cbn [isolate_loop].
  - destruct acc; reflexivity.
  - rewrite IH by auto.
    assert (E : (if starts_with (lit "u-") w then match acc with [] => acc | _ => acc ++ [32%N] end
             else (match acc with [] => acc | _ => acc ++ [32%N] end) ++ lit "u-") ++ w
         = (match acc with [] => acc | _ => acc ++ [32%N] end) ++ iso w).
    { unfold iso. destruct (starts_with (lit "u-") w); auto. rewrite <- app_assoc. reflexivity. }
    rewrite E. clear E.
    pose proof (iso_nonempty w Hw) as Hi.
    destruct acc as [|a acc].
    + cbn [app]. destruct (iso w) as [|x i] eqn:Ei; [contradiction|]. rewrite <- Ei.
      destruct ws as [|w2 ws]; cbn [map join]; auto.
    + remember ((a :: acc) ++ [32%N]) as p eqn:Ep.
      destruct (p ++ iso w) as [|y q] eqn:Eq.
      { apply app_eq_nil in Eq as [_ Eq]. contradiction. }
      rewrite <- Eq. clear Eq y q. subst p. rewrite <- !app_assoc.
      destruct ws as [|w2 ws]; cbn [map join]; auto.
Qed.
Lemma words_nonempty sep s ws : words sep s ws -> Forall (fun w => w <> [] /\ Forall (fun c => sep c = false) w) ws.
Proof. induction 1; auto. Qed.
Lemma isolate_words s ws : words is_ws s ws -> isolate_ids s = join [32%N] (map iso ws).
Proof.
  intro H. unfold isolate_ids. rewrite (words_split_ws _ _ H), isolate_loop_join; auto.
  apply words_nonempty in H. eapply Forall_impl; [|exact H]. intros w [? _]; auto.
Qed.
Lemma words_join ws : Forall (fun w => w <> [] /\ Forall (fun c => is_ws c = false) w) ws ->
  words is_ws (join [32%N] ws) ws.
Proof.
  induction ws as [|w ws IH]; intro H; [constructor|]. inversion H as [|? ? [Hn Hf] Hws]; subst.
  destruct ws as [|w2 ws].
  - cbn [join]. rewrite <- (app_nil_r w) at 1. apply words_word; auto; constructor.
  - change (join [32%N] (w :: w2 :: ws)) with (w ++ 32%N :: join [32%N] (w2 :: ws)).
    apply words_word; auto; [right; eauto|]. apply words_sep; auto.
Qed.
Lemma iso_idem w : iso (iso w) = iso w.
Proof.
  unfold iso. destruct (starts_with (lit "u-") w) eqn:E; [rewrite E; reflexivity|].
  assert (starts_with (lit "u-") (lit "u-" ++ w) = true) as -> by (apply starts_with_iff; eauto). reflexivity.
Qed.
Lemma iso_nows w : Forall (fun c => is_ws c = false) w -> Forall (fun c => is_ws c = false) (iso w).
Proof. unfold iso. intro H. destruct (starts_with _ w); auto. apply Forall_app; split; auto. repeat constructor. Qed.
Lemma isolate_idem s : isolate_ids (isolate_ids s) = isolate_ids s.
Proof.
  destruct (words_total is_ws s) as [ws H]. rewrite (isolate_words _ _ H).
  pose proof (words_nonempty _ _ _ H) as Hn.
  rewrite (isolate_words (join [32%N] (map iso ws)) (map iso ws)).
  - rewrite map_map. f_equal. apply map_ext. apply iso_idem.
  - apply words_join. rewrite Forall_map. eapply Forall_impl; [|exact Hn].
    intros w [H1 H2]. split; [apply iso_nonempty|apply iso_nows]; auto.
Qed.

(** *** escape *)
Lemma escape_char_cases c : 
  (escape_char c = None /\ ~ In c [62; 60; 38; 39; 34; 0]%N) \/
  (c = 0%N /\ escape_char c = Some [32%N]) \/
  (exists e, escape_char c = Some e /\ In e entities /\ forall r, html_decode (e ++ r) = c :: html_decode r).
Proof.
  unfold escape_char.
  destruct (ceqb c 62) eqn:E1; [apply ceqb_eq in E1 as ->; right; right; eexists; split; [reflexivity|split; [simpl; auto|reflexivity]]|].
  destruct (ceqb c 60) eqn:E2; [apply ceqb_eq in E2 as ->; right; right; eexists; split; [reflexivity|split; [simpl; auto|reflexivity]]|].
  destruct (ceqb c 38) eqn:E3; [apply ceqb_eq in E3 as ->; right; right; eexists; split; [reflexivity|split; [simpl; auto|reflexivity]]|].
  destruct (ceqb c 39) eqn:E4; [apply ceqb_eq in E4 as ->; right; right; eexists; split; [reflexivity|split; [simpl; auto|reflexivity]]|].
  destruct (ceqb c 34) eqn:E5; [apply ceqb_eq in E5 as ->; right; right; eexists; split; [reflexivity|split; [simpl; auto 10|reflexivity]]|].
  destruct (ceqb c 0) eqn:E6; [apply ceqb_eq in E6 as ->; right; left; auto|].
  left. split; auto. simpl. intros H.
  apply ceqb_neq in E1, E2, E3, E4, E5, E6. intuition congruence.
Qed.
Lemma html_decode_other c r : c <> 38%N -> html_decode (c :: r) = c :: html_decode r.
Proof.
  intro H. destruct c as [|p]; [reflexivity|].
  do 6 (destruct p as [p|p|]; try reflexivity). contradiction.
Qed.
Lemma escape_decode s : html_decode (escape s) = nul_to_space s.
Proof.
  induction s as [|c s IH]; cbn [escape nul_to_space map]; auto.
  destruct (escape_char_cases c) as [[E Hn]|[[-> E]|(e & E & Hin & Hd)]]; rewrite E.
  - assert (c <> 38%N) by (intros ->; apply Hn; simpl; auto).
    rewrite html_decode_other by auto.
    destruct (ceqb c 0) eqn:E0; [apply ceqb_eq in E0 as ->; exfalso; apply Hn; simpl; auto 10|]. f_equal. auto.
  - cbn [app]. rewrite html_decode_other by discriminate. f_equal. auto.
  - rewrite Hd. destruct (ceqb c 0) eqn:E0; [apply ceqb_eq in E0 as ->; vm_compute in E; injection E as <-; simpl in Hin; intuition discriminate|]. f_equal. auto.
Qed.
Lemma escape_safe s : Forall (fun c => ~ In c [60; 62; 34; 39; 0]%N) (escape s).
Proof.
  induction s as [|c s IH]; cbn [escape]; auto.
  destruct (escape_char_cases c) as [[E Hn]|[[-> E]|(e & E & Hin & _)]]; rewrite E.
  - constructor; auto. simpl in *. tauto.
  - constructor; auto. simpl. intuition discriminate.
  - apply Forall_app; split; auto. unfold entities in Hin. cbn [In] in Hin.
    destruct Hin as [<-|[<-|[<-|[<-|[<-|[]]]]]]; repeat constructor; simpl; intuition discriminate.
Qed.
Lemma escape_amp s : forall a b, escape s = a ++ 38%N :: b ->
  exists e r, In e entities /\ 38%N :: b = e ++ r.
Proof.
  induction s as [|c s IH]; cbn [escape]; intros a b Eq; [destruct a; discriminate|].
  destruct (escape_char_cases c) as [[E Hn]|[[-> E]|(e & E & Hin & _)]]; rewrite E in Eq.
  - destruct a as [|x a]; [injection Eq as -> _; exfalso; apply Hn; simpl; auto|].
    injection Eq as -> Eq. eauto.
  - destruct a as [|x a]; [discriminate|]. injection Eq as _ Eq. eauto.
  - assert (He : exists e', e = 38%N :: e' /\ ~ In 38%N e').
    { unfold entities in Hin. cbn [In] in Hin.
      destruct Hin as [<-|[<-|[<-|[<-|[<-|[]]]]]]; eexists; (split; [reflexivity|simpl; intuition discriminate]). }
    destruct He as (e' & -> & Hno).
    destruct a as [|x a].
    + exists (38%N :: e'), (escape s). split; [auto|]. cbn [app] in Eq |- *. congruence.
    + cbn [app] in Eq. injection Eq as <- Eq.
      assert (exists l, a = e' ++ l /\ escape s = l ++ 38%N :: b) as (l & -> & El); [|eauto].
      clear -Eq Hno. revert a Eq; induction e' as [|y e' IH]; intros a Eq; [exists a; auto|].
      destruct a as [|z a]; [cbn [app] in Eq; injection Eq as -> _; exfalso; apply Hno; left; auto|].
      cbn [app] in Eq. injection Eq as -> Eq.
      destruct (IH ltac:(intro X; apply Hno; right; auto) a Eq) as (l & -> & El). exists l. auto.
Qed.

(** *** NonEmptyVec *)
Fixpoint nev_run {A} (ops : list (stack_op A)) (v : nev A) : list (option A) * nev A :=
  match ops with
  | [] => ([], v)
  | Push x :: ops' => nev_run ops' (nev_push v x)
  | Pop :: ops' => let '(o, v') := nev_pop v in let '(os, v'') := nev_run ops' v' in (o :: os, v'')
  end.
Lemma nev_run_spec {A} (ops : list (stack_op A)) : forall x l,
  nev_run ops (NEV x l) = (fst (spec_stack ops l), NEV x (snd (spec_stack ops l))).
Proof.
  induction ops as [|[y|] ops IH]; intros x l; cbn [nev_run spec_stack].
  - reflexivity.
  - unfold nev_push. cbn [nev_first nev_others]. apply IH.
  - unfold nev_pop, spec_pop. cbn [nev_first nev_others]. destruct (rev l) as [|y r] eqn:E.
    + assert (l = []) as -> by (rewrite <- (rev_involutive l), E; reflexivity).
      rewrite IH. destruct (spec_stack ops []); reflexivity.
    + rewrite IH. destruct (spec_stack ops (rev r)); reflexivity.
Qed.
Lemma nev_last_spec {A} (v : nev A) : exists l, nev_to_list v = l ++ [nev_last v].
Proof.
  destruct v as [x l]. unfold nev_to_list, nev_last. cbn [nev_first nev_others].
  destruct (rev l) as [|y r] eqn:E.
  - assert (l = []) as -> by (rewrite <- (rev_involutive l), E; reflexivity). exists []. reflexivity.
  - exists (x :: rev r). rewrite <- (rev_involutive l), E. reflexivity.
Qed.

Lemma quote_decodes t : decodes (quote_inside t) t.
Proof.
  unfold quote_inside. induction t as [|c t IH]; cbn [flat_map]; [constructor|].
  destruct (N.eq_dec c 92) as [->|H1]; [apply dec_esc; simpl; auto|].
  destruct (N.eq_dec c 34) as [->|H2]; [apply dec_esc; simpl; auto|].
  destruct (N.eq_dec c 10) as [->|H3]; [apply dec_esc; simpl; auto 10|].
  assert (E : match c with 92%N => [92; 92]%N | 34%N => [92; 34]%N | 10%N => [92; 110]%N | _ => [c] end = [c]).
  { destruct c as [|p]; auto. do 7 (destruct p as [p|p|]; try first [reflexivity | congruence]). }
  rewrite E. cbn [app]. apply dec_char; auto.
Qed.

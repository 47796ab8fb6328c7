(** PropIds.v -- C62: the ids an author chooses and the ids a page gives out itself. *)
From Verif Require Import Base BaseLemmas Strings SpecStrings StringsLemmas PropStrings Links Attr SpecAttr Html SpecHtml Lexer Tree Text Toc PState Parse
  SpecParse SpecPage ParseInv ParseTestEnv PropParse PropPage Render SpecReader SpecRender RenderDom RenderNames RenderTestEnv PropRender RenderView PropView.

(** An id in the author's name space. *)
Definition user_word (w : str) : Prop := exists r, w = lit "u-" ++ r.
(** What Random makes, random.rs:53-69. *)
Definition random_ids (R : renv) : Prop := forall n, exists r, re_random R n = lit "wj-id-" ++ r /\ Forall (fun c => is_alnum c = true) r.

(** *** Words *)
Fixpoint wl (sep : char -> bool) (s : str) : list str :=
  match s with
  | [] => []
  | c :: s' => if sep c then wl sep s'
               else match s' with
                    | [] => [[c]]
                    | d :: _ => if sep d then [c] :: wl sep s' else match wl sep s' with w :: ws => (c :: w) :: ws | [] => [[c]] end
                    end
  end.
Lemma words_wl sep s ws : words sep s ws -> wl sep s = ws.
Proof.
  induction 1 as [|c s ws Hc _ IH|w s ws Hw Hf Hs _ IH]; [reflexivity|cbn [wl]; rewrite Hc; auto|].
  induction w as [|c w IHw]; [contradiction|]. inversion Hf as [|? ? Hc Hf']; subst. cbn [app wl]. rewrite Hc.
  destruct w as [|d w].
  - cbn [app]. destruct Hs as [->|(d & s' & -> & Hd)]; [reflexivity|]. rewrite Hd. reflexivity.
  - cbn [app] in *. inversion Hf' as [|? ? Hd _]; subst. rewrite Hd. rewrite IHw; auto. discriminate.
Qed.
Lemma words_det sep s ws ws' : words sep s ws -> words sep s ws' -> ws = ws'.
Proof. intros H H'. apply words_wl in H, H'. congruence. Qed.
Lemma words_app sep a wa c b wb : words sep a wa -> sep c = true -> words sep b wb -> words sep (a ++ c :: b) (wa ++ wb).
Proof.
  intros Ha Hc Hb. induction Ha as [|d s ws Hd _ IH|w s ws Hw Hf Hs _ IH]; cbn [app].
  - apply words_sep; auto.
  - apply words_sep; auto.
  - rewrite <- app_assoc. apply words_word; auto. right. destruct Hs as [->|(d & s' & -> & Hd)]; cbn [app]; eauto.
Qed.
Lemma words_joined sep ws : sep 32%N = true -> Forall (fun w => w <> [] /\ Forall (fun c => sep c = false) w) ws -> words sep (join [32%N] ws) ws.
Proof.
  intros Hsp H. induction H as [|w ws [Hn Hf] Hws IH]; [constructor|].
  assert (Hw : words sep w [w]) by (rewrite <- (app_nil_r w) at 1; apply words_word; auto; constructor).
  destruct ws as [|w2 ws]; [exact Hw|]. change (words sep (w ++ 32%N :: join [32%N] (w2 :: ws)) ([w] ++ w2 :: ws)). apply words_app; auto.
Qed.
Lemma words_chars sep s ws w c : words sep s ws -> In w ws -> In c w -> In c s.
Proof.
  induction 1 as [|d s ws Hd _ IH|w' s ws Hw Hf Hs _ IH]; intros Hi Hc; [destruct Hi|right; auto|].
  apply in_or_app. destruct Hi as [<-|Hi]; auto.
Qed.
Lemma html_ws c : is_ws c = false -> html_space c = false.
Proof.
  intro H. destruct (html_space c) eqn:E; auto. exfalso. apply cmem_In in E. cbn in E.
  repeat (destruct E as [<-|E]; [vm_compute in H; discriminate H|]). destruct E.
Qed.
(** *** No NULs *)
Lemma substr_in q s c : substr q s -> In c q -> In c s.
Proof. intros (a & b & ->) H. apply in_or_app. right. apply in_or_app. auto. Qed.
Lemma ps_loop_in s : forall w c, In c (ps_loop w s) -> In c s \/ c <> 0%N.
Proof.
  induction s as [|x s IH]; intros w c H; [destruct H|]. cbn [ps_loop] in H.
  assert (Hk : In c (ps_loop false s) -> In c (x :: s) \/ c <> 0%N) by (intro X; apply IH in X as [X|X]; [left; right; auto|right; auto]).
  destruct w.
  - destruct (ps_escape_char x) as [r|] eqn:Er.
    + destruct H as [<-|H]; auto. right. unfold ps_escape_char in Er.
      repeat match type of Er with (if ?b then _ else _) = _ => destruct b; [injection Er as <-; discriminate|] end. discriminate Er.
    + destruct H as [<-|[<-|H]]; auto; [right; discriminate|left; left; auto].
  - destruct (ceqb x 92).
    + apply IH in H as [H|H]; [left; right; auto|right; auto].
    + destruct H as [<-|H]; auto. left; left; auto.
Qed.
Lemma author_no_nul E s : author_text E s -> ~ In 0%N (en_text E) -> ~ In 0%N s.
Proof.
  intros Ha Hn Hi. apply Hn. destruct Ha as [Ha|(q & Hq & Hp)]; [eapply substr_in; eauto|].
  apply (substr_in q); auto. unfold parse_string in Hp. destruct (slice_middle q) as [[m|]|] eqn:Em; try discriminate.
  - assert (Hm : substr m q).
    { unfold slice_middle in Em. destruct (_ || _); [discriminate|]. destruct (bslice q 1 (blen q - 1)) as [m'|] eqn:Eb; [|discriminate].
      injection Em as ->. apply bslice_inv in Eb as (a & b & -> & _). exists a, b. reflexivity. }
    apply (substr_in m); auto. destruct (cmem 92 m).
    + injection Hp as <-. apply ps_loop_in in Hi as [Hi|Hi]; auto. contradiction.
    + injection Hp as <-. auto.
  - injection Hp as <-. auto.
Qed.
Lemma isolated_words s : ~ In 0%N s -> exists ws, words html_space (isolate_ids s) ws /\ Forall user_word ws /\ ~ In 0%N (isolate_ids s).
Proof.
  intro Hn. destruct (words_total is_ws s) as [ws H]. rewrite (isolate_words s ws H). exists (map iso ws). conj.
  - apply words_joined; [reflexivity|]. apply Forall_map. eapply Forall_impl; [|exact (words_nonempty _ _ _ H)].
    intros w [H1 H2]. split; [apply iso_nonempty; auto|]. eapply Forall_impl; [|apply iso_nows; exact H2]. intros c. apply html_ws.
  - apply Forall_map, Forall_forall. intros w _. unfold user_word. destruct (iso_isolated w); eauto.
  - assert (X : forall w, In w (map iso ws) -> ~ In 0%N w).
    { intros w Hw Hi. apply in_map_iff in Hw as (w0 & <- & Hw). assert (Y : In 0%N w0).
      { unfold iso in Hi. destruct (starts_with _ w0); auto. apply in_app_or in Hi as [Hi|Hi]; auto. cbn in Hi. intuition discriminate. }
      apply Hn. eapply words_chars; eauto. }
    revert X. generalize (map iso ws) as l. induction l as [|w [|w2 l] IH]; intros X Hi; [destruct Hi|eapply X; [left; reflexivity|exact Hi]|].
    change (In 0%N (w ++ 32%N :: join [32%N] (w2 :: l))) in Hi. apply in_app_or in Hi as [Hi|[Hi|Hi]]; [eapply X; [left; reflexivity|exact Hi]|discriminate|].
    apply IH in Hi; auto. intros w' Hw'. apply X. right. auto.
Qed.
Lemma dec_digits n : Forall (fun c => is_digit c = true) (dec n) /\ dec n <> [].
Proof.
  unfold dec. assert (X : forall u, Forall (fun c => is_digit c = true) (lit (DecimalString.NilEmpty.string_of_uint u))).
  { induction u; cbn; constructor; auto. }
  unfold DecimalString.NilZero.string_of_uint. destruct (Nat.to_uint n) eqn:E; try (rewrite <- E; split; [apply X|rewrite E; discriminate]); try (split; [exact (X _)|discriminate]).
  split; [repeat constructor|discriminate].
Qed.
(** Letters, digits and hyphens. *)
Definition id_char (c : char) : bool := is_alnum c || ceqb c 45.
Lemma id_char_ok c : id_char c = true -> is_ws c = false /\ c <> 0%N.
Proof.
  unfold id_char, is_alnum, is_alpha, is_upper, is_lower, is_digit. intro H.
  assert (X : (c = 45 \/ 48 <= c <= 57 \/ 65 <= c <= 90 \/ 97 <= c <= 122)%N).
  { apply orb_true_iff in H as [H|H]; [|apply N.eqb_eq in H; auto].
    repeat match goal with H : _ || _ = true |- _ => apply orb_true_iff in H as [H|H] | H : _ && _ = true |- _ => apply andb_true_iff in H as [? ?] end;
      repeat match goal with H : (_ <=? _)%N = true |- _ => apply N.leb_le in H end; lia. }
  split; [|lia]. unfold is_ws. repeat (apply orb_false_iff; split); try (apply N.eqb_neq; lia); apply andb_false_iff;
    (left; apply N.leb_gt; lia) || (right; apply N.leb_gt; lia).
Qed.
Lemma dec_id n : Forall (fun c => id_char c = true) (dec n).
Proof. eapply Forall_impl; [|apply dec_digits]. intros c H. unfold id_char, is_alnum. cbv beta in H. rewrite H. rewrite orb_true_r. reflexivity. Qed.
Lemma page_id_word R p : random_ids R -> page_id R p -> p <> [] /\ Forall (fun c => id_char c = true) p /\ ~ user_word p.
Proof.
  intros Hr H. assert (Hl : forall s, forallb id_char (lit s) = true -> Forall (fun c => id_char c = true) (lit s)) by (intros s Hs; apply Forall_forall; rewrite forallb_forall in Hs; exact Hs).
  destruct H as [s Hs|n|n m|n m|n].
  - cbn in Hs. destruct Hs as [<-|[<-|[<-|[]]]]; (conj; [discriminate|repeat constructor|intros [r Hu]; discriminate Hu]).
  - conj; [discriminate|apply Forall_app; split; [apply Hl; reflexivity|apply dec_id]|intros [r Hu]; discriminate Hu].
  - conj; [discriminate| |intros [r Hu]; discriminate Hu]. apply Forall_app; split; [apply Hl; reflexivity|]. apply Forall_app. split; [apply dec_id|]. apply Forall_app. split; [apply Hl; reflexivity|apply dec_id].
  - conj; [discriminate| |intros [r Hu]; discriminate Hu]. apply Forall_app; split; [apply Hl; reflexivity|]. apply Forall_app. split; [apply dec_id|]. apply Forall_app. split; [apply Hl; reflexivity|apply dec_id].
  - destruct (Hr n) as (r & -> & Hf). conj; [discriminate| |intros [r' Hu]; discriminate Hu]. apply Forall_app. split; [apply Hl; reflexivity|].
    eapply Forall_impl; [|exact Hf]. intros c Hc. unfold id_char. cbv beta in Hc. rewrite Hc. reflexivity.
Qed.
Lemma page_words R ws : random_ids R -> Forall (page_id R) ws -> words html_space (join [32%N] ws) ws /\ ~ In 0%N (join [32%N] ws).
Proof.
  intros Hr Hf. split.
  - apply words_joined; [reflexivity|]. eapply Forall_impl; [|exact Hf]. intros p Hp. destruct (page_id_word R p Hr Hp) as (H1 & H2 & _).
    split; auto. eapply Forall_impl; [|exact H2]. intros c Hc. apply html_ws, (id_char_ok c Hc).
  - induction Hf as [|w ws Hw Hf IH]; [intros []|]. destruct (page_id_word R w Hr Hw) as (_ & H2 & _). rewrite Forall_forall in H2.
    assert (Hn : ~ In 0%N w) by (intro X; apply H2 in X; discriminate X).
    destruct ws as [|w2 ws]; [exact Hn|]. change (~ In 0%N (w ++ 32%N :: join [32%N] (w2 :: ws))). intro Hi. apply in_app_or in Hi as [Hi|[Hi|Hi]]; auto. discriminate.
Qed.

(** With isolate_user_ids on, every word of every [id] a browser reads is in the author's name space
    (it begins with u-) or is one of the page's own ids. *)
Theorem C62_ids : forall E toks t R n body i e tag attrs v ws, parsed E toks t -> en_isolate E = true ->
  ~ In 0%N (en_text E) -> random_ids R ->
  proper_names t -> css_contained R t -> mathml_contained R -> html_render R n t = Html body i e ->
  In (TkOpen tag attrs) (html_tokens body) -> In (lit "id", v) attrs -> words html_space v ws ->
  from_mathml R tag attrs \/ Forall (fun w => user_word w \/ page_id R w) ws.
Proof.
  intros E toks t R n body i e tag attrs v ws Hp Hi Hnul Hrand Hn Hc Hm Hr Hin Hv Hws. pose proof (C59_tags _ _ _ _ _ _ _ _ _ _ Hp Hn Hc Hm Hr Hin) as Hk.
  apply (known_cases E toks) in Hk as [Hk|(H1 & H2 & H3)]; auto. right. destruct (H3 _ _ Hv) as (w & -> & Hw).
  pose (fine := fun o => ~ In 0%N o /\ exists l, words html_space o l /\ Forall (fun w => user_word w \/ page_id R w) l).
  assert (Huser : forall x id, on_page t x -> x = EAnchorName id \/ (exists m, In m (attrs_of x) /\ In (lit "id", id) m) -> fine id).
  { intros x id Hx Hid. destruct (C49_ids_isolated E toks t x id Hp Hx Hid) as (s & Hs & ->). rewrite Hi.
    destruct (isolated_words s (author_no_nul E s Hs Hnul)) as (l & Hl & Hf & Hz). split; auto. exists l. split; auto. eapply Forall_impl; [|exact Hf]. auto. }
  assert (Hown : forall o, own_attr R t tag (lit "id") o -> fine o).
  { intros o Ho. inversion Ho; subst; [exfalso; apply smem_In in H; discriminate|].
    match goal with H : own_id _ _ _ |- _ => destruct H as [l Hl|id Hid] end.
    - destruct (page_words R l Hrand Hl). split; auto. exists l. split; auto. eapply Forall_impl; [|exact Hl]. auto.
    - apply (Huser (EAnchorName id)); auto. destruct (here_cases E toks t Hp _ Hid) as [Ho'|[(its & Ho' & _)|(u & nm & Ho')]]; [exact Ho'|discriminate|discriminate]. }
  assert (Hfine : fine w).
  { inversion Hw; subst.
    - auto.
    - eapply Huser; eauto.
    - assert (Hu : fine u) by (eapply Huser; eauto). destruct (Hown _ H) as (Z1 & l & L1 & L2), Hu as (Z2 & l' & L3 & L4). split.
      + intro X. apply in_app_or in X as [X|[X|X]]; auto. discriminate.
      + exists (l ++ l'). split; [apply words_app; auto|]. apply Forall_app. auto. }
  destruct Hfine as (Hz & l & L1 & L2). rewrite shown_id in Hws by exact Hz. rewrite (words_det _ _ _ _ Hws L1). exact L2.
Qed.
Print Assumptions C62_ids.
(** The two kinds do not overlap: no id of the author is ever one of the page's. *)
Theorem C62_no_collision : forall R w, random_ids R -> user_word w -> page_id R w -> False.
Proof. intros R w Hr Hu Hp. exact (proj2 (proj2 (page_id_word R w Hr Hp)) Hu). Qed.
Print Assumptions C62_no_collision.
(** A page with ids of every kind, rendered with isolation on. *)
Definition isolating (x : str) : env :=
  let E := test_env x in
  ENV x (en_page_syntax E) true (en_interwiki E) (en_site E) (en_tags E) (en_category E) (en_debug E) (en_word E) (en_normalize E)
      (en_entity E) (en_date E) (en_tz E) (en_date_tz E) (en_date_format E).
Definition id_page : str := lit "+ h
[[div id=""toc0 u-b""]]a[[/div]] [[# wj-toc]]
[[toc id=""c""]]".
Lemma release_random : random_ids release_renv.
Proof.
  assert (H : forallb (fun s => starts_with (lit "wj-id-") s && forallb is_alnum (skipn 6 s)) T_IDS = true) by (vm_compute; reflexivity).
  rewrite forallb_forall in H.
  intro n. unfold release_renv, test_renv. cbn [re_random]. destruct (nth_in_or_default n T_IDS (lit "wj-id-" ++ dec n)) as [Hi|Hi].
  - specialize (H _ Hi). revert H. generalize (nth n T_IDS (lit "wj-id-" ++ dec n)) as s. intros s H. apply andb_true_iff in H as [H1 H2].
    apply starts_with_iff in H1 as [r ->]. exists r. split; auto. change (skipn 6 (lit "wj-id-" ++ r)) with r in H2. apply Forall_forall. rewrite forallb_forall in H2. auto.
  - rewrite Hi. exists (dec n). split; auto. eapply Forall_impl; [|apply dec_digits]. intros c Hc. cbv beta in Hc. unfold is_alnum. rewrite Hc. apply orb_true_r.
Qed.
Definition id_values (ts : list htoken) : list str :=
  flat_map (fun tk => match tk with TkOpen _ attrs => map snd (filter (fun kv => seqb (fst kv) (lit "id")) attrs) | _ => [] end) ts.
Example C62_case : exists toks t body i e, parsed (isolating id_page) toks t /\ random_ids release_renv /\ ~ In 0%N id_page /\
  html_render release_renv 5 t = Html body i e /\
  id_values (html_tokens body) = map lit ["toc0"; "u-toc0 u-b"; "u-wj-toc"; "wj-toc u-c"; "wj-toc-action-bar"; "wj-toc-list"]%string.
Proof.
  assert (X : match extract_all id_page with
    | Some toks => match parse (isolating id_page) toks with
      | Parsed t => match html_render release_renv 5 t with Html body _ _ => id_values (html_tokens body) | _ => [] end
      | _ => [] end
    | None => [] end = map lit ["toc0"; "u-toc0 u-b"; "u-wj-toc"; "wj-toc u-c"; "wj-toc-action-bar"; "wj-toc-list"]%string) by (vm_compute; reflexivity).
  destruct (extract_all id_page) as [toks|] eqn:Et; [|discriminate X]. destruct (parse (isolating id_page) toks) as [t| |] eqn:Ep; try discriminate X.
  destruct (html_render release_renv 5 t) as [body i e| |] eqn:Er; try discriminate X. exists toks, t, body, i, e. conj; auto.
  - split; auto.
  - exact release_random.
  - intro H. apply cmem_In in H. vm_compute in H. discriminate H.
Qed.

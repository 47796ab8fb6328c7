(** PropPreproc.v -- properties C01-C08 of the preprocessor. *)
From Verif Require Import Base BaseLemmas Regex Preproc PreprocLemmas PreprocFacts PreprocFacts2 PreprocFacts3 SpecPreproc.

(** C07: preprocess always returns a text: no panic (no bad byte offset, no failed [expect]) and the
    loops never need more iterations than there are characters. *)
Theorem C07_preprocess_total : forall s, exists t, preprocess s = ROk t.
Proof. intro s. eexists. apply preprocess_fun. Qed.
Print Assumptions C07_preprocess_total.
Example C07_case : preprocess (lit "a\
b``c''...") = ROk (lit "ab" ++ [8220%N] ++ lit "c" ++ [8221%N] ++ [8230%N]).
Proof. vm_compute. reflexivity. Qed.

(** C01: no carriage return, tab or NUL in the result. *)
Theorem C01_no_control_characters : forall s t, preprocess s = ROk t ->
  ~ In 13%N t /\ ~ In 9%N t /\ ~ In 0%N t.
Proof.
  intros s t H. rewrite preprocess_fun in H. injection H as <-.
  pose proof (preprocess_no_control s) as Hc. rewrite Forall_forall in Hc.
  repeat split; intro X; apply Hc in X; apply X; unfold is_control; auto.
Qed.
Print Assumptions C01_no_control_characters.
Example C01_case : preprocess [97; 13; 10; 9; 98; 0; 99; 13; 100]%N = ROk (lit "a
    b c
d").
Proof. vm_compute. reflexivity. Qed.

(** C02: the result neither begins nor ends with a newline. *)
Theorem C02_no_newline_at_ends : forall s t, preprocess s = ROk t ->
  (forall u, t <> 10%N :: u) /\ (forall u, t <> u ++ [10%N]).
Proof.
  intros s t H. rewrite preprocess_fun in H. injection H as <-.
  destruct (preprocess_ends s) as [H1 H2]. split; intros u E.
  - rewrite E in H1. apply H1. reflexivity.
  - rewrite E, last_char_snoc in H2. apply H2. reflexivity.
Qed.
Print Assumptions C02_no_newline_at_ends.
Example C02_case : preprocess [10; 9; 10; 97; 13; 10; 10]%N = ROk [97%N].
Proof. vm_compute. reflexivity. Qed.

(** C03: tidy text is returned unchanged. *)
Theorem C03_tidy_text_unchanged : forall s, tidy s -> preprocess s = ROk s.
Proof. intros s H. rewrite preprocess_fun, frame; auto. Qed.
Print Assumptions C03_tidy_text_unchanged.
Example C03_case : tidy (lit "**bold** 'x'

 [[div]] y").
Proof.
  change (tidy (lit "**bold** 'x'" ++ [10%N; 10%N] ++ lit " [[div]] y")).
  assert (H : forall l x, forallb (fun c => negb (cmem c [0; 9; 13; 160; 8199; 46; 44; 96; 92]%N) && negb (ceqb c 10)) l = true ->
    In x l -> is_ws x = false -> tidy_line l).
  { intros l x Hl Hx Hw. rewrite forallb_forall in Hl. split; [|split; [|eauto]].
    - apply Forall_forall. intros c Hc Hin. apply Hl in Hc. apply andb_true_iff in Hc as [Hc _].
      apply negb_true_iff in Hc. apply (proj2 (cmem_In _ _)) in Hin. congruence.
    - intro Hc. apply Hl in Hc. apply andb_true_iff in Hc as [_ Hc]. discriminate. }
  apply tidy_cons; [|right; reflexivity|apply tidy_one].
  - apply H with (x := 42%N); vm_compute; auto.
  - apply H with (x := 91%N); vm_compute; auto.
Qed.

(** C04 (full claim, false): "after preprocess no backslash is directly followed by a newline".
    Two backslashes, two newlines: the pass joins the inner pair and does not rescan. *)
Theorem C04_backslash_newline_refuted :
  ~ (forall s t, preprocess s = ROk t -> ~ substr [92; 10]%N t).
Proof.
  intro H. apply (H [92; 92; 10; 10; 120]%N [92; 10; 120]%N); [vm_compute; reflexivity|].
  exists [], [120%N]. reflexivity.
Qed.
Print Assumptions C04_backslash_newline_refuted.

(** C04, the part that holds: texts without two adjacent backslashes. *)
Theorem C04_backslash_newline_partial : forall s t, ~ substr [92; 92]%N s -> preprocess s = ROk t ->
  ~ substr [92; 10]%N t.
Proof.
  intros s t Hs H. rewrite preprocess_fun in H. injection H as <-.
  assert (Hp : nopair Rbn (ty_fun (ws_fun s))).
  { apply concat_partial. apply nopair_spec. intros a x y b ->. unfold Rbb.
    destruct (ceqb x 92) eqn:E1; auto. destruct (ceqb y 92) eqn:E2; auto.
    apply ceqb_eq in E1, E2. subst. exfalso. apply Hs. exists a, b. reflexivity. }
  intros (a & b & E). rewrite nopair_spec in Hp. specialize (Hp a 92%N 10%N b E). discriminate.
Qed.
Print Assumptions C04_backslash_newline_partial.
Example C04_case : preprocess (lit "a\
b\
\c") = ROk (lit "ab\c").
Proof. vm_compute. reflexivity. Qed.

(** C05 (full claim, false): "preprocess never leaves three consecutive newlines": joining a line
    that held only a backslash glues two newline runs together after compression. *)
Theorem C05_three_newlines_refuted :
  ~ (forall s t, preprocess s = ROk t -> ~ substr [10; 10; 10]%N t).
Proof.
  intro H. apply (H [97; 10; 10; 92; 10; 10; 98]%N [97; 10; 10; 10; 98]%N); [vm_compute; reflexivity|].
  exists [97%N], [98%N]. reflexivity.
Qed.
Print Assumptions C05_three_newlines_refuted.

(** C05, the part that holds: texts without line continuations. *)
Theorem C05_three_newlines_partial : forall s t,
  ~ substr [92; 10]%N s -> ~ substr [92; 13]%N s -> preprocess s = ROk t -> ~ substr [10; 10; 10]%N t.
Proof.
  intros s t Hs1 Hs2 H. rewrite preprocess_fun in H. injection H as <-.
  apply no3_spec. apply no3_partial. apply nopair_spec. intros a x y b ->. unfold Rbnr.
  destruct (ceqb x 92) eqn:E1; auto. apply ceqb_eq in E1 as ->. cbn [andb].
  destruct (ceqb y 10) eqn:E2; [apply ceqb_eq in E2 as ->; exfalso; apply Hs1; exists a, b; reflexivity|].
  destruct (ceqb y 13) eqn:E3; [apply ceqb_eq in E3 as ->; exfalso; apply Hs2; exists a, b; reflexivity|].
  reflexivity.
Qed.
Print Assumptions C05_three_newlines_partial.
Example C05_case : preprocess [97; 10; 32; 10; 10; 9; 13; 10; 10; 98]%N = ROk [97; 10; 10; 98]%N.
Proof. vm_compute. reflexivity. Qed.

(** C06 (full claim, false): preprocess is not idempotent. *)
Theorem C06_idempotent_refuted :
  ~ (forall s t, preprocess s = ROk t -> preprocess t = ROk t).
Proof.
  intro H. assert (E : preprocess [92; 92; 10; 10; 120]%N = ROk [92; 10; 120]%N) by (vm_compute; reflexivity).
  apply H in E. vm_compute in E. discriminate E.
Qed.
Print Assumptions C06_idempotent_refuted.
(** C06, the part that holds: on tidy texts (see C03) the first pass already changes nothing. *)
Theorem C06_idempotent_partial : forall s t, tidy s -> preprocess s = ROk t -> preprocess t = ROk t.
Proof. intros s t Hs H. rewrite C03_tidy_text_unchanged in H by auto. injection H as <-. apply C03_tidy_text_unchanged; auto. Qed.
Print Assumptions C06_idempotent_partial.

(** C08: the typography pass is a sequence of quote and ellipsis rewrites, so apart from quotes,
    commas, dots and spaces the text is preserved. *)
Theorem C08_typography_rewrites : forall s, exists t, ty_substitute s = ROk t /\ tsteps s t.
Proof. intro s. exists (ty_fun s). split; [apply ty_substitute_fun|apply ty_tsteps]. Qed.
Print Assumptions C08_typography_rewrites.
Theorem C08_typography_preserves_content : forall s t, ty_substitute s = ROk t -> erase s = erase t.
Proof.
  intros s t H. rewrite ty_substitute_fun in H. injection H as <-. apply tsteps_erase, ty_tsteps.
Qed.
Print Assumptions C08_typography_preserves_content.
Example C08_case : ty_substitute (lit "``a `b' c'' ,,d''... e") =
  ROk ([8220%N] ++ lit "a " ++ [8216%N] ++ lit "b" ++ [8217%N] ++ lit " c" ++ [8221%N] ++ lit " " ++ [8222%N]
       ++ lit "d" ++ [8221%N; 8230%N] ++ lit " e").
Proof. vm_compute. reflexivity. Qed.

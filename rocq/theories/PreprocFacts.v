(** PreprocFacts.v -- facts about the scans of PreprocLemmas.v, used by PropPreproc.v. *)
From Verif Require Import Base BaseLemmas Regex Preproc PreprocLemmas.

(** A character predicate preserved by a scan. *)
Lemma scan_forall (P : char -> Prop) H :
  (forall prev rest o rest', H prev rest = Some (o, rest') -> Forall P rest -> Forall P o /\ Forall P rest') ->
  forall f prev rest, Forall P rest -> Forall P (scan H f prev rest).
Proof.
  intros HH f; induction f as [|f IH]; intros prev rest Hr; cbn [scan]; auto.
  destruct (H prev rest) as [[o r']|] eqn:E.
  - destruct (HH _ _ _ _ E Hr). apply Forall_app; auto.
  - destruct rest; auto. inversion Hr; subst. constructor; auto.
Qed.

(** A scan that never fires is the identity. *)
Lemma scan_id H f : forall pre rest,
  (forall a b, rest = a ++ b -> H (last_char (pre ++ a)) b = None) ->
  scan H f (last_char pre) rest = rest.
Proof.
  induction f as [|f IH]; intros pre rest HH; cbn [scan]; auto.
  pose proof (HH [] rest eq_refl) as H0. rewrite app_nil_r in H0. rewrite H0.
  destruct rest as [|c r]; auto. f_equal.
  rewrite <- (last_char_snoc pre c). apply IH. intros a b ->.
  rewrite <- app_assoc. apply HH. reflexivity.
Qed.
Lemma sc_id H s : (forall a b, s = a ++ b -> H (last_char a) b = None) -> sc H s = s.
Proof. intro HH. unfold sc. apply (scan_id H (S (length s)) [] s). exact HH. Qed.

(** [h_char] is a character-wise map. *)
Definition subst_char (k : char) (repl : str) (s : str) : str :=
  flat_map (fun c => if ceqb k c then repl else [c]) s.
Lemma scan_char k repl f : forall prev s, length s < f -> scan (h_char k repl) f prev s = subst_char k repl s.
Proof.
  induction f as [|f IH]; intros prev s Hl; [lia|]. cbn [scan h_char].
  destruct s as [|c r]; [reflexivity|]. simpl in Hl. unfold h_char at 1. cbn [subst_char flat_map].
  destruct (ceqb k c); rewrite IH by lia; reflexivity.
Qed.
Lemma sc_char k repl s : sc (h_char k repl) s = subst_char k repl s.
Proof. apply scan_char. lia. Qed.

(** Newline normalisation as a plain function. *)
Fixpoint dos_fun (s : str) : str :=
  match s with
  | [] => []
  | c :: r => if ceqb 13 c
              then 10%N :: (match r with d :: r' => if ceqb 10 d then dos_fun r' else dos_fun r | [] => [] end)
              else c :: dos_fun r
  end.
Lemma scan_dos f : forall prev s, length s < f -> scan h_dos f prev s = dos_fun s.
Proof.
  induction f as [|f IH]; intros prev s Hl; [lia|]. cbn [scan].
  destruct s as [|c r]; [reflexivity|]. simpl in Hl. cbn [h_dos dos_fun].
  destruct (ceqb 13 c).
  - destruct r as [|d r'].
    + rewrite IH by (simpl; lia). reflexivity.
    + simpl in Hl. destruct (ceqb 10 d); rewrite IH by (simpl; lia); reflexivity.
  - rewrite IH by lia. reflexivity.
Qed.
Lemma sc_dos s : sc h_dos s = dos_fun s.
Proof. apply scan_dos. lia. Qed.

(** Strong induction on length. *)
Lemma str_ind_len (P : str -> Prop) : (forall s, (forall t, length t < length s -> P t) -> P s) -> forall s, P s.
Proof.
  intros H s. remember (length s) as n eqn:En. revert s En.
  induction n as [n IH] using lt_wf_ind. intros s ->. apply H. intros t Ht. eapply IH; eauto.
Qed.

Lemma dos_no_cr s : ~ In 13%N (dos_fun s).
Proof.
  induction s as [s IH] using str_ind_len. destruct s as [|c r]; cbn [dos_fun]; [auto|].
  destruct (ceqb 13 c) eqn:E.
  - destruct r as [|d r']; [simpl; intros [X|[]]; discriminate|].
    destruct (ceqb 10 d); simpl; intros [X|X]; try discriminate; revert X.
    + apply IH. simpl; lia.
    + apply (IH (d :: r')). simpl; lia.
  - intros [X|X]; [subst; discriminate|]. revert X. apply IH. simpl; lia.
Qed.

(** Which characters each pass may write. *)
Lemma take_while_incl p (s : str) : incl (take_while p s) s.
Proof. induction s as [|c s IH]; simpl; [apply incl_refl|]. destruct (p c); intros x Hx; simpl in *; intuition. Qed.
Lemma drop_while_incl p (s : str) : incl (drop_while p s) s.
Proof. induction s as [|c s IH]; simpl; [apply incl_refl|]. destruct (p c); intros x Hx; simpl in *; intuition. Qed.
Lemma Forall_incl (P : char -> Prop) (a b : str) : incl a b -> Forall P b -> Forall P a.
Proof. intros Hi Hb. rewrite Forall_forall in *. auto. Qed.
Lemma wl_incl s b : wl s = Some b -> incl b s.
Proof.
  revert b; induction s as [|c s IH]; intros b; cbn [wl].
  - intro H; injection H as <-. apply incl_refl.
  - destruct (is_ws c); [|discriminate]. destruct (wl s) as [b'|].
    + intro H; injection H as <-. apply incl_tl. auto.
    + destruct (ceqb c newline); [|discriminate]. intro H; injection H as <-. apply incl_refl.
Qed.

Section CharPres.
  Variable P : char -> Prop.
  Lemma pres_dos s : P 10%N -> Forall P s -> Forall P (sc h_dos s).
  Proof.
    intros Pn Hs. unfold sc. apply scan_forall; auto. intros prev rest o rest' E Hr.
    unfold h_dos in E. destruct rest as [|c r]; [discriminate|]. inversion Hr; subst.
    destruct (ceqb 13 c); [|discriminate]. injection E as <- <-. split; [auto|].
    destruct r as [|d r']; auto. inversion H2; subst. destruct (ceqb 10 d); auto.
  Qed.
  Lemma pres_lead s : P 32%N -> Forall P s -> Forall P (sc h_lead s).
  Proof.
    intros Pn Hs. unfold sc. apply scan_forall; auto. intros prev rest o rest' E Hr.
    unfold h_lead in E. destruct (bol prev); [|discriminate]. destruct rest as [|c r]; [discriminate|].
    inversion Hr; subst. destruct (is_nonstd_space c); [|discriminate]. injection E as <- <-. split.
    - constructor; auto. apply Forall_forall. intros x Hx. apply repeat_spec in Hx. subst; auto.
    - eapply Forall_incl; [apply drop_while_incl|auto].
  Qed.
  Lemma pres_wol s : Forall P s -> Forall P (sc h_wol s).
  Proof.
    intros Hs. unfold sc. apply scan_forall; auto. intros prev rest o rest' E Hr.
    unfold h_wol in E. destruct (bol prev); [|discriminate]. destruct rest as [|c r]; [discriminate|].
    inversion Hr; subst. destruct (is_ws c); [|discriminate].
    destruct (wl r) eqn:Ew; [|discriminate]. injection E as <- <-. split; auto.
    eapply Forall_incl; [eapply wl_incl; eauto|auto].
  Qed.
  Lemma pres_concat s : Forall P s -> Forall P (sc h_concat s).
  Proof.
    intros Hs. unfold sc. apply scan_forall; auto. intros prev rest o rest' E Hr.
    unfold h_concat in E. destruct rest as [|c [|d r]]; try discriminate.
    destruct (ceqb 92 c && ceqb 10 d); [|discriminate]. injection E as <- <-. split; auto.
    inversion Hr as [|? ? ? Hr']; subst. inversion Hr'; auto.
  Qed.
  Lemma pres_char k repl s : Forall P repl -> Forall (fun c => c = k \/ P c) s -> Forall P (sc (h_char k repl) s).
  Proof.
    rewrite sc_char. unfold subst_char. intros Hr Hs. apply Forall_flat_map.
    rewrite Forall_forall in Hs |- *. intros c Hc. destruct (ceqb k c) eqn:E; auto.
    constructor; auto. destruct (Hs c Hc) as [->|]; auto. rewrite ceqb_refl in E. discriminate.
  Qed.
  Lemma pres_leadnl s : Forall P s -> Forall P (sc h_leadnl s).
  Proof.
    intros Hs. unfold sc. apply scan_forall; auto. intros prev rest o rest' E Hr.
    unfold h_leadnl in E. destruct prev; [discriminate|]. destruct rest as [|c r]; [discriminate|].
    inversion Hr; subst. destruct (ceqb 10 c); [|discriminate]. injection E as <- <-. split; auto.
    eapply Forall_incl; [apply drop_while_incl|auto].
  Qed.
  Lemma pres_trailnl s : Forall P s -> Forall P (sc h_trailnl s).
  Proof.
    intros Hs. unfold sc. apply scan_forall; auto. intros prev rest o rest' E Hr.
    unfold h_trailnl in E. destruct rest as [|c r]; [discriminate|].
    destruct (ceqb 10 c && forallb (ceqb 10) r); [|discriminate]. injection E as <- <-. auto.
  Qed.
  Lemma pres_quote open close b e s : Forall P b -> Forall P e ->
    Forall P s -> Forall P (sc (h_quote open close b e) s).
  Proof.
    intros Pb Pe Hs. unfold sc. apply scan_forall; auto. intros prev rest o rest' E Hr.
    unfold h_quote in E. destruct (strip_prefix open rest) eqn:E1; [|discriminate].
    apply strip_prefix_inv in E1. subst rest.
    destruct (lz close l) as [[m r]|] eqn:E2; [|discriminate]. apply lz_inv in E2 as [-> _].
    injection E as <- <-. rewrite !Forall_app in *. intuition.
  Qed.
  Lemma el_inv s r : el s = Some r -> (s = lit "..." ++ r \/ s = lit ". . ." ++ r) /\ dot_tail r = true.
  Proof.
    rewrite el_eq. destruct (strip_prefix (lit "...") s) eqn:E1.
    - apply strip_prefix_inv in E1. destruct (dot_tail l) eqn:Ed; [|discriminate].
      intro H; injection H as <-. auto.
    - destruct (strip_prefix (lit ". . .") s) eqn:E2; [|discriminate]. apply strip_prefix_inv in E2.
      destruct (dot_tail l) eqn:Ed; [|discriminate]. intro H; injection H as <-. auto.
  Qed.
  Lemma h_ell_inv prev s o r : h_ell prev s = Some (o, r) ->
    exists a d, s = a ++ d ++ r /\ o = a ++ [8230%N] /\ (d = lit "..." \/ d = lit ". . .") /\
      (a = [] /\ prev = None \/ exists c, a = [c] /\ c <> 46%N) /\ dot_tail r = true.
  Proof.
    unfold h_ell. intro E.
    destruct (match prev with None => el s | Some _ => None end) eqn:E0.
    - injection E as <- <-. destruct prev; [discriminate|]. apply el_inv in E0 as [[->| ->] Hd].
      + exists [], (lit "..."). auto 10.
      + exists [], (lit ". . ."). auto 10.
    - destruct s as [|c s]; [discriminate|]. destruct (ceqb c 46) eqn:Ec; [discriminate|].
      destruct (el s) eqn:E1; [|discriminate]. injection E as <- <-. apply el_inv in E1 as [E1 Hd].
      assert (c <> 46%N) by (intros ->; rewrite ceqb_refl in Ec; discriminate).
      destruct E1 as [-> | ->].
      + exists [c], (lit "..."). simpl. eauto 12.
      + exists [c], (lit ". . ."). simpl. eauto 12.
  Qed.
  Lemma pres_ell s : P 8230%N -> Forall P s -> Forall P (sc h_ell s).
  Proof.
    intros Pe Hs. unfold sc. apply scan_forall; auto. intros prev rest o rest' E Hr.
    apply h_ell_inv in E as (a & d & -> & -> & _). rewrite !Forall_app in *. intuition.
  Qed.
End CharPres.

(** *** No CR, TAB, NUL *)
Definition is_control (c : char) : Prop := c = 13%N \/ c = 9%N \/ c = 0%N.
Lemma ws_no_control s : Forall (fun c => ~ is_control c) (ws_fun s).
Proof.
  unfold ws_fun. apply pres_trailnl, pres_leadnl.
  apply pres_char. { repeat constructor; unfold is_control; intros [|[|]]; discriminate. }
  apply pres_char. { repeat (apply Forall_cons; [right; unfold is_control; intros [|[|]]; discriminate|]). apply Forall_nil. }
  apply Forall_impl with (P := fun c => c <> 13%N).
  { intros c Hc. unfold is_control. destruct (N.eq_dec c 9); auto. destruct (N.eq_dec c 0); auto.
    right; right. intros [|[|]]; contradiction. }
  apply pres_concat, pres_wol, pres_lead; [discriminate|].
  rewrite sc_dos. apply Forall_forall. intros x Hx ->. revert Hx. apply dos_no_cr.
Qed.
Lemma ty_pres (P : char -> Prop) s : P 8230%N -> P 8216%N -> P 8217%N -> P 8220%N -> P 8221%N -> P 8222%N ->
  Forall P s -> Forall P (ty_fun s).
Proof.
  intros. unfold ty_fun. apply pres_ell; auto. apply pres_quote; auto. apply pres_quote; auto. apply pres_quote; auto.
Qed.

Lemma preprocess_no_control s : Forall (fun c => ~ is_control c) (ty_fun (ws_fun s)).
Proof.
  apply ty_pres; try (unfold is_control; intros [|[|]]; discriminate). apply ws_no_control.
Qed.

(** *** Newlines at the ends *)
Definition hd_char (s : str) : option char := match s with [] => None | c :: _ => Some c end.

Lemma scan_some_prev_leadnl f c s : scan h_leadnl f (Some c) s = s.
Proof.
  revert c s; induction f as [|f IH]; intros c s; cbn [scan h_leadnl]; auto.
  destruct s as [|d s]; auto. rewrite IH. reflexivity.
Qed.
Lemma sc_leadnl s : sc h_leadnl s = drop_while (ceqb 10) s.
Proof.
  unfold sc. cbn [scan h_leadnl]. destruct s as [|c r]; auto. cbn [drop_while].
  destruct (ceqb 10 c).
  - cbn [app length]. set (t := drop_while (ceqb 10) r).
    assert (Ht : hd_char t <> Some 10%N).
    { unfold t. clear. induction r as [|d r IH]; simpl; [discriminate|].
      destruct (ceqb 10 d) eqn:E; auto. simpl. intro X; injection X as ->. discriminate. }
    clearbody t. unfold upd. cbn [last_char rev]. cbn.
    destruct t as [|d t]; auto. simpl in Ht. destruct (ceqb 10 d) eqn:E.
    + apply ceqb_eq in E. subst. contradiction.
    + rewrite scan_some_prev_leadnl. reflexivity.
  - rewrite scan_some_prev_leadnl. reflexivity.
Qed.

Fixpoint strip_nl_end (s : str) : str :=
  match s with
  | [] => []
  | c :: r => if ceqb 10 c && forallb (ceqb 10) r then [] else c :: strip_nl_end r
  end.
Lemma scan_trailnl f : forall prev s, length s < f -> scan h_trailnl f prev s = strip_nl_end s.
Proof.
  induction f as [|f IH]; intros prev s Hl; [lia|]. cbn [scan h_trailnl].
  destruct s as [|c r]; auto. simpl in Hl. unfold h_trailnl at 1. cbn [strip_nl_end].
  destruct (ceqb 10 c && forallb (ceqb 10) r).
  - rewrite IH by (simpl; lia). reflexivity.
  - rewrite IH by lia. reflexivity.
Qed.
Lemma sc_trailnl s : sc h_trailnl s = strip_nl_end s.
Proof. apply scan_trailnl. lia. Qed.
Lemma strip_nl_end_spec s : exists k, s = strip_nl_end s ++ repeat 10%N k.
Proof.
  induction s as [|c r IH]; simpl; [exists 0; reflexivity|].
  destruct (ceqb 10 c && forallb (ceqb 10) r) eqn:E.
  - apply andb_true_iff in E as [E1 E2]. apply ceqb_eq in E1 as <-.
    exists (S (length r)). simpl. f_equal. clear -E2.
    induction r as [|d r IH]; simpl in *; auto. apply andb_true_iff in E2 as [E1 E2].
    apply ceqb_eq in E1 as <-. f_equal. auto.
  - destruct IH as [k IH]. exists k. simpl. congruence.
Qed.
Lemma last_char_cons c s : last_char (c :: s) = match last_char s with Some d => Some d | None => Some c end.
Proof. change (c :: s) with ([c] ++ s). rewrite last_char_app. destruct (last_char s); reflexivity. Qed.
Lemma strip_nl_end_nil s : strip_nl_end s = [] -> forallb (ceqb 10) s = true.
Proof.
  destruct s as [|c r]; simpl; auto. destruct (ceqb 10 c && forallb (ceqb 10) r); [auto|discriminate].
Qed.
Lemma strip_nl_end_last s : last_char (strip_nl_end s) <> Some 10%N.
Proof.
  induction s as [|c r IH]; simpl; [discriminate|].
  destruct (ceqb 10 c && forallb (ceqb 10) r) eqn:E; [discriminate|].
  rewrite last_char_cons. destruct (last_char (strip_nl_end r)) as [d|] eqn:El; auto.
  intro X; injection X as ->.
  assert (strip_nl_end r = []) as Hn.
  { destruct (strip_nl_end r) as [|x l] eqn:Es; auto. rewrite last_char_cons in El.
    destruct (last_char l); discriminate. }
  apply strip_nl_end_nil in Hn. rewrite Hn in E. discriminate.
Qed.
Lemma strip_nl_end_hd s : hd_char s <> Some 10%N -> hd_char (strip_nl_end s) <> Some 10%N.
Proof.
  destruct s as [|c r]; simpl; auto. destruct (ceqb 10 c && forallb (ceqb 10) r); simpl; auto; discriminate.
Qed.
Lemma drop_nl_hd s : hd_char (drop_while (ceqb 10) s) <> Some 10%N.
Proof.
  induction s as [|d r IH]; simpl; [discriminate|].
  destruct (ceqb 10 d) eqn:E; auto. simpl. intro X; injection X as ->. discriminate.
Qed.
Lemma ws_ends s : hd_char (ws_fun s) <> Some 10%N /\ last_char (ws_fun s) <> Some 10%N.
Proof.
  unfold ws_fun. rewrite sc_trailnl. split; [|apply strip_nl_end_last].
  apply strip_nl_end_hd. rewrite sc_leadnl. apply drop_nl_hd.
Qed.

(** Typography passes keep "does not start / end with a newline". *)
Definition ends_ok (H : option char -> str -> option (str * str)) : Prop :=
  forall prev rest o rest', H prev rest = Some (o, rest') ->
    exists x, rest = x ++ rest' /\ o <> [] /\ last_char o <> Some 10%N /\
      (hd_char rest <> Some 10%N -> hd_char o <> Some 10%N).
Lemma last_char_some_app a b : b <> [] -> last_char (a ++ b) = last_char b.
Proof.
  intro Hb. rewrite last_char_app. destruct (last_char b) eqn:E; auto.
  destruct b as [|c b]; [contradiction|]. rewrite last_char_cons in E. destruct (last_char b); discriminate.
Qed.
Lemma scan_ends H : ends_ok H -> forall f prev s,
  (hd_char s <> Some 10%N -> hd_char (scan H f prev s) <> Some 10%N) /\
  (last_char s <> Some 10%N -> last_char (scan H f prev s) <> Some 10%N).
Proof.
  intro He. induction f as [|f IH]; intros prev s; cbn [scan]; auto.
  destruct (H prev s) as [[o r]|] eqn:E.
  - apply He in E as (x & -> & Ho & Hl & Hh). specialize (IH (upd prev o) r). split.
    + intro Hs. apply Hh in Hs. destruct o; [contradiction|]. exact Hs.
    + intro Hs. rewrite last_char_app. destruct (last_char (scan H f (upd prev o) r)) as [d|] eqn:El; auto.
      intro X; injection X as ->. destruct IH as [_ IH]. apply IH; auto.
      intro X. rewrite last_char_app in Hs. rewrite X in Hs. contradiction.
  - destruct s as [|c s]; [auto|]. split; [auto|]. rewrite !last_char_cons.
    intro Hs. destruct (last_char (scan H f (Some c) s)) as [d|] eqn:El.
    + intro X; injection X as ->. destruct (IH (Some c) s) as [_ IH']. apply IH'; auto.
      intro X. rewrite X in Hs. contradiction.
    + destruct (last_char s) as [d|] eqn:Es; [|exact Hs].
      assert (Hn : forall f p t, t <> [] -> scan H f p t <> []).
      { clear -He. induction f as [|f IH]; intros p t Ht; cbn [scan]; auto.
        destruct (H p t) as [[o r]|] eqn:E.
        - apply He in E as (x & -> & Ho & _). destruct o; [contradiction|discriminate].
        - destruct t; [contradiction|discriminate]. }
      destruct s as [|c' s]; [discriminate|]. specialize (Hn f (Some c) (c' :: s) ltac:(discriminate)).
      destruct (scan H f (Some c) (c' :: s)) as [|y l]; [contradiction|].
      rewrite last_char_cons in El. destruct (last_char l); discriminate.
Qed.
Lemma ends_ok_quote open close b e : b <> [] -> last_char e <> Some 10%N -> e <> [] -> hd_char b <> Some 10%N ->
  ends_ok (h_quote open close b e).
Proof.
  intros Hb He Hen Hbh prev rest o rest' E. unfold h_quote in E.
  destruct (strip_prefix open rest) eqn:E1; [|discriminate]. apply strip_prefix_inv in E1. subst rest.
  destruct (lz close l) as [[m r]|] eqn:E2; [|discriminate]. apply lz_inv in E2 as [-> _].
  injection E as <- <-. exists (open ++ m ++ close). rewrite <- !app_assoc. split; auto.
  split; [destruct b; [contradiction|discriminate]|]. split.
  - rewrite app_assoc, last_char_some_app by auto. auto.
  - intros _. destruct b; [contradiction|auto].
Qed.
Lemma ends_ok_ell : ends_ok h_ell.
Proof.
  intros prev rest o rest' E. apply h_ell_inv in E as (a & d & -> & -> & Hd & Ha & _).
  exists (a ++ d). rewrite <- app_assoc. split; auto. split; [destruct a; discriminate|].
  split; [rewrite last_char_snoc; discriminate|].
  destruct Ha as [[-> _]|(c & -> & _)]; simpl; [discriminate|auto].
Qed.
Lemma ty_ends s : (hd_char s <> Some 10%N -> hd_char (ty_fun s) <> Some 10%N) /\
  (last_char s <> Some 10%N -> last_char (ty_fun s) <> Some 10%N).
Proof.
  unfold ty_fun, sc.
  split; intro Hs; repeat (apply scan_ends; [first [apply ends_ok_ell | apply ends_ok_quote; discriminate]|]); auto.
Qed.
Lemma preprocess_ends s : hd_char (ty_fun (ws_fun s)) <> Some 10%N /\ last_char (ty_fun (ws_fun s)) <> Some 10%N.
Proof. split; apply ty_ends; apply ws_ends. Qed.

(** PreprocFacts3.v -- frame property and typography as rewriting. *)
From Coq Require Import Relations.
From Verif Require Import Base BaseLemmas Regex Preproc PreprocLemmas PreprocFacts SpecPreproc.

Definition line3 (l : str) : Prop := ~ In 10%N l /\ exists c, In c l /\ is_ws c = false.

Lemma wl_nonws l t : ~ In 10%N l -> (exists c, In c l /\ is_ws c = false) -> wl (l ++ t) = None.
Proof.
  induction l as [|c l IH]; intros Hn (x & Hx & Hw); [contradiction|]. cbn [app wl].
  destruct (is_ws c) eqn:E; auto.
  rewrite IH.
  - destruct (ceqb c newline) eqn:En; auto. apply ceqb_eq in En. exfalso. apply Hn. left. auto.
  - intro X. apply Hn. right. auto.
  - exists x. split; auto. destruct Hx as [->|]; auto. congruence.
Qed.
Lemma scan_wol_line f : forall prev l t, ~ In 10%N l ->
  (bol prev = true -> exists c, In c l /\ is_ws c = false) ->
  (forall f' c, c <> 10%N -> scan h_wol f' (Some c) t = t) ->
  (l = [] -> forall f', scan h_wol f' prev t = t) ->
  scan h_wol f prev (l ++ t) = l ++ t.
Proof.
  induction f as [|f IH]; intros prev l t Hn Hb Ht Hl; [reflexivity|].
  destruct l as [|c l]; [apply Hl; auto|]. cbn [app].
  assert (Hc : c <> 10%N) by (intros ->; apply Hn; left; auto).
  assert (HN : h_wol prev (c :: l ++ t) = None).
  { unfold h_wol. destruct (bol prev); auto. destruct (is_ws c) eqn:E; auto.
    rewrite wl_nonws; auto.
    - intro X. apply Hn. right; auto.
    - destruct (Hb eq_refl) as (x & [->|Hx] & Hw); [congruence|eauto]. }
  rewrite (scan_none _ f _ _ _ HN). f_equal. apply IH; auto.
  - intro X. apply Hn. right; auto.
  - simpl. intro X. apply ceqb_eq in X. contradiction.
Qed.
Lemma tidy_wol s : tidy s -> forall f prev, scan h_wol f prev s = s.
Proof.
  induction 1 as [l (Hp & Hn & Hw)|l sep t (Hp & Hn & Hw) Hsep Ht IH]; intros f prev.
  - rewrite <- (app_nil_r l). apply scan_wol_line; auto.
    + intros f' c _. destruct f'; [reflexivity|]. cbn [scan]. unfold h_wol. destruct (bol (Some c)); reflexivity.
    + intros ->. destruct Hw as (c & [] & _).
  - assert (Hwt : wl t = None).
    { inversion Ht as [l0 (_ & Hn0 & Hw0)|l0 sep0 t0 (_ & Hn0 & Hw0) _ _]; subst.
      - rewrite <- (app_nil_r t). apply wl_nonws; auto.
      - apply wl_nonws; auto. }
    assert (Hsept : forall f p, p <> 10%N -> scan h_wol f (Some p) (sep ++ t) = sep ++ t).
    { intros f' p Hp'. assert (Hb : bol (Some p) = false).
      { simpl. destruct (ceqb p newline) eqn:E; auto. apply ceqb_eq in E. contradiction. }
      destruct f' as [|f']; [reflexivity|]. destruct Hsep as [-> | ->]; cbn [app].
      - rewrite scan_none by (unfold h_wol; rewrite Hb; reflexivity). rewrite IH. reflexivity.
      - rewrite scan_none by (unfold h_wol; rewrite Hb; reflexivity). f_equal.
        destruct f' as [|f']; [reflexivity|]. rewrite scan_none; [rewrite IH; reflexivity|].
        unfold h_wol. change (bol (Some 10%N)) with true. change (is_ws 10) with true. rewrite Hwt. reflexivity. }
    apply scan_wol_line; auto.
    intros ->. destruct Hw as (x & [] & _).
Qed.
Lemma tidy_chars s : tidy s -> Forall plain s.
Proof.
  induction 1 as [l (Hp & _)|l sep t (Hp & _) Hsep Ht IH]; auto.
  rewrite !Forall_app. repeat split; auto. destruct Hsep as [-> | ->]; repeat constructor; unfold plain; simpl; intuition discriminate.
Qed.
Lemma tidy_hd s : tidy s -> hd_char s <> Some 10%N /\ s <> [].
Proof.
  assert (HL : forall l t, tidy_line l -> hd_char (l ++ t) <> Some 10%N /\ l ++ t <> []).
  { intros l t (_ & Hn & (x & Hx & _)). destruct l as [|c l]; [contradiction|].
    simpl. split; [|discriminate]. intros [= ->]. apply Hn. left; auto. }
  destruct 1; [rewrite <- (app_nil_r l)|]; apply HL; auto.
Qed.
Lemma tidy_last s : tidy s -> last_char s <> Some 10%N.
Proof.
  induction 1 as [l (_ & Hn & _)|l sep t _ _ Ht IH].
  - intro X. unfold last_char in X. destruct (rev l) as [|c r] eqn:E; [discriminate|]. injection X as ->.
    apply Hn. apply in_rev. rewrite E. left; auto.
  - apply tidy_hd in Ht as [_ Hne]. rewrite app_assoc, last_char_some_app; auto.
Qed.
Lemma strip_nl_end_id s : last_char s <> Some 10%N -> strip_nl_end s = s.
Proof.
  intro H. destruct (strip_nl_end_spec s) as [k E]. destruct k as [|k].
  - rewrite app_nil_r in E. auto.
  - exfalso. apply H. rewrite E. rewrite last_char_some_app by discriminate.
    clear. induction k as [|k IH]; [reflexivity|]. simpl. rewrite last_char_cons.
    simpl in IH. rewrite IH. reflexivity.
Qed.

Theorem frame s : tidy s -> ty_fun (ws_fun s) = s.
Proof.
  intro Ht. pose proof (tidy_chars s Ht) as Hc.
  assert (Hno : forall k r a b, In k [0; 9; 13; 160; 8199; 46; 44; 96; 92]%N -> s = a ++ r :: b -> ceqb k r = false).
  { intros k r a b Hk ->. apply Forall_app in Hc as [_ Hc]. inversion Hc as [|? ? Hp _]; subst.
    destruct (ceqb k r) eqn:E; auto. apply ceqb_eq in E as ->. contradiction. }
  assert (E1 : sc h_dos s = s).
  { apply sc_id. intros a [|c b] E; auto. simpl. rewrite (Hno 13%N c a b); simpl; auto. }
  assert (E2 : sc h_lead s = s).
  { apply sc_id. intros a [|c b] E; unfold h_lead; destruct (bol _); auto.
    pose proof (Hno 160%N c a b ltac:(simpl; auto 10) E). pose proof (Hno 8199%N c a b ltac:(simpl; auto 10) E).
    replace (is_nonstd_space c) with false; [reflexivity|].
    unfold is_nonstd_space. unfold ceqb in *. rewrite (N.eqb_sym c 160), (N.eqb_sym c 8199), H, H0. reflexivity. }
  assert (E3 : sc h_wol s = s) by (apply tidy_wol; auto).
  assert (E4 : sc h_concat s = s).
  { apply sc_id. intros a b E. unfold h_concat. destruct b as [|c [|d b]]; auto.
    rewrite (Hno 92%N c a (d :: b)); simpl; auto 10. }
  assert (E5 : forall k r, In k [0; 9; 13; 160; 8199; 46; 44; 96; 92]%N -> sc (h_char k r) s = s).
  { intros k r Hk. apply sc_id. intros a [|c b] E; auto. simpl. rewrite (Hno k c a b); auto. }
  assert (E6 : sc h_leadnl s = s).
  { rewrite sc_leadnl. apply tidy_hd in Ht as [Hh _]. destruct s as [|c r]; auto. simpl in *.
    destruct (ceqb 10 c) eqn:E; auto. apply ceqb_eq in E as <-. contradiction. }
  assert (E7 : sc h_trailnl s = s).
  { rewrite sc_trailnl. apply strip_nl_end_id. apply tidy_last; auto. }
  assert (E8 : forall k o c b e, In k [0; 9; 13; 160; 8199; 46; 44; 96; 92]%N -> sc (h_quote (k :: o) c b e) s = s).
  { intros k o c b e Hk. apply sc_id. intros x [|d y] E; unfold h_quote; cbn [strip_prefix]; auto.
    rewrite (Hno k d x y); auto. }
  assert (E9 : sc h_ell s = s).
  { apply sc_id. intros a b E. destruct (h_ell (last_char a) b) as [[o r]|] eqn:Eh; auto.
    apply h_ell_inv in Eh as (x & d & -> & _ & Hd & _).
    assert (exists d', d = 46%N :: d') as (d' & ->) by (destruct Hd as [-> | ->]; simpl; eauto).
    pose proof (Hno 46%N 46%N (a ++ x) (d' ++ r)) as Hx. rewrite ceqb_refl in Hx.
    exfalso. assert (true = false); [|discriminate]. apply Hx; [simpl; auto 10|].
    rewrite E, <- app_assoc. reflexivity. }
  unfold ty_fun, ws_fun. rewrite E1, E2, E3, E4.
  rewrite (E5 9%N), (E5 0%N) by (simpl; auto 10).
  rewrite E6, E7. rewrite !E8 by (simpl; auto 10). exact E9.
Qed.

(** *** Typography as rewriting *)
Lemma scan_tsteps H :
  (forall pre rest o rest', H (last_char pre) rest = Some (o, rest') -> tstep (pre ++ rest) (pre ++ o ++ rest')) ->
  forall f pre rest, tsteps (pre ++ rest) (pre ++ scan H f (last_char pre) rest).
Proof.
  intros Hs. induction f as [|f IH]; intros pre rest; cbn [scan]; [apply rt_refl|].
  destruct (H (last_char pre) rest) as [[o r]|] eqn:E.
  - eapply rt_trans; [apply rt_step, Hs; eauto|]. rewrite !app_assoc. rewrite upd_last. apply IH.
  - destruct rest as [|c r]; [apply rt_refl|].
    specialize (IH (pre ++ [c]) r). rewrite last_char_snoc, <- !app_assoc in IH. exact IH.
Qed.
Lemma nonl_lz m : forallb (fun c => negb (ceqb c newline)) m = true -> ~ In 10%N m.
Proof. intros H X. rewrite forallb_forall in H. apply H in X. discriminate. Qed.
Lemma quote_tstep open close b e :
  (forall a m t, ~ In 10%N m -> tstep (a ++ open ++ m ++ close ++ t) (a ++ [b] ++ m ++ [e] ++ t)) ->
  forall pre rest o rest', h_quote open close [b] [e] (last_char pre) rest = Some (o, rest') ->
    tstep (pre ++ rest) (pre ++ o ++ rest').
Proof.
  intros Ht pre rest o rest' E. unfold h_quote in E.
  destruct (strip_prefix open rest) eqn:E1; [|discriminate]. apply strip_prefix_inv in E1. subst rest.
  destruct (lz close l) as [[m r]|] eqn:E2; [|discriminate]. apply lz_inv in E2 as [-> Hm].
  injection E as <- <-. cbn [app]. rewrite <- app_assoc. exact (Ht pre m r (nonl_lz m Hm)).
Qed.
Lemma ell_tstep pre rest o rest' : h_ell (last_char pre) rest = Some (o, rest') ->
    tstep (pre ++ rest) (pre ++ o ++ rest').
Proof.
  intro E. apply h_ell_inv in E as (a & d & -> & -> & Hd & Ha & Ht).
  rewrite <- app_assoc, !(app_assoc pre a). apply ts_ellipsis; auto.
  - intros a' E. assert (Hl : last_char (pre ++ a) = Some 46%N) by (rewrite E; apply last_char_snoc).
    destruct Ha as [[-> Hp]|(c & -> & Hc)].
    + rewrite app_nil_r, Hp in Hl. discriminate.
    + rewrite last_char_snoc in Hl. congruence.
  - intros b' ->. discriminate.
Qed.
Lemma sc_tsteps H s :
  (forall pre rest o rest', H (last_char pre) rest = Some (o, rest') -> tstep (pre ++ rest) (pre ++ o ++ rest')) ->
  tsteps s (sc H s).
Proof. intro Hs. exact (scan_tsteps H Hs (S (length s)) [] s). Qed.
Theorem ty_tsteps s : tsteps s (ty_fun s).
Proof.
  unfold ty_fun.
  eapply rt_trans; [|apply sc_tsteps, ell_tstep].
  eapply rt_trans; [|apply sc_tsteps, quote_tstep, ts_single].
  eapply rt_trans; [|apply sc_tsteps, quote_tstep, ts_low].
  apply sc_tsteps, quote_tstep, ts_double.
Qed.
Lemma erase_app a b : erase (a ++ b) = erase a ++ erase b.
Proof. apply filter_app. Qed.
Lemma tstep_erase s t : tstep s t -> erase s = erase t.
Proof.
  destruct 1 as [a m b Hm|a m b Hm|a m b Hm|a d b Hd Ha Hb]; rewrite !erase_app; try reflexivity.
  destruct Hd as [-> | ->]; reflexivity.
Qed.
Theorem tsteps_erase s t : tsteps s t -> erase s = erase t.
Proof. induction 1; auto using tstep_erase. congruence. Qed.

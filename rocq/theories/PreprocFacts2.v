(** PreprocFacts2.v -- line joining, newline compression, frame and typography facts. *)
From Coq Require Import Relations.
From Verif Require Import Base BaseLemmas Regex Preproc PreprocLemmas PreprocFacts.

(** *** Safety automata over strings *)
Section Auto.
  Context {Q : Type}.
  Variable delta : Q -> char -> option Q.
  Fixpoint run (q : Q) (s : str) : option Q :=
    match s with
    | [] => Some q
    | c :: r => match delta q c with Some q' => run q' r | None => None end
    end.
  Definition ok (q : Q) (s : str) : Prop := run q s <> None.
  Lemma run_app q a b : run q (a ++ b) = match run q a with Some q' => run q' b | None => None end.
  Proof. revert q; induction a as [|c a IH]; intro q; simpl; auto. destruct (delta q c); auto. Qed.
  Lemma ok_app q a b : ok q (a ++ b) <-> exists q', run q a = Some q' /\ ok q' b.
  Proof.
    unfold ok. rewrite run_app. destruct (run q a) as [q'|].
    - split; [intro H; exists q'; auto|]. intros (q'' & E & H). injection E as <-. auto.
    - split; [congruence|]. intros (q'' & E & H). discriminate.
  Qed.
  Variable inv : option char -> Q -> Prop.
  Hypothesis inv_step : forall prev q c q', inv prev q -> delta q c = Some q' -> inv (Some c) q'.
  Variable H : option char -> str -> option (str * str).
  Hypothesis Hstep : forall prev q rest o rest', inv prev q -> H prev rest = Some (o, rest') -> ok q rest ->
    exists q', run q o = Some q' /\ ok q' rest' /\ inv (upd prev o) q'.
  Lemma scan_ok f : forall prev q rest, inv prev q -> ok q rest -> ok q (scan H f prev rest).
  Proof.
    induction f as [|f IH]; intros prev q rest Hi Ho; cbn [scan]; auto.
    destruct (H prev rest) as [[o r]|] eqn:E.
    - destruct (Hstep _ _ _ _ _ Hi E Ho) as (q' & E1 & E2 & E3). apply ok_app. exists q'. auto.
    - destruct rest as [|c r]; auto. revert Ho. unfold ok. cbn [run].
      destruct (delta q c) as [q'|] eqn:Ed; [|auto]. intro Ho. apply IH; eauto.
  Qed.
End Auto.

(** Adjacent pairs: state = previous character. *)
Definition dpair (R : char -> char -> bool) (q : option char) (c : char) : option (option char) :=
  match q with
  | Some p => if R p c then None else Some (Some c)
  | None => Some (Some c)
  end.
Definition nopair (R : char -> char -> bool) (s : str) : Prop := ok (dpair R) None s.
Lemma run_dpair R a : forall q q', run (dpair R) q a = Some q' -> q' = upd q a.
Proof.
  induction a as [|c a IH]; intros q q' E.
  - simpl in E. injection E as <-. reflexivity.
  - cbn [run] in E. destruct (dpair R q c) as [q1|] eqn:Ed; [|discriminate].
    assert (q1 = Some c) as -> by (unfold dpair in Ed; destruct q as [p|]; [destruct (R p c)|]; congruence).
    apply IH in E. subst. unfold upd. rewrite last_char_cons. destruct (last_char a); reflexivity.
Qed.
Lemma nopair_spec R s : nopair R s <-> forall a x y b, s = a ++ x :: y :: b -> R x y = false.
Proof.
  unfold nopair. split.
  - intros Ho a x y b ->. apply ok_app in Ho as (q & _ & Ho). unfold ok in Ho. cbn [run] in Ho.
    destruct (dpair R q x) as [q1|] eqn:Ed; [|congruence].
    assert (q1 = Some x) as -> by (unfold dpair in Ed; destruct q as [p|]; [destruct (R p x)|]; congruence).
    simpl in Ho. destruct (R x y); congruence.
  - cut (forall pre q, last_char pre = q -> (forall a x y b, pre ++ s = a ++ x :: y :: b -> R x y = false) -> ok (dpair R) q s).
    { intros Hc Hs. apply (Hc []); auto. }
    induction s as [|c s IH]; intros pre q Hq Hs; [unfold ok; simpl; congruence|].
    unfold ok. cbn [run].
    assert (dpair R q c = Some (Some c)) as ->.
    { unfold dpair. destruct q as [p|]; auto.
      assert (exists a, pre = a ++ [p]) as [a ->].
      { clear -Hq. unfold last_char in Hq. destruct (rev pre) as [|x l] eqn:E; [discriminate|].
        injection Hq as ->. exists (rev l). rewrite <- (rev_involutive pre), E. reflexivity. }
      rewrite (Hs a p c s); auto. rewrite <- app_assoc. reflexivity. }
    apply (IH (pre ++ [c])); [apply last_char_snoc|]. intros a x y b E. apply (Hs a x y b).
    rewrite <- E, <- app_assoc. reflexivity.
Qed.
Lemma ok_pair_neutral R q s : (forall p c, q = Some p -> R p c = false) -> ok (dpair R) None s -> ok (dpair R) q s.
Proof.
  intros Hn. unfold ok. destruct s as [|c s]; [simpl; congruence|]. cbn [run]. unfold dpair at 1 3.
  destruct q as [p|]; auto. rewrite Hn; auto.
Qed.
Lemma ok_pair_weaken R q s : ok (dpair R) q s -> ok (dpair R) None s.
Proof.
  unfold ok. destruct s as [|c s]; [simpl; congruence|]. cbn [run]. unfold dpair at 1 3.
  destruct q as [p|]; auto. destruct (R p c); congruence.
Qed.
Lemma nopair_app_r R a b : nopair R (a ++ b) -> nopair R b.
Proof. intro Ho. apply ok_app in Ho as (q & _ & Ho). eapply ok_pair_weaken; eauto. Qed.
Lemma nopair_app_l R a b : nopair R (a ++ b) -> nopair R a.
Proof. intro Ho. apply ok_app in Ho as (q & E & _). unfold nopair, ok. congruence. Qed.

Definition pinv (prev : option char) (q : option char) : Prop := prev = q.
Lemma pinv_step R prev q c q' : pinv prev q -> dpair R q c = Some q' -> pinv (Some c) q'.
Proof.
  intros _ E. unfold pinv, dpair in *. destruct q as [p|]; [destruct (R p c)|]; congruence.
Qed.
Lemma sc_pair R H s :
  (forall prev rest o rest', H prev rest = Some (o, rest') -> ok (dpair R) prev rest ->
    exists q, run (dpair R) prev o = Some q /\ ok (dpair R) q rest') ->
  nopair R s -> nopair R (sc H s).
Proof.
  intros Hs Ho. unfold nopair, sc.
  refine (scan_ok (dpair R) pinv (pinv_step R) H _ _ None None s eq_refl Ho).
  intros prev q rest o rest' Hpq E Hr. unfold pinv in *. subst q.
  destruct (Hs _ _ _ _ E Hr) as (q' & E1 & E2).
  exists q'. split; auto. split; auto. symmetry. apply (run_dpair R); auto.
Qed.

(** Relations in which only backslash, newline and CR take part. *)
Definition inert (R : char -> char -> bool) (x : char) : Prop := forall c, R x c = false /\ R c x = false.
Lemma run_inert R q x : inert R x -> run (dpair R) q [x] = Some (Some x).
Proof.
  intro Hx. cbn [run]. unfold dpair. destruct q as [p|]; auto. destruct (Hx p) as [_ ->]. reflexivity.
Qed.
Lemma run_inert_cons R q x s : inert R x -> run (dpair R) q (x :: s) = run (dpair R) (Some x) s.
Proof. intro Hx. change (x :: s) with ([x] ++ s). rewrite run_app, run_inert; auto. Qed.
Lemma ok_inert R x s : inert R x -> nopair R s -> ok (dpair R) (Some x) s.
Proof. intros Hx Hs. apply ok_pair_neutral; auto. intros p c [= <-]. apply Hx. Qed.

Lemma pair_quote R open close b e s : inert R b -> inert R e -> open <> [] -> close <> [] ->
  nopair R s -> nopair R (sc (h_quote open close [b] [e]) s).
Proof.
  intros Hb He _ _. apply sc_pair. intros prev rest o rest' E Ho. unfold h_quote in E.
  destruct (strip_prefix open rest) eqn:E1; [|discriminate]. apply strip_prefix_inv in E1. subst rest.
  destruct (lz close l) as [[m r]|] eqn:E2; [|discriminate]. apply lz_inv in E2 as [-> _].
  injection E as <- <-. apply ok_pair_weaken in Ho. apply nopair_app_r in Ho.
  pose proof (nopair_app_l _ _ _ Ho) as Hm. apply nopair_app_r, nopair_app_r in Ho.
  cbn [app]. rewrite run_inert_cons by auto. apply (ok_inert R b) in Hm; auto.
  unfold ok in Hm. rewrite run_app. destruct (run (dpair R) (Some b) m); [|congruence].
  rewrite run_inert by auto. eexists; split; [reflexivity|]. apply ok_inert; auto.
Qed.
Lemma pair_ell R s : inert R 8230%N -> nopair R s -> nopair R (sc h_ell s).
Proof.
  intros Hb. apply sc_pair. intros prev rest o rest' E Ho.
  apply h_ell_inv in E as (a & d & -> & -> & _). apply ok_app in Ho as (q & E1 & E2).
  rewrite run_app, E1, run_inert by auto. eexists; split; [reflexivity|].
  apply ok_inert; auto. apply ok_pair_weaken in E2. eapply nopair_app_r; eauto.
Qed.
Lemma pair_subst R k x n s : inert R x -> nopair R s -> nopair R (sc (h_char k (repeat x (S n))) s).
Proof.
  intros Hb. apply sc_pair. intros prev rest o rest' E Ho. unfold h_char in E.
  destruct rest as [|c r]; [discriminate|]. destruct (ceqb k c); [|discriminate]. injection E as <- <-.
  exists (Some x). change (x :: repeat x n) with (repeat x (S n)). split.
  - clear -Hb. revert prev. induction n as [|n IH]; intro prev; cbn [repeat]; [apply run_inert; auto|].
    rewrite run_inert_cons by auto. apply IH.
  - apply ok_inert; auto. apply ok_pair_weaken in Ho. apply (nopair_app_r R [c] r). exact Ho.
Qed.
Lemma pair_lead R s : inert R 32%N -> nopair R s -> nopair R (sc h_lead s).
Proof.
  intros Hb. apply sc_pair. intros prev rest o rest' E Ho. unfold h_lead in E.
  destruct (bol prev); [|discriminate].
  destruct rest as [|c r]; [discriminate|]. destruct (is_nonstd_space c); [|discriminate]. injection E as <- <-.
  exists (Some 32%N). change (32%N :: repeat 32%N ?n) with (repeat 32%N (S n)). split.
  - generalize (length (take_while is_nonstd_space r)) as n. clear -Hb. intro n. revert prev.
    induction n as [|n IH]; intro prev; cbn [repeat]; [apply run_inert; auto|].
    rewrite run_inert_cons by auto. apply IH.
  - apply ok_inert; auto. apply ok_pair_weaken in Ho.
    apply (nopair_app_r R (c :: take_while is_nonstd_space r)). cbn [app].
    rewrite take_drop_while. exact Ho.
Qed.
Lemma pair_wol R s : (forall c, R 10%N c = false) -> nopair R s -> nopair R (sc h_wol s).
Proof.
  intros Hb. apply sc_pair. intros prev rest o rest' E Ho. unfold h_wol in E.
  destruct (bol prev) eqn:Eb; [|discriminate].
  destruct rest as [|c r]; [discriminate|]. destruct (is_ws c); [|discriminate].
  destruct (wl r) as [b|] eqn:Ew; [|discriminate]. injection E as <- <-.
  exists prev. split; auto. apply ok_pair_neutral.
  - intros p d ->. simpl in Eb. apply ceqb_eq in Eb as ->. apply Hb.
  - apply ok_pair_weaken in Ho. apply (nopair_app_r R [c] r) in Ho.
    assert (exists x, r = x ++ b) as [x ->]; [|eapply nopair_app_r; eauto].
    clear -Ew. revert b Ew; induction r as [|d r IH]; intros b; cbn [wl].
    + intros [= <-]. exists []. reflexivity.
    + destruct (is_ws d); [|discriminate]. destruct (wl r) as [b'|].
      * intros [= <-]. destruct (IH _ eq_refl) as [x ->]. exists (d :: x). reflexivity.
      * destruct (ceqb d newline); [|discriminate]. intros [= <-]. exists []. reflexivity.
Qed.
Lemma pair_leadnl R s : nopair R s -> nopair R (sc h_leadnl s).
Proof.
  rewrite sc_leadnl. intro Ho. rewrite <- (take_drop_while (ceqb 10) s) in Ho.
  eapply nopair_app_r; eauto.
Qed.
Lemma pair_trailnl R s : nopair R s -> nopair R (sc h_trailnl s).
Proof.
  rewrite sc_trailnl. intro Ho. destruct (strip_nl_end_spec s) as [k E]. rewrite E in Ho.
  eapply nopair_app_l; eauto.
Qed.
Lemma ty_pair R s : (forall x, In x [8216;8217;8220;8221;8222;8230]%N -> inert R x) -> nopair R s -> nopair R (ty_fun s).
Proof.
  intros Hi Hs. unfold ty_fun. apply pair_ell; [apply Hi; simpl; tauto|].
  repeat (apply pair_quote; [apply Hi; simpl; tauto|apply Hi; simpl; tauto|discriminate|discriminate|]). auto.
Qed.

(** *** Line joining: no two adjacent backslashes in, no backslash-newline out *)
Definition Rbb (x y : char) : bool := ceqb x 92 && ceqb y 92.
Definition Rbn (x y : char) : bool := ceqb x 92 && ceqb y 10.
Definition Rbnr (x y : char) : bool := ceqb x 92 && (ceqb y 10 || ceqb y 13).

Lemma dos_pair_bb s : nopair Rbb s -> nopair Rbb (sc h_dos s).
Proof.
  apply sc_pair. intros prev rest o rest' E Ho. unfold h_dos in E.
  destruct rest as [|c r]; [discriminate|]. destruct (ceqb 13 c); [|discriminate]. injection E as <- <-.
  assert (Hi : inert Rbb 10%N) by (intro c'; unfold Rbb; rewrite andb_false_r; auto).
  exists (Some 10%N). split; [apply run_inert; auto|]. apply ok_inert; auto.
  apply ok_pair_weaken in Ho. apply (nopair_app_r _ [c] r) in Ho.
  destruct r as [|d r']; auto. destruct (ceqb 10 d); auto. apply (nopair_app_r _ [d] r'). auto.
Qed.
Lemma dos_pair_bnr s : nopair Rbnr s -> nopair Rbnr (sc h_dos s).
Proof.
  apply sc_pair. intros prev rest o rest' E Ho. unfold h_dos in E.
  destruct rest as [|c r]; [discriminate|]. destruct (ceqb 13 c) eqn:Ec; [|discriminate]. injection E as <- <-.
  apply ceqb_eq in Ec as <-.
  exists (Some 10%N). split.
  - unfold ok in Ho. cbn [run] in *. unfold dpair in *. destruct prev as [p|]; auto.
    unfold Rbnr in Ho at 1. change (ceqb 13 10 || ceqb 13 13) with true in Ho. rewrite andb_true_r in Ho.
    unfold Rbnr. change (ceqb 10 10 || ceqb 10 13) with true. rewrite andb_true_r.
    destruct (ceqb p 92); congruence.
  - apply ok_pair_neutral; [intros p c [= <-]; reflexivity|].
    apply ok_pair_weaken in Ho. apply (nopair_app_r _ [13%N] r) in Ho.
    destruct r as [|d r']; auto. destruct (ceqb 10 d); auto. apply (nopair_app_r _ [d] r'). auto.
Qed.

Lemma inert_std R x : (forall a b, R a b = true -> (a = 92 /\ (b = 92 \/ b = 10 \/ b = 13))%N) ->
  x <> 92%N -> x <> 10%N -> x <> 13%N -> inert R x.
Proof.
  intros HR H1 H2 H3 c. split.
  - destruct (R x c) eqn:E; auto. apply HR in E as [-> _]. contradiction.
  - destruct (R c x) eqn:E; auto. apply HR in E as [_ [?|[?|?]]]; contradiction.
Qed.
Lemma Rbb_std a b : Rbb a b = true -> (a = 92 /\ (b = 92 \/ b = 10 \/ b = 13))%N.
Proof. unfold Rbb. intro H. apply andb_true_iff in H as [H1 H2]. apply ceqb_eq in H1, H2. auto. Qed.
Lemma Rbn_std a b : Rbn a b = true -> (a = 92 /\ (b = 92 \/ b = 10 \/ b = 13))%N.
Proof. unfold Rbn. intro H. apply andb_true_iff in H as [H1 H2]. apply ceqb_eq in H1, H2. auto. Qed.
Lemma Rbnr_std a b : Rbnr a b = true -> (a = 92 /\ (b = 92 \/ b = 10 \/ b = 13))%N.
Proof.
  unfold Rbnr. intro H. apply andb_true_iff in H as [H1 H2]. apply ceqb_eq in H1.
  apply orb_true_iff in H2 as [H2|H2]; apply ceqb_eq in H2; auto.
Qed.
Ltac inert R := apply (inert_std R); [first [apply Rbb_std|apply Rbn_std|apply Rbnr_std]|discriminate|discriminate|discriminate].

Lemma scan_concat_ok f : forall p s, length s < f ->
  (p = Some 92%N -> hd_char s <> Some 92%N /\ hd_char s <> Some 10%N) -> nopair Rbb s ->
  ok (dpair Rbn) p (scan h_concat f p s).
Proof.
  induction f as [|f IH]; intros p s Hl Hp Hs; [lia|]. cbn [scan].
  destruct (h_concat p s) as [[o r]|] eqn:E.
  - unfold h_concat in E. destruct s as [|c [|d s]]; try discriminate.
    destruct (ceqb 92 c && ceqb 10 d) eqn:Ecd; [|discriminate]. injection E as <- <-.
    apply andb_true_iff in Ecd as [Ec Ed]. apply ceqb_eq in Ec, Ed. subst c d.
    cbn [app]. unfold upd. cbn [last_char rev]. apply IH; [simpl in Hl; lia| |].
    + intros ->. destruct (Hp eq_refl) as [Hx _]. simpl in Hx. contradiction.
    + apply (nopair_app_r _ [92%N;10%N] s). exact Hs.
  - destruct s as [|c s]; [unfold ok; simpl; congruence|]. unfold ok. cbn [run].
    assert (dpair Rbn p c = Some (Some c)) as ->.
    { unfold dpair. destruct p as [p|]; auto. unfold Rbn.
      destruct (ceqb p 92) eqn:Ep; auto. apply ceqb_eq in Ep as ->.
      destruct (Hp eq_refl) as [_ Hx]. simpl in Hx. destruct (ceqb c 10) eqn:Ec; auto.
      apply ceqb_eq in Ec as ->. contradiction. }
    apply IH; [simpl in Hl; lia| |].
    + intros [= ->]. unfold h_concat in E. destruct s as [|d s]; [simpl; split; discriminate|].
      simpl. split; intros [= ->].
      * apply nopair_spec with (a := []) (x := 92%N) (y := 92%N) (b := s) in Hs; auto. discriminate.
      * discriminate.
    + apply (nopair_app_r _ [c] s). exact Hs.
Qed.

Theorem concat_partial s : nopair Rbb s -> nopair Rbn (ty_fun (ws_fun s)).
Proof.
  intro Hs. apply ty_pair.
  { intros x Hx. apply (inert_std Rbn); [apply Rbn_std|intros ->|intros ->|intros ->]; simpl in Hx; intuition discriminate. }
  unfold ws_fun. apply pair_trailnl, pair_leadnl.
  apply (pair_subst Rbn 0 32 0); [inert Rbn|]. apply (pair_subst Rbn 9 32 3); [inert Rbn|].
  unfold nopair, sc at 1. apply scan_concat_ok; [lia|discriminate|].
  apply pair_wol; [reflexivity|]. apply pair_lead; [inert Rbb|]. apply dos_pair_bb. exact Hs.
Qed.

(** *** Newline compression *)
Definition d3 (k : nat) (c : char) : option nat :=
  if ceqb c 10 then (if k <? 2 then Some (S k) else None) else Some 0.
Definition no3 (s : str) : Prop := ok d3 0 s.
Lemma run_d3_nonl k s : Forall (fun c => c <> 10%N) s -> s <> [] -> run d3 k s = Some 0.
Proof.
  revert k; induction s as [|c s IH]; intros k Hs Hn; [contradiction|]. inversion Hs; subst.
  cbn [run]. unfold d3 at 1. destruct (ceqb c 10) eqn:E; [apply ceqb_eq in E; contradiction|].
  destruct s as [|d s]; [reflexivity|]. apply IH; [auto|discriminate].
Qed.
Lemma ok3_mono s : forall k k', k' <= k -> ok d3 k s -> ok d3 k' s.
Proof.
  unfold ok. induction s as [|c s IH]; intros k k' Hk; cbn [run]; [congruence|]. unfold d3 at 1 3.
  destruct (ceqb c 10); auto.
  destruct (Nat.ltb_spec k 2); [|congruence]. destruct (Nat.ltb_spec k' 2); [|lia]. apply IH. lia.
Qed.
Lemma no3_app_r k a b : ok d3 k (a ++ b) -> ok d3 0 b.
Proof. intro H. apply ok_app in H as (q & _ & H). eapply ok3_mono; [|eauto]. lia. Qed.
Lemma no3_app_l k a b : ok d3 k (a ++ b) -> ok d3 k a.
Proof. intro H. apply ok_app in H as (q & E & _). unfold ok. congruence. Qed.
Lemma no3_spec s : no3 s <-> ~ substr [10;10;10]%N s.
Proof.
  unfold no3, substr. split.
  - intros Ho (a & b & ->). apply no3_app_r in Ho. apply Ho. reflexivity.
  - intro Hn. cut (forall k, k <= 2 -> ok d3 k s \/ substr [10;10;10]%N (repeat 10%N k ++ s)).
    { intros Hc. destruct (Hc 0 ltac:(lia)) as [?|(a & b & E)]; auto. exfalso. apply Hn. exists a, b. exact E. }
    clear Hn. induction s as [|c s IH]; intros k Hk; [left; unfold ok; simpl; congruence|].
    unfold ok. cbn [run]. unfold d3 at 1. destruct (ceqb c 10) eqn:E.
    + apply ceqb_eq in E as ->. destruct (Nat.ltb_spec k 2) as [Hk2|Hk2].
      * destruct (IH (S k) ltac:(lia)) as [?|(a & b & E)]; [left; auto|right].
        exists a, b. rewrite <- E. change (10%N :: s) with ([10%N] ++ s). rewrite app_assoc.
        rewrite <- repeat_cons. reflexivity.
      * right. assert (k = 2) as -> by lia. exists [], s. reflexivity.
    + destruct (IH 0 ltac:(lia)) as [?|(a & b & E')]; [left; auto|right].
      simpl in E'. exists (repeat 10%N k ++ c :: a), b. rewrite E', <- app_assoc. reflexivity.
Qed.
Lemma scan3 H s : (forall prev rest o rest' k, H prev rest = Some (o, rest') -> ok d3 k rest ->
    exists k', run d3 k o = Some k' /\ ok d3 k' rest') -> no3 s -> no3 (sc H s).
Proof.
  intros Hs Ho. unfold no3, sc. apply (scan_ok d3 (fun _ _ => True)) with (prev := None); auto.
  intros prev q rest o rest' _ E Hr. destruct (Hs _ _ _ _ _ E Hr) as (k' & E1 & E2). eauto.
Qed.
Lemma no3_quote open close b e s : b <> 10%N -> e <> 10%N -> no3 s -> no3 (sc (h_quote open close [b] [e]) s).
Proof.
  intros Hb He. apply scan3. intros prev rest o rest' k E Ho. unfold h_quote in E.
  destruct (strip_prefix open rest) eqn:E1; [|discriminate]. apply strip_prefix_inv in E1. subst rest.
  destruct (lz close l) as [[m r]|] eqn:E2; [|discriminate]. apply lz_inv in E2 as [-> Hm].
  injection E as <- <-. exists 0. split.
  - apply run_d3_nonl; [|discriminate]. constructor; auto. apply Forall_app. split; [|constructor; auto].
    rewrite forallb_forall in Hm. apply Forall_forall. intros x Hx ->. apply Hm in Hx. discriminate.
  - apply no3_app_r, no3_app_r in Ho. eapply no3_app_r; eauto.
Qed.
Lemma no3_ell s : no3 s -> no3 (sc h_ell s).
Proof.
  apply scan3. intros prev rest o rest' k E Ho.
  apply h_ell_inv in E as (a & d & -> & -> & _). exists 0.
  pose proof (no3_app_l _ _ _ Ho) as Ha. split.
  - rewrite run_app. unfold ok in Ha. destruct (run d3 k a); [|congruence]. reflexivity.
  - apply no3_app_r in Ho. eapply no3_app_r; eauto.
Qed.
Lemma no3_char k repl s : repl <> [] -> Forall (fun c => c <> 10%N) repl -> no3 s -> no3 (sc (h_char k repl) s).
Proof.
  intros Hn Hr. apply scan3. intros prev rest o rest' q E Ho. unfold h_char in E.
  destruct rest as [|c r]; [discriminate|]. destruct (ceqb k c); [|discriminate]. injection E as <- <-.
  exists 0. split; [apply run_d3_nonl; auto|]. apply (no3_app_r q [c] r). exact Ho.
Qed.
Lemma no3_leadnl s : no3 s -> no3 (sc h_leadnl s).
Proof. rewrite sc_leadnl. intro Ho. rewrite <- (take_drop_while (ceqb 10) s) in Ho. eapply no3_app_r; eauto. Qed.
Lemma no3_trailnl s : no3 s -> no3 (sc h_trailnl s).
Proof.
  rewrite sc_trailnl. intro Ho. destruct (strip_nl_end_spec s) as [k E]. rewrite E in Ho. eapply no3_app_l; eauto.
Qed.
Lemma ty_no3 s : no3 s -> no3 (ty_fun s).
Proof. intro Hs. unfold ty_fun. apply no3_ell. repeat (apply no3_quote; [discriminate|discriminate|]). auto. Qed.

Lemma wl_nl r : wl (10%N :: r) <> None.
Proof. cbn [wl]. change (is_ws 10) with true. destruct (wl r); [discriminate|]. discriminate. Qed.
Lemma scan_wol_no3 f : forall prev k s, length s < f ->
  (k = 0 \/ (k = 1 /\ prev = Some 10%N) \/ (k = 2 /\ prev = Some 10%N /\ wl s = None)) ->
  ok d3 k (scan h_wol f prev s).
Proof.
  induction f as [|f IH]; intros prev k s Hl Hk; [lia|]. cbn [scan].
  destruct (h_wol prev s) as [[o r]|] eqn:E.
  - unfold h_wol in E. destruct (bol prev); [|discriminate]. destruct s as [|c s]; [discriminate|].
    destruct (is_ws c) eqn:Ews; [|discriminate]. destruct (wl s) as [b|] eqn:Ew; [|discriminate].
    injection E as <- <-. cbn [app]. unfold upd. cbn [last_char rev].
    apply IH.
    + assert (length b <= length s); [|simpl in Hl; lia]. clear -Ew. revert b Ew.
      induction s as [|d s IH]; intros b; cbn [wl]; [intros [= <-]; auto|].
      destruct (is_ws d); [|discriminate]. destruct (wl s) as [b'|].
      * intros [= <-]. specialize (IH _ eq_refl). simpl; lia.
      * destruct (ceqb d newline); [|discriminate]. intros [= <-]. auto.
    + destruct Hk as [?|[?|(_ & _ & Hw)]]; auto. cbn [wl] in Hw. rewrite Ews, Ew in Hw. discriminate.
  - destruct s as [|c s]; [unfold ok; simpl; congruence|]. unfold ok. cbn [run]. unfold d3 at 1.
    simpl in Hl. destruct (ceqb c 10) eqn:Ec; [|apply IH; auto; lia]. apply ceqb_eq in Ec as ->.
    destruct Hk as [->|[[-> ->]|(-> & -> & Hw)]].
    + simpl. apply IH; [lia|auto].
    + simpl. apply IH; [lia|]. right; right. repeat split; auto.
      unfold h_wol in E. cbn in E. change (is_ws 10) with true in E. cbv iota in E.
      destruct (wl s); [discriminate|auto].
    + exfalso. exact (wl_nl _ Hw).
Qed.
Lemma wol_no3 s : no3 (sc h_wol s).
Proof. apply scan_wol_no3; [lia|auto]. Qed.
Lemma concat_id s : nopair Rbn s -> sc h_concat s = s.
Proof.
  intro Hs. apply sc_id. intros a b ->. unfold h_concat. destruct b as [|c [|d b]]; auto.
  destruct (ceqb 92 c && ceqb 10 d) eqn:E; auto. apply andb_true_iff in E as [E1 E2].
  apply ceqb_eq in E1, E2. subst. rewrite nopair_spec in Hs. specialize (Hs a 92%N 10%N b eq_refl). discriminate.
Qed.
Lemma nopair_impl (R R' : char -> char -> bool) s : (forall a b, R' a b = true -> R a b = true) -> nopair R s -> nopair R' s.
Proof.
  intros Hi. rewrite !nopair_spec. intros Hs a x y b E. destruct (R' x y) eqn:E'; auto.
  apply Hi in E'. rewrite (Hs _ _ _ _ E) in E'. discriminate.
Qed.
Theorem no3_partial s : nopair Rbnr s -> no3 (ty_fun (ws_fun s)).
Proof.
  intro Hs. apply ty_no3. unfold ws_fun. apply no3_trailnl, no3_leadnl.
  apply no3_char; [discriminate|repeat constructor; discriminate|].
  apply no3_char; [discriminate|repeat constructor; discriminate|].
  rewrite concat_id; [apply wol_no3|].
  apply nopair_impl with (R := Rbnr).
  { intros a b. unfold Rbn, Rbnr. intro H. apply andb_true_iff in H as [-> ->]. reflexivity. }
  apply pair_wol; [reflexivity|]. apply pair_lead; [inert Rbnr|]. apply dos_pair_bnr. exact Hs.
Qed.

(** PropFixed.v -- property C03, exactly: which texts preprocessing leaves unchanged. *)
From Coq Require Import Relations.
From Verif Require Import Base BaseLemmas Regex Preproc SpecPreproc PreprocLemmas PreprocFacts PreprocFacts3 PropPreproc.

(** A weight every replacement makes smaller. *)
Definition weight (c : char) : nat := if ceqb c 9 then 5 else if cmem c [0; 13; 160; 8199; 96]%N then 2 else 1.
Definition W (s : str) : nat := list_sum (map weight s).
Lemma W_app a b : W (a ++ b) = W a + W b. Proof. unfold W. rewrite map_app. apply list_sum_app. Qed.
Lemma W_cons c s : W (c :: s) = weight c + W s. Proof. reflexivity. Qed.
Lemma weight_pos c : 1 <= weight c. Proof. unfold weight. destruct (ceqb c 9); [lia|]. destruct (cmem c [0; 13; 160; 8199; 96]%N); lia. Qed.
Definition quiet (H : option char -> str -> option (str * str)) (s : str) : Prop := forall a b, s = a ++ b -> H (last_char a) b = None.
Definition lighter (H : option char -> str -> option (str * str)) : Prop := forall prev rest o rest', H prev rest = Some (o, rest') -> W (o ++ rest') < W rest.
Lemma scan_W H : lighter H -> forall f pre rest, W (scan H f (last_char pre) rest) <= W rest /\
  (length rest < f -> W (scan H f (last_char pre) rest) = W rest -> forall a b, rest = a ++ b -> H (last_char (pre ++ a)) b = None).
Proof.
  intro HL. induction f as [|f IH]; intros pre rest; [split; [cbn [scan]; lia|intro; lia]|]. cbn [scan].
  destruct (H (last_char pre) rest) as [[o r]|] eqn:E.
  - apply HL in E. rewrite W_app in *. rewrite upd_last. destruct (IH (pre ++ o) r) as [X _]. split; [lia|]. intros _ Y. lia.
  - destruct rest as [|c r].
    + split; [lia|]. intros _ _ a b Hab. symmetry in Hab. apply app_eq_nil in Hab as [-> ->]. rewrite app_nil_r. exact E.
    + destruct (IH (pre ++ [c]) r) as [X Y]. rewrite last_char_snoc in X, Y. rewrite !W_cons. split; [lia|].
      cbn [length]. intros Hf He a b Hab. destruct a as [|d a]; [cbn [app] in Hab; subst b; rewrite app_nil_r; exact E|].
      cbn [app] in Hab. injection Hab as <- Hab. specialize (Y ltac:(lia) ltac:(lia) a b Hab). rewrite <- app_assoc in Y. exact Y.
Qed.
Lemma sc_W H s : lighter H -> W (sc H s) <= W s /\ (W (sc H s) = W s -> quiet H s).
Proof.
  intro HL. destruct (scan_W H HL (S (length s)) [] s) as [X Y]. split; [exact X|]. intros He a b Hab. exact (Y ltac:(lia) He a b Hab).
Qed.
Lemma ceqb_weight k c n : ceqb k c = true -> weight k = n -> weight c = n.
Proof. intros E H. apply ceqb_eq in E. subst. auto. Qed.
Lemma W_take p s n : (forall c, p c = true -> weight c = n) -> W s = n * length (take_while p s) + W (drop_while p s).
Proof.
  intro H. induction s as [|c s IH]; [cbn; lia|]. cbn [take_while drop_while]. destruct (p c) eqn:E; [|cbn [length]; lia].
  rewrite W_cons, IH, (H c E). cbn [length]. lia.
Qed.
Lemma wl_W s : forall b, wl s = Some b -> W b <= W s.
Proof.
  induction s as [|c r IH]; intros b; cbn [wl]; [intro X; injection X as <-; auto|].
  destruct (is_ws c); [|discriminate]. rewrite W_cons. destruct (wl r) as [b'|]; [intro X; injection X as <-; specialize (IH _ eq_refl); lia|].
  destruct (ceqb c newline); [|discriminate]. intro X. injection X as <-. rewrite W_cons. lia.
Qed.
Lemma lt_dos : lighter h_dos.
Proof.
  intros prev rest o rest' E. unfold h_dos in E. destruct rest as [|c r]; [discriminate|].
  destruct (ceqb 13 c) eqn:Ec; [|discriminate]. injection E as <- <-. rewrite W_app, (W_cons c), (ceqb_weight 13 c 2) by auto. change (W [10%N]) with 1.
  destruct r as [|d r']; [cbn; lia|]. destruct (ceqb 10 d); rewrite ?W_cons; pose proof (weight_pos d); lia.
Qed.
Lemma lt_lead : lighter h_lead.
Proof.
  assert (Hn : forall c, is_nonstd_space c = true -> weight c = 2).
  { intros c H. unfold is_nonstd_space in H. apply orb_prop in H as [H|H]; apply ceqb_eq in H; subst; reflexivity. }
  intros prev rest o rest' E. unfold h_lead in E. destruct (bol prev); [|discriminate]. destruct rest as [|c r]; [discriminate|].
  destruct (is_nonstd_space c) eqn:Ew; [|discriminate]. injection E as <- <-. change (32%N :: ?x) with ([32%N] ++ x). rewrite !W_app, (W_cons c), (Hn c Ew), (W_take _ r 2 Hn).
  change (W [32%N]) with 1. assert (X : forall n, W (repeat 32%N n) = n) by (induction n as [|n IHn]; auto; cbn [repeat]; rewrite W_cons, IHn; reflexivity). rewrite X. lia.
Qed.
Lemma lt_wol : lighter h_wol.
Proof.
  intros prev rest o rest' E. unfold h_wol in E. destruct (bol prev); [|discriminate]. destruct rest as [|c r]; [discriminate|].
  destruct (is_ws c); [|discriminate]. destruct (wl r) eqn:El; [|discriminate]. injection E as <- <-. apply wl_W in El. cbn [app]. rewrite W_cons. pose proof (weight_pos c). lia.
Qed.
Lemma lt_concat : lighter h_concat.
Proof.
  intros prev rest o rest' E. unfold h_concat in E. destruct rest as [|c [|d r]]; try discriminate.
  destruct (ceqb 92 c && ceqb 10 d); [|discriminate]. injection E as <- <-. cbn [app]. rewrite !W_cons. pose proof (weight_pos c). lia.
Qed.
Lemma lt_char k repl : W repl < weight k -> lighter (h_char k repl).
Proof.
  intros Hk prev rest o rest' E. unfold h_char in E. destruct rest as [|c r]; [discriminate|]. destruct (ceqb k c) eqn:Ec; [|discriminate].
  injection E as <- <-. rewrite W_app, W_cons, (ceqb_weight k c _ Ec eq_refl). lia.
Qed.
Lemma lt_leadnl : lighter h_leadnl.
Proof.
  intros prev rest o rest' E. unfold h_leadnl in E. destruct prev; [discriminate|]. destruct rest as [|c r]; [discriminate|].
  destruct (ceqb 10 c) eqn:Ec; [|discriminate]. injection E as <- <-. cbn [app]. rewrite W_cons, (W_take (ceqb 10) r 1) by (intros x Hx; apply (ceqb_weight 10); auto).
  pose proof (weight_pos c). lia.
Qed.
Lemma lt_trailnl : lighter h_trailnl.
Proof.
  intros prev rest o rest' E. unfold h_trailnl in E. destruct rest as [|c r]; [discriminate|].
  destruct (ceqb 10 c && forallb (ceqb 10) r); [|discriminate]. injection E as <- <-. rewrite W_cons. pose proof (weight_pos c). change (W ([] ++ [])) with 0. lia.
Qed.
Lemma lt_quote open close b e : W b + W e < W open + W close -> lighter (h_quote open close b e).
Proof.
  intros Hw prev rest o rest' E. unfold h_quote in E. destruct (strip_prefix open rest) eqn:E1; [|discriminate]. apply strip_prefix_inv in E1. subst rest.
  destruct (lz close l) as [[m r]|] eqn:E2; [|discriminate]. apply lz_inv in E2 as [-> _]. injection E as <- <-. rewrite !W_app. lia.
Qed.
Lemma lt_ell : lighter h_ell.
Proof.
  intros prev rest o rest' E. apply h_ell_inv in E as (a & d & -> & -> & Hd & _). rewrite !W_app. change (W [8230%N]) with 1. destruct Hd as [-> | ->]; [change (W (lit "...")) with 3|change (W (lit ". . .")) with 5]; lia.
Qed.
(** Unchanged: no pass does anything. *)
Lemma quiet_sc H s : quiet H s -> sc H s = s. Proof. apply sc_id. Qed.
Definition all_quiet (s : str) : Prop :=
  quiet h_dos s /\ quiet h_lead s /\ quiet h_wol s /\ quiet h_concat s /\ quiet (h_char 9 (lit "    ")) s /\ quiet (h_char 0 (lit " ")) s /\
  quiet h_leadnl s /\ quiet h_trailnl s /\
  quiet (h_quote [96; 96]%N [39; 39]%N [8220%N] [8221%N]) s /\ quiet (h_quote [44; 44]%N [39; 39]%N [8222%N] [8221%N]) s /\
  quiet (h_quote [96]%N [39]%N [8216%N] [8217%N]) s /\ quiet h_ell s.
Lemma L9 : lighter (h_char 9 (lit "    ")). Proof. apply lt_char. apply Nat.ltb_lt. reflexivity. Qed.
Lemma L0 : lighter (h_char 0 (lit " ")). Proof. apply lt_char. apply Nat.ltb_lt. reflexivity. Qed.
Lemma Q1 : lighter (h_quote [96; 96]%N [39; 39]%N [8220%N] [8221%N]). Proof. apply lt_quote. apply Nat.ltb_lt. reflexivity. Qed.
Lemma Q2 : lighter (h_quote [44; 44]%N [39; 39]%N [8222%N] [8221%N]). Proof. apply lt_quote. apply Nat.ltb_lt. reflexivity. Qed.
Lemma Q3 : lighter (h_quote [96]%N [39]%N [8216%N] [8217%N]). Proof. apply lt_quote. apply Nat.ltb_lt. reflexivity. Qed.
Definition passes : list (option char -> str -> option (str * str)) :=
  [h_dos; h_lead; h_wol; h_concat; h_char 9 (lit "    "); h_char 0 (lit " "); h_leadnl; h_trailnl;
   h_quote [96; 96]%N [39; 39]%N [8220%N] [8221%N]; h_quote [44; 44]%N [39; 39]%N [8222%N] [8221%N]; h_quote [96]%N [39]%N [8216%N] [8217%N]; h_ell].
Lemma chain Hs : Forall lighter Hs -> forall s,
  W (fold_left (fun s H => sc H s) Hs s) <= W s /\
  (W (fold_left (fun s H => sc H s) Hs s) = W s -> Forall (fun H => quiet H s) Hs) /\
  (Forall (fun H => quiet H s) Hs -> fold_left (fun s H => sc H s) Hs s = s).
Proof.
  induction 1 as [|H Hs HL _ IH]; intro s; cbn [fold_left]; [auto|].
  destruct (sc_W H s HL) as [X Y]. destruct (IH (sc H s)) as (A & B & C). split; [lia|]. split.
  - intro E. assert (Q : quiet H s) by (apply Y; lia). rewrite (quiet_sc H s Q) in *. constructor; auto.
  - intro F. inversion F as [|? ? Q F']; subst. rewrite (quiet_sc H s Q) in *. auto.
Qed.
Lemma passes_fun s : ty_fun (ws_fun s) = fold_left (fun s H => sc H s) passes s.
Proof. unfold ty_fun, ws_fun, passes. cbn [fold_left]. reflexivity. Qed.
Lemma passes_lighter : Forall lighter passes.
Proof.
  unfold passes. repeat (apply Forall_cons; [first [exact lt_dos|exact lt_lead|exact lt_wol|exact lt_concat|exact L9|exact L0|exact lt_leadnl|exact lt_trailnl|exact Q1|exact Q2|exact Q3|exact lt_ell]|]). apply Forall_nil.
Qed.
Lemma fixed_quiet s : ty_fun (ws_fun s) = s <-> all_quiet s.
Proof.
  rewrite passes_fun. destruct (chain passes passes_lighter s) as (_ & B & C).
  assert (D : Forall (fun H => quiet H s) passes <-> all_quiet s).
  { unfold passes, all_quiet. rewrite !Forall_cons_iff. intuition. }
  rewrite <- D. split; [|exact C]. intro E. apply B. rewrite E. reflexivity.
Qed.
(** What it means for a pass to do nothing. *)
Lemma line_start_bol a : line_start a <-> bol (last_char a) = true.
Proof.
  split.
  - intros [->|[a' ->]]; [reflexivity|]. rewrite last_char_snoc. reflexivity.
  - destruct (last_char a) as [c|] eqn:E; cbn [bol].
    + intro H. apply ceqb_eq in H. subst c. right. destruct a as [|x a _] using rev_ind; [discriminate E|]. rewrite last_char_snoc in E. injection E as ->. eauto.
    + intros _. left. destruct a as [|x a _] using rev_ind; auto. rewrite last_char_snoc in E. discriminate E.
Qed.
Lemma wl_some s : forall b, wl s = Some b -> exists w, s = w ++ b /\ Forall (fun c => is_ws c = true) w /\ line_end b.
Proof.
  induction s as [|c r IH]; intros b; cbn [wl].
  - intro X. injection X as <-. exists []. split; auto. split; [constructor|left; auto].
  - destruct (is_ws c) eqn:Ew; [|discriminate]. destruct (wl r) as [b'|] eqn:El.
    + intro X. injection X as <-. destruct (IH _ eq_refl) as (w & -> & Hw & Hb). exists (c :: w). split; auto.
    + destruct (ceqb c newline) eqn:Ec; [|discriminate]. intro X. injection X as <-. exists []. split; auto. split; [constructor|]. apply ceqb_eq in Ec. right. subst. eexists. reflexivity.
Qed.
Lemma wl_fires w b : Forall (fun c => is_ws c = true) w -> line_end b -> wl (w ++ b) <> None.
Proof.
  intros Hw Hb. induction Hw as [|c w Hc _ IH]; cbn [app].
  - destruct Hb as [->|[b' ->]]; [discriminate|]. cbn [wl]. change (is_ws 10) with true. cbv iota. destruct (wl b'); discriminate.
  - cbn [wl]. rewrite Hc. destruct (wl (w ++ b)); [discriminate|]. contradiction.
Qed.
Lemma lz_fires close m b : ~ In 10%N m -> lz close (m ++ close ++ b) <> None.
Proof.
  induction m as [|c m IH]; intro Hn.
  - cbn [app]. destruct (close ++ b) eqn:E; cbn [lz]; rewrite <- E, strip_prefix_app; discriminate.
  - cbn [app lz]. destruct (strip_prefix close _); [discriminate|]. destruct (ceqb c newline) eqn:Ec.
    + apply ceqb_eq in Ec. exfalso. apply Hn. left. auto.
    + destruct (lz close (m ++ close ++ b)) as [[x y]|] eqn:El; [discriminate|]. exfalso. apply IH; auto. intro X. apply Hn. right. auto.
Qed.
Lemma el_fires d b : d = lit "..." \/ d = lit ". . ." -> (forall b', b <> lit "." ++ b') -> el (d ++ b) <> None.
Proof.
  intros Hd Hb. assert (X : match b with c :: _ => if ceqb c 46 then None else Some b | [] => Some b end <> None).
  { destruct b as [|c b]; [discriminate|]. destruct (ceqb c 46) eqn:E; [|discriminate]. apply ceqb_eq in E. subst. exfalso. eapply Hb. reflexivity. }
  destruct Hd as [-> | ->]; exact X.
Qed.
Lemma quiet_settled s : all_quiet s <-> settled s.
Proof.
  split.
  - intros (H1 & H2 & H3 & H4 & H5 & H6 & H7 & H8 & H9 & H10 & H11 & H12). split.
    + intros c Hc Hi. apply in_split in Hi as (a & b & ->). destruct Hc as [<-|[<-|[<-|[]]]].
      * discriminate (H6 a _ eq_refl).
      * discriminate (H5 a _ eq_refl).
      * discriminate (H1 a _ eq_refl).
    + intros a c b -> Ha Hc. pose proof (H2 a _ eq_refl) as X. unfold h_lead in X. apply line_start_bol in Ha. rewrite Ha in X.
      destruct Hc as [<-|[<-|[]]]; discriminate X.
    + intros a w b -> Ha Hb Hw Hf. pose proof (H3 a _ eq_refl) as X. unfold h_wol in X. apply line_start_bol in Ha. rewrite Ha in X.
      destruct w as [|c w]; [contradiction|]. inversion Hf as [|? ? Hc Hf']; subst. cbn [app] in X. rewrite Hc in X. pose proof (wl_fires w b Hf' Hb) as Y.
      destruct (wl (w ++ b)); [discriminate X|contradiction].
    + intros (a & b & ->). discriminate (H4 a _ eq_refl).
    + intros r ->. discriminate (H7 [] _ eq_refl).
    + intros r ->. discriminate (H8 r _ eq_refl).
    + assert (Hq : forall open close b e, quiet (h_quote open close b e) s -> forall a m t, ~ In 10%N m -> s <> a ++ open ++ m ++ close ++ t).
      { intros open close b e Hq a m t Hm ->. pose proof (Hq a _ eq_refl) as X. unfold h_quote in X. rewrite strip_prefix_app in X. pose proof (lz_fires close m t Hm) as Y.
        destruct (lz close (m ++ close ++ t)) as [[x y]|]; [discriminate X|contradiction]. }
      intros t Ht. destruct Ht as [a m b Hm|a m b Hm|a m b Hm|a d b Hd Ha Hb].
      * exact (Hq _ _ _ _ H9 a m b Hm eq_refl).
      * exact (Hq _ _ _ _ H10 a m b Hm eq_refl).
      * exact (Hq _ _ _ _ H11 a m b Hm eq_refl).
      * pose proof (el_fires d b Hd Hb) as Y. destruct a as [|c a _] using rev_ind.
        -- pose proof (H12 [] _ eq_refl) as X. unfold h_ell in X. cbn [app last_char rev] in X. destruct (el (d ++ b)); [discriminate X|contradiction].
        -- assert (Hc : ceqb c 46 = false). { destruct (ceqb c 46) eqn:E; auto. apply ceqb_eq in E. subst. exfalso. eapply Ha. reflexivity. }
           pose proof (H12 a (c :: d ++ b) ltac:(rewrite <- app_assoc; reflexivity)) as X. unfold h_ell in X.
           destruct (match last_char a with Some _ => None | None => el (c :: d ++ b) end); [discriminate X|]. rewrite Hc in X. destruct (el (d ++ b)); [discriminate X|contradiction].
  - intros [C1 C2 C3 C4 C5 C6 C7]. unfold all_quiet.
    assert (Hq : forall open close b e, (forall a m t, ~ In 10%N m -> tstep (a ++ open ++ m ++ close ++ t) (a ++ [b] ++ m ++ [e] ++ t)) -> quiet (h_quote open close [b] [e]) s).
    { intros open close b e Hs a r E. destruct (h_quote open close [b] [e] (last_char a) r) as [[o r']|] eqn:Eh; auto. apply (quote_tstep open close b e Hs) in Eh. rewrite <- E in Eh. exfalso. eapply C7; eauto. }
    assert (Hc : forall k repl, In k [0; 9; 13]%N -> quiet (h_char k repl) s).
    { intros k repl Hk a b E. unfold h_char. destruct b as [|c b]; auto. destruct (ceqb k c) eqn:Ek; auto. apply ceqb_eq in Ek. subst c. exfalso. apply (C1 k Hk). rewrite E. apply in_elt. }
    split; [|split; [|split; [|split; [|split; [apply Hc; cbn; auto|split; [apply Hc; cbn; auto|split; [|split; [|split; [apply Hq, ts_double|split; [apply Hq, ts_low|split; [apply Hq, ts_single|]]]]]]]]]]].
    + intros a b E. unfold h_dos. destruct b as [|c b]; auto. destruct (ceqb 13 c) eqn:Ek; auto. apply ceqb_eq in Ek. subst c. exfalso. apply (C1 13%N); [cbn; auto|]. rewrite E. apply in_elt.
    + intros a b E. unfold h_lead. destruct (bol (last_char a)) eqn:Eb; auto. destruct b as [|c b]; auto. destruct (is_nonstd_space c) eqn:En; auto. exfalso.
      apply (C2 a c b E); [apply line_start_bol; auto|]. unfold is_nonstd_space in En. apply orb_prop in En as [En|En]; apply ceqb_eq in En; subst; cbn; auto.
    + intros a b E. unfold h_wol. destruct (bol (last_char a)) eqn:Eb; auto. destruct b as [|c b]; auto. destruct (is_ws c) eqn:Ew; auto. destruct (wl b) as [b'|] eqn:El; auto. exfalso.
      apply wl_some in El as (w & -> & Hw & Hb). apply (C3 a (c :: w) b' E); auto; [apply line_start_bol; auto|discriminate].
    + intros a b E. unfold h_concat. destruct b as [|c [|d b]]; auto. destruct (ceqb 92 c && ceqb 10 d) eqn:Ec; auto. apply andb_prop in Ec as [Ec Ed]. apply ceqb_eq in Ec, Ed. subst c d.
      exfalso. apply C4. exists a, b. exact E.
    + intros a b E. unfold h_leadnl. destruct (last_char a) eqn:El; auto. destruct b as [|c b]; auto. destruct (ceqb 10 c) eqn:Ec; auto. apply ceqb_eq in Ec. subst c. exfalso.
      destruct a as [|x a _] using rev_ind; [eapply C5; exact E|rewrite last_char_snoc in El; discriminate El].
    + intros a b E. unfold h_trailnl. destruct b as [|c b]; auto. destruct (ceqb 10 c && forallb (ceqb 10) b) eqn:Ec; auto. apply andb_prop in Ec as [Ec Ed]. apply ceqb_eq in Ec. subst c. exfalso.
      assert (X : exists r, (10%N :: b : str) = r ++ [10%N]).
      { clear - Ed. destruct b as [|x b _] using rev_ind; [exists []; reflexivity|]. rewrite forallb_app in Ed. apply andb_prop in Ed as [_ Ed]. cbn [forallb] in Ed. rewrite andb_true_r in Ed. apply ceqb_eq in Ed. subst x. exists (10%N :: b). reflexivity. }
      destruct X as [r X]. rewrite X in E. apply (C6 (a ++ r)). rewrite E, app_assoc. reflexivity.
    + intros a b E. destruct (h_ell (last_char a) b) as [[o r']|] eqn:Eh; auto. apply ell_tstep in Eh. rewrite <- E in Eh. exfalso. eapply C7; eauto.
Qed.
(** C03, exactly: a text is unchanged by preprocessing if and only if it is settled. *)
Theorem C03_unchanged_exactly : forall s, preprocess s = ROk s <-> settled s.
Proof.
  intro s. rewrite <- quiet_settled, <- fixed_quiet, preprocess_fun. split; [intro H; injection H as H; exact H|intros ->; reflexivity].
Qed.
Print Assumptions C03_unchanged_exactly.
Example C03_settled_case : settled (lit "Well, yes. `Indeed

\a ... .... x") -> False.
Proof. intro H. apply C03_unchanged_exactly in H. vm_compute in H. discriminate H. Qed.
Example C03_settled_case2 : settled (lit "Well, yes. `Indeed

 \a .... x, ,y''").
Proof. apply C03_unchanged_exactly. vm_compute. reflexivity. Qed.

(** *** Idempotence *)
Section Kept.
Variable p : char -> bool.
Hypothesis Hws : forall c, is_ws c = true -> p c = false.
Hypothesis H0 : p 0%N = false.
Hypothesis H92 : p 92%N = false.
Lemma kept_app a b : filter p (a ++ b) = filter p a ++ filter p b. Proof. apply filter_app. Qed.
Lemma scan_kept H : (forall prev rest o rest', H prev rest = Some (o, rest') -> filter p rest = filter p (o ++ rest')) ->
  forall f prev rest, filter p (scan H f prev rest) = filter p rest.
Proof.
  intros HH f; induction f as [|f IH]; intros prev rest; cbn [scan]; auto.
  destruct (H prev rest) as [[o r']|] eqn:E.
  - rewrite (HH _ _ _ _ E), !kept_app, IH. auto.
  - destruct rest as [|c r]; auto. cbn [filter]. rewrite IH. auto.
Qed.
Lemma kept_cons c s : p c = false -> filter p (c :: s) = filter p s.
Proof. intro H. cbn [filter]. rewrite H. reflexivity. Qed.
Lemma kept_drop q s : (forall c, q c = true -> p c = false) -> filter p (drop_while q s) = filter p s.
Proof.
  intro H. induction s as [|c s IH]; auto. cbn [drop_while]. destruct (q c) eqn:E; auto. rewrite (kept_cons c s) by auto. exact IH.
Qed.
Lemma kept_none s : (forall c, In c s -> p c = false) -> filter p s = [].
Proof. induction s as [|c s IH]; intro H; auto. rewrite kept_cons by (apply H; left; auto). apply IH. intros x Hx. apply H. right. auto. Qed.
Lemma wl_kept s : forall b, wl s = Some b -> filter p b = filter p s.
Proof.
  induction s as [|c r IH]; intros b; cbn [wl]; [intro X; injection X as <-; auto|].
  destruct (is_ws c) eqn:Ew; [|discriminate]. rewrite (kept_cons c r) by auto.
  destruct (wl r) as [b'|]; [intro X; injection X as <-; auto|]. destruct (ceqb c newline); [|discriminate]. intro X. injection X as <-. apply kept_cons; auto.
Qed.
Lemma char_kept k c : p k = false -> ceqb k c = true -> p c = false.
Proof. intros H E. apply ceqb_eq in E. subst. auto. Qed.
Lemma ws_fun_filter s : filter p (ws_fun s) = filter p s.
Proof.
  assert (P10 : p 10%N = false) by (apply Hws; reflexivity). assert (P13 : p 13%N = false) by (apply Hws; reflexivity).
  assert (P9 : p 9%N = false) by (apply Hws; reflexivity). assert (P32 : p 32%N = false) by (apply Hws; reflexivity).
  assert (Hc : forall k repl s, p k = false -> filter p repl = [] -> filter p (sc (h_char k repl) s) = filter p s).
  { intros k repl s0 Hk Hr. apply scan_kept. intros prev rest o rest' E. unfold h_char in E. destruct rest as [|c r]; [discriminate|].
    destruct (ceqb k c) eqn:Ek; [|discriminate]. injection E as <- <-. rewrite kept_app, Hr. apply kept_cons, (char_kept k); auto. }
  unfold ws_fun.
  transitivity (filter p (sc h_leadnl (sc (h_char 0 (lit " ")) (sc (h_char 9 (lit "    ")) (sc h_concat (sc h_wol (sc h_lead (sc h_dos s)))))))).
  { apply scan_kept. intros prev rest o rest' E. unfold h_trailnl in E. destruct rest as [|c r]; [discriminate|].
    destruct (ceqb 10 c && forallb (ceqb 10) r) eqn:Ec; [|discriminate]. injection E as <- <-. apply andb_prop in Ec as [E1 E2]. rewrite forallb_forall in E2.
    rewrite kept_none; auto. intros x [<-|Hx]; apply (char_kept 10); auto. }
  transitivity (filter p (sc (h_char 0 (lit " ")) (sc (h_char 9 (lit "    ")) (sc h_concat (sc h_wol (sc h_lead (sc h_dos s))))))).
  { apply scan_kept. intros prev rest o rest' E. unfold h_leadnl in E. destruct prev; [discriminate|]. destruct rest as [|c r]; [discriminate|].
    destruct (ceqb 10 c) eqn:Ec; [|discriminate]. injection E as <- <-. cbn [app]. rewrite kept_drop by (intros x Hx; apply (char_kept 10); auto). apply kept_cons, (char_kept 10); auto. }
  rewrite !Hc by (auto; apply kept_none; intros x Hx; cbn in Hx; intuition; subst; auto).
  transitivity (filter p (sc h_wol (sc h_lead (sc h_dos s)))).
  { apply scan_kept. intros prev rest o rest' E. unfold h_concat in E. destruct rest as [|c [|d r]]; try discriminate.
    destruct (ceqb 92 c && ceqb 10 d) eqn:Ec; [|discriminate]. injection E as <- <-. apply andb_prop in Ec as [E1 E2]. cbn [app].
    rewrite (kept_cons c) by (apply (char_kept 92); auto). apply kept_cons, (char_kept 10); auto. }
  transitivity (filter p (sc h_lead (sc h_dos s))).
  { apply scan_kept. intros prev rest o rest' E. unfold h_wol in E. destruct (bol prev); [|discriminate]. destruct rest as [|c r]; [discriminate|].
    destruct (is_ws c) eqn:Ew; [|discriminate]. destruct (wl r) eqn:El; [|discriminate]. injection E as <- <-. cbn [app]. rewrite (wl_kept _ _ El). apply kept_cons; auto. }
  transitivity (filter p (sc h_dos s)).
  { assert (Hn : forall c, is_nonstd_space c = true -> p c = false).
    { intros c Hc'. apply Hws. unfold is_nonstd_space in Hc'. apply orb_prop in Hc' as [Hc'|Hc']; apply ceqb_eq in Hc'; subst c; reflexivity. }
    apply scan_kept. intros prev rest o rest' E. unfold h_lead in E. destruct (bol prev); [|discriminate]. destruct rest as [|c r]; [discriminate|].
    destruct (is_nonstd_space c) eqn:Ew; [|discriminate]. injection E as <- <-. rewrite kept_app, (kept_cons c) by auto. rewrite kept_drop by auto.
    match goal with |- _ = filter p ?l ++ _ => rewrite (kept_none l) end; auto. intros x [<-|Hx]; auto. apply repeat_spec in Hx. subst; auto. }
  apply scan_kept. intros prev rest o rest' E. unfold h_dos in E. destruct rest as [|c r]; [discriminate|].
  destruct (ceqb 13 c) eqn:Ec; [|discriminate]. injection E as <- <-. rewrite (kept_cons c) by (apply (char_kept 13); auto).
  rewrite kept_app, (kept_none [10%N]) by (intros x [<-|[]]; auto). destruct r as [|d r']; auto. destruct (ceqb 10 d) eqn:Ed; auto. apply kept_cons, (char_kept 10); auto.
Qed.
End Kept.

(** Blank lines and indents, read from the left. *)
Fixpoint no_blank (prev : option char) (s : str) : Prop :=
  match s with
  | [] => True
  | c :: r => (bol prev = true -> is_ws c = true -> wl r = None) /\ no_blank (Some c) r
  end.
Fixpoint no_indent (prev : option char) (s : str) : Prop :=
  match s with
  | [] => True
  | c :: r => (bol prev = true -> is_nonstd_space c = false) /\ no_indent (Some c) r
  end.
Lemma wl_last s b : wl s = Some b -> b = [] \/ exists r, b = 10%N :: r /\ wl r = None.
Proof.
  revert b. induction s as [|c r IH]; intros b; cbn [wl]; [intro X; injection X as <-; auto|].
  destruct (is_ws c); [|discriminate]. destruct (wl r) as [b'|] eqn:El; [intro X; injection X as <-; auto|].
  destruct (ceqb c newline) eqn:Ec; [|discriminate]. intro X. injection X as <-. apply ceqb_eq in Ec. subst c. right. eauto.
Qed.
Lemma scan_wol_wl f : forall prev rest, wl rest = None -> wl (scan h_wol f prev rest) = None.
Proof.
  induction f as [|f IH]; intros prev rest H; auto. cbn [scan]. destruct rest as [|c r]; [discriminate H|].
  cbn [wl] in H. unfold h_wol. destruct (is_ws c) eqn:Ew.
  - destruct (wl r) eqn:El; [discriminate H|]. destruct (ceqb c newline) eqn:En; [discriminate H|]. destruct (bol prev); cbn [wl]; rewrite Ew, IH, ?En; auto.
  - destruct (bol prev); cbn [wl]; rewrite Ew; reflexivity.
Qed.
Lemma scan_wol_no_blank f : forall prev rest, length rest < f -> no_blank prev (scan h_wol f prev rest).
Proof.
  induction f as [|f IH]; intros prev rest Hl; [lia|]. cbn [scan]. destruct (h_wol prev rest) as [[o r]|] eqn:E.
  - unfold h_wol in E. destruct (bol prev); [|discriminate]. destruct rest as [|c r0]; [discriminate|]. destruct (is_ws c); [|discriminate].
    destruct (wl r0) as [b|] eqn:El; [|discriminate]. injection E as <- <-. cbn [app]. unfold upd. cbn [last_char rev].
    apply IH. apply wl_some in El as (w & -> & _). cbn [length] in Hl. rewrite app_length in Hl. lia.
  - destruct rest as [|c r]; [exact I|]. cbn [length] in Hl. cbn [no_blank]. split; [|apply IH; lia].
    intros Hb Hw. apply scan_wol_wl. unfold h_wol in E. rewrite Hb, Hw in E. destruct (wl r); [discriminate E|reflexivity].
Qed.
Lemma scan_wol_no_indent f : forall prev rest, no_indent prev rest -> no_indent prev (scan h_wol f prev rest).
Proof.
  induction f as [|f IH]; intros prev rest H; auto. cbn [scan]. destruct (h_wol prev rest) as [[o r]|] eqn:E.
  - unfold h_wol in E. destruct (bol prev); [|discriminate]. destruct rest as [|c r0]; [discriminate|]. destruct (is_ws c); [|discriminate].
    destruct (wl r0) as [b|] eqn:El; [|discriminate]. injection E as <- <-. cbn [app]. unfold upd. cbn [last_char rev]. apply IH.
    destruct (wl_last _ _ El) as [->|(r & -> & _)]; [exact I|]. apply wl_some in El as (w & -> & _ & _). cbn [no_indent] in *. split; [reflexivity|]. destruct H as [_ H].
    clear - H. revert c H. induction w as [|d w IHw]; intros c H; cbn [app no_indent] in H; [exact (proj2 H)|exact (IHw d (proj2 H))].
  - destruct rest as [|c r]; [exact I|]. cbn [no_indent] in *. split; [apply H|apply IH, H].
Qed.
Lemma scan_lead_no_indent f : forall prev rest, length rest < f -> no_indent prev (scan h_lead f prev rest).
Proof.
  assert (Sp : forall n r c, no_indent (Some c) r -> c = 32%N -> no_indent (Some c) (repeat 32%N n ++ r)).
  { induction n as [|n IHn]; intros r c Hr ->; cbn [repeat app no_indent]; auto. }
  induction f as [|f IH]; intros prev rest Hl; [lia|]. cbn [scan]. destruct (h_lead prev rest) as [[o r]|] eqn:E.
  - unfold h_lead in E. destruct (bol prev) eqn:Eb; [|discriminate]. destruct rest as [|c r0]; [discriminate|]. destruct (is_nonstd_space c); [|discriminate].
    injection E as <- <-. set (n := length (take_while is_nonstd_space r0)). change (repeat 32%N (S n)) with (32%N :: repeat 32%N n). cbn [app no_indent]. split; [reflexivity|].
    assert (U : upd prev (32%N :: repeat 32%N n) = Some 32%N).
    { unfold upd. change (32%N :: repeat 32%N n) with (repeat 32%N (S n)). replace (S n) with (n + 1) by lia. rewrite repeat_app. cbn [repeat]. rewrite last_char_snoc. reflexivity. }
    rewrite U. apply Sp; auto. apply IH. cbn [length] in Hl. assert (X : length (drop_while is_nonstd_space r0) <= length r0); [|lia].
    clear. induction r0 as [|c r IH]; cbn [drop_while length]; auto. destruct (is_nonstd_space c); cbn [length]; lia.
  - destruct rest as [|c r]; [exact I|]. cbn [length] in Hl. cbn [no_indent]. split; [|apply IH; lia]. intro Hb. unfold h_lead in E. rewrite Hb in E. destruct (is_nonstd_space c); [discriminate E|reflexivity].
Qed.
(** Tabs. *)
Lemma tab_app r : lit "    " ++ r = 32%N :: 32%N :: 32%N :: 32%N :: r. Proof. reflexivity. Qed.
Lemma wl_tabs s : wl s = None -> wl (subst_char 9 (lit "    ") s) = None.
Proof.
  induction s as [|c r IH]; [discriminate|]. unfold subst_char in *. cbn [wl flat_map]. destruct (ceqb 9 c) eqn:Ec.
  - apply ceqb_eq in Ec. subst c. change (is_ws 9) with true. cbv iota. destruct (wl r); [discriminate|]. intros _. rewrite tab_app. cbn [wl]. change (is_ws 32) with true. cbv iota.
    rewrite IH by auto. reflexivity.
  - cbn [app wl]. destruct (is_ws c); auto. destruct (wl r); [discriminate|]. destruct (ceqb c newline); [discriminate|]. rewrite IH; auto.
Qed.
Lemma tabs_no_blank s : forall prev, no_blank prev s -> no_blank prev (subst_char 9 (lit "    ") s).
Proof.
  induction s as [|c r IH]; intros prev H; [exact I|]. pose proof (wl_tabs r) as Hw. unfold subst_char in *. cbn [flat_map]. cbn [no_blank] in H. destruct H as [H1 H2]. destruct (ceqb 9 c) eqn:Ec.
  - apply ceqb_eq in Ec. subst c. rewrite tab_app. cbn [no_blank]. split; [|split; [discriminate|split; [discriminate|split; [discriminate|]]]].
    + intros Hb _. specialize (H1 Hb eq_refl). specialize (Hw H1). cbn [wl]. change (is_ws 32) with true. cbv iota. rewrite Hw. reflexivity.
    + specialize (IH _ H2). destruct r as [|d r]; [exact I|]. clear - IH. destruct (flat_map _ (d :: r)) as [|x xs]; [exact I|]. cbn [no_blank] in *. split; [discriminate|apply IH].
  - cbn [app no_blank]. split; auto.
Qed.
Lemma tabs_no_indent s : forall prev, no_indent prev s -> no_indent prev (subst_char 9 (lit "    ") s).
Proof.
  induction s as [|c r IH]; intros prev H; [exact I|]. unfold subst_char in *. cbn [flat_map]. cbn [no_indent] in H. destruct H as [H1 H2]. destruct (ceqb 9 c) eqn:Ec.
  - apply ceqb_eq in Ec. subst c. rewrite tab_app. cbn [no_indent]. split; [reflexivity|split; [discriminate|split; [discriminate|split; [discriminate|]]]].
    specialize (IH _ H2). clear - IH. destruct (flat_map _ r) as [|x xs]; [exact I|]. cbn [no_indent] in *. split; [discriminate|apply IH].
  - cbn [app no_indent]. split; auto.
Qed.
(** The ends. *)
Lemma drop_no_blank s : no_blank None s -> no_blank None (drop_while (ceqb 10) s).
Proof.
  induction s as [|c r IH]; auto. cbn [drop_while]. destruct (ceqb 10 c) eqn:Ec; auto. intros [_ H]. apply IH. apply ceqb_eq in Ec. subst c. destruct r as [|d r]; [exact I|exact H].
Qed.
Lemma drop_no_indent s : no_indent None s -> no_indent None (drop_while (ceqb 10) s).
Proof.
  induction s as [|c r IH]; auto. cbn [drop_while]. destruct (ceqb 10 c) eqn:Ec; auto. intros [_ H]. apply IH. apply ceqb_eq in Ec. subst c. destruct r as [|d r]; [exact I|exact H].
Qed.
Lemma wl_prefix s n : wl (s ++ repeat 10%N n) = None -> wl s = None.
Proof.
  induction s as [|c r IH]; cbn [app wl].
  - intro H. exfalso. clear - H. destruct n as [|n]; [discriminate H|]. cbn [repeat wl] in H. change (is_ws 10) with true in H. cbv iota in H. destruct (wl (repeat 10%N n)); discriminate H.
  - destruct (is_ws c); auto. destruct (wl (r ++ _)); [discriminate|]. rewrite IH by auto. destruct (ceqb c newline); [discriminate|auto].
Qed.
Lemma prefix_no_blank s n : forall prev, no_blank prev (s ++ repeat 10%N n) -> no_blank prev s.
Proof. induction s as [|c r IH]; intros prev H; [exact I|]. cbn [app no_blank] in *. split; [|apply IH, H]. intros Hb Hw. apply (wl_prefix r n), H; auto. Qed.
Lemma prefix_no_indent s t : forall prev, no_indent prev (s ++ t) -> no_indent prev s.
Proof. induction s as [|c r IH]; intros prev H; [exact I|]. cbn [app no_indent] in *. split; [apply H|apply IH, H]. Qed.
Lemma no_blank_settled s : no_blank None s -> forall a w b, s = a ++ w ++ b -> line_start a -> line_end b -> w <> [] -> ~ Forall (fun c => is_ws c = true) w.
Proof.
  enough (X : forall pre, no_blank (last_char pre) s -> forall a w b, s = a ++ w ++ b -> line_start (pre ++ a) -> line_end b -> w <> [] -> ~ Forall (fun c => is_ws c = true) w) by exact (X []).
  induction s as [|c r IH]; intros pre H a w b E Ha Hb Hw Hf.
  - symmetry in E. apply app_eq_nil in E as [_ E]. apply app_eq_nil in E as [E _]. contradiction.
  - destruct a as [|d a].
    + destruct w as [|d w]; [contradiction|]. cbn [app] in E. injection E as <- ->. inversion Hf as [|? ? Hc Hf']; subst. rewrite app_nil_r in Ha. apply line_start_bol in Ha.
      apply (wl_fires w b Hf' Hb). apply H; auto.
    + cbn [app] in E. injection E as <- E. apply (IH (pre ++ [c])) with (a := a) (w := w) (b := b); auto.
      * rewrite last_char_snoc. apply H.
      * rewrite <- app_assoc. exact Ha.
Qed.
Lemma no_indent_settled s : no_indent None s -> forall a c b, s = a ++ c :: b -> line_start a -> ~ In c [160; 8199]%N.
Proof.
  enough (X : forall pre, no_indent (last_char pre) s -> forall a c b, s = a ++ c :: b -> line_start (pre ++ a) -> ~ In c [160; 8199]%N) by exact (X []).
  induction s as [|d r IH]; intros pre H a c b E Ha Hc.
  - destruct a; discriminate E.
  - destruct a as [|x a].
    + cbn [app] in E. injection E as -> ->. rewrite app_nil_r in Ha. apply line_start_bol in Ha. apply H in Ha. destruct Hc as [<-|[<-|[]]]; discriminate Ha.
    + cbn [app] in E. injection E as <- E. apply (IH (pre ++ [d])) with (a := a) (c := c) (b := b); auto.
      * rewrite last_char_snoc. apply H.
      * rewrite <- app_assoc. exact Ha.
Qed.

Lemma substr_filter (p : char -> bool) x s : substr x s -> substr (filter p x) (filter p s).
Proof. intros (a & b & ->). rewrite !filter_app. exists (filter p a), (filter p b). reflexivity. Qed.
Lemma quiet_char k repl s : ~ In k s -> quiet (h_char k repl) s.
Proof. intros Hk a b E. unfold h_char. destruct b as [|c b]; auto. destruct (ceqb k c) eqn:Ek; auto. apply ceqb_eq in Ek. subst c. exfalso. apply Hk. rewrite E. apply in_elt. Qed.
Lemma quiet_concat s : ~ In 92%N s -> quiet h_concat s.
Proof.
  intros Hk a b E. unfold h_concat. destruct b as [|c [|d b]]; auto. destruct (ceqb 92 c && ceqb 10 d) eqn:Ec; auto. apply andb_prop in Ec as [Ec _]. apply ceqb_eq in Ec. subst c.
  exfalso. apply Hk. rewrite E. apply in_elt.
Qed.
Lemma ws_settled s : ~ In 0%N s -> ~ In 92%N s -> (forall t, ~ tstep (ws_fun s) t) -> settled (ws_fun s).
Proof.
  intros H0 H92 Ht.
  set (y := sc h_lead (sc h_dos s)). set (x := sc h_wol y).
  assert (Hx : Forall (fun c => c <> 0%N /\ c <> 92%N) x).
  { apply pres_wol, pres_lead; [split; discriminate|]. apply pres_dos; [split; discriminate|]. apply Forall_forall. intros c Hc. split; intros ->; contradiction. }
  rewrite Forall_forall in Hx. assert (E : ws_fun s = sc h_trailnl (sc h_leadnl (sc (h_char 9 (lit "    ")) x))).
  { unfold ws_fun. fold y. fold x. rewrite (quiet_sc h_concat x) by (apply quiet_concat; intro X; apply Hx in X; tauto).
    rewrite (quiet_sc (h_char 0 (lit " "))); auto. apply quiet_char. intro X.
    assert (F : Forall (fun c => c <> 0%N) (sc (h_char 9 (lit "    ")) x)).
    { apply pres_char; [repeat (apply Forall_cons; [discriminate|]); apply Forall_nil|]. apply Forall_forall. intros c Hc. right. apply Hx. auto. }
    rewrite Forall_forall in F. apply F in X. auto. }
  assert (Hb : no_blank None (ws_fun s)).
  { rewrite E, sc_trailnl, sc_leadnl, sc_char. destruct (strip_nl_end_spec (drop_while (ceqb 10) (subst_char 9 (lit "    ") x))) as [k Hk]. apply (prefix_no_blank _ k). rewrite <- Hk.
    apply drop_no_blank, tabs_no_blank. apply scan_wol_no_blank. lia. }
  assert (Hi : no_indent None (ws_fun s)).
  { rewrite E, sc_trailnl, sc_leadnl, sc_char. destruct (strip_nl_end_spec (drop_while (ceqb 10) (subst_char 9 (lit "    ") x))) as [k Hk]. apply (prefix_no_indent _ (repeat 10%N k)). rewrite <- Hk.
    apply drop_no_indent, tabs_no_indent. apply scan_wol_no_indent, scan_lead_no_indent. lia. }
  split; auto.
  - intros c Hc X. pose proof (ws_no_control s) as F. rewrite Forall_forall in F. apply (F c X). unfold is_control. cbn in Hc. intuition.
  - apply no_indent_settled; auto.
  - apply no_blank_settled; auto.
  - intros (a & b & X). assert (F : Forall (fun c => c <> 92%N) (ws_fun s)).
    { rewrite E. apply pres_trailnl, pres_leadnl, pres_char; [repeat (apply Forall_cons; [discriminate|]); apply Forall_nil|]. apply Forall_forall. intros c Hc. right. apply Hx. auto. }
    rewrite Forall_forall in F. apply (F 92%N); auto. rewrite X. apply in_elt.
  - intros r X. destruct (ws_ends s) as [Y _]. apply Y. rewrite X. reflexivity.
  - intros r X. destruct (ws_ends s) as [_ Y]. apply Y. rewrite X. apply last_char_snoc.
Qed.
(** C06 for texts without NUL, backslash and backquote that have no two full stops or two commas in
    a row, white space aside: however untidy their white space, one pass is enough. *)
Theorem C06_idempotent_whitespace_partial : forall s t,
  ~ In 0%N s -> ~ In 92%N s -> ~ In 96%N s -> ~ substr (lit "..") (visible s) -> ~ substr (lit ",,") (visible s) ->
  preprocess s = ROk t -> preprocess t = ROk t.
Proof.
  intros s t H0 H92 H96 Hd Hc H. rewrite preprocess_fun in H. injection H as <-.
  set (p := fun c => negb (is_ws c) && negb (ceqb c 0) && negb (ceqb c 92)).
  assert (Hp : filter p (ws_fun s) = visible s).
  { rewrite ws_fun_filter by (unfold p; intros; try reflexivity; rewrite H; reflexivity). unfold visible. clear - H0 H92. induction s as [|c s IH]; auto. cbn [filter].
    rewrite IH; [|intro X; apply H0; right; auto|intro X; apply H92; right; auto]. unfold p at 1.
    assert (E0 : ceqb c 0 = false) by (destruct (ceqb c 0) eqn:E; auto; apply ceqb_eq in E; exfalso; apply H0; left; auto).
    assert (E92 : ceqb c 92 = false) by (destruct (ceqb c 92) eqn:E; auto; apply ceqb_eq in E; exfalso; apply H92; left; auto).
    rewrite E0, E92, !andb_true_r. reflexivity. }
  assert (Ht : forall t, ~ tstep (ws_fun s) t).
  { assert (Hq : ~ In 96%N (ws_fun s)).
    { intro X. assert (Y : In 96%N (filter p (ws_fun s))) by (apply filter_In; split; auto). rewrite Hp in Y. apply filter_In in Y as [Y _]. auto. }
    intros t Ht. remember (ws_fun s) as x eqn:Ex. destruct Ht as [a m b Hm|a m b Hm|a m b Hm|a d b Hd' Ha Hb].
    - apply Hq. apply in_or_app. right. left. auto.
    - apply Hc. rewrite <- Hp. change (lit ",,") with (filter p (lit ",,")). apply substr_filter. exists a, (m ++ [39; 39]%N ++ b). reflexivity.
    - apply Hq. apply in_or_app. right. left. auto.
    - apply Hd. rewrite <- Hp. destruct Hd' as [-> | ->].
      + change (lit "..") with (filter p (lit "..")). apply substr_filter. exists a, (lit "." ++ b). reflexivity.
      + change (lit "..") with (filter p (lit ". .")). apply substr_filter. exists a, (lit " ." ++ b). reflexivity. }
  pose proof (ws_settled s H0 H92 Ht) as S. pose proof (proj2 (quiet_settled _) S) as Q.
  assert (E : ty_fun (ws_fun s) = ws_fun s).
  { destruct Q as (_ & _ & _ & _ & _ & _ & _ & _ & Q1 & Q2 & Q3 & Q4). unfold ty_fun. rewrite (quiet_sc _ _ Q1), (quiet_sc _ _ Q2), (quiet_sc _ _ Q3). apply quiet_sc, Q4. }
  rewrite E. apply C03_unchanged_exactly. exact S.
Qed.
Print Assumptions C06_idempotent_whitespace_partial.
Example C06_whitespace_case : exists s t, s = [10; 32; 9; 13; 160; 97; 46; 10; 10; 9; 10; 8199; 98; 44; 13; 10; 10; 32]%N /\
  ~ In 0%N s /\ ~ In 92%N s /\ ~ In 96%N s /\ ~ substr (lit "..") (visible s) /\ ~ substr (lit ",,") (visible s) /\
  preprocess s = ROk t /\ t = [32; 97; 46; 10; 10; 32; 98; 44]%N.
Proof.
  eexists. eexists. split; [reflexivity|]. split; [cbn; intuition discriminate|]. split; [cbn; intuition discriminate|]. split; [cbn; intuition discriminate|].
  assert (W : forall x, ~ In [x; x] [[97; 46]; [46; 98]; [98; 44]]%N -> ~ substr [x; x] (visible [10; 32; 9; 13; 160; 97; 46; 10; 10; 9; 10; 8199; 98; 44; 13; 10; 10; 32]%N)).
  { intros x Hx (a & b & E). change (visible _) with [97; 46; 98; 44]%N in E. apply Hx. cbn.
    destruct a as [|? [|? [|? [|? [|? a]]]]]; cbn in E; inversion E; subst; auto. }
  split; [apply W; cbn; intuition discriminate|]. split; [apply W; cbn; intuition discriminate|]. split; vm_compute; reflexivity.
Qed.

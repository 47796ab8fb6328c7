(** BlocksText.v -- the plain text of the pages of SpecBlocks.v. *)
From Verif Require Import Base BaseLemmas Strings SpecStrings Links Lexer Tree Text PState Parse PropText VerbatimLex BlocksLex BlocksParse BlocksRun BlocksVerbatim BlocksTable BlocksLines BlocksGroup.
From Verif Require Import SpecBlocks.

Section Say.
Variables (E : env) (site : str) (df : date_item -> option str).
Notation tes := (t_elements site df).
Definition voices (es : list Tree.element) (f : bool -> str) : Prop :=
  forall out inv sc, tes es (TX out inv sc) = Some (TX (out ++ f (negb (inv =? 0))) inv sc).
Lemma tes_app a b c : tes (a ++ b) c = match tes a c with Some c => tes b c | None => None end.
Proof. revert c. induction a as [|x a IH]; intro c; cbn [app t_elements]; [reflexivity|]. destruct (t_element site df x c); auto. Qed.
Lemma voices_nil : voices [] (fun _ => []). Proof. intros out inv sc. cbn [t_elements]. rewrite app_nil_r. reflexivity. Qed.
Lemma voices_app a b f g : voices a f -> voices b g -> voices (a ++ b) (fun i => f i ++ g i).
Proof. intros H1 H2 out inv sc. rewrite tes_app, H1, H2, app_assoc. reflexivity. Qed.
Lemma voices_one x f : (forall out inv sc, t_element site df x (TX out inv sc) = Some (TX (out ++ f (negb (inv =? 0))) inv sc)) -> voices [x] f.
Proof. intros H out inv sc. cbn [t_elements]. rewrite H. reflexivity. Qed.
Lemma voices_eq es f g : (forall i, f i = g i) -> voices es f -> voices es g.
Proof. intros H1 H out inv sc. rewrite H, H1. reflexivity. Qed.
Lemma voices_flat {A} (f : A -> elements) (g : A -> bool -> str) l : (forall x, In x l -> voices (f x) (g x)) -> voices (flat_map f l) (fun i => flat_map (fun x => g x i) l).
Proof. induction l as [|x l IH]; intro H; [apply voices_nil|]. cbn [flat_map]. apply voices_app; [apply H; left; auto|]. apply IH. intros y Hy. apply H. right. exact Hy. Qed.
Lemma veil_push s out inv sc : t_push s (TX out inv sc) = TX (out ++ veil (negb (inv =? 0)) s) inv sc.
Proof. unfold t_push. cbn [tx_out tx_invisible tx_scopes]. destruct inv; reflexivity. Qed.
Lemma veil_app i a b : veil i (a ++ b) = veil i a ++ veil i b. Proof. destruct i; [apply map_app|reflexivity]. Qed.
Lemma voices_text s : voices [EText s] (fun i => veil i s).
Proof. apply voices_one. intros. cbn [t_element]. rewrite veil_push. reflexivity. Qed.
Lemma voices_words ws : voices (map (fun x : token * str => EText (snd x)) ws) (fun i => veil i (flat ws)).
Proof.
  induction ws as [|w ws IH]; [eapply voices_eq; [|apply voices_nil]; intros []; reflexivity|]. cbn [map]. change (EText (snd w) :: map (fun x : token * str => EText (snd x)) ws) with ([EText (snd w)] ++ map (fun x : token * str => EText (snd x)) ws).
  eapply voices_eq; [|apply voices_app; [apply voices_text|exact IH]]. intro i. cbv beta. rewrite <- veil_app. reflexivity.
Qed.
Lemma voices_inline x : voices (els E x) (fun i => inline_text (en_tags E) (own_category E) (en_entity E) site get_page_title i x).
Proof.
  induction x as [s|k o a inside c IH|z inside IH|b n|b a|b n a|b a|e|n|b p c|b a c|o c|b cds inside IH|] using inline_ind'; cbn [els inline_text].
  - eapply voices_eq; [|apply voices_words]. intro i. cbv beta. rewrite flat_pieces. reflexivity.
  - assert (X : voices (flat_map (els E) inside) (fun i => flat_map (inline_text (en_tags E) (own_category E) (en_entity E) site get_page_title i) inside)).
    { apply (voices_flat (els E) (fun x i => inline_text (en_tags E) (own_category E) (en_entity E) site get_page_title i x)). intros x Hx. rewrite Forall_forall in IH. auto. }
    apply voices_one. intros out inv sc. destruct k; cbn [box_el box_ct t_element]; try (rewrite tes_fix; apply X).
    + rewrite app_nil_r. reflexivity.
    + unfold t_invis at 1. cbn [tx_out tx_invisible tx_scopes]. rewrite tes_fix, X. reflexivity.
  - apply voices_one. intros out inv sc. cbn [t_element]. rewrite tes_fix. apply (voices_flat (els E) (fun x i => inline_text (en_tags E) (own_category E) (en_entity E) site get_page_title i x)). intros x Hx. rewrite Forall_forall in IH. auto.
  - apply voices_one. intros. cbn [t_element]. rewrite veil_push. reflexivity.
  - apply voices_one. intros. cbn [t_element]. rewrite app_nil_r. reflexivity.
  - apply voices_one. intros. cbn [t_element]. rewrite app_nil_r. reflexivity.
  - apply voices_one. intros. cbn [t_element]. rewrite !veil_push, !veil_app, <- !app_assoc. reflexivity.
  - eapply voices_eq; [|apply voices_text]. intros []; destruct (en_entity E e); reflexivity.
  - apply voices_one. intros. reflexivity.
  - apply voices_one. intros. cbn [t_element].
    replace (get_link_label site (LPage (PR (on_site p) (full_name p))) (page_label p c)) with (Some (page_caption site get_page_title p c)); [rewrite veil_push; reflexivity|].
    unfold get_link_label, page_label, page_caption, bare_caption, site_of, full_name, before_sign. cbn [pr_page]. destruct c; [|destruct (on_site p); reflexivity|reflexivity]. destruct (on_site p), (category p); cbn [app]; rewrite ?app_nil_r; reflexivity.
  - apply voices_one. intros. cbn [t_element get_link_label]. rewrite veil_push. reflexivity.
  - apply voices_one. intros. cbn [t_element get_link_label]. rewrite veil_push. reflexivity.
  - destruct (holds _ _ _ _); [|apply voices_nil]. apply (voices_flat (els E) (fun x i => inline_text (en_tags E) (own_category E) (en_entity E) site get_page_title i x)). intros x Hx. rewrite Forall_forall in IH. auto.
  - apply voices_one. intros. reflexivity.
Qed.
Lemma voices_insides l : voices (flat_map (els E) l) (fun i => flat_map (inline_text (en_tags E) (own_category E) (en_entity E) site get_page_title i) l).
Proof. apply (voices_flat (els E) (fun x i => inline_text (en_tags E) (own_category E) (en_entity E) site get_page_title i x)). intros x _. apply voices_inline. Qed.
(** Blocks are written where a line starts: at the very start, where they may add a line break of their
    own, or after a line break. *)
Definition ready (out : str) : Prop := out = [] \/ ends_with [10%N] out = true.
Definition says (es : list Tree.element) (s : str) : Prop :=
  forall out sc, ready out -> exists k, (k = 0 \/ out = []) /\ tes es (TX out 0 sc) = Some (TX (out ++ repeat 10%N k ++ s) 0 sc) /\ ready (out ++ repeat 10%N k ++ s).
Lemma nl_end s : ends_with [10%N] (s ++ [10%N]) = true.
Proof. unfold ends_with. rewrite rev_app_distr. reflexivity. Qed.
Lemma says_nil : says [] [].
Proof. intros out sc Ho. exists 0. cbn [t_elements repeat app]. rewrite app_nil_r. auto. Qed.
Lemma says_app a b x y : says a x -> says b y -> says (a ++ b) (x ++ y).
Proof.
  intros H1 H2 out sc Ho. destruct (H1 out sc Ho) as (k1 & K1 & E1 & R1), (H2 _ sc R1) as (k2 & K2 & E2 & R2). rewrite tes_app, E1, E2. destruct K2 as [-> |K2].
  - exists k1. cbn [repeat app] in *. rewrite <- !app_assoc in *. auto.
  - apply app_eq_nil in K2 as [-> K2]. apply app_eq_nil in K2 as [K2 ->]. exists (k1 + k2). split; [auto|]. rewrite repeat_app, <- !app_assoc in *. auto.
Qed.
Lemma says_flat {A} (f : A -> elements) (g : A -> str) l : (forall x, In x l -> says (f x) (g x)) -> says (flat_map f l) (flat_map g l).
Proof. induction l as [|x l IH]; intro H; [apply says_nil|]. cbn [flat_map]. apply says_app; [apply H; left; auto|apply IH; intros; apply H; right; auto]. Qed.
Lemma says_around t es s : (forall c, t_element site df t c = match tes es (t_newline c) with Some c => Some (t_newline c) | None => None end) ->
  (forall out sc, ends_with [10%N] out = true -> tes es (TX out 0 sc) = Some (TX (out ++ s) 0 sc)) -> says [t] (own_lines s).
Proof.
  intros Ht H out sc _. exists 0. split; [auto|]. cbn [t_elements repeat app]. rewrite Ht. unfold t_newline, t_write, own_lines. cbn [tx_out tx_invisible tx_scopes]. rewrite H by apply nl_end. cbn [tx_out tx_invisible tx_scopes]. rewrite <- !app_assoc.
  split; [reflexivity|]. right. rewrite !app_assoc. apply nl_end.
Qed.
Lemma says_steady es s : says es s -> forall out sc, ends_with [10%N] out = true -> tes es (TX out 0 sc) = Some (TX (out ++ s) 0 sc).
Proof. intros H out sc Ho. destruct (H out sc (or_intror Ho)) as (k & [-> | ->] & E1 & _); [exact E1|discriminate]. Qed.
Lemma fresh out sc : ready out -> exists k, (k = 0 \/ out = []) /\ t_fresh_line (TX out 0 sc) = TX (out ++ repeat 10%N k) 0 sc /\ ends_with [10%N] (out ++ repeat 10%N k) = true.
Proof.
  unfold t_fresh_line, t_ends_nl. cbn [tx_out]. intros [-> |H].
  - exists 1. split; [right; reflexivity|]. split; reflexivity.
  - exists 0. rewrite H. cbn [repeat]. rewrite app_nil_r. auto.
Qed.
Lemma flat_nil {A B} (f : A -> list B) l : flat_map f l = [] <-> forall x, In x l -> f x = [].
Proof.
  induction l as [|x l IH]; cbn [flat_map In]; [split; [intros _ x []|auto]|]. split.
  - intro H. apply app_eq_nil in H as [H1 H2]. intros y [<-|Hy]; auto. apply IH; auto.
  - intro H. rewrite (H x (or_introl eq_refl)). cbn [app]. apply IH. auto.
Qed.
Lemma els_vanish x : good_inline (en_entity E) x -> els E x = [] <-> vanishes (en_tags E) (own_category E) x = true.
Proof.
  induction x as [t|k o a inside c IH|z inside IH|b m|b a|b m a|b a|e|m|b q c|b a c|o c|b cds inside IH|] using inline_ind'; intro H; try (split; discriminate); cbn [els vanishes].
  - destruct H as [H _]. destruct t as [|c r]; [congruence|]. destruct (pieces_first c r) as [_ X]. destruct (pieces (c :: r)); [congruence|split; discriminate].
  - apply good_when in H as (_ & _ & _ & H). destruct (holds _ _ _ _); cbn [negb orb]; [|split; auto]. rewrite flat_nil, forallb_forall. rewrite Forall_forall in *. split; intros X x Hx; apply IH; auto.
Qed.
Lemma par_vanish l : Forall (good_inline (en_entity E)) l -> flat_map (els E) l = [] <-> forallb (vanishes (en_tags E) (own_category E)) l = true.
Proof. intro H. rewrite Forall_forall in H. rewrite flat_nil, forallb_forall. split; intros X x Hx; apply els_vanish; auto. Qed.
Lemma says_block b : good_block (en_entity E) b -> says (block_els E b) (block_lines (en_tags E) (own_category E) (en_entity E) site get_page_title b).
Proof.
  induction b as [l|g o inside c IH|v o t c|n a items|a rows|rows|n|w n] using block_ind'; intro Hg; cbn [block_els block_lines].
  - destruct (left_of _ _ l) as [|x l']; [apply says_nil|]. apply says_around with (es := flat_map (els E) (x :: l')).
    + intro c. unfold paragraph. cbn [t_element]. rewrite tes_fix. reflexivity.
    + intros out sc _. apply (voices_insides (x :: l') out 0 sc).
  - apply good_group_ in Hg as (_ & _ & _ & Hi). assert (X : says (flat_map (block_els E) inside) (flat_map (block_lines (en_tags E) (own_category E) (en_entity E) site get_page_title) inside)).
    { apply says_flat. intros x Hx. rewrite Forall_forall in *. auto. }
    destruct g as [a|w|a|fo a]; cbn [group_el].
    + eapply says_around; [intro c'; cbn [t_element]; rewrite tes_fix; reflexivity|]. apply says_steady. exact X.
    + intros out sc Ho. cbn [t_elements t_element]. rewrite tes_fix. destruct (X out sc Ho) as (k & H1 & H2 & H3). exists k. rewrite H2. auto.
    + eapply says_around; [intro c'; cbn [t_element]; rewrite tes_fix; reflexivity|]. apply says_steady. exact X.
    + intros out sc Ho. cbn [t_elements t_element]. rewrite tes_fix. destruct (X out sc Ho) as (k & H1 & H2 & H3). exists k. rewrite H2. auto.
  - destruct v as [l|]; cbn [verbatim_el]; intros out sc Ho; exists 0; (split; [left; reflexivity|]); cbn [t_elements t_element repeat app].
    + unfold t_newline, t_write, own_lines. cbn [tx_out tx_invisible tx_scopes]. rewrite veil_push. cbn [tx_out tx_invisible tx_scopes Nat.eqb negb veil]. rewrite <- !app_assoc. split; [reflexivity|]. right. rewrite !app_assoc. apply nl_end.
    + rewrite app_nil_r. auto.
  - destruct Hg as (_ & _ & Hi). intros out sc Ho. destruct (fresh out sc Ho) as (k & K & F & N). exists k. split; [exact K|]. cbn [t_elements]. rewrite t_element_eq. unfold items_el. cbn [t_body]. unfold andthen at 1, pure at 1. rewrite F, map_map.
    rewrite !app_assoc. set (o1 := out ++ repeat 10%N k) in *. clearbody o1. clear out K F Ho k.
    enough (X : forall o1, ends_with [10%N] o1 = true -> let s := flat_map (fun i => if forallb (vanishes (en_tags E) (own_category E)) (snd i) then [] else flat_map (inline_text (en_tags E) (own_category E) (en_entity E) site get_page_title false) (snd i) ++ [10%N]) items in
      concatT (map (fun i => match item_el E i with LIElements _ [] => Some | LIElements _ es => andthen (tes es) (pure t_newline) | LISubList x => t_element site df x end) items) (TX o1 0 sc) = Some (TX (o1 ++ s) 0 sc) /\ ends_with [10%N] (o1 ++ s) = true).
    { destruct (X o1 N) as [X1 X2]. cbv zeta in X1, X2. rewrite X1. split; [reflexivity|right; exact X2]. }
    clear o1 N. induction items as [|i items IHi]; intros o1 N; cbv zeta; cbn [map concatT fold_right flat_map]; [rewrite app_nil_r; auto|]. inversion Hi as [|? ? Hi1 Hi2]; subst. unfold andthen at 1, item_el.
    destruct Hi1 as (_ & _ & _ & Hg). pose proof (par_vanish (snd i) Hg) as Hv. pose proof (voices_insides (snd i) o1 0 sc) as Hs. destruct (flat_map (els E) (snd i)) as [|e es] eqn:X.
    + rewrite (proj1 Hv eq_refl). cbn [app]. apply IHi; auto.
    + destruct (forallb (vanishes _ _) (snd i)); [exfalso; assert (Y : e :: es = []) by (apply Hv; reflexivity); discriminate|]. unfold andthen at 1, pure at 1. rewrite Hs. unfold t_newline, t_write. cbn [tx_out tx_invisible tx_scopes Nat.eqb negb].
      rewrite !app_assoc. apply IHi; auto. apply nl_end.
  - clear Hg. intros out sc Ho. destruct (fresh out sc Ho) as (k & K & F & N). exists k. split; [exact K|]. cbn [t_elements]. rewrite t_element_eq. unfold grid_el. cbn [t_body]. unfold andthen at 1, pure at 1. rewrite F, map_map.
    rewrite !app_assoc. set (o1 := out ++ repeat 10%N k) in *. clearbody o1. clear out K F Ho k N.
    unfold andthen at 1.
    assert (X : forall o1, concatT (map (fun r => andthen (concatT (map (fun x => tes (tc_elements x)) (tr_cells (row_el E r)))) (pure t_newline)) rows) (TX o1 0 sc) =
      Some (TX (o1 ++ flat_map (fun r => flat_map (fun c => flat_map (inline_text (en_tags E) (own_category E) (en_entity E) site get_page_title false) (contents c)) (snd r) ++ [10%N]) rows) 0 sc)).
    { clear o1. induction rows as [|r rows IHr]; intro o1; cbn [map concatT fold_right flat_map]; [rewrite app_nil_r; reflexivity|]. unfold andthen at 1. unfold andthen at 1. unfold row_el at 1. cbn [tr_cells]. rewrite map_map.
      assert (Y : forall o1, concatT (map (fun x => tes (tc_elements (cell_el E x))) (snd r)) (TX o1 0 sc) = Some (TX (o1 ++ flat_map (fun c => flat_map (inline_text (en_tags E) (own_category E) (en_entity E) site get_page_title false) (contents c)) (snd r)) 0 sc)).
      { clear o1. induction (snd r) as [|c cs IHc]; intro o1; cbn [map concatT fold_right flat_map]; [rewrite app_nil_r; reflexivity|]. unfold andthen at 1. cbn [cell_el tc_elements]. rewrite voices_insides. cbn [Nat.eqb negb]. rewrite app_assoc. apply IHc. }
      rewrite Y. unfold pure at 1. unfold t_newline, t_write. cbn [tx_out tx_invisible tx_scopes]. rewrite IHr. f_equal. f_equal. rewrite <- !app_assoc. reflexivity. }
    rewrite X. unfold pure. unfold t_newline, t_write. cbn [tx_out tx_invisible tx_scopes]. rewrite <- !app_assoc. split; [reflexivity|]. right. rewrite !app_assoc. apply nl_end.
  - clear Hg. intros out sc Ho. destruct (fresh out sc Ho) as (k & K & F & N). exists k. split; [exact K|]. cbn [t_elements]. rewrite t_element_eq. unfold bars_el. cbn [t_body]. unfold andthen at 1, pure at 1. rewrite F, map_map.
    rewrite !app_assoc. set (o1 := out ++ repeat 10%N k) in *. clearbody o1. clear out K F Ho k N.
    unfold andthen at 1.
    assert (X : forall o1, concatT (map (fun r => andthen (concatT (map (fun x => tes (tc_elements x)) (tr_cells (TR [] (map (short_cell E) r))))) (pure t_newline)) rows) (TX o1 0 sc) =
      Some (TX (o1 ++ flat_map (fun r => flat_map (fun c => flat_map (inline_text (en_tags E) (own_category E) (en_entity E) site get_page_title false) (said c)) r ++ [10%N]) rows) 0 sc)).
    { clear o1. induction rows as [|r rows IHr]; intro o1; cbn [map concatT fold_right flat_map]; [rewrite app_nil_r; reflexivity|]. unfold andthen at 1. unfold andthen at 1. cbn [tr_cells]. rewrite map_map.
      assert (Y : forall o1, concatT (map (fun x => tes (tc_elements (short_cell E x))) r) (TX o1 0 sc) = Some (TX (o1 ++ flat_map (fun c => flat_map (inline_text (en_tags E) (own_category E) (en_entity E) site get_page_title false) (said c)) r) 0 sc)).
      { clear o1. induction r as [|c cs IHc]; intro o1; cbn [map concatT fold_right flat_map]; [rewrite app_nil_r; reflexivity|]. unfold andthen at 1. cbn [short_cell tc_elements]. rewrite voices_insides. cbn [Nat.eqb negb]. rewrite app_assoc. apply IHc. }
      rewrite Y. unfold pure at 1. unfold t_newline, t_write. cbn [tx_out tx_invisible tx_scopes]. rewrite IHr. f_equal. f_equal. rewrite <- !app_assoc. reflexivity. }
    rewrite X. unfold pure. unfold t_newline, t_write. cbn [tx_out tx_invisible tx_scopes]. rewrite <- !app_assoc. split; [reflexivity|]. right. rewrite !app_assoc. apply nl_end.
  - intros out sc Ho. exists 0. split; [auto|]. cbn [t_elements t_element repeat app]. rewrite app_nil_r. auto.
  - intros out sc Ho. exists 0. split; [auto|]. cbn [t_elements t_element repeat app]. rewrite app_nil_r. auto.
Qed.
Lemma drop_spec s : exists m, s = repeat 10%N m ++ drop_newlines s /\ forall c r, drop_newlines s = c :: r -> c <> 10%N.
Proof.
  induction s as [|x s (m & IH & Hc)]; [exists 0; split; [reflexivity|discriminate]|]. cbn [drop_newlines]. destruct (ceqb x 10) eqn:Hx.
  - apply ceqb_eq in Hx as ->. exists (S m). split; auto. cbn [repeat app]. rewrite <- IH. reflexivity.
  - exists 0. split; auto. intros c r [= -> _] ->. discriminate.
Qed.
Lemma rev_repeat {A} (x : A) n : rev (repeat x n) = repeat x n.
Proof. induction n as [|n IH]; [reflexivity|]. cbn [repeat rev]. rewrite IH. symmetry. apply repeat_cons. Qed.
Lemma drop_trims s : trims_to s (rev (drop_newlines (rev (drop_newlines s)))).
Proof.
  destruct (drop_spec s) as (m & E1 & H1). destruct (drop_spec (rev (drop_newlines s))) as (n & E2 & H2). remember (drop_newlines s) as u. remember (drop_newlines (rev u)) as v.
  exists m, n. apply (f_equal (@rev _)) in E2. rewrite rev_involutive, rev_app_distr, rev_repeat in E2. split; [rewrite E1, E2 at 1; reflexivity|].
  intros c r [H|H].
  - destruct (drop_spec s) as (_ & _ & _). rewrite E2, H in H1. exact (H1 c (r ++ repeat 10%N n) eq_refl).
  - apply (H2 c (rev r)). rewrite <- (rev_involutive v), H, rev_app_distr. reflexivity.
Qed.
Lemma drop_more k s : drop_newlines (repeat 10%N k ++ s) = drop_newlines s.
Proof. induction k as [|k IH]; [reflexivity|exact IH]. Qed.
Lemma blocks_text bs : good_page (en_entity E) bs -> exists out, text_render site df (flat_map (block_els E) bs ++ [EFootnoteBlock None false]) = Some out /\ trims_to (page_lines (en_tags E) (own_category E) (en_entity E) site get_page_title bs) out.
Proof.
  intro Hg. assert (X : says (flat_map (block_els E) bs) (page_lines (en_tags E) (own_category E) (en_entity E) site get_page_title bs)) by (apply says_flat; intros b Hb; apply says_block; apply Hg; exact Hb).
  destruct (X [] [] (or_introl eq_refl)) as (k & _ & E1 & _). unfold text_render. rewrite tes_app, E1. cbn [t_elements t_element tx_out app]. rewrite drop_more. eexists. split; [reflexivity|]. apply drop_trims.
Qed.
End Say.

(** ParseInv.v -- the invariant of the parser and the rules for reasoning about [M]. *)
From Verif Require Import Base BaseLemmas Strings Links Attr AttrLemmas Lexer SpecLexer LexerLemmas
  Depth Tree TreeLemmas Text PState SpecParse.

Ltac conj := repeat match goal with |- _ /\ _ => split end.

Lemma flat_map_flat_map {A B C} (f : A -> list B) (g : B -> list C) l :
  flat_map g (flat_map f l) = flat_map (fun x => flat_map g (f x)) l.
Proof. induction l as [|x l IH]; cbn; auto. rewrite flat_map_app, IH. auto. Qed.
Lemma flat_eq e : flat e = e :: flat_map flat (children e).
Proof.
  destruct e; try reflexivity; cbn [flat children]; f_equal.
  - rewrite flat_map_flat_map. apply flat_map_ext. intro r. unfold row_children. rewrite flat_map_flat_map. reflexivity.
  - rewrite flat_map_flat_map. reflexivity.
  - rewrite flat_map_flat_map. apply flat_map_ext. intros []; cbn; auto. rewrite app_nil_r. auto.
  - rewrite flat_map_flat_map. apply flat_map_ext. intro d. unfold def_children. rewrite flat_map_app. reflexivity.
  - destruct p as [[]|r|c|t|a es]; cbn; auto.
    + rewrite app_nil_r. auto.
    + unfold row_children. rewrite flat_map_flat_map. reflexivity.
Qed.
Notation refs := footnote_refs.
Lemma refs_app a b : refs (a ++ b) = refs a + refs b.
Proof. unfold refs. rewrite flat_map_app, filter_app, app_length. auto. Qed.
Lemma refs_cons e es : refs (e :: es) = refs [e] + refs es.
Proof. apply (refs_app [e] es). Qed.
Lemma refs_one e : is_footnote e = false -> refs [e] = refs (children e).
Proof. intro H. unfold refs. cbn [flat_map]. rewrite app_nil_r, flat_eq. cbn [filter]. rewrite H. auto. Qed.
Lemma refs_nil : refs [] = 0. Proof. reflexivity. Qed.

Section Inv.
Variable E : env.
Variable toks : list xtoken.
Hypothesis Htoks : extract_all (en_text E) = Some toks.

(** *** Elements. *)
Notation text := (en_text E).
Inductive okE (nb : nat) (fb F : bool) : list accepts -> element -> Prop :=
| okE_intro A e : element_ok E toks nb fb F e ->
    (forall x, e = EPartial x -> In (pkind x) A /\ has_block toks) ->
    Forall (okE nb fb F (opens e ++ A)) (children e) -> okE nb fb F A e.
Definition okR nb fb F A e : Prop :=
  element_ok E toks nb fb F e /\ (forall x, e = EPartial x -> has_block toks) /\
  Forall (okE nb fb F (opens e ++ A)) (children e).
Lemma okE_ind' nb fb F (P : list accepts -> element -> Prop) :
  (forall A e, element_ok E toks nb fb F e -> (forall x, e = EPartial x -> In (pkind x) A /\ has_block toks) ->
     Forall (okE nb fb F (opens e ++ A)) (children e) -> Forall (P (opens e ++ A)) (children e) -> P A e) ->
  forall A e, okE nb fb F A e -> P A e.
Proof.
  intros H. fix IH 3. intros A e [A' e' H1 H2 H3]. apply H; auto.
  revert H3. generalize (children e'). fix IHl 2. intros l [|x l' Hx Hl]; constructor; auto.
Qed.
Lemma element_ok_mono nb fb F nb' fb' F' e : nb <= nb' -> (fb = true -> fb' = true) -> (F' = true -> F = true) ->
  element_ok E toks nb fb F e -> element_ok E toks nb' fb' F' e.
Proof.
  intros H1 H2 H3 [H4 H5]. split; auto. destruct e; auto.
  - destruct H5 as [-> H5]. destruct F'; auto. discriminate H3; auto.
  - cbn in *. destruct H5. split; [lia|auto].
Qed.
Lemma okE_mono nb fb F nb' fb' F' A e : nb <= nb' -> (fb = true -> fb' = true) -> (F' = true -> F = true) ->
  okE nb fb F A e -> forall A', incl A A' -> okE nb' fb' F' A' e.
Proof.
  intros H1 H2 H3 H. induction H as [A e Ha Hb Hc IH] using okE_ind'. intros A' Hi. constructor.
  - eapply element_ok_mono; eauto.
  - intros x Hx. destruct (Hb x Hx) as [Hk ?]; auto.
  - eapply Forall_impl; [|exact IH]. cbn. intros x Hx. apply Hx. apply incl_app; [apply incl_appl, incl_refl|].
    apply incl_appr; auto.
Qed.
Lemma okE_up nb fb F A A' e : okE nb fb F A e -> incl A A' -> okE nb fb F A' e.
Proof. intros H Hi. exact (okE_mono nb fb F nb fb F A e (Nat.le_refl _) (fun x => x) (fun x => x) H A' Hi). Qed.
Lemma okR_mono nb fb F nb' fb' F' A e : nb <= nb' -> (fb = true -> fb' = true) -> (F' = true -> F = true) ->
  okR nb fb F A e -> forall A', incl A A' -> okR nb' fb' F' A' e.
Proof.
  intros H1 H2 H3 (Ha & Hb & Hc) A' Hi. split; [|split]; auto.
  - eapply element_ok_mono; eauto.
  - eapply Forall_impl; [|exact Hc]. cbn. intros x Hx. eapply okE_mono; eauto.
    apply incl_app; [apply incl_appl, incl_refl|]. apply incl_appr; auto.
Qed.
Lemma okE_okR nb fb F A e : okE nb fb F A e -> okR nb fb F A e.
Proof. intros [A' e' H1 H2 H3]. split; [|split]; auto. intros x Hx. destruct (H2 x Hx); auto. Qed.
Lemma okR_okE nb fb F A e : okR nb fb F A e -> (forall x, e = EPartial x -> In (pkind x) A) -> okE nb fb F A e.
Proof. intros (H1 & H2 & H3) H4. constructor; auto. intros x Hx. split; eauto. Qed.

(** *** Shared tables. *)
Definition all_kinds : list accepts := [APNone; APListItem; APTableRow; APTableCell; APTab; APRuby].
Definition extends {A} (l l' : list A) : Prop := exists x, l' = l ++ x.
Definition ext (s s' : shared) : Prop :=
  extends (sh_toc s) (sh_toc s') /\ extends (sh_html s) (sh_html s') /\ extends (sh_code s) (sh_code s') /\
  extends (sh_footnotes s) (sh_footnotes s') /\ extends (sh_bibs s) (sh_bibs s').
Lemma extends_refl {A} (l : list A) : extends l l. Proof. exists []. rewrite app_nil_r. auto. Qed.
Lemma extends_trans {A} (a b c : list A) : extends a b -> extends b c -> extends a c.
Proof. intros [x ->] [y ->]. exists (x ++ y). rewrite app_assoc. auto. Qed.
Lemma ext_refl s : ext s s. Proof. repeat split; apply extends_refl. Qed.
Lemma ext_trans a b c : ext a b -> ext b c -> ext a c.
Proof. intros (?&?&?&?&?) (?&?&?&?&?). repeat split; eapply extends_trans; eauto. Qed.
Definition nf (s : shared) : nat := length (sh_footnotes s).
Definition nb (s : shared) : nat := length (sh_bibs s).
Lemma ext_nf s s' : ext s s' -> nf s <= nf s'.
Proof. intros (_&_&_&[x H]&_). unfold nf. rewrite H, app_length. lia. Qed.
Lemma ext_nb s s' : ext s s' -> nb s <= nb s'.
Proof. intros (_&_&_&_&[x H]). unfold nb. rewrite H, app_length. lia. Qed.

Definition code_names (l : list code_block) : list str := flat_map (fun b => match cb_name b with Some n => [n] | None => [] end) l.
Record shared_ok (s : shared) : Prop := {
  so_code : NoDup (code_names (sh_code s));
  so_code_src : Forall (fun b => substr (cb_contents b) text /\ has_block toks) (sh_code s);
  so_html : Forall (fun h => substr h text /\ has_block toks) (sh_html s);
  so_toc : Forall (fun h => fst h <= 5) (sh_toc s);
  so_marks : sh_footnotes s <> [] -> has_block toks;
  so_books : sh_bibs s <> [] -> has_block toks;
  so_footnotes : Forall (Forall (okE (nb s) true true all_kinds)) (sh_footnotes s);
  so_bibs : Forall (fun b => NoDup (map fst b) /\ Forall (fun le => Forall (okE (nb s) true false all_kinds) (snd le)) b) (sh_bibs s) }.

(** *** The parser state. *)
Record ctx : Type := CX { cK : accepts; cF : bool }.
Definition at_start (pre : list xtoken) : bool :=
  match rev pre with [] => true | t :: _ => line_start_token (t_token t) end.
Record inv (d : nat) (c : ctx) (p : pstate) (s : shared) : Prop := {
  i_pos : exists pre, toks = pre ++ cur p :: rem p /\ (rem p <> [] -> start_of_line p = at_start pre);
  i_acc : accepts_partial p = cK c;
  i_blk : cK c <> APNone -> has_block toks;
  i_dep : d <= depth p;
  i_fn : in_footnote p = cF c;
  i_sh : shared_ok s }.
Definition adv (p : pstate) (s : shared) (p' : pstate) (s' : shared) : Prop :=
  length (rem p') <= length (rem p) /\ ext s s' /\ (has_footnote_block p = true -> has_footnote_block p' = true).
Lemma adv_refl p s : adv p s p s. Proof. split; [lia|]. split; auto using ext_refl. Qed.
Lemma adv_trans p s q t p' s' : adv p s q t -> adv q t p' s' -> adv p s p' s'.
Proof. intros (?&?&?) (?&?&?). split; [lia|]. split; eauto using ext_trans. Qed.
Lemma inv_mono d d' c p s : d <= d' -> inv d' c p s -> inv d c p s.
Proof. intros H []. split; auto. lia. Qed.
Lemma inv_cur d c p s : inv d c p s -> In (cur p) toks.
Proof. intros [(pre & -> & _)]. apply in_elt. Qed.
Lemma inv_has d c p s : inv d c p s -> has_token toks (cur_tok p).
Proof. intro H. exists (cur p). split; auto. eapply inv_cur; eauto. Qed.
Lemma genuine_cur d c p s k : inv d c p s -> genuine toks (make_err k p).
Proof. intro H. exists (cur p). split; [eapply inv_cur; eauto|]. auto. Qed.

(** *** Triples. *)
Notation allowed := (possible_panic E toks).
Definition G {A} (d : nat) (c : ctx) (m : M A) (p : pstate) (s : shared) (V : A -> pstate -> shared -> Prop) : Prop :=
  match m p s with
  | ROk a p' s' => inv d c p' s' /\ adv p s p' s' /\ V a p' s'
  | RErr e p' s' => inv d c p' s' /\ adv p s p' s' /\ genuine toks e
  | RPanic w => allowed w
  | RFuel => False
  end.
Lemma G_bind {A B} d c (m : M A) (k : A -> M B) p s p0 s0 Q V :
  adv p0 s0 p s -> G d c m p s Q ->
  (forall a p' s', inv d c p' s' -> adv p s p' s' -> adv p0 s0 p' s' -> Q a p' s' -> G d c (k a) p' s' V) ->
  G d c (bind m k) p s V.
Proof.
  intros Ha Hm Hk. unfold G, bind in *. destruct (m p s) as [a p' s'|e p' s'|w|]; auto.
  destruct Hm as (I1 & A1 & V1). specialize (Hk a p' s' I1 A1 (adv_trans _ _ _ _ _ _ Ha A1) V1).
  destruct (k a p' s') as [b p2 s2|e p2 s2|w|]; auto; destruct Hk as (I2 & A2 & V2); split; auto; split; auto; eapply adv_trans; eauto.
Qed.
Lemma G_bind_ {A B} d c (m : M A) (k : A -> M B) p s Q V : G d c m p s Q ->
  (forall a p' s', inv d c p' s' -> adv p s p' s' -> Q a p' s' -> G d c (k a) p' s' V) ->
  G d c (bind m k) p s V.
Proof. intros H1 H2. eapply G_bind; [apply adv_refl|exact H1|]. intros; apply H2; auto. Qed.
Lemma G_conseq {A} d c (m : M A) p s (Q V : A -> pstate -> shared -> Prop) :
  G d c m p s Q -> (forall a p' s', inv d c p' s' -> adv p s p' s' -> Q a p' s' -> V a p' s') -> G d c m p s V.
Proof. unfold G. destruct (m p s); auto. intros (I & A' & H) Hk. auto. Qed.
Lemma G_assoc {A B C} d c (m : M A) (k : A -> M B) (k' : B -> M C) p s V :
  G d c (bind m (fun x => bind (k x) k')) p s V -> G d c (bind (bind m k) k') p s V.
Proof. unfold G, bind. destruct (m p s); auto. Qed.
Lemma G_ret {A} d c (a : A) p s (V : A -> pstate -> shared -> Prop) : inv d c p s -> V a p s -> G d c (ret a) p s V.
Proof. intros. split; auto. split; auto using adv_refl. Qed.
Lemma G_fail {A} d c k p s (V : A -> pstate -> shared -> Prop) : inv d c p s -> G d c (fail k) p s V.
Proof. intros. split; auto. split; auto using adv_refl. eapply genuine_cur; eauto. Qed.
Lemma G_panic {A} d c w p s (V : A -> pstate -> shared -> Prop) : allowed w -> G d c (panic w) p s V.
Proof. auto. Qed.
Lemma G_ret_bind {A B} d c (a : A) (k : A -> M B) p s V : G d c (k a) p s V -> G d c (bind (ret a) k) p s V.
Proof. auto. Qed.
Lemma G_gets_bind {A B} d c (f : pstate -> A) (k : A -> M B) p s V : G d c (k (f p)) p s V -> G d c (bind (gets f) k) p s V.
Proof. auto. Qed.
Lemma G_fail_bind {A B} d c k (k' : A -> M B) p s V : inv d c p s -> G d c (bind (fail k) k') p s V.
Proof. intros. apply G_fail; auto. Qed.
Lemma G_panic_bind {A B} d c w (k' : A -> M B) p s V : allowed w -> G d c (bind (panic w) k') p s V.
Proof. auto. Qed.
Lemma G_set_rule d c r p s : inv d c p s -> G d c (set_rule r) p s (fun _ p' s' => p' = with_rule r p /\ s' = s).
Proof. intros [? ? ? ? ? ?]. split; [split; auto|]. split; [exact (adv_refl p s)|]. auto. Qed.
Lemma G_or_panic {A B} d c w (o : option A) (k : A -> M B) p s V :
  (o = None -> allowed w) -> (forall a, o = Some a -> G d c (k a) p s V) -> G d c (bind (or_panic w o) k) p s V.
Proof. intros Hn Hs. destruct o; [apply Hs; auto|]. apply Hn. auto. Qed.

Lemma G_step d c p s : inv d c p s -> G d c step p s (fun t p' s' => t = cur p' /\ S (length (rem p')) = length (rem p) /\ s' = s /\
   rem p = cur p' :: rem p' /\ (has_footnote_block p' = has_footnote_block p) /\ start_of_line p' = line_start_token (cur_tok p)).
Proof.
  intros [(pre & H1 & H2) ? ? ? ? ?]. unfold G, step. destruct (rem p) as [|t r] eqn:Er.
  - split; [split; cbn [cur rem rule_ depth accepts_partial in_footnote]; auto|].
    + exists pre. split; auto. intros X; contradiction X; auto.
    + split; [split; [cbn; lia|split; auto using ext_refl]|]. exists (cur p). split; [rewrite H1; apply in_elt|]. auto.
  - split; [split; cbn [cur rem rule_ depth accepts_partial in_footnote]; auto|].
    + exists (pre ++ [cur p]). rewrite <- app_assoc. split; auto. intros _. unfold at_start. rewrite rev_unit.
      cbn [start_of_line]. reflexivity.
    + split; [split; cbn [rem]; [rewrite Er; cbn; lia|split; auto using ext_refl]|]. cbn [cur rem length has_footnote_block start_of_line]. conj; auto.
Qed.

(** *** Loops. *)
Lemma G_loop {S A} d c (body : S -> M (S + A)) (I : S -> pstate -> shared -> Prop) (V : A -> pstate -> shared -> Prop) p0 s0 :
  (forall st p s, inv d c p s -> adv p0 s0 p s -> I st p s ->
     G d c (body st) p s (fun r p' s' => match r with
       | inl st' => length (rem p') < length (rem p) /\ I st' p' s'
       | inr a => V a p' s' end)) ->
  forall n st p s, length (rem p) < n -> inv d c p s -> adv p0 s0 p s -> I st p s -> G d c (loop n body st) p s V.
Proof.
  intros Hb. induction n as [|n IH]; intros st p s Hn Hi Ha Hs; [lia|]. cbn [loop].
  eapply G_bind; [exact Ha|apply Hb; auto|]. intros [st'|a] p' s' I1 A1 A2 H; cbn beta iota in H.
  - destruct H as [H1 H2]. apply IH; auto. lia.
  - apply G_ret; auto.
Qed.
Lemma G_looping {S A} d c (body : S -> M (S + A)) st p s (I : S -> pstate -> shared -> Prop) (V : A -> pstate -> shared -> Prop) :
  inv d c p s -> I st p s ->
  (forall st p1 s1, inv d c p1 s1 -> adv p s p1 s1 -> I st p1 s1 ->
     G d c (body st) p1 s1 (fun r p' s' => match r with
       | inl st' => length (rem p') < length (rem p1) /\ I st' p' s'
       | inr a => V a p' s' end)) ->
  G d c (looping body st) p s V.
Proof. intros Hi Hs Hb. unfold G, looping. apply (G_loop d c body I V p s Hb); auto using adv_refl. Qed.

(** *** Clones and wrappers. *)
Lemma inv_update d c p q s : inv d c p s -> forall s', inv d c q s' -> inv d c (update p q) s'.
Proof. intros [] s' []. split; auto. Qed.
Lemma adv_update p s q s' : adv p s q s' -> adv p s (update p q) s'.
Proof. auto. Qed.
Lemma inv_shared d c p s s' : inv d c p s -> shared_ok s' -> inv d c p s'.
Proof. intros []. split; auto. Qed.
Lemma G_attempt {A} d c (m : M A) p s Q : G d c m p s Q ->
  G d c (attempt m) p s (fun r p' s' => match r with inl a => Q a p' s' | inr e => genuine toks e end).
Proof. unfold G, attempt. destruct (m p s); auto. Qed.
Lemma adv_back p s q s' : adv p s q s' -> adv p s p s'.
Proof. intros (_ & ? & _). split; [lia|]. auto. Qed.
Lemma G_on_clone {A} d c (m : M A) p s Q : inv d c p s -> G d c m p s Q ->
  G d c (on_clone m) p s (fun r p' s' => match r with inl a => exists q, p' = update p q /\ Q a q s' | inr e => p' = p /\ genuine toks e end).
Proof.
  intros Hp. unfold G, on_clone. destruct (m p s) as [a q s'|e q s'|w|]; auto; intros (I1 & A1 & H).
  - split; [eapply inv_update; eauto|]. split; eauto.
  - split; [eapply inv_shared; [exact Hp|apply I1]|]. split; [eapply adv_back; eauto|]. auto.
Qed.
Lemma G_evaluate_fn d c (m : M bool) p s Q : inv d c p s -> G d c m p s Q ->
  G d c (evaluate_fn m) p s (fun _ p' _ => p' = p).
Proof.
  intros Hp. unfold G, evaluate_fn. destruct (m p s) as [a q s'|e q s'|w|]; auto; intros (I1 & A1 & H);
  (split; [eapply inv_shared; [exact Hp|apply I1]|]; split; [eapply adv_back; eauto|]; auto).
Qed.
Lemma G_save_evaluate_fn d c (m : M bool) p s Q : inv d c p s -> G d c m p s Q ->
  G d c (save_evaluate_fn m) p s (fun r p' s' => match r with
     | Some t => t = cur p /\ exists q, p' = update p q /\ Q true q s' | None => p' = p end).
Proof.
  intros Hp. unfold G, save_evaluate_fn. destruct (m p s) as [[] q s'|e q s'|w|]; auto; intros (I1 & A1 & H).
  - split; [eapply inv_update; eauto|]. split; eauto.
  - split; [eapply inv_shared; [exact Hp|apply I1]|]. split; [eapply adv_back; eauto|]. auto.
  - split; [eapply inv_shared; [exact Hp|apply I1]|]. split; [eapply adv_back; eauto|]. auto.
Qed.
Lemma G_wrap {A} d c K (m : M A) p s (V : A -> pstate -> shared -> Prop) : inv d c p s -> has_block toks ->
  G d (CX K (cF c)) m (with_accepts K p) s (fun a q s' => V a (with_accepts (accepts_partial p) q) s') ->
  G d c (wrap K m) p s V.
Proof.
  intros [? ? ? ? ? ?] Hb. unfold G, wrap. destruct (m _ s) as [a q s'|e q s'|w|]; auto; intros ([? ? ? ? ? ?] & A1 & H);
  (split; [split; auto|split; auto]).
Qed.
Lemma inv_with_accepts d c K p s : inv d c p s -> has_block toks -> inv d (CX K (cF c)) (with_accepts K p) s.
Proof. intros [] Hb. split; auto. Qed.

Lemma last_is_end d c p s : inv d c p s -> rem p = [] -> cur_tok p = TInputEnd.
Proof.
  intros [(pre & H & _)] Hr. rewrite Hr in H. destruct (extract_all_spec text) as (mid & He & _). rewrite Htoks in He.
  injection He as He. rewrite He in H. change (XT TInputStart [] 0 0 :: mid ++ [XT TInputEnd [] (blen text) (blen text)])
    with ((XT TInputStart [] 0 0 :: mid) ++ [XT TInputEnd [] (blen text) (blen text)]) in H.
  apply app_inj_tail in H as [_ H]. unfold cur_tok. rewrite <- H. auto.
Qed.
Lemma line_here d c p s : inv d c p s -> start_of_line p = true -> cur_tok p <> TInputEnd ->
  exists before, toks = before ++ cur p :: rem p /\ at_line_start before.
Proof.
  intros Hi Hs Hn. pose proof (last_is_end d c p s Hi) as Hl. destruct Hi as [(pre & H & Hsol)].
  exists pre. split; auto. intros a t ->. assert (X : rem p <> []) by (intro X; apply Hn; auto).
  apply Hsol in X. rewrite Hs in X. unfold at_start in X. rewrite rev_unit in X. destruct (t_token t); try discriminate; auto.
Qed.
Lemma line_cur d c p s t : inv d c p s -> start_of_line p = true -> cur_tok p = t -> t <> TInputEnd -> line_token toks t.
Proof.
  intros Hi Hs Ht Hn. destruct (line_here d c p s Hi Hs) as (b & H1 & H2); [congruence|]. exists b, (cur p), (rem p). auto.
Qed.

(** *** Positions and slices. *)
Definition at_pos (n : nat) (t : xtoken) : Prop := exists pre post, toks = pre ++ t :: post /\ length post = n.
Lemma inv_at_pos d c p s : inv d c p s -> at_pos (length (rem p)) (cur p).
Proof. intros [(pre & H & _)]. exists pre, (rem p). auto. Qed.
Lemma toks_spans : concat (map t_slice toks) = text /\ forall pre t post, toks = pre ++ t :: post ->
  t_start t = blen (concat (map t_slice pre)) /\ t_end t = t_start t + blen (t_slice t).
Proof.
  destruct (extract_all_spec text) as (mid & He & Hct & Hcc & _ & _). rewrite Htoks in He. injection He as He. rewrite He.
  split.
  { cbn [map concat t_slice]. rewrite map_app, concat_app. cbn. rewrite app_nil_r. auto. }
  assert (HG : forall k ms e, contiguous k ms e -> forall pre t post, ms ++ [XT TInputEnd [] e e] = pre ++ t :: post ->
        t_start t = k + blen (concat (map t_slice pre)) /\ t_end t = t_start t + blen (t_slice t)).
  { induction 1 as [k|k t0 ms e H1 H2 H3 H IH]; intros pre t post X.
    - destruct pre as [|q pre]; [|destruct pre; discriminate]. injection X as <- _. simpl. split; lia.
    - destruct pre as [|q pre].
      + injection X as <- _. simpl. split; lia.
      + injection X as <- X. apply IH in X. destruct X as [E1 E2]. split; auto. simpl. rewrite blen_app. lia. }
  intros pre t post X. destruct pre as [|q pre].
  - injection X as <- _. simpl. auto.
  - injection X as <- X. apply (HG 0 mid (blen text) Hct) in X. simpl. auto.
Qed.
Lemma substr_refl s : substr s s. Proof. exists [], []. rewrite app_nil_r. auto. Qed.
Lemma substr_trans a b c : substr a b -> substr b c -> substr a c.
Proof. intros (x & y & ->) (u & v & ->). exists (u ++ x), (y ++ v). rewrite !app_assoc. auto. Qed.
Lemma substr_nil s : substr [] s. Proof. exists [], s. auto. Qed.
Lemma substr_trim s t : substr s t -> substr (trim s) t.
Proof. apply substr_trans. destruct (trim_spec s) as (a & b & H & _). exists a, b. auto. Qed.
Lemma slice_ok n m a b : at_pos n a -> at_pos m b -> m <= n ->
  exists w, full_slice text a b = Some w /\ substr w text.
Proof.
  intros (pa & qa & Ha & <-) (pb & qb & Hb & <-) Hl. destruct toks_spans as [Hc Hs].
  assert (X : exists k, pb ++ [b] = pa ++ a :: k).
  { rewrite Hb in Ha. assert (L : length pa <= length pb).
    { apply (f_equal (@length _)) in Ha. rewrite !app_length in Ha. cbn in Ha. lia. }
    clear - Ha L. revert pa Ha L. induction pb as [|x pb IH]; intros [|y pa] Ha L; cbn in *; try lia.
    - injection Ha as -> _. exists []. auto.
    - injection Ha as -> _. eauto.
    - injection Ha as -> Ha. destruct (IH pa Ha) as [k ->]; [lia|]. eauto. }
  destruct X as [k Hk]. destruct (Hs _ _ _ Ha) as [S1 S2]. destruct (Hs _ _ _ Hb) as [S3 S4].
  exists (concat (map t_slice (a :: k))). unfold full_slice, slice_impl.
  assert (T : text = concat (map t_slice pa) ++ concat (map t_slice (a :: k)) ++ concat (map t_slice qb)).
  { rewrite <- Hc, Hb. change (b :: qb) with ([b] ++ qb). rewrite app_assoc, Hk, map_app, concat_app, map_app, concat_app, <- app_assoc. auto. }
  assert (L : t_end b = t_start a + blen (concat (map t_slice (a :: k)))).
  { rewrite S4, S3, S1, <- !blen_app. rewrite <- concat_app, <- map_app, <- Hk, map_app, concat_app. cbn. rewrite app_nil_r. auto. }
  rewrite (proj2 (Nat.ltb_ge _ _)) by lia. rewrite L, S1. rewrite T at 1. split; [apply bslice_app|].
  exists (concat (map t_slice pa)), (concat (map t_slice qb)). auto.
Qed.
Lemma partial_slice_ok n m a b : at_pos n a -> at_pos m b -> m <= n ->
  exists w, partial_slice text a b = Some w /\ substr w text.
Proof.
  intros (pa & qa & Ha & <-) (pb & qb & Hb & <-) Hl. destruct toks_spans as [Hc Hs].
  assert (X : exists k, pb = pa ++ k).
  { rewrite Hb in Ha. assert (L : length pa <= length pb).
    { apply (f_equal (@length _)) in Ha. rewrite !app_length in Ha. cbn in Ha. lia. }
    clear - Ha L. revert pa Ha L. induction pb as [|x pb IH]; intros [|y pa] Ha L; cbn in *; try lia; eauto.
    injection Ha as -> Ha. destruct (IH pa Ha) as [k ->]; [lia|]. eauto. }
  destruct X as [k Hk]. destruct (Hs _ _ _ Ha) as [S1 S2]. destruct (Hs _ _ _ Hb) as [S3 S4].
  exists (concat (map t_slice k)). unfold partial_slice, slice_impl.
  assert (T : text = concat (map t_slice pa) ++ concat (map t_slice k) ++ concat (map t_slice (b :: qb))).
  { rewrite <- Hc, Hb, Hk, map_app, concat_app, map_app, concat_app, <- app_assoc. auto. }
  assert (L : t_start b = t_start a + blen (concat (map t_slice k))).
  { rewrite S3, S1, Hk, map_app, concat_app, blen_app. auto. }
  rewrite (proj2 (Nat.ltb_ge _ _)) by lia. rewrite L, S1. rewrite T at 1. split; [apply bslice_app|].
  exists (concat (map t_slice pa)), (concat (map t_slice (b :: qb))). auto.
Qed.
Lemma in_slice t : In t toks -> substr (t_slice t) text.
Proof.
  intro H. apply in_split in H as (a & b & H). destruct toks_spans as [Hc _]. rewrite <- Hc, H, map_app, concat_app.
  exists (concat (map t_slice a)), (concat (map t_slice b)). auto.
Qed.
Lemma cur_slice d c p s : inv d c p s -> substr (t_slice (cur p)) text.
Proof. intro H. eapply in_slice, inv_cur, H. Qed.
Lemma tok_shape t : In t toks -> t_token t <> TInputStart -> t_token t <> TInputEnd -> shape (t_token t) (t_slice t).
Proof.
  intros H H1 H2. destruct (extract_all_spec text) as (mid & He & _ & _ & Hs & _). rewrite Htoks in He. injection He as He.
  rewrite He in H. destruct H as [<-|H]; [contradiction H1; auto|]. apply in_app_or in H as [H|[<-|[]]]; [|contradiction H2; auto].
  rewrite Forall_forall in Hs. auto.
Qed.
Lemma token_in_text t s : has_token toks t ->
  In (t, s) symbols -> substr s (en_text E).
Proof.
  intros (x & Hx & <-) Hs. assert (Hn : t_token x <> TInputStart /\ t_token x <> TInputEnd).
  { split; intro X; rewrite X in Hs; cbn in Hs; repeat (destruct Hs as [Hs|Hs]; [discriminate Hs|]); exact Hs. }
  pose proof (tok_shape x Hx (proj1 Hn) (proj2 Hn)) as Hsh. pose proof (in_slice x Hx) as Hsub.
  assert (X : t_slice x = s); [|rewrite <- X; auto].
  clear - Hsh Hs. remember (t_token x) as t eqn:Et. remember (t_slice x) as sl eqn:El. clear Et El.
  destruct Hsh as [t s' Hs'| | | | | | | | | | | | | | | ];
  try (cbn in Hs; repeat (destruct Hs as [Hs|Hs]; [discriminate Hs|]); contradiction).
  cbn in Hs, Hs'. repeat (destruct Hs as [Hs|Hs]; [injection Hs as <- <-;
    repeat (destruct Hs' as [Hs'|Hs']; [first [discriminate Hs'|injection Hs' as <-; reflexivity]|]); contradiction|]). contradiction.
Qed.
Lemma substr_prefix a b t : substr (a ++ b) t -> substr a t.
Proof. intros (x & y & ->). exists x, (b ++ y). rewrite <- app_assoc. auto. Qed.
Lemma block_in_text : has_block toks -> substr (lit "[[") text.
Proof. intros [H|H]; [|apply (substr_prefix _ (lit "*"))]; eapply token_in_text; eauto; cbn; tauto. Qed.

(** *** Element lists produced between two states. *)

Definition els (c : ctx) (s0 : shared) (p : pstate) (s : shared) (es : elements) : Prop :=
  Forall (okE (nb s) (has_footnote_block p) (cF c) [cK c]) es /\ refs es + nf s0 <= nf s.
Definition elsR (c : ctx) (s0 : shared) (p : pstate) (s : shared) (es : elements) : Prop :=
  Forall (okR (nb s) (has_footnote_block p) (cF c) [cK c]) es /\ refs es + nf s0 <= nf s.
Definition succ_of (P : elements -> Prop) (out : success elements) : Prop :=
  P (su_item out) /\ (su_safe out = true -> Forall inline_element (su_item out)) /\ Forall (genuine toks) (su_errors out).
Definition succ c s0 p s out := succ_of (els c s0 p s) out.
Definition rsucc c s0 p s out := succ_of (elsR c s0 p s) out.
Lemma els_elsR c s0 p s es : els c s0 p s es -> elsR c s0 p s es.
Proof. intros [H1 H2]. split; auto. eapply Forall_impl; [|exact H1]. intros; apply okE_okR; auto. Qed.
Lemma succ_rsucc c s0 p s out : succ c s0 p s out -> rsucc c s0 p s out.
Proof. intros (H1 & H2 & H3). split; [apply els_elsR; auto|]. auto. Qed.
Lemma els_nil c s0 p s : ext s0 s -> els c s0 p s [].
Proof. intro H. split; auto. rewrite refs_nil. apply ext_nf in H. lia. Qed.
Lemma els_mono c s0 p s es p' s' : els c s0 p s es -> adv p s p' s' -> els c s0 p' s' es.
Proof.
  intros [H1 H2] (_ & H3 & H4). split.
  - eapply Forall_impl; [|exact H1]. cbn. intros e He. eapply okE_mono; [apply ext_nb; exact H3|exact H4|exact (fun x => x)|exact He|apply incl_refl].
  - apply ext_nf in H3. lia.
Qed.
Lemma els_before c s0 s1 p s es : ext s0 s1 -> els c s1 p s es -> els c s0 p s es.
Proof. intros H [H1 H2]. split; auto. apply ext_nf in H. lia. Qed.
Lemma els_app c s0 p1 s1 p s a b : els c s0 p1 s1 a -> adv p1 s1 p s -> els c s1 p s b -> els c s0 p s (a ++ b).
Proof.
  intros Ha A [H1 H2]. pose proof (els_mono _ _ _ _ _ _ _ Ha A) as [H3 _]. destruct Ha as [_ H4]. split.
  - apply Forall_app; auto.
  - rewrite refs_app. lia.
Qed.
Lemma refs_sub (es es' : elements) : (exists a b, es' = a ++ es ++ b) -> refs es <= refs es'.
Proof. intros (a & b & ->). rewrite !refs_app. lia. Qed.
Lemma els_sub c s0 p s es es' : (exists a b, es' = a ++ es ++ b) -> els c s0 p s es' -> els c s0 p s es.
Proof.
  intros X [H1 H2]. pose proof (refs_sub _ _ X). destruct X as (a & b & ->).
  apply Forall_app in H1 as [_ H1]. apply Forall_app in H1 as [H1 _]. split; auto. lia.
Qed.
Lemma stripped_whitespace es : exists a b, es = a ++ strip_whitespace es ++ b.
Proof.
  destruct (strip_front_spec is_whitespace es) as (a & H & _). destruct (strip_back_spec is_whitespace (strip_front is_whitespace es)) as (b & H' & _).
  exists a, b. unfold strip_whitespace. rewrite <- H'. auto.
Qed.
Lemma stripped_newlines es : exists a b, es = a ++ strip_newlines es ++ b.
Proof.
  destruct (strip_front_spec is_newline es) as (a & H & _). destruct (strip_back_spec is_newline (strip_front is_newline es)) as (b & H' & _).
  exists a, b. unfold strip_newlines. rewrite <- H'. auto.
Qed.
(** A leaf. *)
Lemma elsR_leaf c s0 p s e : ext s0 s -> element_ok E toks (nb s) (has_footnote_block p) (cF c) e -> children e = [] ->
  is_footnote e = false -> (forall x, e <> EPartial x) -> elsR c s0 p s [e].
Proof.
  intros H1 H2 H3 H4 H5. split.
  - constructor; auto. split; [auto|]. rewrite H3. split; auto. intros x Hx. exfalso. eapply H5; eauto.
  - rewrite refs_one, H3, refs_nil by auto. apply ext_nf in H1. lia.
Qed.
(** A container of elements parsed in the same context. *)
Lemma elsR_node c s0 p s e : elsR c s0 p s [e] <->
  (element_ok E toks (nb s) (has_footnote_block p) (cF c) e /\ (forall x, e = EPartial x -> has_block toks) /\
   Forall (okE (nb s) (has_footnote_block p) (cF c) (opens e ++ [cK c])) (children e)) /\ refs [e] + nf s0 <= nf s.
Proof.
  split.
  - intros [H1 H2]. inversion H1; subst. auto.
  - intros [H1 H2]. split; auto.
Qed.
End Inv.

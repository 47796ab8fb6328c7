(** BlocksLemmas.v -- every block parser of Blocks.v preserves the invariant. *)
From Verif Require Import Base BaseLemmas Strings StringsLemmas PropStrings Links SpecLinks LinksLemmas PropLinks Attr SpecAttr AttrLemmas
  Lexer SpecLexer LexerLemmas Depth Tree TreeLemmas Text PState Blocks SpecParse ParseInv PStateLemmas.

Ltac ext_tac :=
  match goal with
  | |- ext ?a ?a => apply ext_refl
  | I : inv _ _ _ _ ?p ?a, J : inv _ _ _ _ ?q ?b |- ext ?a ?b =>
      let H := fresh in assert (H : adv p a q b) by advt; exact (proj1 (proj2 H))
  end.
(** Move a list of parsed elements to the present state. *)
Ltac elsmv :=
  match goal with
  | |- els ?E ?t ?c ?s0 ?p3 ?s3 ?es =>
      match goal with
      | H : els E t c ?s1 ?p2 ?s2 es |- _ =>
          apply (els_before E t c s0 s1); [ext_tac|apply (els_mono E t c s1 p2 s2); [exact H|advt]]
      end
  end.

Lemma NoDup_app_snoc {A} (l : list A) x : NoDup l -> ~ In x l -> NoDup (l ++ [x]).
Proof.
  intros H1 H2. induction H1 as [|y l Hy H1 IH]; cbn; [repeat constructor; auto|]. constructor.
  - rewrite in_app_iff. intros [X|[->|[]]]; auto. apply H2. left; auto.
  - apply IH. intro X. apply H2. right; auto.
Qed.

Section B.
Variables (E : env) (toks : list xtoken).
Hypothesis Htoks : extract_all (en_text E) = Some toks.
Variable d : nat.
Notation inv := (inv E toks d).
Notation G := (G E toks d).
Notation genuine := (genuine toks).
Notation allowed := (possible_panic E toks).
Notation els := (els E toks).
Notation elsR := (elsR E toks).
Notation succ := (succ E toks).
Notation rsucc := (rsucc E toks).
Notation okE := (okE E toks).
Notation okR := (okR E toks).
Notation text := (en_text E).
Notation element_ok := (element_ok E toks).
Variable consume : M (success elements).
Hypothesis Hc : forall c p s, inv c p s ->
  G c consume p s (fun out p' s' => succ c s p' s' out /\ length (rem p') < length (rem p)).

(** *** Heads and bodies. *)
Lemma G_get_block_name_internal c k p s : inv c p s -> G c (get_block_name_internal E k) p s (fun _ _ _ => True).
Proof.
  intros Hi. unfold get_block_name_internal. eapply G_bind_; [apply G_collect_text_keep; auto|].
  intros [name last] p1 s1 I1 A1 (_ & q & Hq & Hl). cbn [snd] in Hl.
  apply (evaluate_any_token [TWhitespace; TLineBreak; TParagraphBreak; TRightBlock]) in Hq. rewrite Hl in Hq.
  destruct Hq as [<-|[<-|[<-|[<-|[]]]]]; apply G_ret; auto.
Qed.
Lemma G_get_block_name c b p s : inv c p s -> G c (get_block_name E b) p s (fun _ _ _ => True).
Proof.
  intros Hi. unfold get_block_name. eapply G_bind_; [apply G_get_optional_token; auto|]. intros ? p1 s1 I1 A1 ?.
  eapply G_bind_; [apply G_get_optional_space; auto|]. intros ? p2 s2 I2 A2 ?. apply G_get_block_name_internal; auto.
Qed.
Lemma G_get_end_block c p s : inv c p s -> G c (get_end_block E) p s (fun _ _ _ => True).
Proof.
  intros Hi. unfold get_end_block. eapply G_bind_; [apply G_get_token; auto|]. intros ? p1 s1 I1 A1 ?.
  eapply G_bind_; [apply G_get_optional_space; auto|]. intros ? p2 s2 I2 A2 ?.
  eapply G_bind_; [apply G_get_block_name; auto|]. intros [name in_head] p3 s3 I3 A3 ?.
  apply G_bind_ with (Q := fun _ _ _ => True); [|intros; apply G_ret; auto].
  destruct in_head; [|apply G_ret; auto].
  eapply G_bind_; [apply G_get_optional_space; auto|]. intros ? p4 s4 I4 A4 ?.
  eapply G_bind_; [apply G_get_token; auto|]. intros. apply G_ret; auto.
Qed.
Lemma G_verify_end_block c first br p s : inv c p s ->
  G c (verify_end_block E first br) p s (fun r p' s' => match r with Some t => t = cur p | None => p' = p end).
Proof.
  intros Hi. unfold verify_end_block. eapply G_conseq.
  - apply (G_save_evaluate_fn E toks d c _ p s (fun _ _ _ => True)); auto.
    apply G_bind_ with (Q := fun _ _ _ => True).
    + destruct (br_newlines br && negb first); [apply G_get_optional_line_break; auto|apply G_ret; auto].
    + intros ? p1 s1 I1 A1 _. eapply G_bind_; [apply G_get_end_block; auto|]. intros. apply G_ret; auto.
  - cbn. intros [t|] p' s' _ _ H; auto. apply H.
Qed.
Lemma G_get_body_text c br p s : inv c p s -> G c (get_body_text E br) p s (fun r _ _ => substr r text).
Proof.
  intros Hi. unfold get_body_text. apply G_gets_bind. eapply G_bind_.
  { apply (G_looping E toks d c _ _ p s (fun _ _ _ => True)
      (fun t p' s' => exists n, at_pos toks n t /\ n <= length (rem p))); auto.
    intros first p1 s1 I1 A1 _. eapply G_bind_; [apply G_verify_end_block; auto|].
    intros [t|] p2 s2 I2 A2 H2; cbn beta iota in H2.
    - apply G_ret; auto. subst t. exists (length (rem p1)). split; [eapply inv_at_pos; eauto|apply A1].
    - eapply G_bind_; [apply G_step_; auto|]. intros x p3 s3 I3 A3 [_ H3]. apply G_ret; auto. split; auto. subst p2. auto. }
  intros t p1 s1 I1 A1 (n & H1 & H2).
  destruct (partial_slice_ok E toks Htoks (length (rem p)) n (cur p) t) as (w & Hw & Hs); auto.
  { eapply inv_at_pos; eauto. }
  unfold or_panic. rewrite Hw. apply G_ret; auto.
Qed.
Lemma G_get_body_elements c br b p s : inv c p s ->
  G c (get_body_elements E consume br b) p s (fun out p' s' => succ c s p' s' out).
Proof.
  intros Hi. unfold get_body_elements. destruct b.
  - unfold get_body_paragraphs. apply G_gets_bind. eapply G_gather_paragraphs; eauto.
    intros f Hf b p1 s1 I1. injection Hf as <-. eapply G_bind_; [apply G_verify_end_block; auto|]. intros. apply G_ret; auto.
  - unfold get_body_no_paragraphs.
    apply (G_looping E toks d c _ _ p s (fun '(es, errs, safe, _) p' s' => succ c s p' s' (PSu es errs safe))); auto.
    + split; [|split]; cbn; auto. apply els_nil, ext_refl.
    + intros [[[es errs] safe] first] p1 s1 I1 A1 (H1 & H2 & H3); cbn [su_item su_errors su_safe] in *.
      eapply G_bind_; [apply G_verify_end_block; auto|]. intros [t|] p2 s2 I2 A2 Ht.
      * apply G_ret; auto. split; [|split]; cbn; auto. eapply els_mono; eauto.
      * apply G_gets_bind. eapply G_bind_; [apply Hc; auto|]. intros out p3 s3 I3 A3 [(H4 & H5 & H6) H7].
        eapply G_bind_; [apply G_step_if_same; [auto|apply A3]|]. intros ? p4 s4 I4 A4 H8. apply G_ret; auto. cbn beta iota.
        split; [subst p2; auto|]. split; [|split]; cbn [su_item su_errors su_safe].
        -- eapply els_mono; [|exact A4]. eapply els_app; [eapply els_mono; [exact H1|exact A2]|exact A3|auto].
        -- intros X. apply andb_true_iff in X as [X1 X2]. apply Forall_app; auto.
        -- apply Forall_app; auto.
Qed.
Lemma G_get_head_block c br in_head p s : inv c p s -> G c (get_head_block br in_head) p s (fun _ _ _ => True).
Proof.
  intros Hi. unfold get_head_block. apply G_bind_ with (Q := fun _ _ _ => True).
  - destruct in_head; [|apply G_ret; auto]. eapply G_bind_; [apply G_get_token; auto|]. intros. apply G_ret; auto.
  - intros ? p1 s1 I1 A1 _. apply G_gets_bind. destruct (_ && _); [apply G_get_optional_line_break; auto|apply G_ret; auto].
Qed.
Lemma G_get_argument_key c p s : inv c p s -> G c (get_argument_key E) p s (fun _ _ _ => True).
Proof.
  intros Hi. unfold get_argument_key. apply G_gets_bind. eapply G_bind_.
  { apply (G_looping E toks d c _ _ p s (fun _ _ _ => True) (fun _ _ _ => True)); auto.
    intros u p1 s1 I1 A1 _. apply G_gets_bind.
    assert (X : G c (if is_key_slice (t_slice (cur p1)) then step ;; ret (inl tt) else fail BlockMalformedArguments) p1 s1
       (fun (r : unit + bool) p' s' => match r with inl _ => length (rem p') < length (rem p1) /\ True | inr _ => True end)).
    { destruct (is_key_slice _); [|apply G_fail; auto]. eapply G_bind_; [apply G_step_; auto|]. intros ? p2 s2 I2 A2 [_ H2]. apply G_ret; auto. }
    destruct (t_token (cur p1)); try exact X; apply G_ret; auto. }
  intros [] p1 s1 I1 A1 _; [apply G_ret; auto|]. apply G_gets_bind.
  destruct (partial_slice_ok E toks Htoks (length (rem p)) (length (rem p1)) (cur p) (cur p1)) as (w & Hw & _).
  { eapply inv_at_pos; eauto. } { eapply inv_at_pos; eauto. } { apply A1. }
  rewrite Hw. apply G_ret_bind, G_ret; auto.
Qed.
(** Arguments: distinct names, values that are quoted strings of the text. *)
Definition argok (m : arguments) : Prop :=
  distinct_keys m /\ Forall (fun kv => exists q, substr q text /\ parse_string q = Some (snd kv)) m.
Lemma argok_nil : argok []. Proof. split; constructor. Qed.
Lemma argok_insert m k v q : substr q text -> parse_string q = Some v -> argok m -> argok (args_insert m k v).
Proof.
  intros Hq Hv [H1 H2]. split; [apply args_insert_distinct; auto|]. clear H1. induction H2 as [|[k' v'] m Hx H2 IH]; cbn [args_insert].
  - constructor; [cbn [snd]; eauto|constructor].
  - destruct (eq_nocase k' k); constructor; auto. cbn [snd]. eauto.
Qed.
Lemma G_get_head_map c br in_head p s : inv c p s -> G c (get_head_map E br in_head) p s (fun m _ _ => argok m).
Proof.
  intros Hi. unfold get_head_map. apply G_bind_ with (Q := fun m _ _ => argok m).
  - destruct in_head; [|apply G_ret; auto; apply argok_nil].
    apply (G_looping E toks d c _ _ p s (fun m _ _ => argok m)); auto; [apply argok_nil|].
    intros m p1 s1 I1 A1 Hm. eapply G_bind_; [apply G_get_optional_spaces_any; auto|]. intros ? p2 s2 I2 A2 _.
    eapply G_bind_; [apply G_get_argument_key; auto|]. intros [key|] p3 s3 I3 A3 _; [|apply G_ret; auto].
    eapply G_bind_; [apply G_get_optional_space; auto|]. intros ? p4 s4 I4 A4 _.
    eapply G_bind_; [apply G_get_token; auto|]. intros ? p5 s5 I5 A5 (_ & _ & H5).
    eapply G_bind_; [apply G_get_optional_space; auto|]. intros ? p6 s6 I6 A6 _.
    eapply G_bind_; [apply G_get_token; auto|]. intros raw p7 s7 I7 A7 (_ & Hraw & H7).
    destruct (C31_total raw) as [v Hv]. rewrite Hv. apply G_ret_bind, G_ret; auto. split.
    + destruct A2, A3, A4, A6. lia.
    + apply (argok_insert m key v raw); auto. rewrite Hraw. eapply cur_slice; eauto.
  - intros m p1 s1 I1 A1 Hm. eapply G_bind_; [apply G_get_head_block; auto|]. intros. apply G_ret; auto.
Qed.
Lemma G_get_head_name_map c br in_head p s : inv c p s ->
  G c (get_head_name_map E br in_head) p s (fun r _ _ => argok (snd r)).
Proof.
  intros Hi. unfold get_head_name_map. destruct in_head; [|apply G_fail; auto]. cbn [negb].
  eapply G_bind_; [apply G_get_block_name_internal; auto|]. intros [n h] p1 s1 I1 A1 _.
  eapply G_bind_; [apply G_get_head_map; auto|]. intros m p2 s2 I2 A2 H2. apply G_ret; auto.
Qed.
Lemma G_get_head_value {T} c br in_head (convert : option str -> M T) (Q : T -> Prop) p s : inv c p s ->
  (forall v p1 s1, (forall x, v = Some x -> substr x text) -> inv c p1 s1 -> G c (convert v) p1 s1 (fun r _ _ => Q r)) ->
  G c (get_head_value E br in_head convert) p s (fun r _ _ => Q r).
Proof.
  intros Hi Hv. unfold get_head_value. apply G_bind_ with (Q := fun v _ _ => forall x, v = Some x -> substr x text).
  - destruct in_head; [|apply G_ret; auto; discriminate]. eapply G_bind_; [apply G_collect_text; auto|].
    intros x p1 s1 I1 A1 Hx. apply G_ret; auto. intros y [= <-]. auto.
  - intros v p1 s1 I1 A1 Hx. eapply G_bind_; [apply Hv; auto|]. intros r p2 s2 I2 A2 Hr.
    eapply G_bind_; [apply G_get_head_block; auto|]. intros. apply G_ret; auto.
Qed.
Lemma G_get_head_none c br in_head p s : inv c p s -> G c (get_head_none br in_head) p s (fun _ _ _ => True).
Proof.
  intros Hi. unfold get_head_none. eapply G_bind_; [apply G_get_optional_space; auto|]. intros. apply G_get_head_block; auto.
Qed.
Lemma G_required c f v p s : inv c p s -> (forall x, v = Some x -> substr x text) ->
  G c (required f v) p s (fun r _ _ => exists x, substr x text /\ r = f x).
Proof. intros Hi Hv. unfold required. destruct v; [|apply G_fail; auto]. apply G_ret; eauto. Qed.
Lemma G_head_required c br in_head f p s : inv c p s ->
  G c (get_head_value E br in_head (required f)) p s (fun r _ _ => exists x, substr x text /\ r = f x).
Proof. intros Hi. apply G_get_head_value; auto. intros. apply G_required; auto. Qed.

(** *** Attributes. *)
Lemma args_get_sub k m r m' : args_get m k = (r, m') -> incl m' m /\ (distinct_keys m -> distinct_keys m').
Proof.
  revert r m'. induction m as [|[k' v'] m IH]; cbn [args_get]; intros r m' H.
  - injection H as <- <-. split; auto. apply incl_refl.
  - destruct (eq_nocase k' k).
    + injection H as <- <-. split; [apply incl_tl, incl_refl|]. intro X. inversion X; auto.
    + destruct (args_get m k) as [r1 m1] eqn:E1. injection H as <- <-. destruct (IH _ _ eq_refl) as [H1 H2]. split.
      * intros x [<-|Hx]; [left; auto|right; auto].
      * intro X. inversion X as [|? ? Hn Hd]; subst. unfold distinct_keys in *. cbn [map]. constructor; auto.
        intro Y. apply Hn. apply in_map_iff in Y as (z & Hz & Hin). cbn beta iota delta [fst] in Hz |- *. rewrite <- Hz. apply (in_map (fun kv : str * str => slower (fst kv))). apply H1, Hin.
Qed.
Lemma args_get_distinct k m r m' : args_get m k = (r, m') -> argok m -> argok m'.
Proof.
  intros H [H1 H2]. apply args_get_sub in H as [Hi Hd]. split; auto. apply Forall_forall. intros x Hx. rewrite Forall_forall in H2. auto.
Qed.
Lemma nodup_fst (m : btmap) k v w : NoDup (map fst m) -> In (k, v) m -> In (k, w) m -> v = w.
Proof.
  induction m as [|[k' v'] m IH]; intros Hd H1 H2; [destruct H1|]. cbn [map fst] in Hd. inversion Hd as [|? ? Hn Hd']; subst.
  destruct H1 as [H1|H1], H2 as [H2|H2]; auto.
  - congruence.
  - injection H1 as -> ->. exfalso. apply Hn. apply (in_map fst) in H2. exact H2.
  - injection H2 as -> ->. exfalso. apply Hn. apply (in_map fst) in H1. exact H1.
Qed.
Lemma bt_get_miss (m : btmap) k v : bt_get m k = None -> In (k, v) m -> False.
Proof.
  induction m as [|[k' v'] m IH]; cbn [bt_get]; intros H Hi; [destruct Hi|]. destruct (seqb k' k) eqn:Es; [discriminate|].
  destruct Hi as [Hi|Hi]; auto. injection Hi as -> _. rewrite seqb_refl in Es. discriminate.
Qed.
Lemma bt_get_hit (m : btmap) k v : bt_get m k = Some v -> In (k, v) m.
Proof.
  induction m as [|[k' v'] m IH]; cbn [bt_get]; intros H; [discriminate|]. destruct (seqb k' k) eqn:Es; [|right; auto].
  apply seqb_eq in Es. injection H as ->. subst. left. auto.
Qed.
Lemma attr_result_lower href k v r : attr_result href k v r -> attr_result href (slower k) v r.
Proof.
  intro H. destruct H; [apply ar_true|apply ar_false|apply ar_url|apply ar_plain]; rewrite ?slower_idem; auto.
Qed.
Lemma to_attribute_map_ok args : substr (lit "[[") text -> argok args ->
  exists m, to_attribute_map (en_word E) (en_normalize E) (en_isolate E) args = Some m /\ attr_map_ok E m.
Proof.
  intros Hop [Hd Ha]. destruct (from_arguments_spec (en_word E) (en_normalize E) args [] Hd) as (m & Hm & Hs & Hin); [constructor|auto|].
  unfold to_attribute_map. rewrite Hm. eexists. split; [reflexivity|]. rewrite Forall_forall in Ha.
  assert (Hm0 : forall k v, In (k, v) m -> is_safe_attribute k = true /\ slower k = k /\
    exists q s, substr q text /\ parse_string q = Some s /\ attr_result (normalize_href (en_word E) (en_normalize E)) k s (Some v)).
  { intros k v Hkv. apply Hin in Hkv as [[]|(k0 & v0 & H0 & Hac & -> & Hr)]. split; [|split].
    - apply is_safe_iff. rewrite slower_idem. destruct Hac as [Hac|[r [-> | ->]]]; auto; right; exists (slower r); rewrite slower_app; [left|right]; reflexivity.
    - apply slower_idem.
    - destruct (Ha _ H0) as (q & Hq & Hv). exists q, v0. split; [auto|split; auto]. apply attr_result_lower, Hr. }
  assert (Hkeep : forall k v, In (k, v) m -> k <> lit "id" \/ en_isolate E = false -> is_safe_attribute k = true /\ slower k = k /\ attr_origin E k v).
  { intros k v Hkv Hk. destruct (Hm0 k v Hkv) as (H1 & H2 & q & s & H3 & H4 & H5). split; [auto|split; auto].
    pose proof (ao_argument E k q s v Hop H3 H4 H5) as X. destruct Hk as [Hk|Hk].
    - assert (Es : seqb k (lit "id") = false) by (apply seqb_neq; auto). rewrite Es in X. exact X.
    - unfold stored_id in X. rewrite Hk in X. destruct (seqb k (lit "id")); exact X. }
  unfold isolate_id. destruct (en_isolate E) eqn:Ei; [|split; [apply sorted_NoDup; auto|auto]].
  destruct (bt_get m (lit "id")) as [v|] eqn:Eg.
  - assert (Hn : NoDup (map fst (bt_insert m (lit "id") (isolate_ids v)))) by (apply sorted_NoDup, bt_insert_sorted; auto).
    split; [exact Hn|]. intros k w Hk. destruct (seqb k (lit "id")) eqn:Es.
    + apply seqb_eq in Es. subst k. split; [reflexivity|split; [reflexivity|]].
      pose proof (nodup_fst _ _ _ _ Hn Hk (bt_insert_In_new m (lit "id") (isolate_ids v))) as ->.
      apply bt_get_hit in Eg. destruct (Hm0 _ _ Eg) as (_ & _ & q & s & H3 & H4 & H5).
      pose proof (ao_argument E _ q s v Hop H3 H4 H5) as X. unfold stored_id in X. rewrite Ei in X. exact X.
    + apply seqb_neq in Es. apply bt_insert_In in Hk as [Hk|Hk]; [injection Hk as -> _; contradiction|]. auto.
  - split; [apply sorted_NoDup; auto|]. intros k w Hk. apply Hkeep; auto. left. intros ->. eapply bt_get_miss; eauto.
Qed.
Lemma G_attrs c args p s : inv c p s -> has_block toks -> argok args ->
  G c (attrs E args) p s (fun m _ _ => attr_map_ok E m).
Proof. intros Hi Hb Hd. unfold attrs. destruct (to_attribute_map_ok args (block_in_text E toks Htoks Hb) Hd) as (m & -> & Hm). apply G_ret; auto. Qed.
Lemma G_get_bool c args k p s : inv c p s -> argok args ->
  G c (get_bool args k) p s (fun r _ _ => argok (snd r)).
Proof.
  intros Hi Hd. unfold get_bool. destruct (args_get args k) as [v args1] eqn:Ea. apply args_get_distinct in Ea; auto.
  destruct v as [x|]; [|apply G_ret; auto]. destruct (parse_boolean x); [apply G_ret; auto|apply G_fail; auto].
Qed.
Lemma G_get_u32 c args k p s : inv c p s -> argok args ->
  G c (get_u32 args k) p s (fun r _ _ => argok (snd r)).
Proof.
  intros Hi Hd. unfold get_u32. destruct (args_get args k) as [v args1] eqn:Ea. apply args_get_distinct in Ea; auto.
  destruct v as [x|]; [|apply G_ret; auto]. destruct (parse_nonzero_u32 x); [apply G_ret; auto|apply G_fail; auto].
Qed.
Lemma G_check_page_syntax c p s : inv c p s -> G c (check_page_syntax E) p s (fun _ _ _ => True).
Proof. intros Hi. unfold check_page_syntax. destruct (en_page_syntax E); [apply G_ret; auto|apply G_fail; auto]. Qed.

(** *** Leaves and nodes. *)
Lemma G_leaf c p0 s0 p s e : adv p0 s0 p s -> inv c p s -> element_ok (nb s) (has_footnote_block p) (cF c) e -> children e = [] ->
  is_footnote e = false -> (forall x, e <> EPartial x) -> G c (ok_derived [e] []) p s (fun out p' s' => rsucc c s0 p' s' out).
Proof. intros Ha Hi H1 H2 H3 H4. apply G_ok_derived; auto. apply elsR_leaf; auto. apply Ha. Qed.
Lemma G_leaf_flag c p0 s0 p s e b : adv p0 s0 p s -> inv c p s -> element_ok (nb s) (has_footnote_block p) (cF c) e -> children e = [] ->
  is_footnote e = false -> (forall x, e <> EPartial x) -> (b = true -> inline_element e) ->
  G c (ok_flag b [e] []) p s (fun out p' s' => rsucc c s0 p' s' out).
Proof. intros Ha Hi H1 H2 H3 H4 Hb. apply G_ok_flag; auto. apply elsR_leaf; auto. apply Ha. Qed.
Lemma G_empty c p0 s0 p s b : adv p0 s0 p s -> inv c p s -> G c (ok_flag b [] []) p s (fun out p' s' => rsucc c s0 p' s' out).
Proof. intros Ha Hi. apply G_ok_flag; auto. apply els_elsR, els_nil, Ha. Qed.

(** *** Shared tables. *)
Lemma forall_up {s s'} (Q : nat -> element -> Prop) l : (forall e, Q (nb s) e -> Q (nb s') e) -> Forall (Forall (Q (nb s))) l -> Forall (Forall (Q (nb s'))) l.
Proof. intros H Hl. eapply Forall_impl; [|exact Hl]. cbn. intros es He. eapply Forall_impl; [|exact He]. auto. Qed.
Lemma G_push_footnote c es p s : inv c p s -> has_block toks -> Forall (okE (nb s) (has_footnote_block p) true [cK c]) es ->
  G c (push_footnote es) p s (fun _ p' s' => p' = p /\ nf s' = S (nf s) /\ nb s' = nb s).
Proof.
  intros Hi Hbl He. unfold ParseInv.G, push_footnote.
  set (s' := SH (sh_toc s) (sh_html s) (sh_code s) (sh_footnotes s ++ [es]) (sh_bibs s)).
  assert (Hx : ext s s') by (repeat split; try apply extends_refl; exists [es]; auto).
  split; [|split; [|split; [auto|split; [unfold nf; cbn; rewrite app_length; cbn; lia|reflexivity]]]].
  - eapply inv_shared; eauto. destruct Hi as [_ _ _ _ _ []]. split; auto. cbn. apply Forall_app. split; auto.
    constructor; auto. eapply Forall_impl; [|exact He]. cbn. intros e Hx'. eapply okE_mono; [apply Nat.le_refl|auto|exact (fun x => x)|exact Hx'|].
    intros k _. destruct k; cbn; tauto.
  - split; [lia|]. auto.
Qed.
Lemma G_push_html_block c h p s : inv c p s -> has_block toks -> substr h text -> G c (push_html_block h) p s (fun _ p' s' => True).
Proof.
  intros Hi Hbl Hh. unfold ParseInv.G, push_html_block.
  set (s' := SH (sh_toc s) (sh_html s ++ [h]) (sh_code s) (sh_footnotes s) (sh_bibs s)).
  split; [|split; auto].
  - eapply inv_shared; eauto. destruct Hi as [_ _ _ _ _ []]. split; auto. cbn. apply Forall_app. split; auto.
  - split; [lia|]. split; auto. repeat split; try apply extends_refl. exists [h]; auto.
Qed.
Lemma code_names_app a b : code_names (a ++ b) = code_names a ++ code_names b.
Proof. unfold code_names. apply flat_map_app. Qed.
Lemma G_push_code_block c b p s : inv c p s -> has_block toks -> substr (cb_contents b) text -> G c (push_code_block b) p s (fun _ p' s' => True).
Proof.
  intros Hi Hbl Hh. unfold ParseInv.G, push_code_block.
  destruct (match cb_name b with Some n => existsb (code_name_is n) (sh_code s) | None => false end) eqn:Eb.
  - split; auto. split; auto. apply adv_refl.
  - set (s' := SH (sh_toc s) (sh_html s) (sh_code s ++ [b]) (sh_footnotes s) (sh_bibs s)).
    split; [|split; auto].
    + eapply inv_shared; eauto. destruct Hi as [_ _ _ _ _ []]. split; auto; cbn.
      * rewrite code_names_app. destruct (cb_name b) as [n|] eqn:En; cbn; rewrite En; cbn; [|rewrite app_nil_r; auto].
        apply NoDup_app_snoc; auto. intro X. apply in_flat_map in X as (b' & Hb' & Hn). destruct (cb_name b') as [m|] eqn:Em; [|destruct Hn].
        destruct Hn as [->|[]]. assert (Y : existsb (code_name_is n) (sh_code s) = true); [|congruence].
        apply existsb_exists. exists b'. split; auto. unfold code_name_is. rewrite Em. apply seqb_refl.
      * apply Forall_app. split; auto.
    + split; [lia|]. split; auto. repeat split; try apply extends_refl. exists [b]; auto.
Qed.
Lemma bib_get_from_none b l : forall i, bib_get_from i b l = None -> ~ In l (map fst b).
Proof.
  induction b as [|[l' es] b IH]; cbn; intros i H X; auto. destruct (seqb l l') eqn:El; [discriminate|].
  destruct X as [X|X]; [subst; rewrite seqb_refl in El; discriminate|]. eapply IH; eauto.
Qed.
Lemma bib_add_ok (Q : elements -> Prop) b l es : NoDup (map fst b) -> Forall (fun x => Q (snd x)) b -> Q es ->
  NoDup (map fst (bib_add b l es)) /\ Forall (fun x => Q (snd x)) (bib_add b l es).
Proof.
  intros H1 H2 H3. unfold bib_add. destruct (bib_get b l) eqn:Eb; auto. apply bib_get_from_none in Eb. split.
  - rewrite map_app. cbn. apply NoDup_app_snoc; auto.
  - apply Forall_app; auto.
Qed.
Lemma bib_items_ok (Q : elements -> Prop) items : forall b, NoDup (map fst b) -> Forall (fun x => Q (snd x)) b ->
  Forall (fun i => Q (df_value i)) items ->
  NoDup (map fst (bib_items items b)) /\ Forall (fun x => Q (snd x)) (bib_items items b).
Proof.
  induction items as [|i items IH]; cbn; intros b H1 H2 H3; auto. inversion H3; subst.
  destruct (bib_add_ok Q b (df_key_string i) (df_value i)); auto.
Qed.
Lemma bib_loop_ok (Q : elements -> Prop) es : forall b b', NoDup (map fst b) -> Forall (fun x => Q (snd x)) b ->
  (forall items, In (EDefinitionList items) es -> Forall (fun i => Q (df_value i)) items) -> bib_loop es b = Some b' ->
  NoDup (map fst b') /\ Forall (fun x => Q (snd x)) b'.
Proof.
  induction es as [|e es IH]; cbn [bib_loop]; intros b b' H1 H2 H3 H.
  - injection H as <-. auto.
  - assert (X : (if is_whitespace e then bib_loop es b else None) = Some b' -> NoDup (map fst b') /\ Forall (fun x => Q (snd x)) b').
    { destruct (is_whitespace e); [|discriminate]. apply IH; auto. intros items Hin. apply H3. right; auto. }
    destruct e; auto. destruct (bib_items_ok Q items b) as [Y1 Y2]; auto; [apply H3; left; auto|].
    eapply IH; [exact Y1|exact Y2| |exact H]. intros its Hin. apply H3. right; auto.
Qed.
Lemma G_push_bibliography c b p s : inv c p s -> has_block toks -> NoDup (map fst b) ->
  Forall (fun x => Forall (okE (nb s) (has_footnote_block p) (cF c) [cK c]) (snd x)) b ->
  G c (push_bibliography b) p s (fun i p' s' => i < nb s').
Proof.
  intros Hi Hbl Hn Hb. unfold ParseInv.G, push_bibliography.
  set (s' := SH (sh_toc s) (sh_html s) (sh_code s) (sh_footnotes s) (sh_bibs s ++ [b])).
  assert (Hx : ext s s') by (repeat split; try apply extends_refl; exists [b]; auto).
  assert (Hu : forall fb fb' F F' A A' e, (fb = true -> fb' = true) -> (F' = true -> F = true) -> incl A A' -> okE (nb s) fb F A e -> okE (nb s') fb' F' A' e).
  { intros. eapply okE_mono; [apply ext_nb; eauto| | |eassumption|auto]; auto. }
  split; [|split; [split; [lia|auto]|unfold nb, s'; cbn; rewrite app_length; cbn; lia]].
  eapply inv_shared; eauto. destruct Hi as [_ _ _ _ _ []]. split; auto.
  - cbn [sh_footnotes s']. eapply Forall_impl; [|exact so_footnotes]. cbn. intros es He. eapply Forall_impl; [|exact He].
    cbn. intros e. apply Hu; auto. apply incl_refl.
  - cbn [sh_bibs s']. apply Forall_app. split.
    + eapply Forall_impl; [|exact so_bibs]. cbn. intros b0 [H1 H2]. split; auto. eapply Forall_impl; [|exact H2].
      cbn. intros le He. eapply Forall_impl; [|exact He]. cbn. intros e. apply Hu; auto. apply incl_refl.
    + constructor; auto. split; auto. eapply Forall_impl; [|exact Hb]. cbn. intros le He. eapply Forall_impl; [|exact He].
      cbn. intros e. apply Hu; auto; [discriminate|]. intros k _. destruct k; cbn; tauto.
Qed.
End B.

(** BlocksLemmas2.v -- every block parser of Blocks.v preserves the invariant. *)
From Verif Require Import Base BaseLemmas Strings StringsLemmas PropStrings Links SpecLinks LinksLemmas PropLinks Attr SpecAttr AttrLemmas
  Lexer SpecLexer LexerLemmas Depth Tree TreeLemmas Text PState Blocks SpecParse ParseInv PStateLemmas BlocksLemmas.

(** One step of a [bind] whose first part has a lemma. *)
Ltac gs L :=
  eapply G_bind_; [solve [eapply L; eauto]|];
  let a := fresh "a" in let p := fresh "p" in let s := fresh "s" in let I := fresh "I" in let A := fresh "A" in let H := fresh "H" in
  intros a p s I A H; cbn beta in H;
  try (match type of a with (_ * _)%type => let x := fresh "x" in let y := fresh "y" in destruct a as [x y]; cbn [fst snd] in H end).
Ltac ga :=
  match goal with
  | |- context [args_get ?a ?k] =>
      let v := fresh "v" in let m := fresh "m" in let Em := fresh "Em" in
      destruct (args_get a k) as [v m] eqn:Em; eapply args_get_distinct in Em; [|eassumption]
  end.
Ltac sub_tac := first [ exists [], []; rewrite app_nil_r; reflexivity | apply stripped_newlines | apply stripped_whitespace ].

Section B.
Variables (E : env) (toks : list xtoken).
Hypothesis Htoks : extract_all (en_text E) = Some toks.
Variable d : nat.
Notation inv := (inv E toks d).
Notation G := (G E toks d).
Notation genuine := (genuine toks).
Notation allowed := (possible_panic E toks).
Notation els := (els E toks).
Notation elsR := (elsR E toks).
Notation succ := (succ E toks).
Notation rsucc := (rsucc E toks).
Notation okE := (okE E toks).
Notation okR := (okR E toks).
Notation text := (en_text E).
Notation element_ok := (element_ok E toks).
Variable consume : M (success elements).
Hypothesis Hc : forall c p s, inv c p s ->
  G c consume p s (fun out p' s' => succ c s p' s' out /\ length (rem p') < length (rem p)).
Hypothesis Hb : has_block toks.

Lemma G_assert_block_name c br name p s : inv c p s -> G c (assert_block_name E br name) p s (fun _ p' s' => p' = p /\ s' = s).
Proof.
  intros Hi. unfold assert_block_name, assert_name. destruct (en_debug E) eqn:Ed; cbn [andb]; [|apply G_ret; auto].
  destruct (negb _); [|apply G_ret; auto]. apply G_panic. split; auto.
Qed.
Lemma G_node_d c s0 s1 p2 s2 p s e out : succ c s1 p2 s2 out -> ext s0 s1 -> adv p2 s2 p s -> inv c p s ->
  (exists a b, su_item out = a ++ children e ++ b) -> element_ok (nb s) (has_footnote_block p) (cF c) e -> is_footnote e = false ->
  (forall x, e = EPartial x -> has_block toks) ->
  G c (ok_derived [e] (su_errors out)) p s (fun out' p' s' => rsucc c s0 p' s' out').
Proof.
  intros (H1 & H2 & H3) Hx Ha Hi Hs Ho Hf Hp. apply G_ok_derived; auto. eapply elsR_same; eauto.
  eapply els_sub; eauto. eapply els_before; eauto. eapply els_mono; eauto.
Qed.
Lemma G_node_f c s0 s1 p2 s2 p s e b out : succ c s1 p2 s2 out -> ext s0 s1 -> adv p2 s2 p s -> inv c p s ->
  (exists a b, su_item out = a ++ children e ++ b) -> element_ok (nb s) (has_footnote_block p) (cF c) e -> is_footnote e = false ->
  (forall x, e = EPartial x -> has_block toks) -> (b = true -> inline_element e) ->
  G c (ok_flag b [e] (su_errors out)) p s (fun out' p' s' => rsucc c s0 p' s' out').
Proof.
  intros (H1 & H2 & H3) Hx Ha Hi Hs Ho Hf Hp Hi'. apply G_ok_flag; auto. eapply elsR_same; eauto.
  eapply els_sub; eauto. eapply els_before; eauto. eapply els_mono; eauto.
Qed.
Ltac noded H := eapply G_node_d; [exact H|ext_tac|advt|assumption|cbn [children]; sub_tac| |reflexivity|first [discriminate|auto]].
Ltac nodef H := eapply G_node_f; [exact H|ext_tac|advt|assumption|cbn [children]; sub_tac| |reflexivity|first [discriminate|auto]|].
Lemma attr1 a : attr_map_ok E a -> Forall (attr_map_ok E) [a].
Proof. auto. Qed.
Lemma G_leaf_ c s0 p s e : inv c p s -> ext s0 s -> element_ok (nb s) (has_footnote_block p) (cF c) e -> children e = [] ->
  is_footnote e = false -> (forall x, e <> EPartial x) -> G c (ok_derived [e] []) p s (fun out p' s' => rsucc c s0 p' s' out).
Proof. intros Hi Ha H1 H2 H3 H4. apply G_ok_derived; auto. apply elsR_leaf; auto. Qed.
Lemma G_leaf_f c s0 p s e : inv c p s -> ext s0 s -> element_ok (nb s) (has_footnote_block p) (cF c) e -> children e = [] ->
  is_footnote e = false -> (forall x, e <> EPartial x) -> G c (ok_flag false [e] []) p s (fun out p' s' => rsucc c s0 p' s' out).
Proof. intros Hi Ha H1 H2 H3 H4. apply G_ok_flag; auto; [|discriminate]. apply elsR_leaf; auto. Qed.
Ltac leaf := first [apply G_leaf_|apply G_leaf_f]; [assumption|ext_tac|split; [cbn [attrs_of]; first [constructor; fail | apply nattr | apply attr1; solve [auto] | idtac]|cbn; auto]|reflexivity|reflexivity|discriminate].

Notation bok f := (forall c br name star score in_head p s, inv c p s ->
  G c (f br name star score in_head) p s (fun out p' s' => rsucc c s p' s' out)).

Lemma B_align a : bok (blk_align E consume a).
Proof.
  intros c br name star score in_head p s Hi. unfold blk_align. gs G_assert_block_name. gs G_get_head_none. gs G_get_body_elements.
  noded H1. apply container_ok; [split; discriminate|split; [constructor|intros ? ? []]|auto].
Qed.
Lemma B_anchor : bok (blk_anchor E consume).
Proof.
  intros c br name star score in_head p s Hi. unfold blk_anchor. gs G_assert_block_name. gs G_get_head_map. gs G_attrs. gs G_get_body_elements.
  destruct score; nodef H2; try (split; cbn; auto; fail); intros _; discriminate.
Qed.
Lemma B_bibcite : bok (blk_bibcite E).
Proof.
  intros c br name star score in_head p s Hi. unfold blk_bibcite. gs G_assert_block_name. gs G_head_required. leaf.
Qed.
Lemma B_bibliography : bok (blk_bibliography E consume).
Proof.
  intros c br name star score in_head p s Hi. unfold blk_bibliography. gs G_assert_block_name. gs G_get_head_map. ga. gs G_get_bool.
  gs G_get_body_elements. destruct (bib_loop (su_item a1) []) as [b|] eqn:Eb; [|apply G_fail; auto].
  destruct H2 as ([H2 _] & _ & H4).
  destruct (bib_loop_ok (Forall (okE (nb s3) (has_footnote_block p3) (cF c) [cK c])) (su_item a1) [] b) as [Hn Hf]; auto; [constructor| |].
  { intros items Hin. rewrite Forall_forall in H2. apply H2 in Hin. inversion Hin as [? ? _ _ Hch]; subst. cbn [opens app] in Hch.
    apply Forall_forall. intros i Hi'. apply Forall_forall. intros e He. rewrite Forall_forall in Hch. apply Hch. cbn [children].
    apply in_flat_map. exists i. split; auto. apply in_or_app; auto. }
  gs G_push_bibliography. apply G_ok_derived; auto. apply elsR_leaf; auto; [ext_tac|split; cbn; auto|discriminate].
Qed.
Lemma B_container_block c br ct par der post name in_head p s : inv c p s -> plain_ct ct -> (der = false -> ct_paragraph_safe ct = true) ->
  (forall es, exists a b, es = a ++ post es ++ b) ->
  G c (container_block E consume br ct par der post name in_head) p s (fun out p' s' => rsucc c s p' s' out).
Proof.
  intros Hi Hct Hd Hpost. unfold container_block. gs G_assert_block_name. gs G_get_head_map. gs G_get_body_elements. gs G_attrs.
  cbv zeta. destruct der.
  - eapply G_node_d; [exact H1|ext_tac|advt|assumption|apply Hpost|apply container_ok; auto|reflexivity|discriminate].
  - eapply G_node_f; [exact H1|ext_tac|advt|assumption|apply Hpost|apply container_ok; auto|reflexivity|discriminate|].
    intros _. unfold inline_element. cbn. rewrite Hd; auto. discriminate.
Qed.
Lemma same_sub es : exists a b : elements, es = a ++ same es ++ b.
Proof. exists [], []. rewrite app_nil_r. reflexivity. Qed.
Lemma B_blockquote : bok (blk_blockquote E consume).
Proof. intros c br name star score in_head p s Hi. apply B_container_block; auto using same_sub. split; discriminate. Qed.
Lemma B_container ct : ct_paragraph_safe ct = true -> bok (blk_container E consume ct).
Proof.
  intros Hs c br name star score in_head p s Hi. apply B_container_block; auto using same_sub. split; [intros h ->|intros ->]; discriminate.
Qed.
Lemma get_char_one v r x : get_char v r = Some x -> exists c, x = [c].
Proof.
  unfold get_char. destruct (u32_from_str_radix r v); [|discriminate]. destruct (char_from_u32 n); [|discriminate]. intros [= <-]. eauto.
Qed.
Lemma find_entity_origin e x : find_entity E e = Some x -> text_origin E x.
Proof.
  unfold find_entity. destruct (en_entity E e) eqn:En.
  - intros [= <-]. right. right. left. eauto.
  - intros H. right. right. right. destruct (strip_prefix (lit "#x") e) as [w|].
    + destruct (get_char w 16) eqn:Eg; [injection H as <-; eapply get_char_one; eauto|].
      destruct (strip_prefix (lit "#") e); [|discriminate]. eapply get_char_one; eauto.
    + destruct (strip_prefix (lit "#") e); [|discriminate]. eapply get_char_one; eauto.
Qed.
Lemma B_char : bok (blk_char E).
Proof.
  intros c br name star score in_head p s Hi. unfold blk_char. gs G_assert_block_name. eapply G_bind_.
  { apply (G_get_head_value E toks Htoks d c br in_head _ (text_origin E)); auto. intros [v|] p1 s1 Hv I1; [|apply G_fail; auto].
    destruct (find_entity E (strip_entity v)) eqn:Ef; [|apply G_fail; auto]. apply G_ret; auto. eapply find_entity_origin; eauto. }
  intros x p1 s1 I1 A1 Hx. leaf.
Qed.
Lemma B_checkbox : bok (blk_checkbox E).
Proof.
  intros c br name star score in_head p s Hi. unfold blk_checkbox. gs G_assert_block_name. gs G_get_head_map. gs G_get_optional_space. gs G_attrs. leaf.
Qed.
Lemma B_code : bok (blk_code E).
Proof.
  intros c br name star score in_head p s Hi. unfold blk_code. gs G_assert_block_name. gs G_get_head_map. ga. cbv zeta. ga. cbv zeta.
  gs G_get_body_text. gs G_push_code_block. destruct a2; [leaf|apply G_fail; auto].
Qed.
Lemma B_collapsible : bok (blk_collapsible E consume).
Proof.
  intros c br name star score in_head p s Hi. unfold blk_collapsible. gs G_assert_block_name. gs G_get_head_map. ga. ga. gs G_get_bool. cbv zeta. ga.
  apply G_bind_ with (Q := fun _ _ _ => True).
  { destruct v1; [|apply G_ret; auto]. destruct (parse_hide_location _); [apply G_ret; auto|apply G_fail; auto]. }
  intros [t b] p3 s3 I3 A3 _. gs G_get_body_elements. gs G_attrs. noded H2. split; [apply attr1; auto|cbn; auto].
Qed.
Lemma B_date : bok (blk_date E).
Proof.
  intros c br name star score in_head p s Hi. unfold blk_date. gs G_assert_block_name. gs G_get_head_name_map. ga. ga. gs G_get_bool.
  destruct (en_date E x); [|apply G_fail; auto]. apply G_bind_ with (Q := fun _ _ _ => True).
  { destruct v0 as [z|]; [|apply G_ret; auto]. destruct (en_tz E z) as [o|]; [|apply G_fail; auto]. destruct (en_date_tz E _ o); [apply G_ret; auto|apply G_fail; auto]. }
  intros dt p3 s3 I3 A3 _. leaf.
Qed.
Lemma B_div : bok (blk_div E consume).
Proof. intros c br name star score in_head p s Hi. apply B_container_block; auto using same_sub. split; discriminate. Qed.
Lemma B_embed : bok (blk_embed E).
Proof.
  intros c br name star score in_head p s Hi. unfold blk_embed. gs G_assert_block_name. gs G_get_head_name_map.
  apply G_bind_ with (Q := fun (em : embed) _ _ => match em with EmYoutube _ | EmVimeo _ => True | _ => False end).
  { unfold build_embed. destruct (eq_nocase _ _); [|destruct (eq_nocase _ _)]; try (apply G_fail; assumption);
      (destruct (fst _); [apply G_ret; auto|apply G_fail; auto]). }
  intros em p3 s3 I3 A3 Hem. leaf. destruct em; auto.
Qed.
Lemma B_equation_ref : bok (blk_equation_ref E).
Proof.
  intros c br name star score in_head p s Hi. unfold blk_equation_ref. gs G_assert_block_name. gs G_head_required. leaf.
Qed.

(** *** Wrappers. *)
Lemma G_wrap2 {A} c K (m : M A) p s (V : A -> pstate -> shared -> Prop) : inv c p s ->
  (forall p1, inv (CX K (cF c)) p1 s -> adv p s p1 s ->
     G (CX K (cF c)) m p1 s (fun a q s' => forall q', adv q s' q' s' -> inv c q' s' -> V a q' s')) ->
  G c (wrap K m) p s V.
Proof.
  intros Hi H. apply G_wrap; auto.
  assert (A0 : adv p s (with_accepts K p) s) by exact (adv_refl p s).
  pose proof (H _ (inv_with_accepts E toks d c K p s Hi Hb) A0) as X. clear H. eapply G_conseq; [exact X|]. cbn beta. intros a q s' I' A' HV.
  apply HV; [exact (adv_refl q s')|]. destruct I' as [I1 I2 I3 I4 I5 I6]. destruct Hi. split; auto.
Qed.
Lemma G_wrap_footnote {A} c (m : M A) p s (V : A -> pstate -> shared -> Prop) : inv c p s -> cF c = false ->
  (forall p1, inv (CX (cK c) true) p1 s -> adv p s p1 s ->
     G (CX (cK c) true) m p1 s (fun a q s' => forall q', adv q s' q' s' -> inv c q' s' -> V a q' s')) ->
  G c (wrap_footnote m) p s V.
Proof.
  intros Hi HF H. assert (A0 : adv p s (with_footnote true p) s) by exact (adv_refl p s).
  assert (I0 : inv (CX (cK c) true) (with_footnote true p) s).
  { destruct Hi as [I1 I2 I3 I4 I5 I6]. split; auto. }
  pose proof (H _ I0 A0) as X. clear H. unfold ParseInv.G, wrap_footnote in *.
  assert (Hq : forall q s', inv (CX (cK c) true) q s' -> inv c (with_footnote false q) s').
  { intros q s' [I1 I2 I3 I4 I5 I6]. split; auto. }
  destruct (m (with_footnote true p) s) as [a q s'|e q s'|w|]; auto.
  - destruct X as (I' & A' & HV). split; auto. split; auto. apply HV; auto. exact (adv_refl q s').
  - destruct X as (I' & A' & HV). auto.
Qed.
Lemma B_footnote : bok (blk_footnote E consume).
Proof.
  intros c br name star score in_head p s Hi. unfold blk_footnote. apply G_gets_bind. destruct (in_footnote p) eqn:Ef; [apply G_fail; auto|].
  assert (HF : cF c = false) by (destruct Hi; congruence). apply G_wrap_footnote; auto. intros p1 I1 A1.
  gs G_assert_block_name. gs G_get_head_none. gs G_get_body_elements. destruct H1 as ((H1 & _) & _ & Hg).
  assert (Hu : Forall (okE (nb s2) (has_footnote_block p3) true [cK c]) (unwrap_paragraph (su_item a1))).
  { unfold unwrap_paragraph. destruct (su_item a1) as [|[] [|]]; auto. all: destruct ctype; auto. inversion H1 as [|? ? X _]; subst.
    inversion X; subst. cbn in *. auto. }
  eapply G_bind_; [apply (G_push_footnote E toks d (CX (cK c) true)); auto|]. intros ? p4 s4 I4 A4 (Hp4 & Hnf & Hnb).
  apply G_ret; auto. intros q' Aq Iq. split; [|split; auto].
  - split; cbn [su_item]; [constructor; auto; split; [split; cbn; auto|split; cbn; auto; discriminate]|].
    rewrite Hnf. unfold refs. cbn [flat_map flat filter is_footnote app length].
    assert (X : ext s s2) by ext_tac. apply ext_nf in X. lia.
  - cbn. intros _. constructor; auto. discriminate.
Qed.
Lemma B_footnote_block : bok (blk_footnote_block E).
Proof.
  intros c br name star score in_head p s Hi. unfold blk_footnote_block. gs G_assert_block_name. gs G_get_head_map. ga. gs G_get_bool.
  destruct y; [|apply G_fail; auto].
  eapply (G_bind_ _ _ _ _ _ _ _ _ (fun _ p' s' => has_footnote_block p' = true)).
  { split; [destruct I1; split; auto|split; [split; [cbn; lia|split; [apply ext_refl|auto]]|reflexivity]]. }
  intros ? p3 s3 I3 A3 H3. leaf.
Qed.
Lemma B_html : bok (blk_html E).
Proof.
  intros c br name star score in_head p s Hi. unfold blk_html. gs G_assert_block_name. gs G_get_head_none. gs G_get_body_text. gs G_push_html_block. leaf.
Qed.
Lemma B_cond {T} c br in_head (conv : option str -> M T) (f : T -> bool) p0 s0 p s : adv p0 s0 p s -> inv c p0 s0 -> inv c p s ->
  (forall v p1 s1, inv c p1 s1 -> G c (conv v) p1 s1 (fun _ _ _ => True)) ->
  G c (let! cs := get_head_value E br in_head conv in
       let! out := get_body_elements E consume br false in
       ok_flag (su_safe out) (if f cs then su_item out else []) (su_errors out)) p s (fun out p' s' => rsucc c s0 p' s' out).
Proof.
  intros A0 I0 Hi Hv. eapply G_bind_.
  { apply (G_get_head_value E toks Htoks d c br in_head _ (fun _ => True)); auto. }
  intros cs p1 s1 I1 A1 _. gs G_get_body_elements. destruct H as (H1 & H2 & H3). apply G_ok_flag; auto.
  - destruct (f cs); [|apply els_elsR, els_nil; ext_tac]. apply els_elsR. elsmv.
  - destruct (f cs); auto.
Qed.
Lemma B_ifcategory : bok (blk_ifcategory E consume).
Proof.
  intros c br name star score in_head p s Hi. unfold blk_ifcategory. gs G_assert_block_name. eapply B_cond; [exact A| | |]; auto.
  intros [v|] p1 s1 I1; [apply G_ret; auto|apply G_fail; auto].
Qed.
Lemma B_iftags : bok (blk_iftags E consume).
Proof.
  intros c br name star score in_head p s Hi. unfold blk_iftags. gs G_assert_block_name.
  apply (B_cond c br in_head _ (fun cs => cond_check cs (en_tags E)) p s); auto.
  intros [v|] p1 s1 I1; [apply G_ret; auto|apply G_fail; auto].
Qed.
Lemma B_iframe : bok (blk_iframe E).
Proof.
  intros c br name star score in_head p s Hi. unfold blk_iframe. gs G_assert_block_name. gs G_get_head_name_map.
  destruct (is_url x) eqn:Eu; [|apply G_fail; auto]. cbn [negb]. gs G_attrs. leaf.
Qed.
Lemma pr_parse_no_panic s : pr_parse s <> Panic.
Proof.
  rewrite pr_parse_spec. cbv zeta. destruct (trim s) as [|x u]; [discriminate|]. destruct (ceqb x 58); [|discriminate].
  destruct (split_once 58 u) as [[site page]|]; [|discriminate]. destruct site; discriminate.
Qed.
Lemma link_parse_good l : exists r, link_parse l = Good r.
Proof.
  unfold link_parse. destruct (_ || _); [eauto|]. destruct (split_char_head 35 l) as [l1 ->].
  destruct (split_char_head 47 (take_while (fun c => negb (ceqb c 35)) l)) as [l2 ->].
  match goal with |- context [pr_parse ?x] => pose proof (pr_parse_no_panic x); destruct (pr_parse x) end; eauto. congruence.
Qed.
Lemma B_image : bok (blk_image E).
Proof.
  intros c br name star score in_head p s Hi. unfold blk_image. gs G_assert_block_name. gs G_get_head_name_map. ga.
  apply G_bind_ with (Q := fun _ _ _ => True).
  { destruct v as [l|]; [|apply G_ret; auto]. destruct (link_parse_good l) as [r ->]. apply G_ret_bind, G_ret; auto. }
  intros lk p2 s2 I2 A2 _. destruct (image_source_parse x); [|apply G_fail; auto]. gs G_attrs. leaf.
Qed.
Lemma B_include_elements : bok (blk_include_elements E).
Proof.
  intros c br name star score in_head p s Hi. unfold blk_include_elements. gs G_check_page_syntax. gs G_assert_block_name. gs G_get_head_name_map.
  pose proof (pr_parse_no_panic x). destruct (pr_parse x); [|apply G_fail; auto|contradiction].
  apply G_ok_derived; auto. eapply elsR_same; [|reflexivity|split; cbn; auto|reflexivity|discriminate].
  split; [|assert (X : ext s s2) by ext_tac; apply ext_nf in X; cbn; lia].
  constructor; auto. constructor; [|discriminate|constructor]. split; cbn; auto. right. left. cbn. tauto.
Qed.
Lemma B_include : bok (blk_include E).
Proof.
  intros c br name star score in_head p s Hi. unfold blk_include. gs G_check_page_syntax. gs G_assert_block_name. apply G_fail; auto.
Qed.
Lemma B_later : bok (blk_later E).
Proof.
  intros c br name star score in_head p s Hi. unfold blk_later. gs G_assert_block_name. gs G_get_head_none. leaf. right. left. cbn. tauto.
Qed.
Lemma parse_nonzero_pos v n : parse_nonzero_u32 v = Some n -> (1 <= n)%N.
Proof. unfold parse_nonzero_u32. destruct (u32_from_str_radix 10 v) as [[|m]|]; try discriminate. intros [= <-]. lia. Qed.
Lemma B_lines : bok (blk_lines E).
Proof.
  intros c br name star score in_head p s Hi. unfold blk_lines. gs G_assert_block_name. eapply G_bind_.
  { apply (G_get_head_value E toks Htoks d c br in_head _ (fun n => (1 <= n <= 100)%N)); auto. intros [v|] p1 s1 Hv I1; [|apply G_fail; auto].
    destruct (parse_nonzero_u32 (trim v)) eqn:Ep; [|apply G_fail; auto]. apply parse_nonzero_pos in Ep.
    destruct (N.ltb_spec 100 n); [apply G_fail; auto|]. apply G_ret; auto. }
  intros n p1 s1 I1 A1 Hn. leaf.
Qed.
(** Lists. *)
Lemma list_items_ok nb fb F A es : forall items, list_items es = Some items -> Forall (okE nb fb F A) es ->
  Forall (okE nb fb F A) (flat_map item_children items) /\ Forall (attr_map_ok E) (flat_map item_attrs items) /\
  refs (flat_map item_children items) <= refs es.
Proof.
  induction es as [|e es IH]; cbn [list_items]; intros items H Hf; [injection H as <-; cbn; conj; auto|].
  inversion Hf as [|? ? He Hes]; subst. rewrite refs_cons.
  assert (X : (if is_whitespace e then list_items es else None) = Some items ->
    Forall (okE nb fb F A) (flat_map item_children items) /\ Forall (attr_map_ok E) (flat_map item_attrs items) /\
    refs (flat_map item_children items) <= refs [e] + refs es).
  { destruct (is_whitespace e); [|discriminate]. intro Y. destruct (IH _ Y Hes) as (H1 & H2 & H3). conj; auto. lia. }
  destruct e; auto.
  - destruct (list_items es) as [its|] eqn:El; [|discriminate]. injection H as <-. destruct (IH _ eq_refl Hes) as (H1 & H2 & H3).
    cbn [flat_map item_children item_attrs app]. conj; auto. rewrite (refs_cons (EList _ _ _)). lia.
  - destruct p; auto. destruct (list_items es) as [its|] eqn:El; [|discriminate]. injection H as <-. destruct (IH _ eq_refl Hes) as (H1 & H2 & H3).
    cbn [flat_map]. inversion He as [? ? [Ha _] _ Hch]; subst. conj.
    + apply Forall_app; auto.
    + apply Forall_app; auto.
    + rewrite refs_app, (refs_one (EPartial _)) by auto. cbn [children partial_children]. lia.
Qed.
Lemma B_list lt : bok (blk_list E consume lt).
Proof.
  intros c br name star score in_head p s Hi. unfold blk_list. apply G_wrap2; auto. intros p1 I1 A1.
  gs G_assert_block_name. gs G_get_head_map. gs G_attrs. gs G_get_body_elements. cbv zeta. destruct H2 as (H2 & _ & Hg).
  assert (Hs : els (CX APListItem (cF c)) s p4 s3 (if score then strip_newlines (su_item a2) else su_item a2)).
  { assert (Y : els (CX APListItem (cF c)) s p4 s3 (su_item a2)) by elsmv. destruct score; auto. eapply els_sub; [apply stripped_newlines|auto]. }
  remember (if score then strip_newlines (su_item a2) else su_item a2) as es eqn:Ees. clear Ees H2.
  destruct es as [|e es]; [apply G_fail; auto|]. destruct (list_items (e :: es)) as [items|] eqn:El; [|apply G_fail; auto].
  destruct Hs as [Hs Hr]. destruct (list_items_ok _ _ _ _ _ _ El Hs) as (Hc1 & Hc2 & Hc3).
  apply G_ret; auto. intros q' Aq Iq. split; [|split; [discriminate|auto]]. cbn [su_item].
  eapply (elsR_wrap E toks c (CX APListItem (cF c))); [|reflexivity|left; reflexivity|reflexivity|split; cbn [attrs_of]; auto|reflexivity|discriminate].
  eapply els_mono; [|exact Aq]. split; auto. cbn [children]; lia.
Qed.
Lemma B_li : bok (blk_li E consume).
Proof.
  intros c br name star score in_head p s Hi. unfold blk_li. gs G_assert_block_name. gs G_get_head_map. gs G_attrs. gs G_get_body_elements.
  cbv zeta. destruct score; nodef H2; try discriminate; (split; [apply attr1; auto|cbn; auto]).
Qed.
Lemma substr_trim_ x : substr x text -> substr (trim x) text.
Proof. apply substr_trim. Qed.
Lemma B_math : bok (blk_math E).
Proof.
  intros c br name star score in_head p s Hi. unfold blk_math. gs G_assert_block_name. eapply G_bind_.
  { apply (G_get_head_value E toks Htoks d c br in_head _ (fun _ => True)); auto. intros; apply G_ret; auto. }
  intros mn p1 s1 I1 A1 _. gs G_get_body_text. apply substr_trim in H0. destruct (trim a0) as [|ch l] eqn:Et; [apply G_fail; auto|]. leaf.
Qed.
Lemma set_par_ok nb fb F A a es : attr_map_ok E a -> Forall (okE nb fb F A) es -> Forall (okR nb fb F A) (map (set_paragraph_attributes a) es) /\
  refs (map (set_paragraph_attributes a) es) = refs es.
Proof.
  intros Ha H. induction H as [|e es He Hes [IH1 IH2]]; cbn [map]; [split; auto|]. split.
  - constructor; auto. destruct e; try (apply okE_okR; exact He). destruct ctype; try (apply okE_okR; exact He).
    inversion He as [? ? [H1 H2] H3 H4]; subst. cbn [set_paragraph_attributes]. split; [|split; [discriminate|exact H4]].
    split; cbn; auto.
  - rewrite refs_cons, (refs_cons e), IH2. f_equal. destruct e; auto. destruct ctype; auto.
Qed.
Lemma B_paragraph : bok (blk_paragraph E consume).
Proof.
  intros c br name star score in_head p s Hi. unfold blk_paragraph. gs G_assert_block_name. gs G_get_head_map. gs G_attrs. gs G_get_body_elements.
  destruct H2 as ([H2 Hr] & _ & Hg). destruct (set_par_ok _ _ _ _ a1 _ H1 H2) as [H3 H4]. apply G_ok_derived; auto. split; auto.
  rewrite H4. assert (X : ext s s2) by ext_tac. apply ext_nf in X. lia.
Qed.
Lemma B_radio : bok (blk_radio E).
Proof.
  intros c br name star score in_head p s Hi. unfold blk_radio. gs G_assert_block_name. gs G_get_head_name_map. gs G_get_optional_space. gs G_attrs. leaf.
Qed.
(** Ruby. *)
Lemma ruby_ok nb fb F es : Forall (okE nb fb F [APRuby]) es ->
  Forall (okE nb fb F [APRuby]) (map ruby_convert es) /\ refs (map ruby_convert es) = refs es /\ existsb is_partial (map ruby_convert es) = false.
Proof.
  intros H. induction H as [|e es He Hes (IH1 & IH2 & IH3)]; cbn [map]; [conj; auto|]. conj.
  - constructor; auto. destruct e; auto. destruct p; auto. inversion He as [? ? [H1 H2] H3 H4]; subst.
    cbn [ruby_convert]. constructor; [split; cbn; auto|discriminate|exact H4].
  - rewrite refs_cons, (refs_cons e), IH2. f_equal. destruct e; auto. destruct p; auto.
  - cbn [existsb]. rewrite IH3, orb_false_r. destruct e; auto. inversion He as [? ? H1 H3 H4]; subst.
    destruct (H3 _ eq_refl) as [[X|[]] _]. destruct p; try discriminate. reflexivity.
Qed.
Lemma B_ruby : bok (blk_ruby E consume).
Proof.
  intros c br name star score in_head p s Hi. unfold blk_ruby. gs G_assert_block_name. apply G_wrap2; auto. intros p1 I1 A1.
  gs G_get_head_map. gs G_get_body_elements. cbv zeta. destruct H1 as ([H1 Hr] & H1' & Hg). destruct (ruby_ok _ _ _ _ H1) as (R1 & R2 & R3).
  cbn [cK cF] in *. rewrite R3, andb_false_r. gs G_attrs. apply G_ret; auto. intros q' Aq Iq. split; [|split; auto].
  - cbn [su_item]. eapply (elsR_wrap E toks c (CX APRuby (cF c))); [|reflexivity|left; reflexivity|reflexivity| |reflexivity|discriminate].
    + eapply els_sub; [apply stripped_whitespace|].
      assert (Y : els (CX APRuby (cF c)) s1 p3 s2 (map ruby_convert (su_item a1))) by (split; auto; rewrite R2; auto).
      apply (els_before E toks _ s s1); [ext_tac|]. apply (els_mono E toks _ s1 p3 s2); [exact Y|advt].
    + split; [apply attr1; auto|cbn; auto].
  - cbn. intros _. constructor; auto. discriminate.
Qed.
Lemma B_rt : bok (blk_rt E consume).
Proof.
  intros c br name star score in_head p s Hi. unfold blk_rt. gs G_assert_block_name. gs G_get_head_map. gs G_get_body_elements. gs G_attrs.
  nodef H1; [split; [apply attr1; auto|cbn; auto]|]. intros _. discriminate.
Qed.
Lemma split_char_sub x v : forall l, split_char x v = l -> Forall (fun w => substr w v) l.
Proof.
  induction v as [|ch v IH]; cbn [split_char]; intros l H.
  - subst. constructor; auto. apply substr_nil.
  - assert (Hw : forall w, substr w v -> substr w (ch :: v)) by (intros w (u & z & ->); exists (ch :: u), z; auto).
    destruct (ceqb ch x).
    + subst. constructor; [apply substr_nil|]. eapply Forall_impl; [exact Hw|]. apply IH; auto.
    + destruct (split_char_head x v) as [tl Htl]. specialize (IH _ eq_refl). rewrite Htl in *. subst l. inversion IH as [|? ? X Y]; subst. constructor.
      * exists [], (drop_while (fun c => negb (ceqb c x)) v). cbn. rewrite take_drop_while. auto.
      * eapply Forall_impl; [exact Hw|]. auto.
Qed.
Lemma B_rb : bok (blk_rb E).
Proof.
  intros c br name star score in_head p s Hi. unfold blk_rb. gs G_assert_block_name. eapply G_bind_.
  { apply (G_get_head_value E toks Htoks d c br in_head _ (fun r => substr (fst r) text /\ substr (snd r) text)); auto.
    intros [v|] p1 s1 Hv I1; [|apply G_fail; auto]. specialize (Hv v eq_refl). pose proof (split_char_sub 124%N v _ eq_refl) as Hsub.
    destruct (split_char 124 v) as [|a1 [|b1 [|]]]; try (apply G_fail; assumption).
    inversion Hsub as [|? ? X1 X2]; subst. inversion X2 as [|? ? X3 _]; subst.
    apply G_ret; auto. cbn. split; apply substr_trim; eapply substr_trans; eauto. }
  intros [base ruby] p1 s1 I1 A1 [Hx Hy]. cbn [fst snd] in *.
  assert (Ht : forall n fb F AA w, substr w text -> okE n fb F AA (EText w)).
  { intros. constructor; [split; cbn; auto; left; auto|discriminate|constructor]. }
  apply G_ok_derived; auto. eapply elsR_same; [|reflexivity|apply container_ok; [split; discriminate|split; [constructor|intros ? ? []]|auto]|reflexivity|discriminate].
  split; [|assert (X : ext s s1) by ext_tac; apply ext_nf in X; cbn; lia].
  constructor; [apply Ht; auto|constructor; [|constructor]].
  constructor; [apply container_ok; [split; discriminate|split; [constructor|intros ? ? []]|auto]|discriminate|]. constructor; [apply Ht; auto|constructor].
Qed.
Lemma B_size : bok (blk_size E consume).
Proof.
  intros c br name star score in_head p s Hi. unfold blk_size. gs G_assert_block_name. gs G_head_required. gs G_get_body_elements.
  nodef H1; [|intros _; discriminate]. apply container_ok; [split; discriminate| |auto].
  change (snd (attr_insert [] (lit "style") a0)) with [(lit "style", a0)]. split; [repeat constructor; auto|].
  intros k v [[= <- <-]|[]]. destruct H0 as (x & Hx & ->). split; [reflexivity|split; [reflexivity|]]. apply ao_size; [apply (block_in_text E toks Htoks Hb)|exact Hx].
Qed.
Lemma B_span : bok (blk_span E consume).
Proof.
  intros c br name star score in_head p s Hi. apply B_container_block; auto; [split; discriminate|]. destruct score; auto using same_sub. apply stripped_newlines.
Qed.
(** Tables. *)
Lemma G_table_block c br name in_head p s : inv c p s ->
  G c (table_block E consume br name in_head) p s (fun r p' s' => els c s p' s' (fst (fst r)) /\ attr_map_ok E (snd (fst r)) /\ Forall genuine (snd r)).
Proof.
  intros Hi. unfold table_block. gs G_assert_block_name. gs G_get_head_map. gs G_attrs. gs G_get_body_elements.
  destruct H2 as (H2 & _ & Hg). apply G_ret; auto. cbn [fst snd]. conj; auto. elsmv.
Qed.
Lemma extract_items_ok {A} (f : partial -> option A) (Q : element -> Prop) es : forall l, extract_items f es = Some l -> Forall Q es ->
  exists ps, Forall Q (map EPartial ps) /\ Forall2 (fun p a => f p = Some a) ps l /\ refs (map EPartial ps) <= refs es.
Proof.
  induction es as [|e es IH]; cbn [extract_items]; intros l H Hq.
  - injection H as <-. exists []. cbn. conj; auto.
  - inversion Hq as [|? ? He Hes]; subst. rewrite refs_cons.
    destruct (match e with EPartial p => f p | _ => None end) as [a|] eqn:Ea.
    + destruct (extract_items f es) as [l'|] eqn:El; [|discriminate]. injection H as <-. destruct (IH _ eq_refl Hes) as (ps & P1 & P2 & P3).
      destruct e; try discriminate. exists (p :: ps). cbn [map]. conj; [constructor; auto|constructor; auto|]. rewrite (refs_cons (EPartial p)). lia.
    + destruct (is_whitespace e); [|discriminate]. destruct (IH _ H Hes) as (ps & P1 & P2 & P3). exists ps. conj; auto. lia.
Qed.
Lemma rows_ok nb fb F A ps rows : Forall (okE nb fb F A) (map EPartial ps) ->
  Forall2 (fun p a => match p with PTableRow r => Some r | _ => None end = Some a) ps rows ->
  Forall (okE nb fb F ([APTableCell] ++ A)) (flat_map row_children rows) /\ Forall (attr_map_ok E) (flat_map row_attrs rows) /\
  Forall (fun r => Forall cell_spans (tr_cells r)) rows /\ refs (flat_map row_children rows) = refs (map EPartial ps).
Proof.
  intros H H2. induction H2 as [|p a ps rows Hp H2 IH]; cbn [flat_map map]; [conj; auto|].
  cbn [map] in H. inversion H as [|? ? He Hes]; subst. destruct (IH Hes) as (I1 & I2 & I3 & I4).
  destruct p; try discriminate. injection Hp as ->. inversion He as [? ? [E1 E2] _ E3]; subst. conj.
  - apply Forall_app; auto.
  - apply Forall_app; auto.
  - constructor; auto.
  - rewrite refs_app, refs_cons, I4. f_equal. rewrite refs_one; auto.
Qed.
Lemma cells_ok nb fb F A ps cells : Forall (okE nb fb F A) (map EPartial ps) ->
  Forall2 (fun p a => match p with PTableCell r => Some r | _ => None end = Some a) ps cells ->
  Forall (okE nb fb F ([APTableCell] ++ A)) (flat_map tc_elements cells) /\ Forall (attr_map_ok E) (map tc_attributes cells) /\
  Forall cell_spans cells /\ refs (flat_map tc_elements cells) = refs (map EPartial ps).
Proof.
  intros H H2. induction H2 as [|p a ps rows Hp H2 IH]; cbn [flat_map map]; [conj; auto|].
  cbn [map] in H. inversion H as [|? ? He Hes]; subst. destruct (IH Hes) as (I1 & I2 & I3 & I4).
  destruct p; try discriminate. injection Hp as ->. inversion He as [? ? [E1 E2] _ E3]; subst. conj.
  - apply Forall_app; auto.
  - constructor; auto. cbn in E1. inversion E1; auto.
  - constructor; auto.
  - rewrite refs_app, refs_cons, I4. f_equal. rewrite refs_one; auto.
Qed.
Lemma tabs_ok nb fb F A ps tabs : Forall (okE nb fb F A) (map EPartial ps) ->
  Forall2 (fun p a => match p with PTab r => Some r | _ => None end = Some a) ps tabs ->
  Forall (okE nb fb F A) (flat_map tab_elements tabs) /\ refs (flat_map tab_elements tabs) = refs (map EPartial ps).
Proof.
  intros H H2. induction H2 as [|p a ps rows Hp H2 IH]; cbn [flat_map map]; [conj; auto|].
  cbn [map] in H. inversion H as [|? ? He Hes]; subst. destruct (IH Hes) as (I1 & I4).
  destruct p; try discriminate. injection Hp as ->. inversion He as [? ? [E1 E2] _ E3]; subst. conj.
  - apply Forall_app; auto.
  - rewrite refs_app, refs_cons, I4. f_equal. rewrite refs_one; auto.
Qed.
(** A finished node made of elements that are fine under the kinds it opens. *)
Lemma elsR_final c s0 p s q e : adv p s q s -> Forall (okE (nb s) (has_footnote_block p) (cF c) (opens e ++ [cK c])) (children e) ->
  refs (children e) + nf s0 <= nf s -> (forall n fb F, element_ok n fb F e) -> is_footnote e = false -> (forall x, e = EPartial x -> has_block toks) ->
  elsR c s0 q s [e].
Proof.
  intros (_ & _ & A3) H1 H2 H3 H4 H5. apply elsR_node. split; [split; [auto|split; [auto|]]|rewrite refs_one; auto].
  eapply Forall_impl; [|exact H1]. cbn. intros x Hx. eapply okE_mono; [apply Nat.le_refl|exact A3|exact (fun x => x)|exact Hx|apply incl_refl].
Qed.
Lemma incl_kinds c K A : In K A -> incl [K] (A ++ [cK c]).
Proof. intros H k [<-|[]]. apply in_or_app. auto. Qed.
Lemma B_table : bok (blk_table E consume).
Proof.
  intros c br name star score in_head p s Hi. unfold blk_table. apply G_wrap2; auto. intros p1 I1 A1. gs G_table_block.
  destruct x as [es a]. cbn [fst snd] in H. destruct H as ((H1 & H2) & H3 & H4). cbn [cK cF] in *.
  destruct (extract_items _ es) as [rows|] eqn:Ex; [|apply G_fail; auto].
  destruct (extract_items_ok _ _ _ _ Ex H1) as (ps & P1 & P2 & P3). destruct (rows_ok _ _ _ _ _ _ P1 P2) as (R1 & R2 & R3 & R4).
  apply G_ret; auto. intros q' Aq Iq. split; [|split; [discriminate|auto]]. cbn [su_item].
  eapply elsR_final; [exact Aq| | |split; cbn; auto|reflexivity|discriminate]; cbn [children opens].
  - eapply Forall_impl; [|exact R1]. cbn. intros x Hx. eapply okE_up; [exact Hx|]. intros k Hk. cbn in Hk |- *. tauto.
  - rewrite R4. lia.
Qed.
Lemma B_row : bok (blk_row E consume).
Proof.
  intros c br name star score in_head p s Hi. unfold blk_row. apply G_wrap2; auto. intros p1 I1 A1. gs G_table_block.
  destruct x as [es a]. cbn [fst snd] in H. destruct H as ((H1 & H2) & H3 & H4). cbn [cK cF] in *.
  destruct (extract_items _ es) as [cells|] eqn:Ex; [|apply G_fail; auto].
  destruct (extract_items_ok _ _ _ _ Ex H1) as (ps & P1 & P2 & P3). destruct (cells_ok _ _ _ _ _ _ P1 P2) as (R1 & R2 & R3 & R4).
  apply G_ret; auto. intros q' Aq Iq. split; [|split; [discriminate|auto]]. cbn [su_item].
  eapply elsR_final; [exact Aq| | |split; cbn; auto|reflexivity|auto]; cbn [children opens partial_children row_children tr_cells].
  - eapply Forall_impl; [|exact R1]. cbn. intros x Hx. eapply okE_up; [exact Hx|]. intros k Hk. cbn in Hk |- *. tauto.
  - unfold row_children; cbn [tr_cells]; rewrite R4. lia.
  - constructor; auto.
Qed.
Lemma attr_remove k m : attr_map_ok E m -> attr_map_ok E (bt_remove m k).
Proof.
  intros [H1 H2]. unfold bt_remove. split.
  - clear H2. induction m as [|x m IH]; cbn; auto. inversion H1; subst. destruct (negb _); auto. cbn. constructor; auto.
    intro X. apply H2. apply in_map_iff in X as (y & Hy & Hin). rewrite <- Hy. apply filter_In in Hin. apply in_map. apply Hin.
  - intros k' v' Hin. apply filter_In in Hin. apply H2, Hin.
Qed.
Lemma cell_ok n fb F h es a : attr_map_ok E a ->
  element_ok n fb F (EPartial (PTableCell (TC h (match bt_get a (lit "colspan") with Some v => unwrap_or (parse_nonzero_u32 v) 1%N | None => 1%N end) None
    (bt_remove a (lit "colspan")) es))).
Proof.
  intros Ha. split; [apply attr1, attr_remove; auto|]. unfold cell_spans. cbn [tc_column_span].
  destruct (bt_get a (lit "colspan")) as [v|]; [|lia]. destruct (parse_nonzero_u32 v) eqn:Ep; cbn; [eapply parse_nonzero_pos; eauto|lia].
Qed.
Lemma B_cell : bok (blk_cell E consume).
Proof.
  intros c br name star score in_head p s Hi. unfold blk_cell. gs G_table_block.
  destruct x as [es a]. cbn [fst snd] in H. destruct H as (H1 & H3 & H4). unfold make_cell. cbv zeta. apply G_ok_flag; auto; [|discriminate].
  eapply elsR_same; [|reflexivity|apply cell_ok; auto|reflexivity|auto].
  cbn [children partial_children tc_elements]. eapply els_sub; [apply stripped_whitespace|auto].
Qed.
Lemma B_hcell : bok (blk_hcell E consume).
Proof.
  intros c br name star score in_head p s Hi. unfold blk_hcell. apply G_wrap2; auto. intros p1 I1 A1. gs G_table_block.
  destruct x as [es a]. cbn [fst snd] in H. destruct H as (H1 & H3 & H4). unfold make_cell. cbv zeta. apply G_ret; auto.
  intros q' Aq Iq. split; [|split; [discriminate|auto]]. cbn [su_item].
  eapply (elsR_wrap E toks c (CX APTableCell (cF c))); [|reflexivity|left; reflexivity|reflexivity|apply cell_ok; auto|reflexivity|auto].
  cbn [children partial_children tc_elements]. eapply els_sub; [apply stripped_whitespace|]. eapply els_mono; [exact H1|exact Aq].
Qed.
Lemma B_tabview : bok (blk_tabview E consume).
Proof.
  intros c br name star score in_head p s Hi. unfold blk_tabview. apply G_wrap2; auto. intros p1 I1 A1. gs G_assert_block_name. gs G_get_head_none.
  gs G_get_body_elements. destruct H1 as ([H1 H2] & _ & H4). cbn [cK cF] in *.
  destruct (extract_items _ (su_item a1)) as [tabs|] eqn:Ex; [|apply G_fail; auto].
  destruct (extract_items_ok _ _ _ _ Ex H1) as (ps & P1 & P2 & P3). destruct (tabs_ok _ _ _ _ _ _ P1 P2) as (R1 & R4).
  destruct tabs as [|t tabs]; [apply G_fail; auto|]. remember (t :: tabs) as ts. clear Heqts.
  apply G_ret; auto. intros q' Aq Iq. split; [|split; [discriminate|auto]]. cbn [su_item].
  eapply elsR_final; [exact Aq| | |split; cbn; auto|reflexivity|discriminate]; cbn [children opens].
  - eapply Forall_impl; [|exact R1]. cbn. intros x Hx. eapply okE_up; [exact Hx|]. intros k Hk. cbn in Hk |- *. tauto.
  - rewrite R4. assert (X : ext s s1) by ext_tac. apply ext_nf in X. lia.
Qed.
Lemma B_tab : bok (blk_tab E consume).
Proof.
  intros c br name star score in_head p s Hi. unfold blk_tab. gs G_assert_block_name. gs G_head_required. gs G_get_body_elements.
  nodef H1; [split; cbn; auto|discriminate].
Qed.
Lemma B_target : bok (blk_target E).
Proof.
  intros c br name star score in_head p s Hi. unfold blk_target. gs G_assert_block_name. gs G_head_required.
  destruct (match a0 with [] => true | _ => cmem 32 a0 end); [apply G_fail; auto|]. leaf.
  split; [|auto]. destruct H0 as (x & (l & r & Hx) & ->). exists (trim x). split; [|reflexivity].
  destruct (trim_spec x) as (l' & r' & Hs & _). exists (l ++ l'), (r' ++ r). rewrite Hx. rewrite Hs at 1. rewrite <- !app_assoc. reflexivity.
Qed.
Lemma B_toc : bok (blk_toc E).
Proof.
  intros c br name star score in_head p s Hi. unfold blk_toc. gs G_check_page_syntax. gs G_assert_block_name. gs G_get_head_map. gs G_attrs. leaf.
Qed.
Lemma B_user : bok (blk_user E).
Proof. intros c br name star score in_head p s Hi. unfold blk_user. gs G_assert_block_name. gs G_head_required. leaf. Qed.

(** Modules. *)
Lemma mod_ok f rn n : In (n, (rn, f)) (MODULE_RULES E) -> forall c br args p s, inv c p s -> argok E args ->
  G c (f br args) p s (fun out p' s' => rsucc c s p' s' out).
Proof.
  intros Hin c br args p s Hi Hd. cbn [MODULE_RULES In] in Hin.
  destruct Hin as [[= <- <- <-]|[[= <- <- <-]|[[= <- <- <-]|[[= <- <- <-]|[[= <- <- <-]|[[= <- <- <-]|[]]]]]]].
  - unfold mod_backlinks. leaf.
  - unfold mod_categories. gs G_get_bool. leaf.
  - unfold mod_css. gs G_get_body_text. leaf.
  - unfold mod_join. ga. gs G_attrs. leaf.
  - unfold mod_page_tree. ga. gs G_get_u32. gs G_get_bool. leaf.
  - unfold mod_rate. leaf.
Qed.
Lemma lookup_nocase_In {A} (l : list (str * A)) s a : lookup_nocase l s = Some a -> exists n, In (n, a) l.
Proof.
  induction l as [|[n v] l IH]; cbn; [discriminate|]. destruct (eq_nocase n s).
  - intros [= <-]. eauto.
  - intros H. destruct (IH H) as [m Hm]. eauto.
Qed.
Lemma B_module : bok (blk_module E).
Proof.
  intros c br name star score in_head p s Hi. unfold blk_module. gs G_check_page_syntax. gs G_assert_block_name. gs G_get_head_name_map.
  destruct (lookup_nocase (MODULE_RULES E) x) as [[rn f]|] eqn:El; [|apply G_fail; auto].
  apply lookup_nocase_In in El as [n Hn]. gs G_set_rule_.
  eapply G_bind_; [eapply (mod_ok f rn n Hn); auto|]. intros out p5 s5 I5 A5 (H5 & H6 & H7). apply G_ok_flag; auto.
  destruct H5 as [H5 H8]. split; auto. assert (X : ext s s3) by ext_tac. apply ext_nf in X. lia.
Qed.

Lemma block_rules_ok br f : In (br, f) (BLOCK_RULES E consume) -> bok f.
Proof.
  unfold BLOCK_RULES. intros Hin. cbn [In] in Hin.
  repeat (destruct Hin as [Hin|Hin]; [injection Hin as <- <-;
    auto using B_align, B_anchor, B_bibcite, B_bibliography, B_blockquote, B_char, B_checkbox, B_code,
      B_collapsible, B_date, B_div, B_embed, B_equation_ref, B_footnote, B_footnote_block, B_html, B_ifcategory, B_iframe,
      B_iftags, B_image, B_include_elements, B_include, B_later, B_li, B_lines, B_math, B_module, B_list, B_paragraph,
      B_radio, B_rb, B_rt, B_ruby, B_size, B_span, B_tab, B_table, B_hcell, B_cell, B_toc, B_row, B_tabview, B_target, B_user;
    try (apply B_container; reflexivity)|]).
  destruct Hin.
Qed.
Lemma lookup_block_In rules n r : lookup_block rules n = Some r -> In r rules.
Proof.
  induction rules as [|x rules IH]; cbn; [discriminate|]. destruct (existsb _ _); [intros [= ->]; auto|auto].
Qed.
Lemma G_parse_block c star p s : inv c p s ->
  G c (parse_block E consume star) p s (fun out p' s' => rsucc c s p' s' out).
Proof.
  intros Hi. unfold parse_block. gs G_set_rule_. gs G_get_optional_space. gs G_get_block_name.
  destruct (strip_score x) as [name score]. destruct (get_block_rule E consume name) as [[br f]|] eqn:El; [|apply G_fail; auto].
  apply lookup_block_In in El. gs G_set_rule_. destruct (negb (br_star br) && star); [apply G_fail; auto|].
  destruct (negb (br_score br) && score); [apply G_fail; auto|]. gs G_get_optional_space.
  eapply G_conseq; [apply (block_rules_ok br f El); auto|]. cbn beta. intros out p6 s6 I6 A6 [[H8 H9] H10].
  split; auto. split; auto. assert (X : ext s s4) by ext_tac. apply ext_nf in X. lia.
Qed.
End B.

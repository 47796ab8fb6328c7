(** RenderEnds.v -- when rendering ends, and the table of contents as a list of elements. *)
From Verif Require Import Base BaseLemmas Strings Links LinksLemmas Attr Html Depth Tree Text Toc PState Parse SpecParse SpecPage ParseInv TreeLemmas Render SpecRender RenderLemmas RenderSafe.

(** *** The table of contents has only lists and links in it. *)
Definition toc_element (x : element) : Prop :=
  (exists items, x = EList LBullet [] items /\ forall b es, In (LIElements b es) items -> b = []) \/
  (exists u n, x = ELink LTTableOfContents (LUrl (lit "#toc" ++ u)) None (LabelText n) None).
Definition toc_list_item (i : list_item) : Prop :=
  match i with LIElements a es => a = [] /\ Forall (fun e => forall x, occurs x e -> toc_element x) es
             | LISubList e => forall x, occurs x e -> toc_element x end.
Lemma toc_link u n x : occurs x (ELink LTTableOfContents (LUrl (lit "#toc" ++ u)) None (LabelText n) None) -> toc_element x.
Proof. intro H. inversion H as [|e y Hy]; subst; [right; eauto|destruct Hy]. Qed.
Lemma toc_list items : Forall toc_list_item items -> forall x, occurs x (EList LBullet [] items) -> toc_element x.
Proof.
  intros H x Ho. rewrite Forall_forall in H. inversion Ho as [|e y Hy Ho']; subst.
  - left. exists items. split; auto. intros b es Hi. exact (proj1 (H _ Hi)).
  - cbn in Hy. apply in_flat_map in Hy as (i & Hi & Hy). specialize (H i Hi). destruct i as [a es|e]; cbn in *.
    + destruct H as [_ H]. rewrite Forall_forall in H. eauto.
    + destruct Hy as [<-|[]]. auto.
Qed.
Lemma toc_item_plain n : (forall x i y i', ditem_size x <= n -> toc_item i x = (y, i') -> toc_list_item y) /\
  (forall l i ys i', ditems_size l <= n -> toc_items i l = (ys, i') -> Forall toc_list_item ys).
Proof.
  induction n as [|n [IHx IHl]].
  - split; [intros x; destruct x; cbn; lia|]. intros l i ys i' Hl H.
    destruct l as [|x l]; [|cbn [ditems_size] in Hl; destruct x; cbn [ditem_size] in Hl; lia]. cbn in H. injection H as <- <-. constructor.
  - assert (Hx : forall x i y i', ditem_size x <= S n -> toc_item i x = (y, i') -> toc_list_item y).
    { intros x i y i' Hs H. destruct x as [nm|u' l].
      - cbn [toc_item] in H. injection H as <- <-. split; auto. constructor; [|constructor]. intro x. apply toc_link.
      - rewrite ditem_size_list in Hs. rewrite toc_item_list in H. destruct (toc_items i l) as [its i1] eqn:E. injection H as <- <-.
        intro x. apply toc_list. eapply IHl; [|exact E]. lia. }
    split; [exact Hx|]. intros l. induction l as [|x l IH]; intros i ys i' Hl H.
    + cbn in H. injection H as <- <-. constructor.
    + cbn [toc_items] in H. cbn [ditems_size] in Hl. destruct (toc_item i x) as [y i1] eqn:E1.
      destruct (toc_items i1 l) as [ys' i2] eqn:E2. injection H as <- <-. constructor.
      * eapply Hx; [|exact E1]. lia.
      * eapply IH; [|exact E2]. lia.
Qed.
Lemma build_toc_plain depths toc x : build_toc depths = Some toc -> occurs_in x toc -> toc_element x.
Proof.
  unfold build_toc. destruct (process_depths _ _ _) as [ts|]; [|discriminate]. intros [= <-]. generalize 0 as i.
  induction ts as [|[u l] ts IH]; intro i; [intros (e & [] & _)|]. cbn [toc_trees]. destruct (toc_items i l) as [its i1] eqn:E.
  intros (e & [<-|He] & Ho).
  - eapply toc_list; [|exact Ho]. exact (proj2 (toc_item_plain (ditems_size l)) l i its i1 (le_n _) E).
  - apply (IH i1). exists e. auto.
Qed.

(** *** What occurs is finite. *)
Lemma occurs_flat x e : occurs x e -> In x (flat e).
Proof.
  intro H. induction H as [|e y Hy Ho IH]; rewrite flat_eq; [left; auto|right]. apply in_flat_map. eauto.
Qed.
Lemma flat_occurs x : forall n e, length (flat e) <= n -> In x (flat e) -> occurs x e.
Proof.
  induction n as [|n IH]; intros e Hl H; [rewrite (flat_eq e) in Hl; cbn in Hl; lia|].
  rewrite flat_eq in H. destruct H as [<-|H]; [constructor|]. apply in_flat_map in H as (y & Hy & Hx). econstructor; eauto.
  apply IH; auto. apply size_child in Hy. lia.
Qed.
Lemma occurs_in_flat x es : occurs_in x es <-> In x (flat_map flat es).
Proof.
  split.
  - intros (e & He & Ho). apply in_flat_map. exists e. split; auto. apply occurs_flat; auto.
  - intro H. apply in_flat_map in H as (e & He & Hx). exists e. split; auto. eapply flat_occurs; eauto.
Qed.
Lemma bounded {A} (P : nat -> A -> Prop) (l : list A) : (forall n m x, n <= m -> P n x -> P m x) ->
  (forall x, In x l -> exists n, P n x) -> exists n, forall x, In x l -> P n x.
Proof.
  intros Hm. induction l as [|x l IH]; intro H; [exists 0; intros x []|]. destruct IH as [n Hn]; [intros y Hy; apply H; right; auto|].
  destruct (H x (or_introl eq_refl)) as [k Hk]. exists (max n k). intros y [<-|Hy]; [eapply Hm; [|exact Hk]; lia|]. eapply Hm; [|apply Hn; auto]. lia.
Qed.

(** *** References that do not go in circles. *)
Section Ends.
Variable R : renv.
Variable t : tree.
Notation rn := (h_ref R (tr_toc t) (tr_footnotes t) (tr_bibs t)).
Notation ends m := (sees t (fun _ => True) False false 0 m).
Lemma ends_eq m : ends m <-> forall c, match m c with Done _ c' => hx_scopes c' = hx_scopes c | Panicked _ => True | Exhausted => False end.
Proof.
  unfold sees. split; intros H c.
  - specialize (H c). destruct (m c); auto; [|apply H; discriminate]. apply H. discriminate.
  - intros _. specialize (H c). destruct (m c); auto. split; auto. discriminate.
Qed.
Lemma ends_mono n m es : n <= m -> ends (rn n es) -> ends (rn m es).
Proof.
  intros Hl H. rewrite ends_eq in *. intro c. specialize (H c). destruct (mono_ref R (tr_toc t) (tr_footnotes t) (tr_bibs t) n m es Hl c) as [E|E]; rewrite E in H; auto. contradiction.
Qed.
Lemma ends_any k m : sees t (fun _ => True) False false k m <-> ends m.
Proof. unfold sees, room. split; intros H c _; specialize (H c); (destruct (m c); [destruct H as [_ H]; [discriminate|split; [discriminate|exact H]]|exact I|apply H; discriminate]). Qed.
Lemma ends_step n es : (forall b, needs t es b -> ends (rn n b)) -> ends (rn (S n) es).
Proof.
  intro H. cbn [h_ref]. apply (ends_any (refs es)). apply sees_elements; auto. intros x Hx. split; auto. intros L HL. apply H. exists x. auto.
Qed.
Lemma ends_acc es : Acc (fun b a => needs t a b) es -> exists n, ends (rn n es).
Proof.
  intro H. induction H as [es _ IH].
  destruct (bounded (fun n b => ends (rn n b)) (flat_map (referenced t) (flat_map flat es))) as [n Hn].
  - intros. eapply ends_mono; eauto.
  - intros b Hb. apply in_flat_map in Hb as (x & Hx & Hb). apply IH. exists x. split; auto. apply occurs_in_flat. auto.
  - exists (S n). apply ends_step. intros b (x & Hx & Hb). apply Hn. apply in_flat_map. exists x. split; auto. apply occurs_in_flat. auto.
Qed.
End Ends.
Lemma render_mono R n m t : n <= m -> html_render R n t <> HtmlExhausted -> html_render R m t = html_render R n t.
Proof.
  intros Hl H. assert (Hm : mono (body_nodes R n t) (body_nodes R m t)).
  { apply mono_tag. apply mono_ref. exact Hl. }
  unfold html_render in *. destruct (Hm hctx_new) as [E|E]; rewrite E in *; auto. contradiction.
Qed.
Lemma render_ends R n t : sees t (fun _ => True) False false 0 (h_ref R (tr_toc t) (tr_footnotes t) (tr_bibs t) n (tr_elements t)) ->
  html_render R n t <> HtmlExhausted.
Proof.
  intro H. assert (Hb : sees t (fun _ => True) False false 0 (body_nodes R n t)).
  { unfold body_nodes. apply sees_tag; auto. repeat constructor. }
  unfold html_render. rewrite ends_eq in Hb. specialize (Hb hctx_new). destruct (body_nodes R n t hctx_new) as [ns c|w|]; [|discriminate|contradiction].
  destruct (write_nodes [] ns); discriminate.
Qed.

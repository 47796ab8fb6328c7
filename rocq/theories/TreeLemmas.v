(** TreeLemmas.v -- proofs about Tree.v and Toc.v. *)
From Verif Require Import Base BaseLemmas Strings Links Attr Depth SpecDepth DepthLemmas Tree Toc SpecTree.

(** *** Stripping *)
Lemma strip_front_spec f es : exists pre, es = pre ++ strip_front f es /\ Forall (fun e => f e = true) pre /\
  (forall e rest, strip_front f es = e :: rest -> f e = false).
Proof.
  induction es as [|e es IH]; cbn [strip_front].
  - exists []. repeat split; auto. intros; discriminate.
  - destruct (f e) eqn:E.
    + destruct IH as (pre & H1 & H2 & H3). exists (e :: pre). repeat split; auto. cbn. congruence.
    + exists []. repeat split; auto. intros e' r H. injection H as <- _. exact E.
Qed.
Lemma strip_back_spec f es : exists post, es = strip_back f es ++ post /\ Forall (fun e => f e = true) post /\
  (forall e front, strip_back f es = front ++ [e] -> f e = false).
Proof.
  unfold strip_back. destruct (strip_front_spec f (rev es)) as (pre & H1 & H2 & H3).
  exists (rev pre). split; [|split].
  - rewrite <- rev_app_distr, <- H1, rev_involutive. reflexivity.
  - apply Forall_rev. exact H2.
  - intros e front E. apply (H3 e (rev front)).
    rewrite <- (rev_involutive (strip_front f (rev es))), E, rev_app_distr. reflexivity.
Qed.
Lemma strip_edges f (F : element -> Prop) (HF : forall e, f e = true <-> F e) es :
  edges_stripped F es (strip_back f (strip_front f es)).
Proof.
  destruct (strip_front_spec f es) as (pre & H1 & H2 & H3).
  destruct (strip_back_spec f (strip_front f es)) as (post & H4 & H5 & H6).
  set (mid := strip_back f (strip_front f es)) in *.
  assert (HFf : forall l, Forall (fun e => f e = true) l -> Forall F l).
  { intros l Hl. eapply Forall_impl; [|exact Hl]. intros; apply HF; auto. }
  exists pre, post. split; [congruence|]. split; [auto|]. split; [auto|]. split; [|split].
  - intros e rest E He. apply HF in He. rewrite (H3 e (rest ++ post)) in He; [discriminate|].
    rewrite H4, E. reflexivity.
  - intros e front E He. apply HF in He. rewrite (H6 e front E) in He. discriminate.
  - intros E. rewrite E in H4. cbn [app] in H4. destruct post as [|p post]; auto.
    inversion H5; subst. rewrite (H3 p post) in H7; [discriminate|]. exact H4.
Qed.
Lemma is_newline_iff e : is_newline e = true <-> newline_element e.
Proof.
  unfold newline_element. split.
  - destruct e; cbn; intros; try discriminate; eauto.
  - intros [->|[n ->]]; reflexivity.
Qed.
Lemma is_whitespace_iff e : is_whitespace e = true <-> whitespace_element e.
Proof.
  unfold whitespace_element. split.
  - destruct e; cbn; intros H; try discriminate; eauto. right. exists s. split; auto.
    apply Forall_forall. rewrite forallb_forall in H. exact H.
  - intros [->|(s & -> & H)]; cbn; auto. apply forallb_forall. rewrite Forall_forall in H. exact H.
Qed.
Lemma edges_stripped_unique F es m1 m2 : edges_stripped F es m1 -> edges_stripped F es m2 -> m1 = m2.
Proof.
  assert (Hpre : forall pre1 pre2 r1 r2, pre1 ++ r1 = pre2 ++ r2 -> Forall F pre1 -> Forall F pre2 ->
    (forall e rest, r1 = e :: rest -> ~ F e) -> (forall e rest, r2 = e :: rest -> ~ F e) -> r1 = r2).
  { induction pre1 as [|x pre1 IH]; intros pre2 r1 r2 E F1 F2 N1 N2; destruct pre2 as [|y pre2]; cbn in E.
    - exact E.
    - exfalso. subst r1. inversion F2; subst. eapply N1; eauto.
    - exfalso. subst r2. inversion F1; subst. eapply N2; eauto.
    - injection E as _ E. inversion F1; inversion F2; subst. eapply IH; eauto. }
  intros (a1 & b1 & E1 & A1 & B1 & H1 & T1 & Z1) (a2 & b2 & E2 & A2 & B2 & H2 & T2 & Z2).
  assert (E : m1 ++ b1 = m2 ++ b2).
  { apply (Hpre a1 a2); auto; try congruence.
    - intros e rest Ee. destruct m1 as [|x m1].
      + rewrite (Z1 eq_refl) in Ee. discriminate.
      + injection Ee as -> _. eapply H1; eauto.
    - intros e rest Ee. destruct m2 as [|x m2].
      + rewrite (Z2 eq_refl) in Ee. discriminate.
      + injection Ee as -> _. eapply H2; eauto. }
  apply (f_equal (@rev _)) in E. rewrite !rev_app_distr in E.
  apply Hpre in E; auto using Forall_rev.
  - rewrite <- (rev_involutive m1), E, rev_involutive. reflexivity.
  - intros e rest Ee. apply (T1 e (rev rest)). rewrite <- (rev_involutive m1), Ee. reflexivity.
  - intros e rest Ee. apply (T2 e (rev rest)). rewrite <- (rev_involutive m2), Ee. reflexivity.
Qed.

(** *** Paragraphs *)
Definition run_event (s : pstack) (ev : event) : pstack :=
  match ev with Elem e safe => push_elements s [e] safe | Break => end_paragraph s end.
Definition run_call (s : pstack) (c : call) : pstack :=
  match c with CPush es safe => push_elements s es safe | CEnd => end_paragraph s end.
Lemma push_elements_cons s e es safe : push_elements s (e :: es) safe = push_elements (push_elements s [e] safe) es safe.
Proof. cbn [push_elements]. destruct (ps_current s); [destruct (is_line_break e)|]; reflexivity. Qed.
Lemma push_elements_events es safe : forall s,
  push_elements s es safe = fold_left run_event (map (fun e => Elem e safe) es) s.
Proof.
  induction es as [|e es IH]; intros s; [reflexivity|].
  rewrite push_elements_cons. cbn [map fold_left]. apply IH.
Qed.
Lemma calls_events cs : forall s, fold_left run_call cs s = fold_left run_event (flat_map call_events cs) s.
Proof.
  induction cs as [|c cs IH]; intros s; [reflexivity|].
  cbn [fold_left flat_map]. rewrite fold_left_app, IH. f_equal.
  destruct c; cbn [run_call call_events]; [apply push_elements_events|reflexivity].
Qed.
Lemma line_break_dec e : is_line_break e = true <-> e = ELineBreak.
Proof. destruct e; cbn; split; intros; try discriminate; auto. Qed.
Lemma safe_events_app a b : safe_events (a ++ b) = safe_events a ++ safe_events b.
Proof. apply map_app. Qed.

(** Starting from a stack with current paragraph [cur] and finished [fin]. *)
Lemma run_events_spec n : forall evs, length evs <= n -> forall cur fin,
  (forall e rest, cur = e :: rest -> e <> ELineBreak) ->
  exists gs, layout (safe_events cur ++ evs) gs /\
    into_elements (fold_left run_event evs (PS cur fin)) = fin ++ map group_element gs.
Proof.
  induction n as [|n IH]; intros evs Hl cur fin Hc.
  - destruct evs; [|cbn in Hl; lia]. cbn [fold_left]. rewrite app_nil_r.
    unfold into_elements, end_paragraph, build_paragraph. cbn [ps_current].
    destruct cur as [|e cur].
    + exists []. split; [constructor|]. cbn. rewrite app_nil_r. reflexivity.
    + exists [Para (e :: cur)]. split; [|reflexivity]. apply lay_para_end. eapply Hc; eauto.
  - destruct evs as [|ev evs]; [apply (IH []); [cbn; lia|exact Hc]|].
    cbn [length] in Hl. cbn [fold_left]. destruct ev as [e safe|].
    + cbn [run_event push_elements ps_current]. destruct cur as [|c cur].
      * destruct (is_line_break e) eqn:El.
        -- apply line_break_dec in El. subst e. destruct (IH evs ltac:(lia) [] fin ltac:(intros; discriminate)) as (gs & G & R).
           exists gs. split; [|exact R]. cbn. constructor. exact G.
        -- assert (Hne : e <> ELineBreak) by (intros ->; discriminate).
           destruct safe.
           ++ unfold push_element. cbn [ps_current ps_finished app].
              destruct (IH evs ltac:(lia) [e] fin) as (gs & G & R).
              { intros e' r E. injection E as <- _. exact Hne. }
              exists gs. split; [|exact R]. exact G.
           ++ unfold push_element, end_paragraph, build_paragraph. cbn [ps_current ps_finished app].
              destruct (IH evs ltac:(lia) [] (fin ++ [e]) ltac:(intros; discriminate)) as (gs & G & R).
              exists (Alone e :: gs). split; [cbn; constructor; auto|].
              rewrite R, <- app_assoc. reflexivity.
      * pose proof (Hc c cur eq_refl) as Hne. destruct safe.
        -- unfold push_element. cbn [ps_current ps_finished].
           destruct (IH evs ltac:(lia) ((c :: cur) ++ [e]) fin) as (gs & G & R).
           { intros e' r E. injection E as <- _. exact Hne. }
           exists gs. split; [|exact R]. rewrite safe_events_app, <- app_assoc in G. exact G.
        -- unfold push_element, end_paragraph, build_paragraph. cbn [ps_current ps_finished].
           destruct (IH evs ltac:(lia) [] ((fin ++ [paragraph (c :: cur)]) ++ [e]) ltac:(intros; discriminate)) as (gs & G & R).
           exists (Para (c :: cur) :: Alone e :: gs). split; [apply lay_para_alone; auto|].
           rewrite R, <- !app_assoc. reflexivity.
    + cbn [run_event]. unfold end_paragraph, build_paragraph. cbn [ps_current ps_finished].
      destruct cur as [|c cur].
      * destruct (IH evs ltac:(lia) [] fin ltac:(intros; discriminate)) as (gs & G & R).
        exists gs. split; [|exact R]. cbn. constructor. exact G.
      * destruct (IH evs ltac:(lia) [] (fin ++ [paragraph (c :: cur)]) ltac:(intros; discriminate)) as (gs & G & R).
        exists (Para (c :: cur) :: gs). split; [apply lay_para_break; auto; eapply Hc; eauto|].
        cbn [ps_current ps_finished]. rewrite R, <- app_assoc. reflexivity.
Qed.
Lemma run_calls_spec cs : exists gs, layout (flat_map call_events cs) gs /\
  into_elements (fold_left run_call cs ps_new) = map group_element gs.
Proof.
  rewrite calls_events.
  destruct (run_events_spec _ (flat_map call_events cs) (le_n _) [] [] ltac:(intros; discriminate)) as (gs & G & R).
  exists gs. split; [exact G|exact R].
Qed.

(** Facts about layouts. *)
Lemma event_elements_safe es : event_elements (safe_events es) = es.
Proof. induction es as [|e es IH]; cbn; [|f_equal]; auto. Qed.
Lemma event_elements_app a b : event_elements (a ++ b) = event_elements a ++ event_elements b.
Proof. apply flat_map_app. Qed.
Lemma layout_contents evs gs : layout evs gs ->
  filter not_break (flat_map group_contents gs) = filter not_break (event_elements evs).
Proof.
  induction 1; cbn [flat_map group_contents]; auto.
  - change (event_elements (Elem e false :: evs)) with (e :: event_elements evs). cbn [app filter].
    rewrite IHlayout. reflexivity.
  - rewrite event_elements_safe, app_nil_r. reflexivity.
  - rewrite event_elements_app, event_elements_safe, !filter_app, IHlayout. reflexivity.
  - rewrite event_elements_app, event_elements_safe, !filter_app, IHlayout.
    f_equal. change (event_elements (Elem x false :: evs)) with (x :: event_elements evs). cbn [filter]. destruct (not_break x); reflexivity.
Qed.
Lemma in_safe e es : In e es -> In (Elem e true) (safe_events es).
Proof. intros H. unfold safe_events. apply (in_map (fun e => Elem e true)). exact H. Qed.
Lemma layout_paras evs gs : layout evs gs -> Forall (fun g => match g with
  | Para es => (exists e rest, es = e :: rest /\ e <> ELineBreak) /\ Forall (fun e => In (Elem e true) evs) es
  | Alone e => In (Elem e false) evs end) gs.
Proof.
  assert (W : forall g evs evs', incl evs evs' ->
    (match g with Para es => (exists e rest, es = e :: rest /\ e <> ELineBreak) /\ Forall (fun e => In (Elem e true) evs) es
     | Alone e => In (Elem e false) evs end) ->
    (match g with Para es => (exists e rest, es = e :: rest /\ e <> ELineBreak) /\ Forall (fun e => In (Elem e true) evs') es
     | Alone e => In (Elem e false) evs' end)).
  { intros g a b Hi. destruct g; [|apply Hi]. intros [Hx Hf]. split; [exact Hx|].
    eapply Forall_impl; [|exact Hf]. intros; apply Hi; auto. }
  assert (WF : forall gs evs evs', incl evs evs' ->
    Forall (fun g => match g with Para es => (exists e rest, es = e :: rest /\ e <> ELineBreak) /\ Forall (fun e => In (Elem e true) evs) es
     | Alone e => In (Elem e false) evs end) gs ->
    Forall (fun g => match g with Para es => (exists e rest, es = e :: rest /\ e <> ELineBreak) /\ Forall (fun e => In (Elem e true) evs') es
     | Alone e => In (Elem e false) evs' end) gs).
  { intros gs0 a b Hi Hf. eapply Forall_impl; [|exact Hf]. intros g. apply W. exact Hi. }
  induction 1.
  - constructor.
  - eapply WF; [|exact IHlayout]. apply incl_tl, incl_refl.
  - eapply WF; [|exact IHlayout]. apply incl_tl, incl_refl.
  - constructor; [left; reflexivity|]. eapply WF; [|exact IHlayout]. apply incl_tl, incl_refl.
  - constructor; [|constructor]. split; [eauto|]. apply Forall_forall. intros; apply in_safe; auto.
  - constructor.
    + split; [eauto|]. apply Forall_forall. intros; apply in_or_app. left. apply in_safe; auto.
    + eapply WF; [|exact IHlayout]. apply incl_appr, incl_tl, incl_refl.
  - constructor; [|constructor].
    + split; [eauto|]. apply Forall_forall. intros; apply in_or_app. left. apply in_safe; auto.
    + apply in_or_app. right. left. reflexivity.
    + eapply WF; [|exact IHlayout]. apply incl_appr, incl_tl, incl_refl.
Qed.
(** The layout is determined by the events. *)
Fixpoint lay (evs : list event) (cur : list element) : list group :=
  match evs with
  | [] => match cur with [] => [] | _ => [Para cur] end
  | Break :: r => match cur with [] => lay r [] | _ => Para cur :: lay r [] end
  | Elem e s :: r =>
      match cur with
      | [] => if is_line_break e then lay r [] else if s then lay r [e] else Alone e :: lay r []
      | _ => if s then lay r (cur ++ [e]) else Para cur :: Alone e :: lay r []
      end
  end.
Lemma lay_safe es evs : forall cur, cur <> [] -> lay (safe_events es ++ evs) cur = lay evs (cur ++ es).
Proof.
  induction es as [|e es IH]; intros cur Hc; cbn [safe_events map app]; [rewrite app_nil_r; reflexivity|].
  cbn [lay]. destruct cur as [|c cur]; [congruence|]. unfold safe_events in IH. rewrite IH.
  - rewrite <- app_assoc. reflexivity.
  - destruct cur; discriminate.
Qed.
Lemma lay_first e es evs : e <> ELineBreak -> lay (safe_events (e :: es) ++ evs) [] = lay evs (e :: es).
Proof.
  intros Hne. cbn [safe_events map app lay]. destruct (is_line_break e) eqn:E; [apply line_break_dec in E; congruence|].
  apply (lay_safe es evs [e]). discriminate.
Qed.
Lemma layout_lay evs gs : layout evs gs -> gs = lay evs [].
Proof.
  induction 1; cbn [lay]; auto.
  - cbn. destruct (is_line_break e) eqn:E; [apply line_break_dec in E; congruence|]. congruence.
  - rewrite <- (app_nil_r (safe_events _)), lay_first by auto. reflexivity.
  - rewrite lay_first by auto. cbn [lay]. congruence.
  - rewrite lay_first by auto. cbn [lay]. congruence.
Qed.

(** *** Table of contents *)
Lemma expected_app a : forall i b, expected_toc i (a ++ b) = expected_toc i a ++ expected_toc (i + length a) b.
Proof.
  induction a as [|[d nm] a IH]; intros i b; cbn [expected_toc app length]; [rewrite Nat.add_0_r; reflexivity|].
  rewrite IH. replace (i + S (length a)) with (S i + length a) by lia. reflexivity.
Qed.
Notation ditem := (depth_item unit str).
Definition strip_unit (l : list (nat * unit * str)) : list (nat * str) := map (fun '(d, _, nm) => (d, nm)) l.
(** Induction principle for nested depth items. *)
Fixpoint ditem_size (x : ditem) : nat :=
  match x with DItem _ => 1 | DList _ l => S ((fix go l := match l with [] => 0 | y :: l' => ditem_size y + go l' end) l) end.
Fixpoint ditems_size (l : list ditem) : nat := match l with [] => 0 | y :: l' => ditem_size y + ditems_size l' end.
Lemma ditem_size_list u l : ditem_size (DList u l) = S (ditems_size l).
Proof. cbn. f_equal. Qed.
Lemma toc_item_list i u l : toc_item i (DList u l) =
  (let '(its, i') := toc_items i l in (LISubList (EList LBullet [] its), i')).
Proof.
  cbn [toc_item].
  assert (E : forall l i, (fix go (incr : nat) (l : list ditem) : list list_item * nat :=
           match l with
           | [] => ([], incr)
           | x :: l' => let '(y, i1) := toc_item incr x in
                        let '(ys, i2) := go i1 l' in (y :: ys, i2)
           end) i l = toc_items i l).
  { clear. induction l as [|x l IH]; intros i; cbn [toc_items]; auto. }
  rewrite E. reflexivity.
Qed.
Definition item_reading (depth : nat) (it : list_item) : list (nat * str * str) :=
  toc_reading depth (EList LBullet [] [it]).
Lemma toc_reading_items depth a its : toc_reading depth (EList LBullet a its) = flat_map (item_reading depth) its.
Proof.
  unfold item_reading. cbn [toc_reading]. induction its as [|it its IH]; [reflexivity|].
  cbn [flat_map]. rewrite app_nil_r. f_equal. exact IH.
Qed.
Lemma toc_size n : (forall x i depth u, ditem_size x <= n -> forall y i', toc_item i x = (y, i') ->
    item_reading depth y = expected_toc i (strip_unit (reading depth u x)) /\ i' = i + length (reading depth u x)) /\
  (forall l i depth u, ditems_size l <= n -> forall ys i', toc_items i l = (ys, i') ->
    flat_map (item_reading depth) ys = expected_toc i (strip_unit (flat_map (reading depth u) l)) /\
    i' = i + length (flat_map (reading depth u) l)).
Proof.
  induction n as [|n [IHx IHl]].
  - split.
    + intros x. destruct x; cbn; lia.
    + intros l i depth u Hl ys i' H. destruct l as [|x l]; [|cbn [ditems_size] in Hl; destruct x; cbn [ditem_size] in Hl; lia].
      cbn in H. injection H as <- <-. split; [reflexivity|cbn; lia].
  - assert (Hx : forall x i depth u, ditem_size x <= S n -> forall y i', toc_item i x = (y, i') ->
      item_reading depth y = expected_toc i (strip_unit (reading depth u x)) /\ i' = i + length (reading depth u x)).
    { intros x i depth u Hs y i' H. destruct x as [nm|u' l].
      - cbn in H. injection H as <- <-. split; [reflexivity|]. cbn [reading length]. lia.
      - rewrite ditem_size_list in Hs. rewrite toc_item_list in H.
        destruct (toc_items i l) as [its i1] eqn:E. injection H as <- <-.
        destruct (IHl l i (S depth) u' ltac:(lia) _ _ E) as [H1 H2].
        split; [|exact H2]. unfold item_reading. cbn [toc_reading flat_map]. rewrite app_nil_r.
        etransitivity; [apply (toc_reading_items (S depth) [] its)|exact H1]. }
    split; [exact Hx|].
    intros l. induction l as [|x l IH]; intros i depth u Hl ys i' H.
    + cbn in H. injection H as <- <-. split; [reflexivity|cbn; lia].
    + cbn [toc_items] in H. cbn [ditems_size] in Hl. destruct (toc_item i x) as [y i1] eqn:E1.
      destruct (toc_items i1 l) as [ys' i2] eqn:E2. injection H as <- <-.
      destruct (Hx x i depth u ltac:(lia) _ _ E1) as [A1 A2].
      destruct (IH i1 depth u ltac:(lia) _ _ E2) as [B1 B2].
      cbn [flat_map]. rewrite A1, B1. unfold strip_unit. rewrite map_app, expected_app, map_length, app_length.
      subst i1. split; [reflexivity|lia].
Qed.
Lemma toc_trees_reading ts : forall i,
  flat_map (toc_reading 0) (toc_trees i ts) = expected_toc i (strip_unit (reading_trees ts)).
Proof.
  induction ts as [|[u l] ts IH]; intros i; [reflexivity|].
  cbn [toc_trees]. destruct (toc_items i l) as [its i1] eqn:E.
  destruct (proj2 (toc_size (ditems_size l)) l i 0 u (le_n _) _ _ E) as [H1 H2].
  cbn [flat_map]. rewrite toc_reading_items, H1, IH. unfold reading_trees. cbn [flat_map].
  fold (@reading_trees unit str). unfold strip_unit. rewrite map_app, expected_app, map_length, <- H2. reflexivity.
Qed.
Lemma build_toc_ok depths : exists els, build_toc depths = Some els /\
  flat_map (toc_reading 0) els = expected_toc 0 depths.
Proof.
  unfold build_toc.
  destruct (process_depths_ok (fun _ _ : unit => true) ltac:(intros [] []; tauto) tt
    (map (fun '(d, name) => (d, tt, name)) depths)) as (ts & H & R & _).
  rewrite H. eexists. split; [reflexivity|]. rewrite toc_trees_reading, R. f_equal.
  unfold strip_unit. rewrite map_map. rewrite <- (map_id depths) at 2. apply map_ext. intros [d nm]. reflexivity.
Qed.
(** The single list: at most one tree (all types are equal). *)
Lemma build_toc_single depths els : build_toc depths = Some els -> length els <= 1.
Proof.
  unfold build_toc.
  destruct (process_depths_ok (fun _ _ : unit => true) ltac:(intros [] []; tauto) tt
    (map (fun '(d, name) => (d, tt, name)) depths)) as (ts & H & R & [A _]).
  rewrite H. intros E. injection E as <-. destruct ts as [|[[] a] [|[[] b] ts]]; cbn [toc_trees].
  - cbn; lia.
  - destruct (toc_items 0 a); cbn; lia.
  - cbn in A. tauto.
Qed.

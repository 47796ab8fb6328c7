(** PropTree.v -- properties C21, C22, C34, C44: depth lists, table of contents, paragraphs,
    stripping. *)
From Verif Require Import Base Strings Links Attr Depth SpecDepth DepthLemmas DepthBuild Tree Toc SpecTree TreeLemmas.

(** C21: process_depths never panics; reading the result back gives exactly the input: every item
    once, in order, at its depth, directly inside a list of its own type. *)
Theorem C21_depth_lists_read_back : forall (L T : Type) (leqb : L -> L -> bool) (top : L) (items : list (nat * L * T)),
  (forall a b, leqb a b = true <-> a = b) ->
  exists trees, process_depths leqb top items = Some trees /\ reading_trees trees = items.
Proof.
  intros L T leqb top items H. destruct (process_depths_ok leqb H top items) as (ts & H1 & H2 & _). eauto.
Qed.
Print Assumptions C21_depth_lists_read_back.
(** C21: no list in the result is empty, and lists that belong together are one list: two lists of
    the same type never stand side by side. *)
Theorem C21_no_empty_lists : forall (L T : Type) (leqb : L -> L -> bool) (top : L) (items : list (nat * L * T)) trees,
  (forall a b, leqb a b = true <-> a = b) -> process_depths leqb top items = Some trees ->
  Forall (fun t => snd t <> [] /\ Forall no_empty (snd t)) trees.
Proof.
  intros L T leqb top items trees H E. destruct (process_depths_ok leqb H top items) as (ts & H1 & _ & _ & H3).
  rewrite H1 in E. injection E as <-. eapply Forall_impl; [|exact H3]. cbn. tauto.
Qed.
Print Assumptions C21_no_empty_lists.
Theorem C21_lists_merged : forall (L T : Type) (leqb : L -> L -> bool) (top : L) (items : list (nat * L * T)) trees,
  (forall a b, leqb a b = true <-> a = b) -> process_depths leqb top items = Some trees ->
  types_alternate trees /\ Forall (fun t => no_adjacent (snd t) /\ Forall merged (snd t)) trees.
Proof.
  intros L T leqb top items trees H E. destruct (process_depths_ok leqb H top items) as (ts & H1 & _ & H2 & H3).
  rewrite H1 in E. injection E as <-. split; [exact H2|]. eapply Forall_impl; [|exact H3]. cbn. tauto.
Qed.
Print Assumptions C21_lists_merged.
(** C21: any lists that can be written down, one line per item with its depth, are built again exactly. *)
Theorem C21_round_trip : forall (L T : Type) (leqb : L -> L -> bool) (top : L) (trees : list (L * list (depth_item L T))),
  (forall a b, leqb a b = true <-> a = b) -> types_alternate trees -> trees <> [] ->
  Forall (fun t => starts_item (snd t) /\ no_adjacent (snd t) /\ Forall writable (snd t)) trees ->
  process_depths leqb top (reading_trees trees) = Some trees.
Proof.
  intros L T leqb top trees H Ha Hne Hf. apply builds; auto. destruct trees as [|[l items] ts]; auto. clear - Ha. revert l items Ha.
  induction ts as [|[l2 i2] ts IH]; intros l items Ha; [exact I|]. destruct Ha as [H1 H2]. split; auto. cbn [fst]. eapply IH; eauto.
Qed.
Print Assumptions C21_round_trip.
Example C21_round_trip_case : let trees := [(1, [DItem 97; DList 2 [DItem 98; DList 1 [DItem 99]; DItem 100]; DList 1 [DItem 101]]); (2, [DItem 102])] in
  types_alternate trees /\ trees <> [] /\ Forall (fun t => starts_item (snd t) /\ no_adjacent (snd t) /\ Forall writable (snd t)) trees.
Proof. cbn. repeat (split || constructor || discriminate). Qed.
Example C21_case :   (* src/parsing/depth.rs depth_types tests *)
  process_depths Nat.eqb 0 [(0, 1, 97); (2, 2, 98); (2, 2, 99); (1, 2, 100); (1, 1, 101); (0, 2, 102)] =
  Some [(1, [DItem 97; DList 2 [DList 2 [DItem 98; DItem 99]; DItem 100]; DList 1 [DItem 101]]); (2, [DItem 102])].
Proof. reflexivity. Qed.

(** C22: for every list of recorded headings the table of contents is built, and its links are, in
    reading order, #toc0, #toc1, ... with the names of the headings, nested at their depths. *)
Theorem C22_toc_numbered : forall headings, exists toc, build_toc headings = Some toc /\
  flat_map (toc_reading 0) toc = expected_toc 0 headings.
Proof. exact build_toc_ok. Qed.
Print Assumptions C22_toc_numbered.
Theorem C22_toc_one_list : forall headings toc, build_toc headings = Some toc -> length toc <= 1.
Proof. exact build_toc_single. Qed.
Print Assumptions C22_toc_one_list.
Example C22_case : exists toc, build_toc [(1, lit "a"); (0, lit "b"); (3, lit "c")] = Some toc /\
  flat_map (toc_reading 0) toc =
    [(1, lit "#toc0", lit "a"); (0, lit "#toc1", lit "b"); (3, lit "#toc2", lit "c")].
Proof. eexists. split; reflexivity. Qed.

(** C34: whatever is pushed on the paragraph stack, with breaks in between, the result is the
    layout of the pushed elements: paragraphs of consecutive safe elements, unsafe elements alone,
    line breaks dropped only at the start of a paragraph. *)
Theorem C34_paragraph_layout : forall calls, exists groups,
  layout (flat_map call_events calls) groups /\
  into_elements (fold_left run_call calls ps_new) = map group_element groups.
Proof. exact run_calls_spec. Qed.
Print Assumptions C34_paragraph_layout.
(** ... and that layout is unique. *)
Theorem C34_layout_unique : forall evs g1 g2, layout evs g1 -> layout evs g2 -> g1 = g2.
Proof. intros evs g1 g2 H1 H2. rewrite (layout_lay _ _ H1), (layout_lay _ _ H2). reflexivity. Qed.
Print Assumptions C34_layout_unique.
(** Nothing but line breaks is lost and nothing is reordered. *)
Theorem C34_nothing_lost : forall evs groups, layout evs groups ->
  filter not_break (flat_map group_contents groups) = filter not_break (event_elements evs).
Proof. exact layout_contents. Qed.
Print Assumptions C34_nothing_lost.
(** No paragraph is empty or starts with a line break, paragraphs hold only elements that came
    marked safe, and elements outside came marked unsafe. *)
Theorem C34_paragraphs_safe : forall evs groups, layout evs groups -> Forall (fun g => match g with
  | Para es => (exists e rest, es = e :: rest /\ e <> ELineBreak) /\ Forall (fun e => In (Elem e true) evs) es
  | Alone e => In (Elem e false) evs end) groups.
Proof. exact layout_paras. Qed.
Print Assumptions C34_paragraphs_safe.
Example C34_case :
  into_elements (fold_left run_call
    [CPush [ELineBreak; EText (lit "a")] true; CPush [ELineBreak] true; CEnd; CEnd; CPush [EText (lit "b")] true;
     CPush [EHorizontalRule] false; CPush [ELineBreak] true] ps_new) =
  [paragraph [EText (lit "a"); ELineBreak]; paragraph [EText (lit "b")]; EHorizontalRule].
Proof. reflexivity. Qed.

(** C44: stripping removes exactly the edge elements of the kind. *)
Theorem C44_strip_newlines : forall es, edges_stripped newline_element es (strip_newlines es).
Proof. intro. apply strip_edges. exact is_newline_iff. Qed.
Print Assumptions C44_strip_newlines.
Theorem C44_strip_whitespace : forall es, edges_stripped whitespace_element es (strip_whitespace es).
Proof. intro. apply strip_edges. exact is_whitespace_iff. Qed.
Print Assumptions C44_strip_whitespace.
Theorem C44_stripped_unique : forall F es m1 m2, edges_stripped F es m1 -> edges_stripped F es m2 -> m1 = m2.
Proof. exact edges_stripped_unique. Qed.
Print Assumptions C44_stripped_unique.
Example C44_case : strip_whitespace [EText (lit " "); ELineBreak; EText (lit "a"); ELineBreak; ELineBreaks 2; EText []]
  = [EText (lit "a"); ELineBreak; ELineBreaks 2].
Proof. reflexivity. Qed.

(** Text.v -- model of src/render/text and of the parts of src/render/handle.rs and
    src/tree/variables.rs it uses.  [None] is a panic.  [prefixes] and [list_depths] of the
    context are never written by the renderer and are left out. *)
From Verif Require Import Base Strings Links Attr Tree.

(** VariableScopes::get, src/tree/variables.rs:38-46; the innermost scope is the head. *)
Fixpoint scope_get (scopes : list (list (str * str))) (name : str) : option str :=
  match scopes with
  | [] => None
  | sc :: scopes' => match bt_get sc name with
                     | Some v => Some v
                     | None => scope_get scopes' name
                     end
  end.
(** get_page_title, src/render/handle.rs:39-44. *)
Definition get_page_title (site page : str) : str :=
  lit "TODO: actual title (" ++ site ++ [32%N] ++ page ++ lit ")".
(** get_link_label, src/render/handle.rs:96-130; [None] = the panic for a page label of a URL. *)
Definition get_link_label (site : str) (link : link_location) (label : link_label) : option str :=
  match label with
  | LabelText t => Some t
  | LabelUrl (Some t) => Some t
  | LabelUrl None => match link with LUrl u => Some u | LPage r => Some (pr_page r) end
  | LabelPage => match link with
                 | LUrl _ => None
                 | LPage r => let '(s, p) := pr_fields_or r site in Some (get_page_title s p)
                 end
  end.

(** TextContext, src/render/text/context.rs:30-70. *)
Record tctx : Type := TX { tx_out : str; tx_invisible : nat; tx_scopes : list (list (str * str)) }.
(** push_str, src/render/text/context.rs:231-240. *)
Definition t_push (s : str) (c : tctx) : tctx :=
  TX (tx_out c ++ match tx_invisible c with 0 => s | _ => map (fun _ => 32%N) s end)
     (tx_invisible c) (tx_scopes c).
(** write_str, src/render/text/context.rs:268-270 (the invisible mode is not consulted). *)
Definition t_write (s : str) (c : tctx) : tctx := TX (tx_out c ++ s) (tx_invisible c) (tx_scopes c).
(** add_newline, src/render/text/context.rs:242-248. *)
Definition t_newline (c : tctx) : tctx := t_write [10%N] c.
(** ends_with_newline, src/render/text/context.rs:251-253. *)
Definition t_ends_nl (c : tctx) : bool := ends_with [10%N] (tx_out c).
(** The [if !ctx.ends_with_newline() { ctx.add_newline() }] of tables and lists. *)
Definition t_fresh_line (c : tctx) : tctx := if t_ends_nl c then c else t_newline c.
(** enable_invisible, disable_invisible, src/render/text/context.rs:213-220. *)
Definition t_invis (f : nat -> nat) (c : tctx) : tctx := TX (tx_out c) (f (tx_invisible c)) (tx_scopes c).
Fixpoint t_newlines (n : nat) (c : tctx) : tctx :=
  match n with 0 => c | S n' => t_newlines n' (t_newline c) end.

Notation "'let?' x := m 'in' k" := (match m with Some x => k | None => None end)
  (at level 200, x pattern, k at level 200).

Section Render.
Variable site : str.                            (* info.site *)
Variable date_format : date_item -> option str. (* DateItem::format of the time crate *)

(** render_element, src/render/text/elements.rs:41-279. *)
Fixpoint t_element (e : element) (c : tctx) {struct e} : option tctx :=
  let t_elements := fix go (es : list element) (c : tctx) : option tctx :=
    match es with [] => Some c | x :: es' => let? c := t_element x c in go es' c end in
  match e with
  | EContainer CHidden _ _ => Some c
  | EContainer CInvisible _ es =>
      let? c := t_elements es (t_invis S c) in Some (t_invis pred c)
  | EContainer (CDiv | CParagraph | CBlockquote | CHeader _) _ es =>
      let? c := t_elements es (t_newline c) in Some (t_newline c)
  | EContainer CRubyText _ es =>
      let? c := t_elements es (t_push (lit "(") c) in Some (t_push (lit ")") c)
  | EContainer _ _ es => t_elements es c
  | EText s | ERaw s | EEmail s => Some (t_push s c)
  | EVariable name =>
      Some (t_push (match scope_get (tx_scopes c) name with
                    | Some v => v
                    | None => lit "{$" ++ name ++ lit "}"
                    end) c)
  | ETable _ rows =>
      let? c := (fix go_rows (rows : list table_row) (c : tctx) : option tctx :=
        match rows with
        | [] => Some c
        | r :: rows' =>
            let? c := (fix go_cells (cells : list table_cell) (c : tctx) : option tctx :=
              match cells with
              | [] => Some c
              | x :: cells' => let? c := t_elements (tc_elements x) c in go_cells cells' c
              end) (tr_cells r) c in
            go_rows rows' (t_newline c)
        end) rows (t_fresh_line c) in
      Some (t_newline c)
  | ETabView tabs =>
      (fix go_tabs (tabs : list tab) (c : tctx) : option tctx :=
        match tabs with
        | [] => Some c
        | t :: tabs' =>
            let? c := t_elements (tab_elements t) (t_newline (t_push (tab_label t) c)) in
            go_tabs tabs' (t_newline c)
        end) tabs c
  | EAnchor _ _ es => t_elements es c
  | ELink _ link _ label _ =>
      let? s := get_link_label site link label in Some (t_push s c)
  | EList _ _ items =>
      (fix go_items (items : list list_item) (c : tctx) : option tctx :=
        match items with
        | [] => Some c
        | LISubList x :: items' => let? c := t_element x c in go_items items' c
        | LIElements _ [] :: items' => go_items items' c
        | LIElements _ es :: items' => let? c := t_elements es c in go_items items' (t_newline c)
        end) items (t_fresh_line c)
  | EDefinitionList items =>
      let? c := (fix go_defs (items : list def_item) (c : tctx) : option tctx :=
        match items with
        | [] => Some c
        | d :: items' =>
            let? c := t_elements (df_key d) c in
            let? c := t_elements (df_value d) (t_push [32%N] c) in
            go_defs items' (t_newline c)
        end) items c in
      Some (t_newline c)
  | ECollapsible es _ _ _ _ _ _ => t_elements es c
  | EUser name _ => Some (t_push name c)
  | EDate value _ _ =>
      Some (t_write (match date_format value with Some s => s | None => lit "<ERROR>" end) c)
  | EColor _ es => t_elements es c
  | ECode contents _ => Some (t_newline (t_push contents (t_newline c)))
  | EEquationReference name => Some (t_write (lit "[" ++ name ++ lit "]") c)
  | EInclude _ variables _ es =>
      let? c := t_elements es (TX (tx_out c) (tx_invisible c) (variables :: tx_scopes c)) in
      Some (TX (tx_out c) (tx_invisible c) (tl (tx_scopes c)))
  | ELineBreak => Some (t_newline c)
  | ELineBreaks n => Some (t_newlines (N.to_nat n) c)
  | EModule _ | EAnchorName _ | EImage _ _ _ _ | ERadioButton _ _ _ | ECheckBox _ _
  | ETableOfContents _ _ | EFootnote | EFootnoteBlock _ _ | EBibliographyCite _ _
  | EBibliographyBlock _ _ _ | EMath _ _ | EMathInline _ | EEmbed _ | EHtml _ | EIframe _ _
  | EStyle _ | EClearFloat _ | EHorizontalRule => Some c
  | EPartial _ => None
  end.
(** render_elements, src/render/text/elements.rs:33-39. *)
Fixpoint t_elements (es : list element) (c : tctx) : option tctx :=
  match es with [] => Some c | x :: es' => let? c := t_element x c in t_elements es' c end.

(** [while buffer.starts_with('\n') { buffer.remove(0) }], src/render/text/mod.rs:91-93. *)
Fixpoint drop_newlines (s : str) : str :=
  match s with c :: s' => if ceqb c 10 then drop_newlines s' else s | [] => [] end.
(** render_partial_direct, src/render/text/mod.rs:55-101. *)
Definition text_render (es : list element) : option str :=
  let? c := t_elements es (TX [] 0 []) in
  Some (rev (drop_newlines (rev (drop_newlines (tx_out c))))).
End Render.

(** SpecText.v -- what the plain text of a list of elements should say (C65). *)
From Verif Require Import Base Strings Links Attr Tree SpecParse.

Section Said.
Variable site : str.                            (* the site of the page *)
Variable date_format : date_item -> option str. (* how a date is written *)
(** What a link shows. *)
Definition label_text (link : link_location) (label : link_label) : str :=
  match label, link with
  | LabelText s, _ | LabelUrl (Some s), _ => s
  | LabelUrl None, LUrl u => u
  | LabelUrl None, LPage (PR _ page) => page
  | LabelPage, LPage (PR s page) =>
      lit "TODO: actual title (" ++ (match s with Some s => s | None => site end) ++ lit " " ++ page ++ lit ")"
  | LabelPage, LUrl _ => []
  end.
(** The value of a variable: the innermost inclusion that sets it counts. *)
Definition variable_text (vars : list (str * str)) (name : str) : str :=
  match find (fun v => seqb (fst v) name) vars with
  | Some (_, value) => value
  | None => lit "{$" ++ name ++ lit "}"
  end.
(** The text of an element, without the line breaks of the layout.  [vars] are the variables set,
    innermost first; where the text is to be [invisible] each character is a space. *)
Fixpoint said (vars : list (str * str)) (invisible : bool) (e : element) : str :=
  let all := flat_map (said vars invisible) in
  let cover (s : str) := if invisible then map (fun _ => 32%N) s else s in
  match e with
  | EContainer CHidden _ _ => []
  | EContainer CInvisible _ es => flat_map (said vars true) es
  | EContainer CRubyText _ es => cover (lit "(") ++ all es ++ cover (lit ")")
  | EContainer _ _ es | EAnchor _ _ es | ECollapsible es _ _ _ _ _ _ | EColor _ es => all es
  | EInclude _ v _ es => flat_map (said (v ++ vars) invisible) es
  | ETable _ rows => flat_map (fun r => flat_map (fun c => all (tc_elements c)) (tr_cells r)) rows
  | ETabView tabs => flat_map (fun t => cover (tab_label t) ++ all (tab_elements t)) tabs
  | EList _ _ items =>
      flat_map (fun i => match i with LIElements _ es => all es | LISubList x => said vars invisible x end) items
  | EDefinitionList items =>
      flat_map (fun d => all (df_key d) ++ cover (lit " ") ++ all (df_value d)) items
  | EText s | ERaw s | EEmail s | ECode s _ | EUser s _ => cover s
  | EVariable name => cover (variable_text vars name)
  | ELink _ link _ label _ => cover (label_text link label)
  | EDate d _ _ => cover (match date_format d with Some s => s | None => lit "<ERROR>" end)
  | EEquationReference name => cover (lit "[" ++ name ++ lit "]")
  | _ => []
  end.
End Said.
(** Without the line breaks. *)
Definition one_line (s : str) : str := filter (fun c => negb (ceqb c 10)) s.
(** [seen x e]: x is e or is inside it, and not inside a hidden container. *)
Definition hidden (e : element) : bool := match e with EContainer CHidden _ _ => true | _ => false end.
Inductive seen (x : element) : element -> Prop :=
| seen_self : seen x x
| seen_in e y : hidden e = false -> In y (children e) -> seen x y -> seen x e.
(** What cannot be written as text: unfinished elements and a page's title for a URL. *)
Definition unsayable (e : element) : Prop :=
  match e with EPartial _ | ELink _ (LUrl _) _ LabelPage _ => True | _ => False end.
(** Dates and references to equations. *)
Definition stamp (e : element) : Prop := match e with EDate _ _ _ | EEquationReference _ => True | _ => False end.
(** No date or equation reference inside an invisible container. *)
Definition none_covered (es : list element) : Prop :=
  forall e a inside x y, In e es -> seen (EContainer CInvisible a inside) e -> In x inside -> seen y x -> ~ stamp y.

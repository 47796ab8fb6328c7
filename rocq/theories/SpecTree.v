(** SpecTree.v -- specifications for C22 (table of contents), C34 (paragraphs), C44 (stripping). *)
From Verif Require Import Base Strings Links Attr Tree Toc.

(** *** C22: the links of a table of contents element in reading order, with their nesting. *)
Fixpoint toc_reading (depth : nat) (e : element) : list (nat * str * str) :=
  match e with
  | EList _ _ items =>
      flat_map (fun it => match it with
                          | LISubList e' => toc_reading (S depth) e'
                          | LIElements _ [ELink LTTableOfContents (LUrl u) None (LabelText name) None] =>
                              [(depth, u, name)]
                          | LIElements _ _ => []
                          end) items
  | _ => []
  end.
(** What it should say: heading number i has the anchor "#toc<i>". *)
Fixpoint expected_toc (i : nat) (headings : list (nat * str)) : list (nat * str * str) :=
  match headings with
  | [] => []
  | (d, name) :: rest => (d, lit "#toc" ++ dec i, name) :: expected_toc (S i) rest
  end.

(** *** C34.  What the paragraph gatherer is given: one element at a time, with the safety flag it
    came with, or a paragraph break. *)
Inductive event : Type := Elem (e : element) (safe : bool) | Break.
(** What it makes: paragraphs and stand-alone elements. *)
Inductive group : Type := Para (es : list element) | Alone (e : element).
Definition group_element (g : group) : element :=
  match g with Para es => EContainer CParagraph [] es | Alone e => e end.
Definition safe_events (es : list element) : list event := map (fun e => Elem e true) es.
(** The layout of a sequence of events, read at the start of a paragraph. *)
Inductive layout : list event -> list group -> Prop :=
| lay_nil : layout [] []
| lay_break : forall evs gs, layout evs gs -> layout (Break :: evs) gs
(* a line break at the start of a paragraph disappears *)
| lay_drop : forall s evs gs, layout evs gs -> layout (Elem ELineBreak s :: evs) gs
(* an unsafe element stands alone *)
| lay_alone : forall e evs gs, e <> ELineBreak -> layout evs gs -> layout (Elem e false :: evs) (Alone e :: gs)
(* safe elements form one paragraph, up to the end, a break, or an unsafe element *)
| lay_para_end : forall e es, e <> ELineBreak -> layout (safe_events (e :: es)) [Para (e :: es)]
| lay_para_break : forall e es evs gs, e <> ELineBreak -> layout evs gs ->
    layout (safe_events (e :: es) ++ Break :: evs) (Para (e :: es) :: gs)
| lay_para_alone : forall e es x evs gs, e <> ELineBreak -> layout evs gs ->
    layout (safe_events (e :: es) ++ Elem x false :: evs) (Para (e :: es) :: Alone x :: gs).
(** The elements of the events, without the line breaks. *)
Definition not_break (e : element) : bool := negb (is_line_break e).
Definition event_elements (evs : list event) : list element :=
  flat_map (fun ev => match ev with Elem e _ => [e] | Break => [] end) evs.
Definition group_contents (g : group) : list element := match g with Para es => es | Alone e => [e] end.

(** Calls made on the paragraph stack. *)
Inductive call : Type := CPush (es : list element) (safe : bool) | CEnd.
Definition call_events (c : call) : list event :=
  match c with CPush es safe => map (fun e => Elem e safe) es | CEnd => [Break] end.

(** *** C44: a list with its edges removed. *)
Definition edges_stripped (f : element -> Prop) (es mid : list element) : Prop :=
  exists pre post, es = pre ++ mid ++ post /\ Forall f pre /\ Forall f post /\
    (forall e rest, mid = e :: rest -> ~ f e) /\ (forall e front, mid = front ++ [e] -> ~ f e) /\
    (mid = [] -> post = []).
Definition newline_element (e : element) : Prop := e = ELineBreak \/ exists n, e = ELineBreaks n.
Definition whitespace_element (e : element) : Prop :=
  e = ELineBreak \/ exists s, e = EText s /\ Forall (fun c => is_ws c = true) s.

(** SpecWriting.v -- pages made of paragraphs, headings, lists, quotes and rules, with emphasis: how
    such a page is written in wikitext, and how it should look. *)
From Verif Require Import Base Strings.

(** The marks for emphasis: the text that opens and closes them, and their HTML tag. *)
Inductive mark : Type := Bold | Italics | Underline | Superscript | Subscript | StrikeTilde | StrikeDash | Monospace.
Definition opening (m : mark) : str :=
  lit match m with
      | Bold => "**" | Italics => "//" | Underline => "__" | Superscript => "^^" | Subscript => ",,"
      | StrikeTilde => "~~" | StrikeDash => "--" | Monospace => "{{"
      end.
Definition closing (m : mark) : str := match m with Monospace => lit "}}" | _ => opening m end.
Definition html_open (m : mark) : str :=
  match m with
  | Bold => lit "<strong>" | Italics => lit "<em>" | Underline => lit "<u>" | Superscript => lit "<sup>" | Subscript => lit "<sub>"
  | StrikeTilde | StrikeDash => lit "<s>"
  | Monospace => lit "<code class=" ++ [34%N] ++ lit "wj-monospace" ++ [34%N] ++ lit ">"
  end.
Definition html_close (m : mark) : str :=
  lit match m with
      | Bold => "</strong>" | Italics => "</em>" | Underline => "</u>" | Superscript => "</sup>" | Subscript => "</sub>"
      | StrikeTilde | StrikeDash => "</s>" | Monospace => "</code>"
      end.

(** A piece of a paragraph: words, a line break, or something marked. *)
Inductive span : Type := Words (s : str) | Newline | Marked (m : mark) (inside : list span).
(** Lines inside each other: the lines of a list (with bullets or numbers) or of a quote. *)
Inductive nested (K : Type) : Type := Line (l : list span) | Inner (k : K) (xs : list (nested K)).
Arguments Line {K}. Arguments Inner {K}.
(** The blocks of a page.  A heading has a level and may be left out of the table of contents; a rule
    is a number of dashes; lists are numbered or not. *)
Inductive block : Type :=
| Paragraph (p : list span)
| Heading (level : nat) (listed : bool) (title : list span)
| Rule (dashes : nat)
| Lists (ls : list (bool * list (nested bool)))
| Quote (xs : list (nested unit)).
(** A page: its blocks, each with the number of line feeds after it. *)
Definition page : Type := list (block * nat).

(** *** Written as wikitext: what stands where in the text, from left to right. *)
Inductive item : Type :=
| IWords (s : str) | INewline | IBreak (k : nat) | IMark (opens : bool) (m : mark)
| IHead (level : nat) (listed : bool) | IRule (dashes : nat) | IBullet (depth : nat) (numbered : bool) | IQuote (depth : nat).
Fixpoint items (x : span) : list item :=
  match x with
  | Words s => [IWords s]
  | Newline => [INewline]
  | Marked m l => IMark true m :: flat_map items l ++ [IMark false m]
  end.
(** The lines, each with its depth. *)
Fixpoint lines {K} (d : nat) (k : K) (x : nested K) : list (nat * K * list span) :=
  match x with
  | Line l => [(d, k, l)]
  | Inner k' xs => flat_map (lines (S d) k') xs
  end.
Definition list_lines (ls : list (bool * list (nested bool))) : list (nat * bool * list span) :=
  flat_map (fun l => flat_map (lines 0 (fst l)) (snd l)) ls.
Fixpoint one_per_line (ls : list (list item)) : list item :=
  match ls with
  | [] => []
  | [l] => l
  | l :: ls' => l ++ IBreak 1 :: one_per_line ls'
  end.
Definition block_items (b : block) : list item :=
  match b with
  | Paragraph p => flat_map items p
  | Heading n listed l => IHead n listed :: flat_map items l
  | Rule k => [IRule k]
  | Lists ls => one_per_line (map (fun x => IBullet (fst (fst x)) (snd (fst x)) :: flat_map items (snd x)) (list_lines ls))
  | Quote xs => one_per_line (map (fun x => IQuote (fst (fst x)) :: flat_map items (snd x)) (flat_map (lines 1 tt) xs))
  end.
Fixpoint page_items (ps : page) : list item :=
  match ps with
  | [] => []
  | (b, 0) :: ps' => block_items b ++ page_items ps'
  | (b, k) :: ps' => block_items b ++ IBreak k :: page_items ps'
  end.
Definition item_text (i : item) : str :=
  match i with
  | IWords s => s
  | INewline => [10%N]
  | IBreak k => repeat 10%N k
  | IMark true m => opening m
  | IMark false m => closing m
  | IHead n listed => repeat 43%N n ++ (if listed then lit " " else lit "* ")
  | IRule k => repeat 45%N k
  | IBullet d numbered => repeat 32%N d ++ (if numbered then lit "# " else lit "* ")
  | IQuote d => repeat 62%N d ++ lit " "
  end.
Definition source (ps : page) : str := flat_map item_text (page_items ps).

(** *** As HTML.  [id k] is the id of the k-th listed heading. *)
Fixpoint html_of (x : span) : str :=
  match x with
  | Words s => escape s
  | Newline => lit "<br>"
  | Marked m l => html_open m ++ flat_map html_of l ++ html_close m
  end.
Definition tag (name : str) (inside : str) : str := lit "<" ++ name ++ lit ">" ++ inside ++ lit "</" ++ name ++ lit ">".
Definition heading_name (n : nat) : str := lit (match n with 1 => "h1" | 2 => "h2" | 3 => "h3" | 4 => "h4" | 5 => "h5" | _ => "h6" end).
Fixpoint entry_html (x : nested bool) : str :=
  match x with
  | Line l => tag (lit "li") (flat_map html_of l)
  | Inner numbered xs => tag (if numbered then lit "ol" else lit "ul") (flat_map entry_html xs)
  end.
(** The lines of a quote that stand together are one paragraph. *)
Fixpoint quote_html (x : nested unit) : str :=
  match x with
  | Line l => flat_map html_of l
  | Inner _ xs =>
      tag (lit "blockquote")
        ((fix go (open : bool) (xs : list (nested unit)) : str :=
            match xs with
            | [] => if open then lit "</p>" else []
            | Line _ as y :: xs' => (if open then lit "<br>" else lit "<p>") ++ quote_html y ++ go true xs'
            | Inner _ _ as y :: xs' => (if open then lit "</p>" else []) ++ quote_html y ++ go false xs'
            end) false xs)
  end.
Definition block_html (id : str) (b : block) : str :=
  match b with
  | Paragraph p => tag (lit "p") (flat_map html_of p)
  | Heading n listed l =>
      lit "<" ++ heading_name n ++ (if listed then lit " id=" ++ [34%N] ++ escape id ++ [34%N] else []) ++ lit ">" ++
      flat_map html_of l ++ lit "</" ++ heading_name n ++ lit ">"
  | Rule _ => lit "<hr>"
  | Lists ls => flat_map (fun l => entry_html (Inner (fst l) (snd l))) ls
  | Quote xs => quote_html (Inner tt xs)
  end.
Definition is_listed (b : block) : bool := match b with Heading _ listed _ => listed | _ => false end.
Fixpoint blocks_html (id : nat -> str) (k : nat) (bs : list block) : str :=
  match bs with
  | [] => []
  | b :: bs' => block_html (id k) b ++ blocks_html id (if is_listed b then S k else k) bs'
  end.
Definition page_html (id : nat -> str) (ps : page) : str :=
  lit "<wj-body class=" ++ [34%N] ++ lit "wj-body" ++ [34%N] ++ lit ">" ++ blocks_html id 0 (map fst ps) ++ lit "</wj-body>".

(** *** As plain text: what the page adds to the text so far. *)
Fixpoint text_of (x : span) : str :=
  match x with Words s => s | Newline => [10%N] | Marked _ l => flat_map text_of l end.
Definition fresh_line (out : str) : str := if ceqb (last out 0%N) 10 then out else out ++ [10%N].
Fixpoint entry_text (out : str) (x : nested bool) {struct x} : str :=
  match x with
  | Line l => out ++ flat_map text_of l ++ [10%N]
  | Inner _ xs =>
      (fix go (out : str) (xs : list (nested bool)) : str := match xs with [] => out | y :: xs' => go (entry_text out y) xs' end) (fresh_line out) xs
  end.
Fixpoint quote_text (x : nested unit) : str :=
  match x with
  | Line l => flat_map text_of l
  | Inner _ xs =>
      [10%N] ++
      (fix go (open : bool) (xs : list (nested unit)) : str :=
         match xs with
         | [] => if open then [10%N] else []
         | Line _ as y :: xs' => [10%N] ++ quote_text y ++ go true xs'
         | Inner _ _ as y :: xs' => (if open then [10%N] else []) ++ quote_text y ++ go false xs'
         end) false xs ++ [10%N]
  end.
Definition block_text (out : str) (b : block) : str :=
  match b with
  | Paragraph p => out ++ [10%N] ++ flat_map text_of p ++ [10%N]
  | Heading _ _ l => out ++ [10%N] ++ flat_map text_of l ++ [10%N]
  | Rule _ => out
  | Lists ls => fold_left (fun out l => entry_text out (Inner (fst l) (snd l))) ls out
  | Quote xs => out ++ quote_text (Inner tt xs)
  end.
(** Without the line feeds around a text. *)
Fixpoint skip_newlines (s : str) : str := match s with c :: s' => if ceqb c 10 then skip_newlines s' else s | [] => [] end.
Definition strip_newlines (s : str) : str := rev (skip_newlines (rev (skip_newlines s))).
Definition page_text (ps : page) : str := strip_newlines (fold_left block_text (map fst ps) []).
(** The listed headings, with their levels counted from 0. *)
Definition page_headings (ps : page) : list (nat * str) :=
  flat_map (fun b => match fst b with Heading n true l => [(n - 1, strip_newlines (flat_map text_of l))] | _ => [] end) ps.

(** *** What may be written.
    Words contain no line breaks and no opening bracket, and none of the pairs of characters that
    mean something. *)
Definition pairs : list str :=
  map lit ["@@"; "@<"; ">@"; "]]"; "--"; "~~"; "<<"; ">>"; "||"; "**"; "//"; "__"; "^^"; ",,"; "##"; "(("; "))"; "{{"; "}}"; "{$"]%string.
Definition words (s : str) : Prop :=
  s <> [] /\ (forall c, In c s -> ~ In c [10; 13; 91]%N) /\
  (forall pre a b post, s = pre ++ a :: b :: post -> ~ In [a; b] pairs).
(** At the start of a line, the first character that is not blank is not one of these. *)
Definition blank (c : char) : Prop := In c [32; 9]%N.
Definition starts_line (s : str) : Prop :=
  forall pre c post, s = pre ++ c :: post -> Forall blank pre -> ~ In c (lit "*#:=>+").
(** At the end of a line, the last character is not an underscore. *)
Definition ends_line (s : str) : Prop := forall pre, s <> pre ++ [95%N].
(** Next to a mark, there are no characters that can be part of a mark or of other syntax; and words
    before a mark have no quotation marks (the tokenizer reads quoted text as a whole). *)
Definition touchy : str := lit "*/_^,{}~-[]|$+:=#><@" ++ [34%N].
Definition after_mark (s : str) : Prop := forall c post, s = c :: post -> ~ In c touchy.
Definition before_mark (s : str) : Prop := (forall c pre, s = pre ++ [c] -> ~ In c touchy) /\ ~ In 34%N s.

(** Which things may stand next to each other ([None] is the edge of the page). *)
Definition beside (a b : option item) : Prop :=
  match a, b with
  | Some (IWords _), Some (IWords _) => False
  | (Some INewline | Some (IBreak _)), (Some INewline | Some (IBreak _)) => False
  | (None | Some (IBreak _)), Some (IHead _ _ | IRule _ | IBullet _ _ | IQuote _) => True
  | _, Some (IHead _ _ | IRule _ | IBullet _ _ | IQuote _) => False
  | (Some INewline | Some (IBreak _) | None), Some (IWords s) => starts_line s
  | Some (IWords s), (Some INewline | Some (IBreak _) | None) => ends_line s
  | Some (IMark _ _), Some (IWords s) => after_mark s
  | Some (IWords s), Some (IMark _ _) => before_mark s
  | Some (IMark _ m), Some (IMark _ m') => ~ (m = m' /\ In m [StrikeTilde; StrikeDash])
  | Some (IHead _ _ | IBullet _ _ | IQuote _), Some (IWords s) => forall c r, s = c :: r -> ~ blank c
  | Some (IHead _ _ | IBullet _ _ | IQuote _), Some (IMark _ _) => True
  | Some (IHead _ _ | IBullet _ _ | IQuote _), _ => False
  | Some (IRule _), (Some (IBreak _) | None) => True
  | Some (IRule _), _ => False
  | _, _ => True
  end.
Fixpoint all_beside (a : option item) (l : list item) (z : option item) : Prop :=
  match l with
  | [] => beside a z
  | b :: l' => beside a (Some b) /\ all_beside (Some b) l' z
  end.
(** Marks: something inside, not the same mark directly inside, no blank before the closing mark. *)
Fixpoint nests (x : span) : Prop :=
  match x with
  | Words s => words s
  | Newline => True
  | Marked m l =>
      l <> [] /\
      (forall l', ~ In (Marked m l') l) /\
      (forall before s c, l = before ++ [Words (s ++ [c])] -> ~ blank c) /\
      (fix all (l : list span) : Prop := match l with [] => True | y :: l' => nests y /\ all l' end) l
  end.
Fixpoint height (x : span) : nat :=
  match x with
  | Marked _ l => S ((fix go (l : list span) : nat := match l with [] => 0 | y :: l' => Nat.max (height y) (go l') end) l)
  | _ => 0
  end.
(** A paragraph: not empty, not starting with a line break, marks at most 99 deep. *)
Definition good_paragraph (p : list span) : Prop :=
  (exists x l, p = x :: l /\ x <> Newline) /\ (forall x, In x p -> nests x /\ height x < 100).
(** A line: not empty, no line breaks outside the marks, marks at most 98 deep. *)
Definition good_line (l : list span) : Prop := l <> [] /\ ~ In Newline l /\ (forall x, In x l -> nests x /\ height x < 99).
(** Lines inside each other: every inner list starts with a line of its own, and two inner lists of
    the same kind do not follow each other. *)
Definition different {K X} (xs : list X) (kind : X -> K -> Prop) : Prop :=
  forall before x y after k k', xs = before ++ x :: y :: after -> kind x k -> kind y k' -> k <> k'.
Definition inner_kind {K} (x : nested K) (k : K) : Prop := exists xs, x = Inner k xs.
Fixpoint well_nested {K} (x : nested K) : Prop :=
  match x with
  | Line l => good_line l
  | Inner k xs =>
      (exists l xs', xs = Line l :: xs') /\ different xs inner_kind /\
      (fix all (xs : list (nested K)) : Prop := match xs with [] => True | y :: xs' => well_nested y /\ all xs' end) xs
  end.
Definition good_block (b : block) : Prop :=
  match b with
  | Paragraph p => good_paragraph p
  | Heading n _ l => 1 <= n <= 6 /\ good_line l
  | Rule k => 3 <= k
  | Lists ls => ls <> [] /\ different ls (fun l k => k = fst l) /\ (forall l, In l ls -> well_nested (Inner (fst l) (snd l))) /\
      (forall x, In x (list_lines ls) -> fst (fst x) <= 20)
  | Quote xs => well_nested (Inner tt xs) /\ (forall x, In x (flat_map (lines 1 tt) xs) -> fst (fst x) <= 30)
  end.
(** Two blocks with [k] line feeds in between. *)
Definition separate (b : block) (k : nat) (b' : block) : Prop :=
  1 <= k /\
  match b, b' with
  | Paragraph _, Paragraph _ => 2 <= k
  | Lists _, Lists _ | Quote _, Quote _ => False
  | Lists _, Paragraph (Words s :: _) => forall c r, s = c :: r -> ~ blank c
  | _, _ => True
  end.
Fixpoint spaced (ps : page) : Prop :=
  match ps with
  | [] => True
  | (b, k) :: ps' =>
      match ps' with
      | [] => match b with Paragraph _ => k <> 1 | _ => True end
      | (b', _) :: _ => separate b k b'
      end /\ spaced ps'
  end.
Definition good_page (ps : page) : Prop :=
  spaced ps /\ all_beside None (page_items ps) None /\ (forall b k, In (b, k) ps -> good_block b).

(** SpecReader.v -- how a browser reads HTML text: the tokenizer of the HTML standard (13.2.5),
    cut down to the states that matter here: text, character references, start tags with double
    quoted, single quoted and unquoted attributes, end tags, the raw text of style, script and
    iframe, and (bogus) comments.  It is total: every text is read somehow.  Names keep their case
    and an attribute written twice is listed twice. *)
From Verif Require Import Base Strings.

Inductive htoken : Type :=
| TkChar (c : char)
| TkOpen (tag : str) (attrs : list (str * str))
| TkClose (tag : str).
Inductive hstate : Type :=
| SData
| SRef (acc : str)                                  (* after & in text; what was read, reversed *)
| STagOpen                                          (* after < *)
| STagName (acc : str)
| SAttrs (tag : str) (attrs : list (str * str))     (* before an attribute name *)
| SName (tag : str) (attrs : list (str * str)) (acc : str)
| SEq (tag : str) (attrs : list (str * str)) (name : str)       (* after = *)
| SValue (quote : char) (tag : str) (attrs : list (str * str)) (name acc : str)
| SValueRef (quote : char) (tag : str) (attrs : list (str * str)) (name acc r : str)
| SUnquoted (tag : str) (attrs : list (str * str)) (name acc : str)
| SAfterValue (tag : str) (attrs : list (str * str))
| SEndTag (acc : str)
| SRaw (tag : str) | SRawLt (tag : str) | SRawEnd (tag acc : str)
| SComment.

Definition html_space (c : char) : bool := cmem c [9; 10; 12; 13; 32]%N.
(** Elements whose contents are raw text. *)
Definition raw_tags : list str := map lit ["style"; "script"; "iframe"]%string.
(** The named character references used in HTML written by hand: the five of XML. *)
Definition reference (name : str) : option char :=
  if seqb name (lit "lt") then Some 60%N else if seqb name (lit "gt") then Some 62%N
  else if seqb name (lit "amp") then Some 38%N else if seqb name (lit "quot") then Some 34%N
  else if seqb name (lit "#39") then Some 39%N else None.
Definition ref_char (c : char) : bool := is_alnum c || ceqb c 35.
Definition read_ref (name : str) : str :=
  match reference name with Some c => [c] | None => 38%N :: name ++ [59%N] end.
Definition chars (s : str) : list htoken := map TkChar s.
Definition in_data (c : char) : hstate * list htoken :=
  if ceqb c 60 then (STagOpen, []) else if ceqb c 38 then (SRef [], []) else (SData, [TkChar c]).
Definition finish (tag : str) (attrs : list (str * str)) : hstate * list htoken :=
  (if smem tag raw_tags then SRaw tag else SData, [TkOpen tag attrs]).

Definition hstep (s : hstate) (c : char) : hstate * list htoken :=
  match s with
  | SData => in_data c
  | SRef acc =>
      if ceqb c 59 then (SData, chars (read_ref (rev acc)))
      else if ref_char c then (SRef (c :: acc), [])
      else let '(s, ts) := in_data c in (s, chars (38%N :: rev acc) ++ ts)
  | STagOpen =>
      if is_alpha c then (STagName [c], [])
      else if ceqb c 47 then (SEndTag [], [])
      else if ceqb c 33 || ceqb c 63 then (SComment, [])
      else let '(s, ts) := in_data c in (s, TkChar 60 :: ts)
  | STagName acc =>
      if html_space c || ceqb c 47 then (SAttrs (rev acc) [], [])
      else if ceqb c 62 then finish (rev acc) []
      else (STagName (c :: acc), [])
  | SAttrs tag attrs =>
      if html_space c || ceqb c 47 then (SAttrs tag attrs, [])
      else if ceqb c 62 then finish tag attrs
      else (SName tag attrs [c], [])
  | SName tag attrs acc =>
      if ceqb c 61 then (SEq tag attrs (rev acc), [])
      else if html_space c || ceqb c 47 then (SAttrs tag (attrs ++ [(rev acc, [])]), [])
      else if ceqb c 62 then finish tag (attrs ++ [(rev acc, [])])
      else (SName tag attrs (c :: acc), [])
  | SEq tag attrs name =>
      if html_space c then (s, [])
      else if ceqb c 34 || ceqb c 39 then (SValue c tag attrs name [], [])
      else if ceqb c 62 then finish tag (attrs ++ [(name, [])])
      else (SUnquoted tag attrs name [c], [])
  | SValue q tag attrs name acc =>
      if ceqb c q then (SAfterValue tag (attrs ++ [(name, rev acc)]), [])
      else if ceqb c 38 then (SValueRef q tag attrs name acc [], [])
      else (SValue q tag attrs name (c :: acc), [])
  | SValueRef q tag attrs name acc r =>
      if ceqb c 59 then (SValue q tag attrs name (rev (read_ref (rev r)) ++ acc), [])
      else if ref_char c then (SValueRef q tag attrs name acc (c :: r), [])
      else if ceqb c q then (SAfterValue tag (attrs ++ [(name, rev (r ++ 38%N :: acc))]), [])
      else if ceqb c 38 then (SValueRef q tag attrs name (r ++ 38%N :: acc) [], [])
      else (SValue q tag attrs name (c :: r ++ 38%N :: acc), [])
  | SUnquoted tag attrs name acc =>
      if html_space c then (SAttrs tag (attrs ++ [(name, rev acc)]), [])
      else if ceqb c 62 then finish tag (attrs ++ [(name, rev acc)])
      else (SUnquoted tag attrs name (c :: acc), [])
  | SAfterValue tag attrs =>
      if html_space c || ceqb c 47 then (SAttrs tag attrs, [])
      else if ceqb c 62 then finish tag attrs
      else (SName tag attrs [c], [])
  | SEndTag acc => if ceqb c 62 then (SData, [TkClose (rev acc)]) else (SEndTag (c :: acc), [])
  | SRaw tag => if ceqb c 60 then (SRawLt tag, []) else (SRaw tag, [TkChar c])
  | SRawLt tag =>
      if ceqb c 47 then (SRawEnd tag [], [])
      else if ceqb c 60 then (SRawLt tag, [TkChar 60])
      else (SRaw tag, chars [60%N; c])
  | SRawEnd tag acc =>
      if ceqb c 62 then
        if seqb (slower (rev acc)) tag then (SData, [TkClose tag])
        else (SRaw tag, chars (60%N :: 47%N :: rev acc ++ [62%N]))
      else (SRawEnd tag (c :: acc), [])
  | SComment => if ceqb c 62 then (SData, []) else (SComment, [])
  end.
Fixpoint hrun (s : hstate) (text : str) : hstate * list htoken :=
  match text with
  | [] => (s, [])
  | c :: text' => let '(s1, ts) := hstep s c in let '(s2, ts') := hrun s1 text' in (s2, ts ++ ts')
  end.
(** The tokens of a text, read as the body of a document. *)
Definition html_tokens (text : str) : list htoken := snd (hrun SData text).
(** A text that leaves the reader where it was. *)
Definition complete (text : str) : Prop := fst (hrun SData text) = SData.

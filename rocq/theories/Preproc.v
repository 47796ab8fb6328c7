(** Preproc.v -- model of src/preproc/{mod,whitespace,typography}.rs. *)
From Verif Require Import Base Regex.

(** Result of a text operation: the text, a panic, or (never, see the theorems) fuel exhausted. *)
Inductive res : Type := ROk (s : str) | RPanic | RFuel.

(** src/preproc/mod.rs:34-59, enum Replacer.  The named group "repl" is [repl_group]. *)
Inductive replacer : Type :=
| RegexReplace (regex : re) (replacement : str)
| RegexSurround (regex : re) (begin_ end_ : str).

Definition repl_group : nat := 100.

(** One iteration of the loop for RegexReplace, src/preproc/mod.rs:80-92: the match to replace is
    the group "repl" or the whole match; returns the new text and the new byte offset. *)
Definition replace_once (replacement : str) (text : str) (m : rmatch) : option (str * nat) :=
  let '(s, e) := match cap_get repl_group (m_caps m) with
                 | Some se => se
                 | None => (m_start m, m_end m)
                 end in
  let bs := byte_of text s in
  let be := byte_of text e in
  match replace_range text bs be replacement with
  | Some text' => Some (text', bs + blen replacement)
  | None => None
  end.

(** One iteration of the loop for RegexSurround, src/preproc/mod.rs:106-127: [expect] on group 1. *)
Definition surround_once (begin_ end_ : str) (text : str) (m : rmatch) : option (str * nat) :=
  match cap_get 1 (m_caps m) with
  | None => None
  | Some (cs, ce) =>
      let bs := byte_of text (m_start m) in
      let be := byte_of text (m_end m) in
      match bslice text (byte_of text cs) (byte_of text ce) with
      | None => None
      | Some content =>
          match replace_range text bs be (begin_ ++ content ++ end_) with
          | Some text' => Some (text', bs + blen content + blen begin_ + blen end_)
          | None => None
          end
      end
  end.

(** src/preproc/mod.rs:64-131, Replacer::replace: the [while let Some(capture) =
    regex.captures_at(text, offset)] loop.  The fuel counts loop iterations. *)
Fixpoint replace_loop (r : re) (once : str -> rmatch -> option (str * nat))
         (fuel : nat) (text : str) (off : nat) : res :=
  match fuel with
  | 0 => RFuel
  | S f =>
      match captures_at r text off with
      | None => RPanic
      | Some None => ROk text
      | Some (Some m) =>
          match once text m with
          | None => RPanic
          | Some (text', off') => replace_loop r once f text' off'
          end
      end
  end.

Definition replace (rp : replacer) (text : str) : res :=
  match rp with
  | RegexReplace r repl => replace_loop r (replace_once repl) (S (length text)) text 0
  | RegexSurround r b e => replace_loop r (surround_once b e) (S (length text)) text 0
  end.

(** src/preproc/whitespace.rs:35-74, the static replacers. *)
Definition is_nonstd_space (c : char) : bool := ceqb c 160 || ceqb c 8199.
Definition LEADING_NONSTANDARD_WHITESPACE : re := Seq BolM (plus (Chr is_nonstd_space)).
Definition WHITESPACE_ONLY_LINE : replacer :=
  RegexReplace (Seq BolM (Seq (plus (Chr is_ws)) EolM)) [].
Definition LEADING_NEWLINES : replacer := RegexReplace (Seq Bot (plus (ch 10))) [].
Definition TRAILING_NEWLINES : replacer := RegexReplace (Seq (plus (ch 10)) Eot) [].
Definition DOS_MAC_NEWLINES : replacer := RegexReplace (Seq (ch 13) (opt (ch 10))) [10%N].
Definition CONCAT_LINES : replacer := RegexReplace (Seq (ch 92) (ch 10)) [].
Definition TABS : replacer := RegexReplace (ch 9) (lit "    ").
Definition NULL_SPACE : replacer := RegexReplace (ch 0) (lit " ").

(** src/preproc/whitespace.rs:111-129, replace_leading_spaces: [count] is in characters, the new
    offset adds it to the byte offset of the match (the replacement is ASCII spaces). *)
Definition spaces_once (text : str) (m : rmatch) : option (str * nat) :=
  let bs := byte_of text (m_start m) in
  let be := byte_of text (m_end m) in
  match bslice text bs be with
  | None => None
  | Some mtch =>
      let count := length mtch in
      match replace_range text bs be (repeat 32%N count) with
      | Some text' => Some (text', bs + count)
      | None => None
      end
  end.
Definition replace_leading_spaces (text : str) : res :=
  replace_loop LEADING_NONSTANDARD_WHITESPACE spaces_once (S (length text)) text 0.

Definition rbind (x : res) (f : str -> res) : res :=
  match x with ROk s => f s | RPanic => RPanic | RFuel => RFuel end.

(** src/preproc/whitespace.rs:77-108, substitute. *)
Definition ws_substitute (text : str) : res :=
  rbind (replace DOS_MAC_NEWLINES text) (fun t =>
  rbind (replace_leading_spaces t) (fun t =>
  rbind (replace WHITESPACE_ONLY_LINE t) (fun t =>
  rbind (replace CONCAT_LINES t) (fun t =>
  rbind (replace TABS t) (fun t =>
  rbind (replace NULL_SPACE t) (fun t =>
  rbind (replace LEADING_NEWLINES t) (fun t =>
  replace TRAILING_NEWLINES t))))))).

(** src/preproc/typography.rs:38-68, the static replacers. *)
Definition lazy_dots : re := Grp 1 (Star false dot).
Definition SINGLE_QUOTES : replacer :=
  RegexSurround (Seq (ch 96) (Seq lazy_dots (ch 39))) [8216%N] [8217%N].
Definition DOUBLE_QUOTES : replacer :=
  RegexSurround (Seq (ch 96) (Seq (ch 96) (Seq lazy_dots (Seq (ch 39) (ch 39))))) [8220%N] [8221%N].
Definition LOW_DOUBLE_QUOTES : replacer :=
  RegexSurround (Seq (ch 44) (Seq (ch 44) (Seq lazy_dots (Seq (ch 39) (ch 39))))) [8222%N] [8221%N].
Definition not_dot : re := Chr (fun c => negb (ceqb c 46)).
Definition HORIZONTAL_ELLIPSIS : replacer :=
  RegexReplace
    (Seq (Alt Bot not_dot)
    (Seq (Grp repl_group (Seq (Grp 1 (Alt (lits (lit "..")) (lits (lit ". . ")))) (ch 46)))
         (Alt not_dot Eot)))
    [8230%N].

(** src/preproc/typography.rs:71-89, substitute. *)
Definition ty_substitute (text : str) : res :=
  rbind (replace DOUBLE_QUOTES text) (fun t =>
  rbind (replace LOW_DOUBLE_QUOTES t) (fun t =>
  rbind (replace SINGLE_QUOTES t) (fun t =>
  replace HORIZONTAL_ELLIPSIS t))).

(** src/preproc/mod.rs:145-150, preprocess. *)
Definition preprocess (text : str) : res := rbind (ws_substitute text) ty_substitute.

(** Regex.v -- semantics of the [regex] crate for the patterns ftml uses.

    The regex crate searches for the leftmost match and, among the matches starting there, takes the
    one a backtracking (Perl-like) matcher would find first.  [mt r st] is the list of all ways to
    match [r] from [st] in that priority order.  This models the external crate, not a file of
    /repo; simplification: an empty iteration of a starred expression is not repeated (no pattern of
    ftml stars an expression that can match the empty string). *)
From Verif Require Import Base.

Inductive re : Type :=
| Eps                                 (* empty *)
| Chr (p : char -> bool)              (* one character of a class *)
| Seq (a b : re)
| Alt (a b : re)                      (* a|b, a preferred *)
| Star (greedy : bool) (a : re)       (* a* or a*? *)
| BolM                                (* ^ in multi-line mode *)
| EolM                                (* $ in multi-line mode *)
| Bot                                 (* ^ without multi-line mode: start of haystack *)
| Eot                                 (* $ without multi-line mode: end of haystack *)
| Grp (n : nat) (a : re).             (* capture group n *)

(** Matcher state: position (in characters) in the haystack, the previous character ([None] at the
    start of the haystack) and the remaining characters. *)
Record rstate : Type := RS { r_pos : nat; r_prev : option char; r_rest : str }.

(** Captures: group number, start and end position; the latest capture comes first. *)
Definition caps : Type := list (nat * (nat * nat)).

Definition newline : char := 10%N.

Definition at_bol (st : rstate) : bool :=
  match r_prev st with None => true | Some c => ceqb c newline end.
Definition at_eol (st : rstate) : bool :=
  match r_rest st with [] => true | c :: _ => ceqb c newline end.

Section Star.
  Variable m : rstate -> list (rstate * caps).
  Fixpoint star_all (greedy : bool) (fuel : nat) (st : rstate) : list (rstate * caps) :=
    match fuel with
    | 0 => [(st, [])]
    | S f =>
        let more :=
          flat_map (fun '(st1, c1) =>
            if length (r_rest st1) <? length (r_rest st)
            then map (fun '(st2, c2) => (st2, c2 ++ c1)) (star_all greedy f st1)
            else []) (m st) in
        if greedy then more ++ [(st, [])] else (st, []) :: more
    end.
End Star.

Fixpoint mt (r : re) (st : rstate) : list (rstate * caps) :=
  match r with
  | Eps => [(st, [])]
  | Chr p => match r_rest st with
             | c :: rest => if p c then [(RS (S (r_pos st)) (Some c) rest, [])] else []
             | [] => []
             end
  | Seq a b => flat_map (fun '(st1, c1) =>
                 map (fun '(st2, c2) => (st2, c2 ++ c1)) (mt b st1)) (mt a st)
  | Alt a b => mt a st ++ mt b st
  | Star g a => star_all (mt a) g (length (r_rest st)) st
  | BolM => if at_bol st then [(st, [])] else []
  | EolM => if at_eol st then [(st, [])] else []
  | Bot => match r_prev st with None => [(st, [])] | Some _ => [] end
  | Eot => match r_rest st with [] => [(st, [])] | _ => [] end
  | Grp n a => map (fun '(st1, c1) => (st1, (n, (r_pos st, r_pos st1)) :: c1)) (mt a st)
  end.

(** A match: group 0 (the whole match) and the other groups, positions in characters. *)
Record rmatch : Type := RM { m_start : nat; m_end : nat; m_caps : caps }.

(** Leftmost match at or after the given state. *)
Fixpoint find_from (r : re) (pos : nat) (prev : option char) (rest : str) : option rmatch :=
  match mt r (RS pos prev rest) with
  | (st1, c) :: _ => Some (RM pos (r_pos st1) c)
  | [] => match rest with
          | [] => None
          | c :: rest' => find_from r (S pos) (Some c) rest'
          end
  end.

Fixpoint cap_get (n : nat) (c : caps) : option (nat * nat) :=
  match c with
  | [] => None
  | (k, v) :: c' => if Nat.eqb k n then Some v else cap_get n c'
  end.

Definition last_char (s : str) : option char :=
  match rev s with [] => None | c :: _ => Some c end.

(** Convert a character position of [text] into a byte offset. *)
Definition byte_of (text : str) (pos : nat) : nat := blen (firstn pos text).

(** [Regex::captures_at(text, offset)] with a byte offset: outer [None] is the panic for an offset
    that is out of range or not on a character boundary.  The context before [offset] is visible to
    the anchors, as in the crate.  Returned positions are in characters. *)
Definition captures_at (r : re) (text : str) (off : nat) : option (option rmatch) :=
  match bsplit text off with
  | Some (pre, rest) => Some (find_from r (length pre) (last_char pre) rest)
  | None => None
  end.

(** [Regex::is_match]. *)
Definition is_match (r : re) (text : str) : bool :=
  match find_from r 0 None text with Some _ => true | None => false end.

(** [Regex::find_iter] / [captures_iter]: successive non-overlapping matches (all patterns used with
    these match at least one character). *)
Fixpoint find_iter_aux (fuel : nat) (r : re) (pos : nat) (prev : option char) (rest : str)
  : list rmatch :=
  match fuel with
  | 0 => []
  | S f =>
      match find_from r pos prev rest with
      | None => []
      | Some m =>
          let k := m_end m - pos in
          m :: find_iter_aux f r (m_end m)
                 (match last_char (firstn k rest) with Some c => Some c | None => prev end)
                 (skipn k rest)
      end
  end.
Definition find_iter (r : re) (text : str) : list rmatch :=
  find_iter_aux (S (length text)) r 0 None text.

(** Abbreviations for patterns. *)
Definition ch (c : char) : re := Chr (ceqb c).
Fixpoint lits (s : str) : re :=
  match s with [] => Eps | [c] => ch c | c :: s' => Seq (ch c) (lits s') end.
Definition plus (a : re) : re := Seq a (Star true a).
Definition opt (a : re) : re := Alt a Eps.
Definition dot : re := Chr (fun c => negb (ceqb c newline)).

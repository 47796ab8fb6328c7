(** Peg.v -- semantics of the [pest] crate for the two grammars of ftml (src/parsing/lexer.pest and
    src/includes/grammar.pest).

    Parsing expressions are ordered-choice and possessive: a repetition takes as many iterations as
    it can and never gives one back.  Neither grammar defines WHITESPACE or COMMENT, so there is no
    implicit skipping.  This models the external crate, not a file of /repo; simplification: an
    iteration of a repetition that matches the empty string ends the repetition (pest would loop;
    no expression repeated in the two grammars can match the empty string). *)
From Verif Require Import Base.

Section Peg.
Variable R : Type.                                (* rule names *)

(** A pair: rule, byte span in the input, matched text, inner pairs. *)
Inductive pair : Type := Pair (rule : R) (start : nat) (slice : str) (inner : list pair).
Definition p_rule (p : pair) : R := let 'Pair r _ _ _ := p in r.
Definition p_start (p : pair) : nat := let 'Pair _ b _ _ := p in b.
Definition p_slice (p : pair) : str := let 'Pair _ _ s _ := p in s.
Definition p_end (p : pair) : nat := p_start p + blen (p_slice p).
Definition p_inner (p : pair) : list pair := let 'Pair _ _ _ i := p in i.

Inductive peg : Type :=
| PStr (s : str)                                  (* "..." *)
| PStrI (s : str)                                 (* ^"...": ASCII case-insensitive *)
| PSet (f : char -> bool)                         (* ANY and the built-in character classes *)
| PSeq (a b : peg)                                (* a ~ b *)
| PAlt (a b : peg)                                (* a | b *)
| POpt (a : peg)                                  (* a? *)
| PStar (a : peg)                                 (* a* *)
| PNot (a : peg)                                  (* !a *)
| PAnd (a : peg)                                  (* &a *)
| PEnd                                            (* end of input *)
| PRule (r : R) (a : peg)                         (* { }: a pair with inner pairs *)
| PAtom (r : R) (a : peg).                        (* @{ }: a pair without inner pairs *)

(** Strip a prefix up to ASCII case. *)
Fixpoint strip_prefix_i (p s : str) : option (str * str) :=
  match p with
  | [] => Some ([], s)
  | x :: p' => match s with
               | [] => None
               | y :: s' => if ceqb (lower x) (lower y)
                            then match strip_prefix_i p' s' with
                                 | Some (m, r) => Some (y :: m, r)
                                 | None => None
                                 end
                            else None
               end
  end.

(** [a*] given the meaning of [a]. *)
Fixpoint star (f : nat -> str -> option (list pair * str * str)) (fuel : nat) (pos : nat) (s : str)
  : list pair * str * str :=
  match fuel with
  | 0 => ([], [], s)
  | S n => match f pos s with
           | None => ([], [], s)
           | Some (ps, m, r) =>
               match m with
               | [] => ([], [], s)
               | _ => let '(ps', m', r') := star f n (pos + blen m) r in (ps ++ ps', m ++ m', r')
               end
           end
  end.

(** [run p pos s]: match [p] at byte offset [pos], where the remaining input is [s]; gives the pairs
    produced, the text matched and the text left. *)
Fixpoint run (p : peg) (pos : nat) (s : str) : option (list pair * str * str) :=
  match p with
  | PStr t => match strip_prefix t s with Some r => Some ([], t, r) | None => None end
  | PStrI t => match strip_prefix_i t s with Some (m, r) => Some ([], m, r) | None => None end
  | PSet f => match s with c :: r => if f c then Some ([], [c], r) else None | [] => None end
  | PSeq a b =>
      match run a pos s with
      | None => None
      | Some (p1, m1, r1) =>
          match run b (pos + blen m1) r1 with
          | None => None
          | Some (p2, m2, r2) => Some (p1 ++ p2, m1 ++ m2, r2)
          end
      end
  | PAlt a b => match run a pos s with Some x => Some x | None => run b pos s end
  | POpt a => match run a pos s with Some x => Some x | None => Some ([], [], s) end
  | PStar a => Some (star (run a) (length s) pos s)
  | PNot a => match run a pos s with Some _ => None | None => Some ([], [], s) end
  | PAnd a => match run a pos s with Some _ => Some ([], [], s) | None => None end
  | PEnd => match s with [] => Some ([], [], []) | _ => None end
  | PRule r a => match run a pos s with
                 | Some (ps, m, rest) => Some ([Pair r pos m ps], m, rest)
                 | None => None
                 end
  | PAtom r a => match run a pos s with
                 | Some (_, m, rest) => Some ([Pair r pos m []], m, rest)
                 | None => None
                 end
  end.

(** a+, a{n}, a{n,}, a{1,n}, sequences and choices of several expressions. *)
Definition PPlus (a : peg) : peg := PSeq a (PStar a).
Fixpoint PTimes (n : nat) (a : peg) : peg := match n with 0 => PStr [] | 1 => a | S k => PSeq a (PTimes k a) end.
Definition PMin (n : nat) (a : peg) : peg := PSeq (PTimes n a) (PStar a).
Fixpoint PUpTo (n : nat) (a : peg) : peg :=       (* a{0,n} *)
  match n with 0 => PStr [] | S k => POpt (PSeq a (PUpTo k a)) end.
Fixpoint PSeqs (l : list peg) : peg := match l with [] => PStr [] | [a] => a | a :: l' => PSeq a (PSeqs l') end.
Fixpoint PAlts (l : list peg) : peg := match l with [] => PNot (PStr []) | [a] => a | a :: l' => PAlt a (PAlts l') end.
End Peg.
Arguments Pair {R}. Arguments p_rule {R}. Arguments p_start {R}. Arguments p_slice {R}. Arguments p_end {R}.
Arguments p_inner {R}.
Arguments PStr {R}. Arguments PStrI {R}. Arguments PSet {R}. Arguments PSeq {R}. Arguments PAlt {R}.
Arguments POpt {R}. Arguments PStar {R}. Arguments PNot {R}. Arguments PAnd {R}. Arguments PEnd {R}.
Arguments PRule {R}. Arguments PAtom {R}. Arguments star {R}. Arguments run {R}.
Arguments PPlus {R}. Arguments PTimes {R}. Arguments PMin {R}. Arguments PUpTo {R}. Arguments PSeqs {R}.
Arguments PAlts {R}.

(** Built-in pest rules. *)
Definition ANY {R} : peg R := PSet (fun _ => true).
Definition ASCII_ALPHANUMERIC {R} : peg R := PSet is_alnum.
Definition ASCII_DIGIT {R} : peg R := PSet is_digit.
Definition NEWLINE {R} : peg R := PAlts [PStr [10%N]; PStr [13%N; 10%N]; PStr [13%N]].

(** SpecIncludes.v -- vocabulary for the include properties, independent of the model's algorithms
    (regex search, grammar, reversed in-place replacement). *)
From Verif Require Import Base Links.

(** *** Variables *)
(** A variable name: letters, digits, underscores and hyphens. *)
Definition var_name (n : str) : Prop :=
  n <> [] /\ Forall (fun c => (48 <= c <= 57 \/ 65 <= c <= 90 \/ 97 <= c <= 122 \/ c = 95 \/ c = 45)%N) n.
(** The text of a reference to the variable [n]. *)
Definition var_ref (n : str) : str := lit "{$" ++ n ++ lit "}".

(** [substituted get content out]: one pass over [content] from left to right.  Each reference to a
    bound variable becomes its value (which is not looked at again); references to unbound variables
    and all other characters are copied. *)
Inductive substituted (get : str -> option str) : str -> str -> Prop :=
| su_nil : substituted get [] []
| su_var n v rest out : var_name n -> get n = Some v -> substituted get rest out ->
    substituted get (var_ref n ++ rest) (v ++ out)
| su_unbound n rest out : var_name n -> get n = None -> substituted get rest out ->
    substituted get (var_ref n ++ rest) (var_ref n ++ out)
| su_char c rest out : (forall n r, var_name n -> c :: rest <> var_ref n ++ r) -> substituted get rest out ->
    substituted get (c :: rest) (c :: out).

(** *** Blocks *)
(** The previous character ends a line (or there is none). *)
Definition line_start (prev : option char) : Prop := prev = None \/ prev = Some 10%N.
(** The text that follows ends the line. *)
Definition line_end (s : str) : Prop := s = [] \/ exists c r, s = c :: r /\ (c = 10%N \/ c = 13%N).
(** [s] starts with a closing "]]" at the end of a line. *)
Definition closes (s : str) : Prop := exists r, s = lit "]]" ++ r /\ line_end r.

(** [block_extent b rest]: [b], followed by [rest], starts with "[[" and extends exactly to the
    first "]]" that is at the end of a line. *)
Definition block_extent (b rest : str) : Prop :=
  exists m, b = lit "[[" ++ m ++ lit "]]" /\ line_end rest /\
    forall x y, b = x ++ y -> closes (y ++ rest) -> y = [] \/ y = lit "]]".

(** [included isblock prev s incs rs out]: [out] is [s] in which, from left to right, every block
    recognised at the start of a line ([isblock s inc b rest]: [s] is [b ++ rest] and [b] is an
    include block with contents [inc]) is replaced by the next text of [rs]; everything else is
    copied.  [incs] are the contents of the blocks, in order. *)
Inductive included {I} (isblock : str -> I -> str -> str -> Prop)
  : option char -> str -> list I -> list str -> str -> Prop :=
| in_nil prev : included isblock prev [] [] [] []
| in_block prev s inc b c rest incs r rs out :
    line_start prev -> isblock s inc (b ++ [c]) rest ->
    included isblock (Some c) rest incs rs out ->
    included isblock prev s (inc :: incs) (r :: rs) (r ++ out)
| in_char prev c rest incs rs out :
    ~ (line_start prev /\ exists inc b r, isblock (c :: rest) inc b r) ->
    included isblock (Some c) rest incs rs out ->
    included isblock prev (c :: rest) incs rs (c :: out).

(** A text is tidy if between a line starting with "[[" and a later line starting with "[[" there is
    always a "]]" at the end of a line: no block is opened inside another one that is still open. *)
Definition ends_line_start (pre : str) : Prop := pre = [] \/ exists p, pre = p ++ [10%N].
Definition tidy (text : str) : Prop :=
  forall pre mid post, text = pre ++ lit "[[" ++ mid ++ [10%N] ++ lit "[[" ++ post -> ends_line_start pre ->
    exists x y, lit "[[" ++ mid = x ++ y /\ closes (y ++ [10%N]).

(** *** Arguments *)
(** The value bound to [key] by the arguments [args] (as written, in order): the first one for that
    key that is not the reference to the variable of the same name. *)
Fixpoint first_usable (args : list (str * str)) (key : str) : option str :=
  match args with
  | [] => None
  | (k, v) :: args' =>
      if list_eq_dec N.eq_dec k key
      then if list_eq_dec N.eq_dec v (var_ref key) then first_usable args' key else Some v
      else first_usable args' key
  end.

(** The text of an include block with page [page] and arguments [args]. *)
Definition blank (c : char) : Prop := c = 32%N \/ c = 10%N \/ c = 9%N.
Definition keyword (kw : str) : Prop := slower kw = lit "include".
(** Arguments: "key = value" separated by bars; a value starts with a non-blank character and goes up
    to the next bar or the end. *)
Inductive args_text : list (str * str) -> str -> Prop :=
| at_end w : Forall (fun c => blank c \/ c = 124%N) w -> args_text [] w
| at_arg w k w1 w2 c v args rest :
    Forall (fun c => blank c \/ c = 124%N) w -> var_name k -> Forall blank w1 -> Forall blank w2 ->
    ~ blank c -> ~ In 124%N (c :: v) -> (rest = [] \/ exists r, rest = 124%N :: r) -> args_text args rest ->
    args_text ((k, c :: v) :: args) (w ++ k ++ w1 ++ [61%N] ++ w2 ++ (c :: v) ++ rest).
Definition block_text (page : str) (args : list (str * str)) (b : str) : Prop :=
  exists w1 kw w2 body, b = lit "[[" ++ w1 ++ kw ++ w2 ++ page ++ body ++ lit "]]" /\
    Forall blank w1 /\ keyword kw /\ Forall blank w2 /\ w2 <> [] /\
    page <> [] /\ Forall (fun c => ~ blank c /\ c <> 91%N /\ c <> 93%N /\ c <> 124%N) page /\
    (args <> [] -> exists c r, body = c :: r /\ (blank c \/ c = 124%N)) /\ args_text args body.

(** SpecStrings.v -- specification vocabulary for the string helper properties. *)
From Verif Require Import Base Strings.

(** [b] is a character boundary (byte offset) of [text]: the prefix [pre] ends there. *)
Definition boundary (text pre : str) (b : nat) : Prop := exists post, text = pre ++ post /\ b = blen pre.

(** Backslash decoding of the inside of a quoted string. *)
Inductive decodes : str -> str -> Prop :=
| dec_nil : decodes [] []
| dec_char c s t : c <> 92%N -> decodes s t -> decodes (c :: s) (c :: t)
| dec_esc e v s t :
    In (e, v) [(92, 92); (34, 34); (39, 39); (114, 13); (110, 10); (116, 9)]%N ->
    decodes s t -> decodes (92%N :: e :: s) (v :: t)
| dec_other e s t :                                   (* unknown escape: kept verbatim *)
    ~ In e [92; 34; 39; 114; 110; 116]%N -> decodes s t -> decodes (92%N :: e :: s) (92%N :: e :: t).

(** One way to quote a text: backslash, double quote and newline are escaped. *)
Definition quote_inside (t : str) : str :=
  flat_map (fun c => match c with 92%N => [92; 92]%N | 34%N => [92; 34]%N | 10%N => [92; 110]%N
                     | _ => [c] end) t.

(** A text cut into maximal words at separator characters. *)
Inductive words (sep : char -> bool) : str -> list str -> Prop :=
| words_nil : words sep [] []
| words_sep c s ws : sep c = true -> words sep s ws -> words sep (c :: s) ws
| words_word w s ws : w <> [] -> Forall (fun c => sep c = false) w ->
    (s = [] \/ exists c s', s = c :: s' /\ sep c = true) ->
    words sep s ws -> words sep (w ++ s) (w :: ws).

(** One user id and its isolated form. *)
Inductive isolated_id : str -> str -> Prop :=
| iso_kept r : isolated_id (lit "u-" ++ r) (lit "u-" ++ r)
| iso_added w : (forall r, w <> lit "u-" ++ r) -> isolated_id w (lit "u-" ++ w).

(** HTML entity decoding (only the entities the escaper writes). *)
Fixpoint html_decode (s : str) : str :=
  match s with
  | 38%N :: 103%N :: 116%N :: 59%N :: r => 62%N :: html_decode r                        (* &gt; *)
  | 38%N :: 108%N :: 116%N :: 59%N :: r => 60%N :: html_decode r                        (* &lt; *)
  | 38%N :: 97%N :: 109%N :: 112%N :: 59%N :: r => 38%N :: html_decode r                (* &amp; *)
  | 38%N :: 35%N :: 51%N :: 57%N :: 59%N :: r => 39%N :: html_decode r                  (* &#39; *)
  | 38%N :: 113%N :: 117%N :: 111%N :: 116%N :: 59%N :: r => 34%N :: html_decode r      (* &quot; *)
  | c :: r => c :: html_decode r
  | [] => []
  end.
Definition nul_to_space (s : str) : str := map (fun c => if ceqb c 0 then 32%N else c) s.
Definition entities : list str := [lit "&gt;"; lit "&lt;"; lit "&amp;"; lit "&#39;"; lit "&quot;"].

(** A stack with an unremovable bottom, as a list (top last). *)
Inductive stack_op (A : Type) : Type := Push (x : A) | Pop.
Arguments Push {A}. Arguments Pop {A}.
Definition spec_pop {A} (l : list A) : option A * list A :=
  match rev l with [] => (None, []) | x :: r => (Some x, rev r) end.
Fixpoint spec_stack {A} (ops : list (stack_op A)) (l : list A) : list (option A) * list A :=
  match ops with
  | [] => ([], l)
  | Push x :: ops' => spec_stack ops' (l ++ [x])
  | Pop :: ops' => let '(o, l') := spec_pop l in
                   let '(os, l'') := spec_stack ops' l' in (o :: os, l'')
  end.

(** One word of a condition list and the condition it denotes. *)
Inductive condition_of : str -> condition -> Prop :=
| co_required v : condition_of (43%N :: v) (Cond Required v)
| co_prohibited v : condition_of (45%N :: v) (Cond Prohibited v)
| co_present v : (forall u, v <> 43%N :: u) -> (forall u, v <> 45%N :: u) -> condition_of v (Cond Present v).

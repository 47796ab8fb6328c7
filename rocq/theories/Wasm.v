(** Wasm.v -- model of the conversions of src/wasm: what JavaScript gets of tokens and errors. *)
From Verif Require Import Base Strings Lexer Tree PState.

(** ParseError::to_utf16_indices, src/parsing/error.rs:78-101; [None] is a panic. *)
Definition error_to_utf16 (m : utf16_map) (e : perr) : option perr :=
  match get_index m (pe_start e), get_index m (pe_end e) with
  | Some a, Some b => Some (PE (pe_kind e) (pe_rule e) (pe_token e) a b)
  | _, _ => None
  end.
(** [.map(..).collect()] of a conversion that may panic. *)
Fixpoint map_all {A B} (f : A -> option B) (l : list A) : option (list B) :=
  match l with
  | [] => Some []
  | x :: l' => match f x, map_all f l' with Some y, Some ys => Some (y :: ys) | _, _ => None end
  end.
(** convert_tokens_utf16, src/wasm/tokenizer.rs:82-98. *)
Definition convert_tokens_utf16 (z : tokenization) : option (list xtoken) :=
  map_all (to_utf16_indices (utf16_new (tz_text z))) (tz_tokens z).
(** convert_errors_utf16, src/wasm/parsing.rs:114-133. *)
Definition convert_errors_utf16 (z : tokenization) (errors : list perr) : option (list perr) :=
  match errors with
  | [] => Some []
  | _ => map_all (error_to_utf16 (utf16_new (tz_text z))) errors
  end.

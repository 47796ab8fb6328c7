(** Strings.v -- model of the small string helpers: src/utf16.rs, src/parsing/string.rs,
    src/parsing/boolean.rs, src/parsing/element_condition.rs, src/id_prefix.rs,
    src/non_empty_vec.rs, src/render/html/escape.rs. *)
From Verif Require Import Base.

(** *** src/utf16.rs *)
(** Utf16IndexMap: src/utf16.rs:25-39.  The HashMap is an association list (last insert wins). *)
Definition utf16_map : Type := list (nat * nat).

(** The loop of Utf16IndexMap::new, src/utf16.rs:53-57: [char_indices] yields byte offsets. *)
Fixpoint utf16_loop (m : utf16_map) (i8 i16 : nat) (last : option nat) (text : str)
  : utf16_map * nat * option nat :=
  match text with
  | [] => (m, i16, last)
  | c :: rest =>
      utf16_loop ((i8, i16) :: m) (i8 + utf8_len c) (i16 + utf16_len c)
                 (Some (i8 + utf8_len c)) rest
  end.
(** Utf16IndexMap::new, src/utf16.rs:47-68. *)
Definition utf16_new (text : str) : utf16_map :=
  let '(m, i16, last) := utf16_loop [] 0 0 None text in
  match last with
  | Some i8 => (i8, i16) :: m
  | None => m
  end.
(** Utf16IndexMap::get_index, src/utf16.rs:76-78; [None] is the index panic. *)
Fixpoint get_index (m : utf16_map) (i : nat) : option nat :=
  match m with
  | [] => None
  | (k, v) :: m' => if Nat.eqb k i then Some v else get_index m' i
  end.

(** *** src/parsing/string.rs *)
(** escape_char, src/parsing/string.rs:113-124. *)
Definition ps_escape_char (c : char) : option char :=
  if ceqb c 92 then Some 92%N
  else if ceqb c 34 then Some 34%N
  else if ceqb c 39 then Some 39%N
  else if ceqb c 114 then Some 13%N
  else if ceqb c 110 then Some 10%N
  else if ceqb c 116 then Some 9%N 
  else None.
(** slice_middle, src/parsing/string.rs:96-111 (the slice bounds are byte offsets). *)
Definition slice_middle (input : str) : option (option str) :=
  if (blen input <? 2) || negb (starts_with [34%N] input) || negb (ends_with [34%N] input)
  then Some None
  else match bslice input 1 (blen input - 1) with
       | Some m => Some (Some m)
       | None => None   (* slicing panic *)
       end.
(** The loop of parse_string, src/parsing/string.rs:66-86. *)
Fixpoint ps_loop (wants : bool) (input : str) : str :=
  match input with
  | [] => []
  | c :: rest =>
      if wants then
        match ps_escape_char c with
        | Some r => r :: ps_loop false rest
        | None => 92%N :: c :: ps_loop false rest
        end
      else if ceqb c 92 then ps_loop true rest
      else c :: ps_loop false rest
  end.
(** parse_string, src/parsing/string.rs:38-89; [None] is a slicing panic. *)
Definition parse_string (input : str) : option str :=
  match slice_middle input with
  | None => None
  | Some None => Some input
  | Some (Some mid) => if cmem 92 mid then Some (ps_loop false mid) else Some mid
  end.

(** *** src/parsing/boolean.rs:22-42 *)
Definition BOOL_NAMES : list (str * bool) :=
  [ (lit "true", true); (lit "false", false); (lit "t", true); (lit "f", false);
    (lit "1", true); (lit "0", false); (lit "yes", true); (lit "no", false) ].
Fixpoint bool_lookup (l : list (str * bool)) (s : str) : option bool :=
  match l with
  | [] => None
  | (name, v) :: l' => if eq_nocase name s then Some v else bool_lookup l' s
  end.
Definition parse_boolean (s : str) : option bool := bool_lookup BOOL_NAMES (trim s).

(** *** src/parsing/element_condition.rs *)
Inductive ctype : Type := Required | Prohibited | Present.
Record condition : Type := Cond { c_type : ctype; c_value : str }.
(** get_spec, src/parsing/element_condition.rs:42-52. *)
Definition get_spec (value : str) : ctype * str :=
  match strip_prefix [43%N] value with
  | Some v => (Required, v)
  | None => match strip_prefix [45%N] value with
            | Some v => (Prohibited, v)
            | None => (Present, value)
            end
  end.
(** ElementCondition::parse, src/parsing/element_condition.rs:40-66. *)
Definition cond_parse (raw : str) : list condition :=
  map (fun s => let '(t, v) := get_spec s in Cond t v)
      (filter (fun s => match s with [] => false | _ => true end) (split_char 32 raw)).
(** The loop of ElementCondition::check, src/parsing/element_condition.rs:81-92:
    (required, prohibited, present, had_present). *)
Fixpoint cond_loop (values : list str) (cs : list condition) (st : bool * bool * bool * bool)
  : bool * bool * bool * bool :=
  match cs with
  | [] => st
  | c :: cs' =>
      let '(req, pro, pre, had) := st in
      let has := smem (c_value c) values in
      cond_loop values cs'
        match c_type c with
        | Required => (req && has, pro, pre, had)
        | Prohibited => (req, pro && negb has, pre, had)
        | Present => (req, pro, pre || has, true)
        end
  end.
(** ElementCondition::check, src/parsing/element_condition.rs:75-106. *)
Definition cond_check (cs : list condition) (values : list str) : bool :=
  let '(req, pro, pre, had) := cond_loop values cs (true, true, false, false) in
  let pre' := if negb had then true else pre in
  req && pro && pre'.

(** *** src/id_prefix.rs:29-48 *)
Fixpoint isolate_loop (acc : str) (words : list str) : str :=
  match words with
  | [] => acc
  | w :: ws =>
      let acc1 := match acc with [] => acc | _ => acc ++ [32%N] end in
      let acc2 := if starts_with (lit "u-") w then acc1 else acc1 ++ lit "u-" in
      isolate_loop (acc2 ++ w) ws
  end.
Definition isolate_ids (s : str) : str := isolate_loop [] (split_ws s).

(** *** src/non_empty_vec.rs:24-27 *)
Record nev (A : Type) : Type := NEV { nev_first : A; nev_others : list A }.
Arguments NEV {A}. Arguments nev_first {A}. Arguments nev_others {A}.
(** new, push, pop, last, len, is_single, From<NonEmptyVec> for Vec: src/non_empty_vec.rs:31-121. *)
Definition nev_new {A} (x : A) : nev A := NEV x [].
Definition nev_push {A} (v : nev A) (x : A) : nev A := NEV (nev_first v) (nev_others v ++ [x]).
Definition nev_pop {A} (v : nev A) : option A * nev A :=
  match rev (nev_others v) with
  | [] => (None, v)
  | x :: r => (Some x, NEV (nev_first v) (rev r))
  end.
Definition nev_last {A} (v : nev A) : A :=
  match rev (nev_others v) with [] => nev_first v | x :: _ => x end.
(** last_mut, src/non_empty_vec.rs:83-85: apply [f] to the last item in place. *)
Definition nev_update_last {A} (f : A -> A) (v : nev A) : nev A :=
  match rev (nev_others v) with
  | [] => NEV (f (nev_first v)) []
  | x :: r => NEV (nev_first v) (rev r ++ [f x])
  end.
Definition nev_len {A} (v : nev A) : nat := length (nev_others v) + 1.
Definition nev_is_single {A} (v : nev A) : bool := match nev_others v with [] => true | _ => false end.
Definition nev_to_list {A} (v : nev A) : list A := nev_first v :: nev_others v.

(** *** src/render/html/escape.rs *)
(** escape_char, src/render/html/escape.rs:21-31. *)
Definition escape_char (c : char) : option str :=
  if ceqb c 62 then Some (lit "&gt;")
  else if ceqb c 60 then Some (lit "&lt;")
  else if ceqb c 38 then Some (lit "&amp;")
  else if ceqb c 39 then Some (lit "&#39;")
  else if ceqb c 34 then Some (lit "&quot;")
  else if ceqb c 0 then Some (lit " ")
  else None.
(** escape, src/render/html/escape.rs:33-40 (the text appended to the buffer). *)
Fixpoint escape (s : str) : str :=
  match s with
  | [] => []
  | c :: r => match escape_char c with Some e => e ++ escape r | None => c :: escape r end
  end.

(** Includes.v -- model of src/includes/{mod,parse,include_ref}.rs, src/includes/grammar.pest and
    src/includes/includer/null.rs. *)
From Verif Require Import Base Links Regex Peg.

(** IncludeRef, src/includes/include_ref.rs:28-33.  The HashMap of variables is an association list
    with distinct keys. *)
Record include_ref : Type := IR { ir_page : page_ref; ir_vars : list (str * str) }.
Fixpoint vm_get (m : list (str * str)) (k : str) : option str :=
  match m with [] => None | (k', v) :: m' => if seqb k' k then Some v else vm_get m' k end.

(** *** src/includes/grammar.pest *)
Inductive irule : Type := I_include | I_argument | I_value | I_page_ref | I_identifier.
Section Grammar.
Notation peg := (Peg.peg irule).
(** grammar.pest:81-82 *)
Definition i_space : peg := PPlus (PAlts [PStr [32%N]; PStr [10%N]; PStr [9%N]]).
Definition i_identifier : peg := PRule I_identifier (PPlus (PAlts [ASCII_ALPHANUMERIC; PStr [45%N]; PStr [95%N]])).
(** grammar.pest:57-59 *)
Definition i_include_end : peg := PSeq (PStr (lit "]]")) (PAnd (PAlt NEWLINE PEnd)).
(** grammar.pest:67-69 *)
Definition i_value : peg := PRule I_value (PPlus (PSeq (PNot (PAlt i_include_end (PStr [124%N]))) ANY)).
(** grammar.pest:61-65 *)
Definition i_argument : peg :=
  PRule I_argument (PSeqs [i_identifier; POpt i_space; PStr [61%N]; POpt i_space; i_value]).
(** grammar.pest:73-77 *)
Definition i_site_name : peg :=
  PPlus (PSeq (PNot (PAlts [PStr [32%N]; PStr [10%N]; PStr [9%N]; PStr [91%N]; PStr [124%N]; PStr [93%N]; PStr [58%N]])) ANY).
Definition i_page_name : peg :=
  PPlus (PSeq (PNot (PAlts [PStr [32%N]; PStr [10%N]; PStr [9%N]; PStr [91%N]; PStr [124%N]; PStr [93%N]])) ANY).
Definition i_page_ref : peg :=
  PRule I_page_ref (PSeq (POpt (PSeqs [PStr [58%N]; i_site_name; PStr [58%N]])) i_page_name).
(** grammar.pest:34-55: include_normal and include_compatibility accept the same texts (the latter
    writes the same alternative twice); SOI is always true at the start. *)
Definition i_include (keyword : peg) : peg :=
  PRule I_include
    (PSeqs [PStr (lit "[["); POpt i_space; keyword; i_space; i_page_ref; POpt i_space;
            POpt (PSeq (PStr [124%N]) (POpt i_space));
            PStar (PSeqs [i_argument; POpt i_space; PStr [124%N]; POpt i_space]);
            POpt (PSeqs [i_argument; POpt i_space; POpt (PStr [124%N])]);
            POpt i_space; i_include_end]).
Definition i_normal : peg := i_include (PStrI (lit "include")).
Definition i_compat : peg := i_include (PAlt (PStrI (lit "include")) (PStrI (lit "include"))).
End Grammar.

(** *** src/includes/parse.rs *)
(** The loop of process_pairs, src/includes/parse.rs:90-133; [Panic] is a failed [expect]. *)
Fixpoint process_args (vars : list (str * str)) (ps : list (pair irule)) : outcome (list (str * str)) :=
  match ps with
  | [] => Good vars
  | p :: ps' =>
      match p_inner p with
      | k :: v :: _ =>
          let key := p_slice k in
          let value := p_slice v in
          let var_reference := lit "{$" ++ key ++ lit "}" in
          let present := match vm_get vars key with Some _ => true | None => false end in
          process_args (if negb present && negb (seqb value var_reference) then vars ++ [(key, value)] else vars) ps'
      | _ => Panic
      end
  end.
(** process_pairs, src/includes/parse.rs:82-136. *)
Definition process_pairs (ps : list (pair irule)) : outcome include_ref :=
  match ps with
  | [] => Bad
  | page_raw :: ps' =>
      match pr_parse (p_slice page_raw) with
      | Bad => Bad
      | Panic => Panic
      | Good page => match process_args [] ps' with
                     | Good vars => Good (IR page vars)
                     | Bad => Bad
                     | Panic => Panic
                     end
      end
  end.
(** parse_include_block, src/includes/parse.rs:51-79. *)
Definition parse_include_block (compat : bool) (text : str) (start : nat) : outcome (include_ref * nat) :=
  match bfrom text start with
  | None => Panic
  | Some s =>
      match run (if compat then i_compat else i_normal) 0 s with
      | None => Bad
      | Some ([], _, _) => Panic
      | Some (first :: _, _, _) =>
          match process_pairs (p_inner first) with
          | Good inc => Good (inc, start + p_end first)
          | Bad => Bad
          | Panic => Panic
          end
      end
  end.

(** *** src/includes/mod.rs *)
(** INCLUDE_REGEX, src/includes/mod.rs:42-49: multi-line, case-insensitive (no non-ASCII character
    case-folds to a letter of the keyword). *)
Definition INCLUDE_REGEX : re :=
  Seq BolM (Seq (ch 91) (Seq (ch 91) (Seq (Star true (Chr is_ws))
    (Seq (fold_right Seq Eps (map (fun c => Chr (fun x => ceqb (lower x) c)) (lit "include"))) (plus (Chr is_ws)))))).
(** VARIABLE_REGEX, src/includes/mod.rs:50-51; group 1 is "name". *)
Definition var_char (c : char) : bool := is_alnum c || ceqb c 95 || ceqb c 45.
Definition VARIABLE_REGEX : re := Seq (ch 123) (Seq (ch 36) (Seq (Grp 1 (plus (Chr var_char))) (ch 125))).

(** The matching loop of replace_variables, src/includes/mod.rs:167-177: value and byte range.
    Outer [None] is a panic. *)
Fixpoint collect_vars (content : str) (vars : list (str * str)) (ms : list rmatch) : option (list (str * (nat * nat))) :=
  match ms with
  | [] => Some []
  | m :: ms' =>
      match cap_get 1 (m_caps m) with
      | None => None
      | Some (a, b) =>
          match bslice content (byte_of content a) (byte_of content b), collect_vars content vars ms' with
          | Some name, Some rest =>
              Some (match vm_get vars name with
                    | Some v => (v, (byte_of content (m_start m), byte_of content (m_end m))) :: rest
                    | None => rest
                    end)
          | _, _ => None
          end
      end
  end.
Fixpoint replace_all (content : str) (l : list (str * (nat * nat))) : option str :=
  match l with
  | [] => Some content
  | (v, (a, b)) :: l' => match replace_range content a b v with
                         | Some c => replace_all c l'
                         | None => None
                         end
  end.
(** replace_variables, src/includes/mod.rs:165-186. *)
Definition replace_variables (content : str) (vars : list (str * str)) : option str :=
  match collect_vars content vars (find_iter VARIABLE_REGEX content) with
  | None => None
  | Some matches => replace_all content (rev matches)
  end.

(** The first loop of include, src/includes/mod.rs:81-98: ranges and includes. *)
Fixpoint find_includes (compat : bool) (text : str) (ms : list rmatch) : option (list (nat * nat * include_ref)) :=
  match ms with
  | [] => Some []
  | m :: ms' =>
      let start := byte_of text (m_start m) in
      match parse_include_block compat text start with
      | Panic => None
      | Bad => find_includes compat text ms'
      | Good (inc, e) => match find_includes compat text ms' with
                         | Some l => Some ((start, e, inc) :: l)
                         | None => None
                         end
      end
  end.
(** FetchedPage, src/includes/includer/mod.rs:39-44. *)
Record fetched : Type := FP { fp_page : page_ref; fp_content : option str }.
Definition ostr_eqb (a b : option str) : bool :=
  match a, b with Some x, Some y => seqb x y | None, None => true | _, _ => false end.
Definition pr_eqb (a b : page_ref) : bool := ostr_eqb (pr_site a) (pr_site b) && seqb (pr_page a) (pr_page b).

(** Result of include: the text and pages, an error, or a panic. *)
Inductive inc_res (E : Type) : Type :=
| IOk (output : str) (pages : list page_ref) | IErr (e : E) | IPanic.
Arguments IOk {E}. Arguments IErr {E}. Arguments IPanic {E}.

Section Include.
Variables (St E : Type).
(** trait Includer, src/includes/includer/mod.rs:46-62, with its mutable state. *)
Record includer : Type := Includer {
  include_pages : St -> list include_ref -> St * (list fetched + E);
  no_such_include : St -> page_ref -> St * (str + E) }.
Variable I : includer.
Variable invalid_return : E.

(** The substitution loop, src/includes/mod.rs:130-157, over the reversed zip. *)
Fixpoint subst_loop (st : St) (output : str) (pages : list page_ref)
  (l : list (nat * nat * include_ref * fetched)) : inc_res E :=
  match l with
  | [] => IOk output (rev pages)
  | (a, b, inc, f) :: l' =>
      if negb (pr_eqb (ir_page inc) (fp_page f)) then IErr invalid_return
      else
        let next st r :=
          match replace_range output a b r with
          | Some output' => subst_loop st output' (pages ++ [ir_page inc]) l'
          | None => IPanic
          end in
        match fp_content f with
        | Some content => match replace_variables content (ir_vars inc) with
                          | Some r => next st r
                          | None => IPanic
                          end
        | None => match no_such_include I st (ir_page inc) with
                  | (st', inl r) => next st' r
                  | (_, inr e) => IErr e
                  end
        end
  end.
(** include, src/includes/mod.rs:55-163. *)
Definition include (enable_page_syntax compat : bool) (st : St) (input : str) : inc_res E :=
  if negb enable_page_syntax then IOk input []
  else
    match find_includes compat input (find_iter INCLUDE_REGEX input) with
    | None => IPanic
    | Some blocks =>
        match include_pages I st (map snd blocks) with
        | (_, inr e) => IErr e
        | (st, inl pages) =>
            if negb (Nat.eqb (length blocks) (length pages)) then IErr invalid_return
            else subst_loop st input [] (rev (combine blocks pages))
        end
    end.
End Include.

(** NullIncluder, src/includes/includer/null.rs:25-46. *)
Definition NullIncluder {E} : includer unit E :=
  Includer unit E (fun st _ => (st, inl [])) (fun st _ => (st, inl [])).

(** ParseTestEnv.v -- the environment of the repository's AST tests, src/test/ast.rs:195-222 and
    src/test/includer.rs, for the generated ParseTests files.  The normalizer and the entity table
    here are small stand-ins covering the inputs of the tests. *)
From Verif Require Import Base Strings Links Attr Preproc Includes Lexer Depth Tree Text Toc PState Blocks Rules Parse.

Fixpoint assoc (l : list (str * str)) (k : str) : option str :=
  match l with [] => None | (a, b) :: l' => if seqb a k then Some b else assoc l' k end.
Definition T_INTERWIKI : list (str * str) :=
  [ (lit "wikipedia", lit "https://wikipedia.org/wiki/$$"); (lit "wp", lit "https://wikipedia.org/wiki/$$");
    (lit "commons", lit "https://commons.wikimedia.org/wiki/$$");
    (lit "google", lit "https://google.com/search?q=$$");
    (lit "duckduckgo", lit "https://duckduckgo.com/?q=$$"); (lit "ddg", lit "https://duckduckgo.com/?q=$$");
    (lit "dictionary", lit "https://dictionary.com/browse/$$");
    (lit "thesaurus", lit "https://thesaurus.com/browse/$$") ].
(** Lower case, other characters to single dashes, no dashes at the ends or next to a colon. *)
Fixpoint norm_aux (prev_dash : bool) (s : str) : str :=
  match s with
  | [] => []
  | c :: s' => let c := lower c in
               if is_alnum c || ceqb c 58 || ceqb c 95 then c :: norm_aux false s'
               else if prev_dash then norm_aux true s' else 45%N :: norm_aux true s'
  end.
Definition norm_part (s : str) : str :=
  let s := norm_aux true s in
  match rev s with c :: r => if ceqb c 45 then rev r else s | [] => [] end.
Definition test_normalize (s : str) : str := join [58%N] (map norm_part (split_char 58 s)).
Definition T_ENTITIES : list (str * str) :=
  [ (lit "amp", lit "&"); (lit "lt", lit "<"); (lit "gt", lit ">"); (lit "copy", [169%N]);
    (lit "hearts", [9829%N]); (lit "times", [215%N]); (lit "nbsp", [160%N]); (lit "frac12", [189%N]) ].
Definition test_env (t : str) : env :=
  ENV t true false (assoc T_INTERWIKI) (lit "test") [lit "fruit"; lit "component"] None true
      (fun c => is_alnum c || ceqb c 95) test_normalize (assoc T_ENTITIES)
      (fun _ => None) (fun _ => None) (fun _ _ => None) (fun _ => None).
Definition nl (s : str) : str := [10%N] ++ s ++ [10%N].
Definition test_source (r : page_ref) : option str :=
  match pr_site r with
  | Some _ => Some (lit "OFF-SITE INCLUDED PAGE")
  | None =>
      let p := pr_page r in
      if seqb p (lit "fruit") then Some (nl (lit "* Apple
* Banana
* Cherry"))
      else if seqb p (lit "component:basic") then Some (nl (lit "My name is __{$name}__:

[[blockquote]]
{$contents}
[[/blockquote]]"))
      else if seqb p (lit "component:fruit") then Some (nl (lit "[[div id=""fruit"" class=""{$class}""]]
  [[ul]]
    [[li]] {$apple} [[/li]]
    [[li]] {$banana} [[/li]]
  [[/ul]]
[[/div]]"))
      else if seqb p (lit "fragment:page") then Some (lit "INCLUDED FRAGMENT")
      else if seqb p (lit "missing") then None
      else Some (lit "INCLUDED PAGE")
  end.
Definition test_includer : includer unit unit :=
  Includer unit unit
    (fun st incs => (st, inl (map (fun i => FP (ir_page i) (test_source (ir_page i))) incs)))
    (fun st r => (st, inl (lit "[[div class=""wj-error""]]
No such page '" ++ pr_display r ++ lit "'
[[/div]]"))).
(** The tree with its length set to zero (the expected trees of the tests do not record it). *)
Definition run_test (input : str) : parse_outcome :=
  match include unit unit test_includer tt true true tt input with
  | IOk text _ =>
      match preprocess text with
      | Preproc.ROk text =>
          match extract_all text with
          | Some toks =>
              match parse (test_env text) toks with
              | Parsed t => Parsed (TREE (tr_elements t) (tr_toc t) (tr_html t) (tr_code t)
                                         (tr_footnotes t) (tr_bibs t) 0 (tr_errors t))
              | r => r
              end
          | None => ParseFuel
          end
      | _ => ParseFuel
      end
  | _ => ParseFuel
  end.

(** RenderTestEnv.v -- the environment of the repository's HTML tests, src/test/ast.rs:185-222, for
    the generated RenderTests files: page mode, site "test", page "page-NAME".  The random ids are
    the first six the seeded generator of the tests makes. *)
From Verif Require Import Base Strings Links Attr Preproc Includes Lexer Depth Tree Text Toc PState Blocks Rules Parse Html Render ParseTestEnv.

Definition T_IDS : list str :=
  map lit ["wj-id-bW5Ql2DLZtnd9s18"; "wj-id-ePZbhugrfP89c4Fk"; "wj-id-zgBl9StiqVAR2CHD";
           "wj-id-GmkUq22QVrVUmWfh"; "wj-id-Fivpa4fCYmumS0Zl"; "wj-id-Y1BswXrBTj6WDowv"]%string.
Definition test_renv (page : str) : renv :=
  RENV (lit "test") page true true true (fun c => is_alnum c || ceqb c 95) test_normalize
       (fun _ p => negb (seqb p (lit "missing"))) (fun n => nth n T_IDS (lit "wj-id-" ++ dec n))
       (fun s => CssOut s) None (fun _ => []) (fun _ => []) (fun _ => None).
Definition html_test (page input : str) : option str :=
  match run_test input with
  | Parsed t => match html_render (test_renv page) 10 t with Html body _ _ => Some body | _ => None end
  | _ => None
  end.

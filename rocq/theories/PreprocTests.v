(** PreprocTests.v -- the project's own unit tests for preproc, run on the model (tests, not proofs:
    they check the reading of the code). src/preproc/whitespace.rs:132-167, typography.rs:92-140. *)
From Verif Require Import Base Regex Preproc.
Definition nl : str := [10%N].
Definition cr : str := [13%N].
Definition tab : str := [9%N].
Example ws1 : ws_substitute (tab ++ lit "apple" ++ nl ++ tab ++ lit "banana" ++ tab ++ lit "cherry" ++ nl)
  = ROk (lit "    apple" ++ nl ++ lit "    banana    cherry").
Proof. vm_compute. reflexivity. Qed.
Example ws2 : ws_substitute (lit "newlines:" ++ cr ++ nl ++ lit "* apple" ++ cr ++ lit "* banana" ++ cr ++ nl ++ lit "cherry" ++ nl ++ cr ++ lit "* durian")
  = ROk (lit "newlines:" ++ nl ++ lit "* apple" ++ nl ++ lit "* banana" ++ nl ++ lit "cherry" ++ nl ++ nl ++ lit "* durian").
Proof. vm_compute. reflexivity. Qed.
Example ws3 : ws_substitute (lit "apple" ++ nl ++ lit "banana" ++ nl ++ nl ++ lit "cherry" ++ nl ++ nl ++ nl ++ lit "pineapple" ++ nl ++ nl ++ nl ++ nl ++ lit "strawberry" ++ nl ++ nl ++ nl ++ nl ++ nl ++ lit "blueberry" ++ nl ++ nl ++ nl)
  = ROk (lit "apple" ++ nl ++ lit "banana" ++ nl ++ nl ++ lit "cherry" ++ nl ++ nl ++ lit "pineapple" ++ nl ++ nl ++ lit "strawberry" ++ nl ++ nl ++ lit "blueberry").
Proof. vm_compute. reflexivity. Qed.
Example ws5 : ws_substitute (lit "concat:" ++ nl ++ lit "apple banana \" ++ nl ++ lit "Cherry\" ++ nl ++ lit "Pineapple \ grape" ++ nl ++ lit "blueberry" ++ nl)
  = ROk (lit "concat:" ++ nl ++ lit "apple banana CherryPineapple \ grape" ++ nl ++ lit "blueberry").
Proof. vm_compute. reflexivity. Qed.
Example ws6 : ws_substitute (lit "<" ++ nl ++ lit "        " ++ nl ++ lit "      " ++ nl ++ lit "  " ++ nl ++ lit "      " ++ nl ++ lit ">")
  = ROk (lit "<" ++ nl ++ nl ++ lit ">").
Proof. vm_compute. reflexivity. Qed.
Example ws7 : ws_substitute ([160; 160; 8199; 32]%N ++ lit "apple") = ROk (lit "    apple").
Proof. vm_compute. reflexivity. Qed.
Definition ell : str := [8230%N].
Example ty1 : ty_substitute (lit "John laughed. ``You'll never defeat me!''" ++ nl ++ lit "``That's where you're wrong...''")
  = ROk (lit "John laughed. " ++ [8220%N] ++ lit "You'll never defeat me!" ++ [8221%N] ++ nl ++ [8220%N] ++ lit "That's where you're wrong" ++ ell ++ [8221%N]).
Proof. vm_compute. reflexivity. Qed.
Example ty3 : ty_substitute (lit "**ENTITY MAKES DRAMATIC MOTION** . . . ") = ROk (lit "**ENTITY MAKES DRAMATIC MOTION** " ++ ell ++ lit " ").
Proof. vm_compute. reflexivity. Qed.
Example ty_dots : map ty_substitute
   [lit "Whales... they"; lit "Whales . . . they"; lit "...why"; lit ". . .why"; lit "how could you . . .";
    lit ". . .. ...."; lit "... . . . . . ."; lit ".... .."; lit ".........."; lit "... ... ..."; lit "... . . . ..."]
 = [ROk (lit "Whales" ++ ell ++ lit " they"); ROk (lit "Whales " ++ ell ++ lit " they"); ROk (ell ++ lit "why");
    ROk (ell ++ lit "why"); ROk (lit "how could you " ++ ell);
    ROk (lit ". . .. ...."); ROk (ell ++ lit " " ++ ell ++ lit " " ++ ell); ROk (lit ".... .."); ROk (lit "..........");
    ROk (ell ++ lit " " ++ ell ++ lit " " ++ ell); ROk (ell ++ lit " " ++ ell ++ lit " " ++ ell)].
Proof. vm_compute. reflexivity. Qed.

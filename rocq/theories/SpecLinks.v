(** SpecLinks.v -- specification vocabulary for URLs, page references and links. *)
From Verif Require Import Base.

(** A well-formed whitelisted absolute URL starts with one of these. *)
Definition safe_schemes : list str :=
  map lit ["blob:"; "chrome-extension://"; "chrome://"; "content://"; "dns:"; "feed:"; "file://";
           "ftp://"; "git://"; "gopher://"; "http://"; "https://"; "irc6://"; "irc://"; "ircs://";
           "mailto:"; "resource://"; "rtmp://"; "sftp://"]%string.

(** How a browser looks at a URL attribute before choosing the scheme (WHATWG URL parser): leading
    C0 control characters and spaces are stripped, tabs and newlines are removed everywhere, the
    scheme is compared without regard to ASCII case. *)
Definition browser_clean (u : str) : str :=
  filter (fun c => negb (cmem c [9; 10; 13]%N)) (drop_while (fun c => (c <=? 32)%N) u).
Definition browser_scheme_is (scheme u : str) : Prop :=
  exists rest, slower (browser_clean u) = scheme ++ [58%N] ++ rest.

(** "The part before the first colon". *)
Definition before_colon (u scheme rest : str) : Prop := u = scheme ++ 58%N :: rest /\ ~ In 58%N scheme.

(** All occurrences of "$$" replaced by [path], left to right. *)
Inductive dollars (path : str) : str -> str -> Prop :=
| dol_nil : dollars path [] []
| dol_hit s t : dollars path s t -> dollars path (36%N :: 36%N :: s) (path ++ t)
| dol_other c s t : (forall r, c :: s <> 36%N :: 36%N :: r) -> dollars path s t -> dollars path (c :: s) (c :: t).
Definition encode_spaces (s : str) : str :=
  flat_map (fun c => if ceqb c 32 then lit "%20" else [c]) s.

(** A text without white space at its ends. *)
Definition trimmed (s : str) : Prop :=
  (forall c r, s = c :: r -> is_ws c = false) /\ (forall c r, s = r ++ [c] -> is_ws c = false).
Definition all_ws (s : str) : Prop := Forall (fun c => is_ws c = true) s.

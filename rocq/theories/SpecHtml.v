(** SpecHtml.v -- what well-formed HTML text is, independent of the builder. *)
From Verif Require Import Base Strings Attr Html.

(** HTML void elements. *)
Definition void_tags : list str :=
  map lit ["area"; "base"; "br"; "col"; "embed"; "hr"; "img"; "input"; "link"; "meta"; "param";
           "source"; "track"; "wbr"]%string.
(** A tag name: letters, digits and hyphens. *)
Definition tag_name (s : str) : Prop := s <> [] /\ Forall (fun c => is_alnum c = true \/ c = 45%N) s.
(** An attribute name an HTML tokenizer reads as one name: not empty, no white space, no [/], [=],
    [>], [<], quotes or NUL. *)
Definition attr_name (s : str) : Prop :=
  s <> [] /\ Forall (fun c => is_ws c = false /\ ~ In c [47; 61; 62; 60; 34; 39; 0]%N) s.
(** Text of a double-quoted attribute value. *)
Definition attr_text (s : str) : Prop := Forall (fun c => ~ In c [34; 60; 62; 39; 0]%N) s.
(** One attribute: [ name] or [ name="text"]. *)
Inductive attribute : str -> str -> Prop :=
| at_bare k : attr_name k -> attribute k (32%N :: k)
| at_val k v : attr_name k -> attr_text v -> attribute k (32%N :: k ++ 61%N :: 34%N :: v ++ [34%N]).
Inductive attributes : list str -> str -> Prop :=
| ats_nil : attributes [] []
| ats_cons k a ks r : attribute k a -> attributes ks r -> attributes (k :: ks) (a ++ r).
(** Balanced markup: text without angle brackets, void tags, and matching pairs of tags around
    balanced markup.  No tag has two attributes of the same name. *)
Inductive balanced : str -> Prop :=
| bal_nil : balanced []
| bal_char c s : ~ In c [60; 62; 34; 39; 0]%N -> balanced s -> balanced (c :: s)
| bal_void tag ks a s : tag_name tag -> In tag void_tags -> attributes ks a -> NoDup ks -> balanced s ->
    balanced (60%N :: tag ++ a ++ 62%N :: s)
| bal_pair tag ks a inner s : tag_name tag -> ~ In tag void_tags -> attributes ks a -> NoDup ks ->
    balanced inner -> balanced s ->
    balanced (60%N :: tag ++ a ++ 62%N :: inner ++ 60%N :: 47%N :: tag ++ 62%N :: s).

(** The text of one attribute. *)
Definition single_text (kv : str * str) : str :=
  match snd kv with
  | [] => 32%N :: escape (fst kv)
  | v => 32%N :: escape (fst kv) ++ 61%N :: 34%N :: escape v ++ [34%N]
  end.

(** The attribute names one [attr] call of a renderer asks for. *)
Definition added_keys (a : added) : list str :=
  map fst (filter_entries a) ++ map fst (match ad_map a with Some m => m | None => [] end).
Definition nodup_added (a : added) : Prop :=
  NoDup (map fst (filter_entries a)) /\ NoDup (map fst (match ad_map a with Some m => m | None => [] end)).
Definition disjoint_added (a b : added) : Prop := forall k, In k (added_keys a) -> ~ In k (added_keys b).
(** A tree of builder calls with proper tag and attribute names, no name repeated by the renderer
    or in the user's map, no contents in void tags, and plain raw text. *)
Inductive well_named : node -> Prop :=
| wn_text s : well_named (NText s)
| wn_raw s : Forall (fun c => ~ In c [60; 62; 34; 39; 0]%N) s -> well_named (NRaw s)
| wn_tag t a c : tag_name t -> Forall nodup_added a -> ForallOrdPairs disjoint_added a ->
    Forall (fun x => Forall (fun k => attr_name (escape k)) (added_keys x)) a ->
    (In t void_tags -> c = None) ->
    (forall ns, c = Some ns -> Forall well_named ns) -> well_named (NTag t a c).

(** PropHtml.v -- properties C26, C27, C30, C46: attributes and HTML tags. *)
From Coq Require Import Permutation.
From Verif Require Import Base BaseLemmas Strings Links SpecLinks LinksLemmas Attr SpecAttr Html SpecHtml HtmlLemmas AttrLemmas.

(** C26: exactly which attributes get in and with which value.  [word] is the regex crate's [\w],
    [nz] wikidot_normalize::normalize, both arbitrary.  The keys of an argument map are pairwise
    different up to ASCII case (see C26_arguments_distinct).  "_partial": the full claim also says
    that what follows data-/aria- is letters, digits and hyphens, which is false (next theorem). *)
Theorem C26_attribute_map_partial : forall word nz args,
  NoDup (map (fun kv => slower (fst kv)) args) ->
  exists m, from_arguments word nz [] args = Some m /\ NoDup (map fst m) /\
    forall k w, In (k, w) m <->
      exists k0 v, In (k0, v) args /\ (In (slower k0) safe_names \/ prefixed_name k0) /\ k = slower k0 /\
        attr_result (normalize_href word nz) k0 v (Some w).
Proof.
  intros word nz args Hd. destruct (from_arguments_spec word nz args [] Hd ltac:(constructor) ltac:(auto)) as (m & E & Sm & Hm).
  exists m. split; auto. split; [apply sorted_NoDup; auto|]. intros k w. rewrite Hm. split; auto. intros [[]|H]; auto.
Qed.
Print Assumptions C26_attribute_map_partial.
(** C26 (full claim, false): the suffix check is not anchored, so a name with a space, an equals
    sign or angle brackets after [data-] is accepted. *)
Theorem C26_suffix_unchecked_refuted : forall r, is_safe_attribute (lit "data-" ++ r) = true.
Proof. intro r. apply is_safe_iff. right. exists r. auto. Qed.
Print Assumptions C26_suffix_unchecked_refuted.
Theorem C26_arguments_distinct : forall m k v, NoDup (map (fun kv => slower (fst kv)) m) ->
  NoDup (map (fun kv => slower (fst kv)) (args_insert m k v)).
Proof. exact args_insert_distinct. Qed.
Print Assumptions C26_arguments_distinct.
(** Hence href and src never carry a script URL (with C24). *)
Theorem C26_urls_normalised : forall word nz args m k w,
  NoDup (map (fun kv => slower (fst kv)) args) ->
  from_arguments word nz [] args = Some m -> In (k, w) m -> k = lit "href" \/ k = lit "src" ->
  exists v, normalize_href word nz v = Some w.
Proof.
  intros word nz args m k w Hd E Hin Hk. destruct (C26_attribute_map_partial word nz args Hd) as (m' & E' & _ & Hm).
  rewrite E in E'. injection E' as <-. apply Hm in Hin as (k0 & v & _ & _ & -> & Hr).
  assert (Hu : In (slower k0) url_names) by (destruct Hk as [->| ->]; vm_compute; auto).
  inversion Hr; subst; eauto; try tauto. exfalso; eapply url_bool_disj; eauto.
Qed.
Print Assumptions C26_urls_normalised.
Example C26_case : from_arguments is_alnum (fun s => s) []
   [(lit "Checked", lit "YES"); (lit "onclick", lit "x"); (lit "HREF", lit "javascript:alert(1)"); (lit "hidden", lit "no");
    (lit "data-a b", lit "q"); (lit "DATA-x", lit "q"); (lit "class", lit "c")]
  = Some [(lit "checked", []); (lit "class", lit "c"); (lit "data-a b", lit "q"); (lit "href", lit "#invalid-url")].
Proof. vm_compute. reflexivity. Qed.

(** C27: no attribute whose name starts with "on" in any case is accepted. *)
Theorem C27_no_event_handlers : forall k r, slower k = lit "on" ++ r -> is_safe_attribute k = false.
Proof.
  intros k r E. apply not_true_iff_false. intro H. apply is_safe_iff in H as [H|(q & [->| ->])].
  - assert (Hall : forallb (fun x => negb (starts_with (lit "on") x)) safe_names = true) by (vm_compute; reflexivity).
    rewrite forallb_forall in Hall. apply Hall in H. rewrite E in H.
    assert (starts_with (lit "on") (lit "on" ++ r) = true) by (apply starts_with_iff; eauto). rewrite H0 in H. discriminate.
  - rewrite slower_app in E. discriminate E.
  - rewrite slower_app in E. discriminate E.
Qed.
Print Assumptions C27_no_event_handlers.
Theorem C27_map_has_no_event_handlers : forall word nz args m k w,
  NoDup (map (fun kv => slower (fst kv)) args) ->
  from_arguments word nz [] args = Some m -> In (k, w) m -> forall r, k <> lit "on" ++ r.
Proof.
  intros word nz args m k w Hd E Hin r Ek. destruct (C26_attribute_map_partial word nz args Hd) as (m' & E' & _ & Hm).
  rewrite E in E'. injection E' as <-. apply Hm in Hin as (k0 & v & _ & Ha & -> & _).
  apply is_safe_iff in Ha. rewrite (C27_no_event_handlers _ _ Ek) in Ha. discriminate.
Qed.
Print Assumptions C27_map_has_no_event_handlers.
Example C27_case : is_safe_attribute (lit "OnMouseOver") = false /\ is_safe_attribute (lit "Title") = true.
Proof. split; reflexivity. Qed.

(** C46: the attribute map does not depend on the order the argument hash map is iterated in. *)
Theorem C46_hash_order_irrelevant : forall word nz args args',
  NoDup (map (fun kv => slower (fst kv)) args) -> Permutation args args' ->
  from_arguments word nz [] args = from_arguments word nz [] args'.
Proof. exact from_arguments_perm. Qed.
Print Assumptions C46_hash_order_irrelevant.
Example C46_case : from_arguments is_alnum (fun s => s) [] [(lit "id", lit "a"); (lit "class", lit "b")]
  = from_arguments is_alnum (fun s => s) [] [(lit "class", lit "b"); (lit "id", lit "a")].
Proof. reflexivity. Qed.

(** C30: whatever a renderer writes through the builder, if tags and attribute names are proper
    names, a tag's attribute names are distinct, and void tags get no contents, the writes do not
    panic and what is appended to the buffer is balanced HTML. *)
Theorem C30_builder_balanced : forall ns buf, Forall well_named ns ->
  exists out, write_nodes buf ns = Some (buf ++ out) /\ balanced out.
Proof. intros. apply write_nodes_balanced; auto. Qed.
Print Assumptions C30_builder_balanced.
(** C30: the name/value pairs one [attr] call writes.  Each name once; a name given by both sides
    has the renderer's value first, then a space, then the user's. *)
Theorem C30_attr_pairs : forall b entries umap,
  NoDup (map fst entries) -> NoDup (map fst umap) ->
  exists pairs,
    attr b (Added (map (fun e => (e, true)) entries) (Some umap))
      = set_buf b (bt_buf b ++ flat_map single_text pairs) /\
    NoDup (map fst pairs) /\
    forall k v, In (k, v) pairs <->
      (exists p u, In (k, p) entries /\ In (k, u) umap /\ v = concat p ++ [32%N] ++ u) \/
      (exists p, In (k, p) entries /\ ~ In k (map fst umap) /\ v = concat p) \/
      (In (k, v) umap /\ ~ In k (map fst entries)).
Proof.
  intros b entries umap He Hm.
  assert (Ef : filter_entries (Added (map (fun e => (e, true)) entries) (Some umap)) = entries).
  { unfold filter_entries. cbn [ad_entries]. clear. induction entries as [|e es IH]; cbn; congruence. }
  exists (attr_pairs (Added (map (fun e => (e, true)) entries) (Some umap))). split; [apply attr_eq|]. split.
  - apply attr_pairs_NoDup; [rewrite Ef|]; auto.
  - intros k v. rewrite attr_pairs_In by auto. rewrite Ef. reflexivity.
Qed.
Print Assumptions C30_attr_pairs.
Example C30_case : write_nodes [] [NTag (lit "div")
    [Added [(lit "class", [lit "wj-x"], true); (lit "hidden", [], false)] (Some [(lit "class", lit "a<b"); (lit "id", lit "u-1")])]
    (Some [NText (lit "a<b"); NTag (lit "br") [] None])]
  = Some ([60%N] ++ lit "div class=" ++ [34%N] ++ lit "wj-x a&lt;b" ++ [34%N] ++ lit " id=" ++ [34%N] ++ lit "u-1" ++ [34%N]
          ++ lit ">a&lt;b<br></div>").
Proof. vm_compute. reflexivity. Qed.
Example C30_case_named : Forall well_named [NTag (lit "div")
    [Added [(lit "class", [lit "wj-x"], true); (lit "hidden", [], false)] (Some [(lit "class", lit "a<b"); (lit "id", lit "u-1")])]
    (Some [NText (lit "a<b"); NTag (lit "br") [] None])].
Proof.
  assert (T : forall s, forallb (fun c => is_alnum c || ceqb c 45) s = true -> s <> [] -> tag_name s).
  { intros s H Hn. split; auto. apply Forall_forall. intros c Hc. rewrite forallb_forall in H. apply H in Hc.
    apply orb_true_iff in Hc. rewrite ceqb_eq in Hc. auto. }
  constructor; [|constructor]. apply wn_tag.
  - apply T; [reflexivity|discriminate].
  - constructor; [|constructor]. split; cbn; repeat constructor; cbn; intuition discriminate.
  - repeat constructor.
  - constructor; [|constructor]. cbn [added_keys filter_entries ad_entries ad_map filter map fst snd app].
    repeat (constructor; [split; [discriminate|repeat (constructor; [split; [reflexivity|cbn; intuition discriminate]|]); constructor]|]).
    constructor.
  - intro X. exfalso. vm_compute in X. intuition discriminate.
  - intros ns [= <-]. constructor; [constructor|]. constructor; [|constructor]. apply wn_tag; try constructor; try discriminate; auto; repeat constructor; vm_compute; auto.

Qed.

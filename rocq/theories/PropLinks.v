(** PropLinks.v -- properties C23, C24, C25, C42, C43. *)
From Verif Require Import Base BaseLemmas Links SpecLinks LinksLemmas.

(** C24: whatever the page-name normaliser does, the result of normalize_href (it never panics) is
    a URL with a whitelisted scheme, a fragment, the no-op literal, or a path starting with "/". *)
Theorem C24_href_shape : forall word normalize url,
  exists v, normalize_href word normalize url = Some v /\
    ((exists sc r, In sc safe_schemes /\ v = sc ++ r) \/ (exists r, v = 35%N :: r)
     \/ v = lit "javascript:;" \/ exists r, v = 47%N :: r).
Proof.
  intros word nz u. destruct (normalize_href_total word nz u) as (v & E & H). exists v. split; auto.
  destruct H as [[-> [H|[H|H]]]|[->|H]]; auto. right. left. eexists. reflexivity.
Qed.
Print Assumptions C24_href_shape.
(** C24: so a browser never finds a javascript: or data: URL in it, except the no-op literal. *)
Theorem C24_no_script_url : forall word normalize url v, normalize_href word normalize url = Some v ->
  v = lit "javascript:;" \/ (~ browser_scheme_is (lit "javascript") v /\ ~ browser_scheme_is (lit "data") v).
Proof.
  intros word nz u v H. destruct (C24_href_shape word nz u) as (v' & E & Hv). rewrite H in E. injection E as <-.
  destruct Hv as [(sc & r & Hin & ->)|[(r & ->)|[Hv|(r & ->)]]]; auto; right.
  - pose proof safe_scheme_facts as F. rewrite Forall_forall in F. destruct (F _ Hin) as (F1 & F2 & a & b & Ea & Ha & F3 & F4).
    split; apply no_browser_scheme; auto; try (cbn; intuition discriminate); left; exists a, b; auto.
  - split; apply (no_browser_scheme [35%N] r); try (repeat constructor; reflexivity); try discriminate;
      try (cbn; intuition discriminate); right; exists 35%N, []; split; auto; intros t E; discriminate E.
  - split; apply (no_browser_scheme [47%N] r); try (repeat constructor; reflexivity); try discriminate;
      try (cbn; intuition discriminate); right; exists 47%N, []; split; auto; intros t E; discriminate E.
Qed.
Print Assumptions C24_no_script_url.
Example C24_case : normalize_href is_alnum (fun s => slower s) (lit "Some Page/edit#x") = Some (lit "/some page/edit#x")
  /\ normalize_href is_alnum (fun s => s) (lit "JavaScript:alert(1)") = Some (lit "#invalid-url")
  /\ normalize_href is_alnum (fun s => s) (lit "https://a.b/#c") = Some (lit "https://a.b/#c").
Proof. repeat split. Qed.
(** Note: nothing keeps a protocol-relative reference to another host out. *)
Example C24_protocol_relative : normalize_href is_alnum (fun s => s) (lit "//evil.example/x") = Some (lit "//evil.example/x").
Proof. reflexivity. Qed.

(** C25: exact characterisation; [word] is the regex crate's [\w]. *)
Theorem C25_dangerous_iff : forall word u, dangerous_scheme word u = true <->
  exists scheme rest, before_colon u scheme rest /\
    (~ (scheme <> [] /\ Forall (fun c => word c = true \/ c = 45%N) scheme)
     \/ slower scheme = lit "javascript" \/ slower scheme = lit "data").
Proof. exact dangerous_iff. Qed.
Print Assumptions C25_dangerous_iff.
Example C25_case : map (dangerous_scheme (fun c => is_alnum c || ceqb c 95))
   [lit "JaVaScRiPt:x"; lit "java script:x"; lit "data:"; lit ":x"; lit "category:page"; lit "plain"]
   = [true; true; true; true; false; false].
Proof. reflexivity. Qed.

(** C23: parse succeeds exactly on the documented forms; no panic. *)
Theorem C23_parse_spec : forall s,
  (all_ws s -> pr_parse s = Bad) /\
  (forall l t r, s = l ++ t ++ r -> all_ws l -> all_ws r -> t <> [] -> trimmed t ->
     (forall u, t <> 58%N :: u) -> pr_parse s = Good (PR None t)) /\
  (forall l t r, s = l ++ t ++ r -> all_ws l -> all_ws r -> t <> [] -> trimmed t ->
     forall u, t = 58%N :: u -> ~ In 58%N u -> pr_parse s = Bad) /\
  (forall l t r, s = l ++ t ++ r -> all_ws l -> all_ws r -> t <> [] -> trimmed t ->
     forall site page, t = 58%N :: site ++ 58%N :: page -> ~ In 58%N site ->
       pr_parse s = match site with [] => Bad | _ => Good (PR (Some (trim site)) (trim page)) end).
Proof.
  intro s. assert (K : forall l t r, s = l ++ t ++ r -> all_ws l -> all_ws r -> t <> [] -> trimmed t -> trim s = t).
  { intros l t r -> Hl Hr Hn [H1 H2]. apply trim_unique; auto; apply forallb_forall; apply Forall_forall; auto. }
  rewrite pr_parse_spec. cbn zeta. repeat split.
  - intro H. destruct (trim_spec s) as (a & b & E & _). destruct (trim s) as [|c u] eqn:Et; auto. exfalso.
    assert (Hc : is_ws c = false) by (eapply trim_head; eauto). unfold all_ws in H. rewrite Forall_forall in H.
    rewrite H in Hc; [discriminate|]. rewrite E, !in_app_iff. right. left. left. auto.
  - intros l t r Es Hl Hr Hn Ht Hu. rewrite (K _ _ _ Es) by auto. destruct t as [|c u]; [contradiction|].
    destruct (ceqb c 58) eqn:E; auto. apply ceqb_eq in E as ->. exfalso. eapply Hu; eauto.
  - intros l t r Es Hl Hr Hn Ht u -> Hu. rewrite (K _ _ _ Es) by auto. rewrite ceqb_refl.
    apply split_once_none in Hu. rewrite Hu. reflexivity.
  - intros l t r Es Hl Hr Hn Ht site page -> Hu. rewrite (K _ _ _ Es) by auto. rewrite ceqb_refl.
    assert (split_once 58 (site ++ 58%N :: page) = Some (site, page)) as -> by (apply split_once_some; auto).
    destruct site; reflexivity.
Qed.
Print Assumptions C23_parse_spec.
(** C23: round trip, unless the site name is white space only (then the site is empty). *)
Theorem C23_roundtrip_partial : forall s r, pr_parse s = Good r -> pr_site r <> Some [] ->
  pr_parse (pr_display r) = Good r.
Proof. exact pr_roundtrip. Qed.
Print Assumptions C23_roundtrip_partial.
(** C23 (full claim, false): [": :page"] parses to a reference whose display does not parse. *)
Theorem C23_roundtrip_refuted : exists s r, pr_parse s = Good r /\ pr_parse (pr_display r) = Bad.
Proof. exists (lit ": :page"), (PR (Some []) (lit "page")). split; reflexivity. Qed.
Print Assumptions C23_roundtrip_refuted.
Example C23_case : pr_parse (lit " :scp-wiki : component:x ") = Good (PR (Some (lit "scp-wiki")) (lit "component:x"))
  /\ pr_display (PR (Some (lit "scp-wiki")) (lit "component:x")) = lit ":scp-wiki:component:x".
Proof. split; reflexivity. Qed.

(** C42: exactly when and what interwiki links resolve to; termination and no panic included
    (the result is [Good] or [Bad], never [Panic]). *)
Theorem C42_interwiki : forall get link url, iw_build get link = Good url <->
  exists prefix path template u,
    link = prefix ++ [58%N] ++ path /\ ~ In 58%N prefix /\ prefix <> [] /\ path <> [] /\
    get prefix = Some template /\ dollars path template u /\ url = encode_spaces u.
Proof.
  intros get link url. rewrite iw_build_spec. split.
  - destruct (split_once 58 link) as [[a b]|] eqn:E; [|discriminate]. apply split_once_some in E as [-> Hn].
    destruct a as [|c a]; [discriminate|]. destruct b as [|d b]; [discriminate|].
    destruct (get (c :: a)) as [t|] eqn:Eg; [|discriminate]. intros [= <-].
    exists (c :: a), (d :: b), t, (str_replace (lit "$$") (d :: b) t). repeat split; auto; try discriminate.
    apply dollars_replace. reflexivity.
  - intros (a & b & t & u & -> & Hn & Ha & Hb & Eg & Hd & ->). cbn [app].
    assert (split_once 58 (a ++ 58%N :: b) = Some (a, b)) as -> by (apply split_once_some; auto).
    destruct a as [|c a]; [contradiction|]. destruct b as [|d b]; [contradiction|].
    rewrite Eg. apply dollars_replace in Hd. rewrite Hd. reflexivity.
Qed.
Print Assumptions C42_interwiki.
Theorem C42_interwiki_never_panics : forall get link, iw_build get link <> Panic.
Proof.
  intros get link. rewrite iw_build_spec. destruct (split_once 58 link) as [[a b]|]; [|discriminate].
  destruct a; [discriminate|]. destruct b; [discriminate|]. destruct (get _); discriminate.
Qed.
Print Assumptions C42_interwiki_never_panics.
Theorem C42_interwiki_no_space : forall get link url, iw_build get link = Good url -> ~ In 32%N url.
Proof.
  intros get link url H. apply C42_interwiki in H as (a & b & t & u & _ & _ & _ & _ & _ & _ & ->).
  unfold encode_spaces. intro Hin. apply in_flat_map in Hin as (c & _ & Hc).
  destruct (ceqb c 32) eqn:E; cbn in Hc.
  - intuition discriminate.
  - destruct Hc as [->|[]]. discriminate E.
Qed.
Print Assumptions C42_interwiki_no_space.
Example C42_case : iw_build (fun p => if seqb p (lit "wp") then Some (lit "https://wp.org/$$?q=$$") else None)
  (lit "wp:A b:c") = Good (lit "https://wp.org/A%20b:c?q=A%20b:c").
Proof. reflexivity. Qed.

(** C43: for a link that is not a URL, fragment or absolute path: it is [seg ++ extra], where
    [seg] stops before the first "#" or "/", the location is the page [seg] names (or the URL [seg]
    if it is no page reference) and parse_extra returns exactly [extra]. *)
Theorem C43_link_split : forall link,
  ~ (exists sc r, In sc safe_schemes /\ link = sc ++ r) ->
  (forall r, link <> 35%N :: r) -> (forall r, link <> 47%N :: r) ->
  exists seg extra, link = seg ++ extra /\ ~ In 35%N seg /\ ~ In 47%N seg /\
    (extra = [] \/ exists r, extra = 35%N :: r \/ extra = 47%N :: r) /\
    link_parse_extra link = Some (match extra with [] => None | _ => Some extra end) /\
    link_parse link = match pr_parse seg with
                      | Good r => Good (LPage r) | Bad => Good (LUrl seg) | Panic => Panic end.
Proof.
  intros link H1 H2 H3.
  assert (E : is_url link || starts_with [35%N] link || starts_with [47%N] link = false).
  { apply orb_false_iff; split; [apply orb_false_iff; split|]; apply not_true_iff_false; intro X.
    - apply H1, is_url_iff, X.
    - apply starts_with_iff in X as [r X]. eapply H2; eauto.
    - apply starts_with_iff in X as [r X]. eapply H3; eauto. }
  exists (take_while (fun c => negb (sharp_slash c)) link), (drop_while (fun c => negb (sharp_slash c)) link).
  pose proof (take_while_all (fun c => negb (sharp_slash c)) link) as Ht. rewrite forallb_forall in Ht.
  split; [symmetry; apply take_drop_while|]. split; [intro X; apply Ht in X; discriminate|].
  split; [intro X; apply Ht in X; discriminate|]. split; [|split].
  - destruct (drop_while (fun c => negb (sharp_slash c)) link) as [|c r] eqn:Ed; auto. right. exists r.
    apply drop_while_head in Ed. unfold sharp_slash in Ed. apply negb_false_iff, orb_true_iff in Ed.
    rewrite !ceqb_eq in Ed. destruct Ed as [->| ->]; auto.
  - unfold link_parse_extra. rewrite E. pose proof (extra_path link) as X.
    destruct (splitn2 35 link) as [|a0 ar]; [discriminate|]. destruct (splitn2 47 a0) as [|p0 pr]; [discriminate|].
    apply (f_equal (fun o => match o with Some x => x | None => [] end)) in X. cbn beta iota in X. cbv zeta. rewrite X. destruct (drop_while _ link); reflexivity.
  - unfold link_parse. rewrite E. destruct (split_char_head 35 link) as [l1 ->].
    destruct (split_char_head 47 (take_while (fun c => negb (ceqb c 35)) link)) as [l2 ->].
    rewrite take_while_twice. destruct (pr_parse _); reflexivity.
Qed.
Print Assumptions C43_link_split.
Example C43_case : link_parse (lit "component:x/edit#top") = Good (LPage (PR None (lit "component:x")))
  /\ link_parse_extra (lit "component:x/edit#top") = Some (Some (lit "/edit#top")).
Proof. split; reflexivity. Qed.

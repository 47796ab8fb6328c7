(** BlocksLinks.v -- what the addresses of the links of SpecBlocks.v mean. *)
From Verif Require Import Base BaseLemmas Strings StringsLemmas SpecStrings Links SpecLinks LinksLemmas PropLinks Lexer Attr Tree PState Rules ParseInv VerbatimLex BlocksLex BlocksParse.
From Verif Require Import SpecBlocks.
Lemma visible_ws c : visible c -> is_ws c = false.
Proof. unfold visible. intro H. unfold is_ws. repeat (apply orb_false_iff; split); try (apply N.eqb_neq; lia); apply andb_false_iff; first [left; apply N.leb_gt; lia|right; apply N.leb_gt; lia]. Qed.
Lemma value_trim v : value v -> trim v = v.
Proof. intros (_ & H1 & H2). apply trim_id; intros c r E1; apply visible_ws; eauto. Qed.
Lemma letters_visible e c : letters e -> In c e -> visible c.
Proof. intros [_ H] Hc. specialize (H c Hc). unfold visible. unfold is_alnum, is_alpha, is_digit, is_upper, is_lower in H. repeat (apply orb_true_iff in H as [H|H]); apply andb_true_iff in H as [H1 H2]; apply N.leb_le in H1, H2; lia. Qed.
Lemma letters_value_ e : letters e -> value e.
Proof. intro H. unfold value, plain. split; [|split]; [split; [apply H|apply letters_value; auto]|intros c r ->; eapply letters_visible; [exact H|left; auto]|intros c r ->; eapply letters_visible; [exact H|apply in_or_app; right; left; auto]]. Qed.
Lemma plain_not_in s c : plain_in s -> In c special -> ~ In c alone -> ~ In c s.
Proof. intros H Hs Ha Hi. apply in_split in Hi as (a & b & ->). destruct (H a c b eq_refl) as [X|[X _]]; auto. Qed.
Lemma value_no_colon s : value s -> ~ In 58%N s.
Proof. intro H. apply plain_not_in; [apply value_plain; auto|vm_compute; tauto|vm_compute; intuition discriminate]. Qed.
Lemma value_no_sharp s : value s -> ~ In 35%N s.
Proof. intro H. apply plain_not_in; [apply value_plain; auto|vm_compute; tauto|vm_compute; intuition discriminate]. Qed.
Lemma letters_not s c : letters s -> is_alnum c = false -> ~ In c s. Proof. intros [_ H] Hc Hi. specialize (H c Hi). congruence. Qed.
Definition site_part (p : page) : str := match on_site p with Some s => lit ":" ++ s ++ lit ":" | None => [] end.
Lemma source_split p : page_source p = (site_part p ++ full_name p) ++ more_of p. Proof. unfold page_source, site_part. rewrite <- app_assoc. reflexivity. Qed.
Lemma part_no p c : good_page_name p -> c = 35%N \/ c = 47%N -> ~ In c (site_part p ++ full_name p).
Proof.
  intros (Hn & Hsl & Hs & Hc & _) Hx Hi. assert (Ha : is_alnum c = false) by (destruct Hx as [-> | ->]; reflexivity). assert (Hc58 : c <> 58%N) by (destruct Hx; subst; discriminate).
  unfold site_part, full_name, before_sign in Hi. rewrite !in_app_iff in Hi. destruct Hi as [Hi|[Hi|Hi]].
  - destruct (on_site p) as [s|]; [|destruct Hi]. rewrite !in_app_iff in Hi. cbn in Hi. destruct Hi as [[Hi|[]]|[Hi|[Hi|[]]]]; try (symmetry in Hi; contradiction). eapply letters_not; [apply (Hs s eq_refl)| |]; eauto.
  - destruct (category p) as [s|]; [|destruct Hi]. rewrite !in_app_iff in Hi. cbn in Hi. destruct Hi as [Hi|[Hi|[]]]; try (symmetry in Hi; contradiction). eapply letters_not; [apply (Hc s eq_refl)| |]; eauto.
  - destruct Hx as [-> | ->]; [apply value_no_sharp in Hn; contradiction|contradiction].
Qed.
Lemma more_cases p : more_of p = [] \/ exists r, more_of p = 35%N :: r \/ more_of p = 47%N :: r.
Proof. unfold more_of, after. destruct (path p); [right; eexists; right; reflexivity|]. destruct (spot p); [right; eexists; left; reflexivity|]. auto. Qed.
Lemma cut_unique (a b c d : str) : a ++ b = c ++ d -> ~ In 35%N a -> ~ In 47%N a -> ~ In 35%N c -> ~ In 47%N c -> (b = [] \/ exists r, b = 35%N :: r \/ b = 47%N :: r) -> (d = [] \/ exists r, d = 35%N :: r \/ d = 47%N :: r) -> a = c /\ b = d.
Proof.
  intros H A1 A2 C1 C2 Hb Hd. destruct (run_prefix (fun x => negb (ceqb x 35) && negb (ceqb x 47)) a b c d H) as [-> ->]; auto.
  - apply Forall_forall. intros x Hx. rewrite andb_true_iff, !negb_true_iff, !ceqb_neq. split; intros ->; contradiction.
  - apply Forall_forall. intros x Hx. rewrite andb_true_iff, !negb_true_iff, !ceqb_neq. split; intros ->; contradiction.
  - destruct Hb as [->|[r [-> | ->]]]; [exact I|reflexivity|reflexivity].
  - destruct Hd as [->|[r [-> | ->]]]; [exact I|reflexivity|reflexivity].
Qed.
Lemma name_first p : good_page_name p -> exists c r, page_name p = c :: r /\ ~ In c [35; 47; 58]%N /\ visible c.
Proof.
  intros (Hn & Hsl & _). destruct (plain_first_not (page_name p)) as (c & r & Hc & Hx); [apply Hn|]. exists c, r. conj; auto.
  - intro H. apply Hsl. rewrite Hc. left. cbn in H, Hx. intuition congruence.
  - destruct Hn as (_ & Hn & _). eauto.
Qed.
(** Not an address with a scheme. *)
Lemma scheme_parts : forallb (fun sc => match split_once 58 sc with Some (a, b) => match b with [] => existsb (seqb a) schemes && seqb (slower a) a | c :: _ => ceqb c 47 end | None => false end) safe_schemes = true.
Proof. vm_compute. reflexivity. Qed.
Lemma no_scheme p m : good_page_name p -> on_site p = None -> ~ In 58%N m -> ~ exists sc r, In sc safe_schemes /\ full_name p ++ m = sc ++ r.
Proof.
  intros Hg Hs Hm (sc & r & Hi & E). destruct (name_first p Hg) as (c & n & Hn & Hc & _). destruct Hg as (Hv & _ & _ & Hcat & _).
  assert (Hnc : ~ In 58%N (page_name p ++ m)) by (intro X; apply in_app_or in X as [X|X]; [apply value_no_colon in Hv|]; contradiction).
  pose proof scheme_parts as H. rewrite forallb_forall in H. specialize (H sc Hi). destruct (split_once 58 sc) as [[a b]|] eqn:Es; [|discriminate]. apply split_once_some in Es as [-> Ha].
  unfold full_name, before_sign in E. destruct (category p) as [k|].
  - destruct (Hcat k eq_refl) as [Hk Hsch]. specialize (Hsch Hs). assert (Hk58 : ~ In 58%N k) by (apply letters_not; auto). rewrite <- !app_assoc in E. cbn [app] in E. change (lit ":" ++ page_name p ++ m) with (58%N :: page_name p ++ m) in E.
    assert (E2 : split_once 58 (k ++ 58%N :: page_name p ++ m) = split_once 58 (a ++ 58%N :: b ++ r)) by (rewrite E; reflexivity).
    rewrite (proj2 (split_once_some 58 _ k (page_name p ++ m))) in E2 by auto. rewrite (proj2 (split_once_some 58 _ a (b ++ r))) in E2 by auto. injection E2 as -> E2. destruct b as [|d b].
    + apply andb_true_iff in H as [H1 H2]. apply seqb_eq in H2. apply Hsch. rewrite H2. apply existsb_exists in H1 as (x & Hx & E3). apply seqb_eq in E3. subst x. exact Hx.
    + apply ceqb_eq in H. subst d. rewrite Hn in E2. injection E2 as -> _. apply Hc. cbn. tauto.
  - cbn [app] in E. apply Hnc. rewrite E. rewrite <- app_assoc. apply in_or_app. right. left. reflexivity.
Qed.
Lemma more_no_colon p : good_page_name p -> ~ In 58%N (more_of p).
Proof.
  intros (_ & _ & _ & _ & _ & Hp & Hq). unfold more_of, after. rewrite in_app_iff. intros [X|X].
  - destruct (path p) as [s|]; [|destruct X]. specialize (Hp s eq_refl). apply value_no_colon in Hp. exact (Hp X).
  - destruct (spot p) as [s|]; [|destruct X]. specialize (Hq s eq_refl). apply value_no_colon in Hq. destruct X as [X|X]; [discriminate X|contradiction].
Qed.
Lemma full_first p : good_page_name p -> exists c r, full_name p = c :: r /\ ~ In c [35; 47; 58]%N /\ visible c.
Proof.
  intro Hg. destruct (name_first p Hg) as (c & n & Hn & Hc & Hv). destruct Hg as (_ & _ & _ & Hcat & _). unfold full_name, before_sign. destruct (category p) as [k|]; [|exists c, n; auto].
  destruct (Hcat k eq_refl) as [Hk _]. destruct k as [|d k]; [destruct Hk; congruence|]. eexists d, _. split; [reflexivity|]. split; [|eapply letters_visible; [exact Hk|left; auto]].
  destruct Hk as [_ Hk]. specialize (Hk d (or_introl eq_refl)). cbn. intros [<-|[<-|[<-|[]]]]; discriminate.
Qed.
(** *** Links to pages. *)
Lemma source_first p : good_page_name p -> exists c r, page_source p = c :: r /\ ~ In c [33; 35; 47]%N /\ visible c.
Proof.
  intros Hg. destruct (full_first p Hg) as (c & r & Hc & Hn & Hv). unfold page_source. destruct (on_site p) as [s|] eqn:Es.
  - eexists 58%N, _. split; [reflexivity|]. split; [cbn; intuition discriminate|unfold visible; lia].
  - rewrite Hc. eexists c, _. split; [reflexivity|]. split; auto. intro H. destruct H as [H|H]; [|apply Hn; cbn in H |- *; tauto]. subst c.
    destruct Hg as (_ & _ & _ & Hcat & Hb & _). unfold full_name, before_sign in Hc. destruct (category p) as [k|]; [|eapply Hb; eauto].
    destruct (Hcat k eq_refl) as [Hk _]. destruct k as [|d k]; [destruct Hk; congruence|]. injection Hc as -> _. destruct Hk as [_ Hk]. specialize (Hk 33%N (or_introl eq_refl)). discriminate.
Qed.
Lemma last_app (a b : str) c r : a ++ b = r ++ [c] -> b <> [] -> exists r', b = r' ++ [c].
Proof. intros H Hb. destruct b as [|x b _] using rev_ind; [congruence|]. rewrite app_assoc in H. apply app_inj_tail in H as [_ ->]. eauto. Qed.
Lemma source_last p c r : good_page_name p -> page_source p = r ++ [c] -> visible c.
Proof.
  intros (Hn & _ & _ & _ & _ & Hp & Hq) H. rewrite source_split in H. unfold more_of, after in H. destruct (spot p) as [q|].
  - specialize (Hq q eq_refl). rewrite !app_assoc in H. apply last_app in H as [r' H]; [|destruct Hq as [[X _] _]; exact X]. destruct Hq as (_ & _ & Hq). eauto.
  - rewrite app_nil_r in H. destruct (path p) as [q|].
    + specialize (Hp q eq_refl). apply last_app in H as [r' H]; [|discriminate]. destruct Hp as (_ & _ & Hp). eapply Hp. exact H.
    + rewrite app_nil_r in H. unfold full_name in H. rewrite app_assoc in H. apply last_app in H as [r' H]; [|destruct Hn as [[X _] _]; exact X]. destruct Hn as (_ & _ & Hn). eauto.
Qed.
Lemma source_trim p : good_page_name p -> trim (page_source p) = page_source p.
Proof. intro Hg. apply trim_id; intros c r E; apply visible_ws; [|eapply source_last; eauto]. destruct (source_first p Hg) as (d & r' & E' & _ & Hv). congruence. Qed.
Lemma full_trim p : good_page_name p -> trim (full_name p) = full_name p.
Proof.
  intro Hg. apply trim_id; intros c r E; apply visible_ws.
  - destruct (full_first p Hg) as (d & r' & E' & _ & Hv). congruence.
  - destruct Hg as (Hn & _). unfold full_name in E. apply last_app in E as [r' E]; [|destruct Hn as [[X _] _]; exact X]. destruct Hn as (_ & _ & Hn). eauto.
Qed.
Lemma part_parse p : good_page_name p -> pr_parse (site_part p ++ full_name p) = Good (PR (on_site p) (full_name p)).
Proof.
  intro Hg. assert (Ht : trim (site_part p ++ full_name p) = site_part p ++ full_name p).
  { pose proof (source_trim (Page (on_site p) (category p) (page_name p) None None)) as X. unfold page_source in X. cbn [on_site path spot more_of after] in X. change (full_name (Page (on_site p) (category p) (page_name p) None None)) with (full_name p) in X.
    rewrite !app_nil_r in X. apply X. destruct Hg as (H1 & H2 & H3 & H4 & H5 & _). unfold good_page_name. cbn [on_site category page_name path spot]. conj; auto; discriminate. }
  rewrite pr_parse_spec. cbv zeta. rewrite Ht. unfold site_part. destruct (on_site p) as [s|] eqn:Es.
  - assert (Hs : letters s) by (destruct Hg as (_ & _ & Hs & _); auto). rewrite <- !app_assoc. change (lit ":" ++ s ++ lit ":" ++ full_name p) with (58%N :: s ++ 58%N :: full_name p). change (ceqb 58 58) with true. cbv iota.
    rewrite (proj2 (split_once_some 58 _ s (full_name p))) by (split; auto; apply letters_not; auto). rewrite full_trim by auto. rewrite value_trim by (apply letters_value_; auto). destruct s; [destruct Hs; congruence|reflexivity].
  - cbn [app]. destruct (full_first p Hg) as (c & r & E & Hn & _). rewrite E. destruct (ceqb c 58) eqn:X; [apply ceqb_eq in X; subst; exfalso; apply Hn; cbn; tauto|reflexivity].
Qed.
Lemma page_parse p : good_page_name p -> link_parse (page_source p) = Good (LPage (PR (on_site p) (full_name p))) /\ link_parse_extra (page_source p) = Some (match more_of p with [] => None | m => Some m end).
Proof.
  intro Hg. destruct (source_first p Hg) as (c & r & E & Hn & _). destruct (C43_link_split (page_source p)) as (seg & extra & H1 & H2 & H3 & H4 & H5 & H6).
  - intros (sc & r' & Hi & E'). destruct (on_site p) as [s|] eqn:Es.
    + unfold page_source in E'. rewrite Es in E'. pose proof scheme_parts as X. rewrite forallb_forall in X. specialize (X sc Hi). destruct (split_once 58 sc) as [[a b]|] eqn:Y; [|discriminate]. apply split_once_some in Y as [-> Ha].
      destruct a as [|d a]; [|injection E' as <- _; apply Ha; left; auto]. clear -Hi. cbn in Hi. repeat (destruct Hi as [Hi|Hi]; [discriminate Hi|]). exact Hi.
    + unfold page_source in E'. rewrite Es in E'. cbn [app] in E'. eapply (no_scheme p (more_of p)); eauto. apply more_no_colon; auto.
  - intros r' X. rewrite E in X. injection X as -> _. apply Hn. cbn. tauto.
  - intros r' X. rewrite E in X. injection X as -> _. apply Hn. cbn. tauto.
  - rewrite source_split in H1. destruct (cut_unique _ _ _ _ H1 (part_no p _ Hg (or_introl eq_refl)) (part_no p _ Hg (or_intror eq_refl)) H2 H3 (more_cases p) H4) as [<- <-].
    rewrite H6, H5, part_parse by auto. split; [reflexivity|destruct (more_of p); reflexivity].
Qed.
Lemma page_interwiki get p : good_page_name p -> link_parse_interwiki get (page_source p) = Good (LPage (PR (on_site p) (full_name p)), LTPage).
Proof.
  intro Hg. unfold link_parse_interwiki. destruct (source_first p Hg) as (c & r & E & Hn & _). destruct (strip_prefix [33%N] (page_source p)) eqn:X.
  - apply strip_prefix_inv in X. rewrite E in X. injection X as -> _. exfalso. apply Hn. cbn. tauto.
  - rewrite (proj1 (page_parse p Hg)). reflexivity.
Qed.
Lemma trim_visible c (r : str) : visible c -> trim_start (c :: r) = c :: r.
Proof. intro H. apply visible_ws in H. unfold trim_start; cbn [drop_while]. rewrite H. reflexivity. Qed.
Lemma strip_site k rest : strip_category_n (S k) (58%N :: rest) = match after_colon rest with Some r => let r := trim_start r in Some (match strip_category_n k r with Some x => x | None => r end) | None => None end.
Proof. reflexivity. Qed.
Lemma page_category p : good_page_name p -> strip_category (page_source p) = match on_site p, category p with None, None => None | _, _ => Some (page_name p ++ more_of p) end.
Proof.
  intro Hg. destruct (name_first p Hg) as (c & n & Hn & Hc & Hv). pose proof (more_no_colon p Hg) as Hm.
  assert (Hnc : ~ In 58%N (page_name p ++ more_of p)) by (intro X; apply in_app_or in X as [X|X]; [destruct Hg as (Hg & _); apply value_no_colon in Hg|]; contradiction).
  assert (Hb : forall k, strip_category_n (S k) (full_name p ++ more_of p) = match category p with None => None | Some _ => Some (page_name p ++ more_of p) end).
  { intro k. destruct (full_first p Hg) as (d & m & Ef & Hd & _). rewrite Ef. cbn [app strip_category_n]. destruct (ceqb d 58) eqn:X; [apply ceqb_eq in X; subst; exfalso; apply Hd; cbn; tauto|]. change (d :: m ++ more_of p) with ((d :: m) ++ more_of p). rewrite <- Ef.
    unfold after_colon. unfold full_name, before_sign. destruct (category p) as [q|] eqn:Eq.
    - destruct Hg as (_ & _ & _ & Hcat & _). destruct (Hcat q Eq) as [Hq _]. rewrite <- !app_assoc. change (lit ":" ++ page_name p ++ more_of p) with (58%N :: page_name p ++ more_of p).
      rewrite (proj2 (split_once_some 58 _ q (page_name p ++ more_of p))) by (split; auto; apply letters_not; auto). rewrite Hn. cbn [app]. rewrite trim_visible by auto. reflexivity.
    - cbn [app]. rewrite (proj2 (split_once_none _ _)) by auto. reflexivity. }
  unfold strip_category, page_source. destruct (on_site p) as [s|] eqn:Es; [|apply Hb].
  assert (Hs : letters s) by (destruct Hg as (_ & _ & Hs & _); auto). rewrite <- !app_assoc. change (lit ":" ++ s ++ lit ":" ++ full_name p ++ more_of p) with (58%N :: s ++ 58%N :: full_name p ++ more_of p). cbn [length]. rewrite strip_site.
  unfold after_colon at 1. rewrite (proj2 (split_once_some 58 _ s (full_name p ++ more_of p))) by (split; auto; apply letters_not; auto). cbv zeta.
  destruct (full_first p Hg) as (d & m & Ef & Hd & Hdv). assert (Ht : trim_start (full_name p ++ more_of p) = full_name p ++ more_of p) by (rewrite Ef; cbn [app]; apply trim_visible; auto). rewrite Ht. rewrite Hb.
  unfold full_name. destruct (category p); reflexivity.
Qed.
(** *** What the links lead to. *)
Section Href.
Variables (word : char -> bool) (normalize : str -> str).
Hypothesis word_alnum : forall c, is_alnum c = true -> word c = true.
Lemma not_in_seps d (s : str) : ~ In d s -> Forall (fun c => ceqb c d = false) s.
Proof. intro H. apply Forall_forall. intros c Hc. apply ceqb_neq. intros ->. contradiction. Qed.
Lemma full_href p : good_page_name p -> on_site p = None -> normalize_href word normalize (full_name p) = Some (lit "/" ++ normalize (full_name p)).
Proof.
  intros Hg Hs. destruct (full_first p Hg) as (c & r & Ef & Hc & _). unfold normalize_href.
  assert (H1 : is_url (full_name p) = false).
  { apply not_true_iff_false. intro X. apply is_url_iff in X as (sc & r' & Hi & E). eapply (no_scheme p []); eauto. exists sc, r'. rewrite app_nil_r. auto. }
  assert (H2 : starts_with [35%N] (full_name p) = false) by (apply not_true_iff_false; intro X; apply starts_with_iff in X as [r' X]; rewrite Ef in X; injection X as -> _; apply Hc; cbn; tauto).
  assert (H4 : dangerous_scheme word (full_name p) = false).
  { unfold dangerous_scheme, full_name, before_sign. destruct Hg as (Hn & _ & _ & Hcat & _). apply value_no_colon in Hn. destruct (category p) as [k|]; [|cbn [app]; rewrite (proj2 (split_once_none _ _)) by auto; reflexivity].
    destruct (Hcat k eq_refl) as [Hk Hsch]. rewrite <- app_assoc. change (lit ":" ++ page_name p) with (58%N :: page_name p). rewrite (proj2 (split_once_some 58 _ k (page_name p))) by (split; auto; apply letters_not; auto).
    replace (scheme_regex word k) with true.
    - cbn [negb]. apply orb_false_iff. unfold eq_nocase. specialize (Hsch Hs). split; (apply not_true_iff_false; intro X; apply seqb_eq in X; apply Hsch; rewrite X; vm_compute; tauto).
    - symmetry. apply scheme_regex_iff. destruct Hk as [Hk1 Hk2]. split; auto. apply Forall_forall. intros d Hd. left. apply word_alnum. auto. }
  assert (H3 : seqb (full_name p) (lit "javascript:;") = false).
  { apply not_true_iff_false. intro X. apply seqb_eq in X. rewrite X in H4. unfold dangerous_scheme in H4. change (split_once 58 (lit "javascript:;")) with (Some (lit "javascript", lit ";")) in H4. cbv iota in H4. destruct (scheme_regex word (lit "javascript")); discriminate H4. }
  rewrite H1, H2, H3, H4. cbn [orb].
  assert (Hsh : ~ In 35%N (full_name p)) by (intro X; apply (part_no p 35%N Hg (or_introl eq_refl)); apply in_or_app; auto). assert (Hsl : ~ In 47%N (full_name p)) by (intro X; apply (part_no p 47%N Hg (or_intror eq_refl)); apply in_or_app; auto).
  unfold splitn2. rewrite (proj2 (split_once_none _ _)) by auto. cbn [nth_error]. rewrite split_char_nosep by (apply not_in_seps; auto). rewrite Ef. reflexivity.
Qed.
Lemma join_slash l : join [47%N] l = match l with [] => [] | x :: r => x ++ flat_map (fun y => 47%N :: y) r end.
Proof. destruct l as [|x l]; auto. revert x. induction l as [|y l IH]; intro x; [cbn; rewrite app_nil_r; reflexivity|]. change (join [47%N] (x :: y :: l)) with (x ++ [47%N] ++ join [47%N] (y :: l)). rewrite IH. reflexivity. Qed.
Lemma rejoin s : match split_char 47 s with x :: r => x ++ flat_map (fun y => 47%N :: y) r | [] => [] end = s.
Proof. rewrite <- join_slash. apply join_split_char. Qed.
Lemma local_href name more : good_address (Local name more) -> normalize_href word normalize (address_source (Local name more)) = Some (lit "/" ++ normalize name ++ after "/" more).
Proof.
  intros (Hn & Hsl & Hm). cbn [address_source]. set (u := name ++ after "/" more). assert (Hu : value (47%N :: u) \/ True) by auto. clear Hu.
  assert (Hc : ~ In 58%N u /\ ~ In 35%N u).
  { unfold u, after. rewrite !in_app_iff. destruct Hn as [Hn _]. pose proof (value_no_colon _ Hn) as N1. pose proof (value_no_sharp _ Hn) as N2. destruct more as [m|].
    - destruct (Hm m eq_refl) as [Hm' _]. pose proof (value_no_colon _ Hm') as M1. pose proof (value_no_sharp _ Hm') as M2. cbn [In app] in *. change (lit "/" ++ m) with (47%N :: m). cbn [In]. tauto.
    - cbn [In] in *. tauto. }
  destruct Hc as [Hc Hsh]. change (lit "/" ++ u) with (47%N :: u). unfold normalize_href.
  assert (H1 : is_url (47%N :: u) = false) by reflexivity. rewrite H1. change (starts_with [35%N] (47%N :: u)) with false. change (seqb (47%N :: u) (lit "javascript:;")) with false. cbn [orb].
  assert (H4 : dangerous_scheme word (47%N :: u) = false) by (unfold dangerous_scheme; rewrite (proj2 (split_once_none _ _)); [reflexivity|intros [X|X]; [discriminate|auto]]). rewrite H4.
  unfold splitn2. rewrite (proj2 (split_once_none 35 (47%N :: u))) by (intros [X|X]; [discriminate|auto]). cbn [nth_error].
  pose proof (split_char_word 47 [] u (Forall_nil _)) as X. cbn [app] in X. rewrite X. clear X.
  assert (E : exists l, split_char 47 u = name :: l /\ flat_map (fun y => 47%N :: y) l = after "/" more).
  { unfold u, after. destruct more as [m|].
    - change (lit "/" ++ m) with (47%N :: m). rewrite split_char_word by (apply not_in_seps; auto). eexists. split; [reflexivity|]. pose proof (rejoin m) as X. destruct (split_char 47 m) as [|x l] eqn:Y; [destruct (split_char_nonempty 47 m Y)|]. cbn [flat_map]. change (47%N :: x) with ([47%N] ++ x). rewrite <- app_assoc, X. reflexivity.
    - rewrite app_nil_r, split_char_nosep by (apply not_in_seps; auto). exists []. auto. }
  destruct E as (l & -> & El). cbn [length Nat.eqb negb orb andb]. rewrite join_slash. cbn [flat_map app]. rewrite El. reflexivity.
Qed.
End Href.
Lemma local_no_scheme name more : good_address (Local name more) -> is_url (name ++ after "/" more) = false.
Proof.
  intros (Hn & Hsl & Hm). apply not_true_iff_false. intro X. apply is_url_iff in X as (sc & r & Hi & E).
  assert (Hc : ~ In 58%N (name ++ after "/" more)).
  { unfold after. rewrite !in_app_iff. destruct Hn as [Hn _]. pose proof (value_no_colon _ Hn) as N1. destruct more as [m|].
    - destruct (Hm m eq_refl) as [Hm' _]. pose proof (value_no_colon _ Hm') as M1. cbn [In app] in *. change (lit "/" ++ m) with (47%N :: m). cbn [In]. tauto.
    - cbn [In] in *. tauto. }
  apply Hc. rewrite E. apply in_or_app. left. assert (F : forallb (cmem 58%N) safe_schemes = true) by (vm_compute; reflexivity). rewrite forallb_forall in F. apply cmem_In, F. exact Hi.
Qed.

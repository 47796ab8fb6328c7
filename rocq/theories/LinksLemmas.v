(** LinksLemmas.v *)
From Verif Require Import Base BaseLemmas Links SpecLinks.

Lemma is_url_iff u : is_url u = true <-> exists sc r, In sc safe_schemes /\ u = sc ++ r.
Proof.
  unfold is_url. rewrite existsb_exists. split.
  - intros (sc & Hin & H). apply starts_with_iff in H as [r ->]. exists sc, r. auto.
  - intros (sc & r & Hin & ->). exists sc. split; auto. apply starts_with_iff. eauto.
Qed.
Lemma scheme_regex_iff word s : scheme_regex word s = true <-> s <> [] /\ Forall (fun c => word c = true \/ c = 45%N) s.
Proof.
  unfold scheme_regex. destruct s as [|c s]; [split; [discriminate|intros [H _]; contradiction]|].
  rewrite forallb_forall, Forall_forall. split.
  - intro H. split; [discriminate|]. intros x Hx. apply H in Hx. apply orb_true_iff in Hx. rewrite ceqb_eq in Hx. auto.
  - intros [_ H] x Hx. apply orb_true_iff. rewrite ceqb_eq. apply H. auto.
Qed.
Lemma dangerous_iff word u : dangerous_scheme word u = true <->
  exists scheme rest, before_colon u scheme rest /\
    (~ (scheme <> [] /\ Forall (fun c => word c = true \/ c = 45%N) scheme)
     \/ slower scheme = lit "javascript" \/ slower scheme = lit "data").
Proof.
  unfold dangerous_scheme, before_colon. destruct (split_once 58 u) as [[a b]|] eqn:E.
  - apply split_once_some in E as [-> Hn].
    assert (K : (if negb (scheme_regex word a) then true else eq_nocase a (lit "javascript") || eq_nocase a (lit "data")) = true
      <-> (~ (a <> [] /\ Forall (fun c => word c = true \/ c = 45%N) a) \/ slower a = lit "javascript" \/ slower a = lit "data")).
    { rewrite <- scheme_regex_iff. destruct (scheme_regex word a); cbn [negb].
      - unfold eq_nocase. rewrite orb_true_iff, !seqb_eq. change (slower (lit "javascript")) with (lit "javascript").
        change (slower (lit "data")) with (lit "data"). tauto.
      - split; [intros _; left; discriminate|auto]. }
    rewrite K. clear K. split.
    + intro H. exists a, b. auto.
    + intros (a' & b' & [E' Hn'] & H). apply app_cons_notin_inj in E' as [-> ->]; auto.
  - apply split_once_none in E. split; [discriminate|].
    intros (a & b & [-> _] & _). exfalso. apply E. apply in_app_iff. right. left. auto.
Qed.

Lemma join_cons_cons sep a b l : join sep (a :: b :: l) = a ++ sep ++ join sep (b :: l).
Proof. reflexivity. Qed.
Lemma normalize_href_total word nz u : exists v, normalize_href word nz u = Some v /\
  ((v = u /\ ((exists sc r, In sc safe_schemes /\ u = sc ++ r) \/ (exists r, u = 35%N :: r) \/ u = lit "javascript:;"))
   \/ v = lit "#invalid-url" \/ exists r, v = 47%N :: r).
Proof.
  unfold normalize_href.
  destruct (is_url u || starts_with [35%N] u || seqb u (lit "javascript:;")) eqn:E.
  - exists u. split; auto. left. split; auto. apply orb_true_iff in E as [E|E]; [apply orb_true_iff in E as [E|E]|].
    + left. apply is_url_iff; auto.
    + right. left. apply starts_with_iff in E. exact E.
    + right. right. apply seqb_eq in E. auto.
  - clear E. destruct (dangerous_scheme word u); [eexists; split; [reflexivity|auto]|].
    set (sa := splitn2 35 u). assert (Hsa : exists b, nth_error sa 0 = Some b).
    { unfold sa, splitn2. destruct (split_once 35 u) as [[a b]|]; cbn; eauto. }
    destruct Hsa as [b ->].
    destruct (split_char 47 b) as [|f l] eqn:Es; [exfalso; eapply split_char_nonempty; eauto|].
    assert (Hfin : forall sec rest, exists v, match sa with
        | [_; anchor] => Some (join [47%N] ([] :: nz sec :: rest) ++ [35%N] ++ anchor)
        | _ => Some (join [47%N] ([] :: nz sec :: rest)) end = Some v /\ exists r, v = 47%N :: r).
    { intros sec rest. rewrite join_cons_cons. cbn [app].
      destruct sa as [|x [|y [|z t]]]; eexists; (split; [reflexivity|eexists; reflexivity]). }
    destruct f as [|c f]; cbn [negb orb andb].
    + destruct l as [|s l]; cbn [length Nat.eqb].
      * destruct (Hfin [] []) as (v & -> & Hv). eauto.
      * destruct (Hfin s l) as (v & -> & Hv). eauto.
    + destruct (Hfin (c :: f) l) as (v & -> & Hv). eauto.
Qed.

(** *** browser view *)
Lemma browser_clean_prefix p r : Forall (fun c => (32 < c)%N) p -> p <> [] ->
  browser_clean (p ++ r) = p ++ filter (fun c => negb (cmem c [9; 10; 13]%N)) r.
Proof.
  intros H Hn. unfold browser_clean. rewrite drop_while_id.
  - rewrite filter_app. f_equal. clear Hn. induction H as [|c p Hc Hp IH]; auto. cbn [filter].
    assert (negb (cmem c [9; 10; 13]%N) = true) as ->.
    { apply negb_true_iff. destruct (cmem c [9; 10; 13]%N) eqn:E; auto. apply cmem_In in E.
      simpl in E. destruct E as [<-|[<-|[<-|[]]]]; lia. }
    congruence.
  - destruct p as [|c p]; [contradiction|]. inversion H; subst. simpl. apply N.leb_gt. auto.
Qed.
Lemma slower_app a b : slower (a ++ b) = slower a ++ slower b.
Proof. apply map_app. Qed.
Lemma safe_scheme_facts : Forall (fun sc => Forall (fun c => (32 < c)%N) sc /\ sc <> [] /\
   exists a b, slower sc = a ++ 58%N :: b /\ ~ In 58%N a /\ a <> lit "javascript" /\ a <> lit "data") safe_schemes.
Proof.
  assert (forall sc, (forallb (fun c => (32 <? c)%N) sc && match sc with [] => false | _ => true end &&
    match split_once 58 (slower sc) with Some (a, _) => negb (seqb a (lit "javascript")) && negb (seqb a (lit "data")) | None => false end) = true ->
    Forall (fun c => (32 < c)%N) sc /\ sc <> [] /\
   exists a b, slower sc = a ++ 58%N :: b /\ ~ In 58%N a /\ a <> lit "javascript" /\ a <> lit "data") as K.
  { intros sc H. apply andb_true_iff in H as [H H3]. apply andb_true_iff in H as [H1 H2]. repeat split.
    - rewrite forallb_forall in H1. apply Forall_forall. intros c Hc. apply N.ltb_lt. auto.
    - intros ->. discriminate.
    - destruct (split_once 58 (slower sc)) as [[a b]|] eqn:E; [|discriminate].
      apply split_once_some in E as [E Hn]. apply andb_true_iff in H3 as [Ha Hb].
      apply negb_true_iff in Ha, Hb. apply seqb_neq in Ha, Hb. exists a, b. auto. }
  apply Forall_forall. intros sc Hin. apply K.
  assert (Hall : forallb (fun sc => forallb (fun c => (32 <? c)%N) sc && match sc with [] => false | _ => true end &&
    match split_once 58 (slower sc) with Some (a, _) => negb (seqb a (lit "javascript")) && negb (seqb a (lit "data")) | None => false end) safe_schemes = true) by (vm_compute; reflexivity).
  rewrite forallb_forall in Hall. exact (Hall _ Hin).
Qed.
Lemma no_browser_scheme p r bad : Forall (fun c => (32 < c)%N) p -> p <> [] -> ~ In 58%N bad -> bad <> [] ->
  ((exists a b, slower p = a ++ 58%N :: b /\ ~ In 58%N a /\ a <> bad)
   \/ (exists c q, p = c :: q /\ forall t, bad <> lower c :: t)) -> ~ browser_scheme_is bad (p ++ r).
Proof.
  intros Hp Hn Hb Hne Hd [rest E]. rewrite browser_clean_prefix, slower_app in E by auto.
  destruct Hd as [(a & b & Ea & Ha & Hab)|(c & q & -> & Hc)].
  - rewrite Ea, <- app_assoc in E. cbn [app] in E. apply app_cons_notin_inj in E as [-> _]; auto.
  - destruct bad as [|x bad]; [contradiction|]. cbn in E. injection E as E1 _. eapply Hc. rewrite E1. reflexivity.
Qed.

(** *** page references *)
Lemma trim_trimmed s : trimmed (trim s).
Proof. split; intros c r H; [eapply trim_head|eapply trim_last]; eauto. Qed.
Lemma trimmed_trim s : trimmed s -> trim s = s.
Proof. intros [H1 H2]. apply trim_id; auto. Qed.
Lemma pr_parse_spec s : pr_parse s =
  let t := trim s in
  match t with
  | [] => Bad
  | c :: u => if ceqb c 58
              then match split_once 58 u with
                   | Some (site, page) => match site with [] => Bad | _ => Good (PR (Some (trim site)) (trim page)) end
                   | None => Bad
                   end
              else Good (PR None t)
  end.
Proof.
  unfold pr_parse. cbn zeta. set (t := trim s). destruct t as [|c u] eqn:Et; auto.
  cbn [find_char]. destruct (ceqb c 58) eqn:Ec.
  - apply ceqb_eq in Ec as ->. change (bfrom (58%N :: u) 1) with (bfrom ([58%N] ++ u) (blen [58%N])).
    rewrite bfrom_app. rewrite find_char_split. destruct (split_once 58 u) as [[site page]|] eqn:Es; auto.
    apply split_once_some in Es as [-> Hn].
    destruct (blen site) as [|n] eqn:Eb.
    + apply blen_zero in Eb as ->. reflexivity.
    + destruct site as [|x site]; [discriminate Eb|].
      assert (E1 : bslice (58%N :: (x :: site) ++ 58%N :: page) 1 (S n + 1) = Some (x :: site)).
      { replace (S n + 1) with (1 + blen (x :: site)) by lia.
        change (58%N :: (x :: site) ++ 58%N :: page) with ([58%N] ++ (x :: site) ++ 58%N :: page).
        change 1 with (blen [58%N]) at 1. change 1 with (blen [58%N]) at 1. apply bslice_app. }
      assert (E2 : bfrom (58%N :: (x :: site) ++ 58%N :: page) (S n + 1 + 1) = Some page).
      { replace (S n + 1 + 1) with (blen (58%N :: (x :: site) ++ [58%N])).
        - replace (58%N :: (x :: site) ++ 58%N :: page) with ((58%N :: (x :: site) ++ [58%N]) ++ page).
          + apply bfrom_app.
          + cbn [app]. rewrite <- app_assoc. reflexivity.
        - change (58%N :: (x :: site) ++ [58%N]) with ([58%N] ++ (x :: site) ++ [58%N]).
          rewrite !blen_app, Eb. cbn. lia. }
      rewrite E1, E2. reflexivity.
  - destruct (find_char 58 u) as [i|]; auto. pose proof (utf8_len_pos c). destruct (utf8_len c); [lia|]. reflexivity.
Qed.
Lemma trim_notin d s : ~ In d s -> ~ In d (trim s).
Proof. destruct (trim_spec s) as (a & b & E & _). intros H Hin. apply H. rewrite E, !in_app_iff. auto. Qed.
Lemma pr_roundtrip s r : pr_parse s = Good r -> pr_site r <> Some [] -> pr_parse (pr_display r) = Good r.
Proof.
  rewrite pr_parse_spec. cbn zeta. intros H Hs.
  pose proof (trim_trimmed s) as Ht. destruct (trim s) as [|c u] eqn:Et; [discriminate|].
  destruct (ceqb c 58) eqn:Ec.
  - apply ceqb_eq in Ec as ->. destruct (split_once 58 u) as [[site page]|] eqn:Eo; [|discriminate].
    destruct site as [|x site]; [discriminate|]. injection H as <-. cbn [pr_site] in Hs.
    apply split_once_some in Eo as [-> Hn]. unfold pr_display. cbn [pr_site pr_page].
    remember (trim (x :: site)) as st eqn:Est. rewrite pr_parse_spec. cbn zeta.
    assert (E : trim ([58%N] ++ st ++ [58%N] ++ trim page) = [58%N] ++ st ++ [58%N] ++ trim page).
    { apply trimmed_trim. split.
      - intros c r E. injection E as <- _. reflexivity.
      - intros c r E. destruct (trim page) as [|y p] eqn:Ep using rev_ind.
        + rewrite app_nil_r, app_assoc in E. apply app_inj_tail in E as [_ <-]. reflexivity.
        + clear IHp. rewrite !app_assoc in E. apply app_inj_tail in E as [_ <-]. eapply trim_last; eauto. }
    rewrite E. cbn [app]. rewrite ceqb_refl.
    assert (split_once 58 (st ++ 58%N :: trim page) = Some (st, trim page)) as ->.
    { apply split_once_some. split; auto. subst st. apply trim_notin; auto. }
    destruct st as [|y st]; [exfalso; apply Hs; reflexivity|].
    rewrite trim_trim, Est, trim_trim. reflexivity.
  - injection H as <-. unfold pr_display. cbn [pr_site pr_page]. rewrite pr_parse_spec. cbn zeta.
    rewrite trimmed_trim by auto. rewrite Ec. reflexivity.
Qed.

(** *** interwiki *)
Lemma space_loop_ok : forall fuel pre url, ~ In 32%N pre -> length url < fuel ->
  space_loop fuel (pre ++ url) = Good (pre ++ encode_spaces url).
Proof.
  induction fuel as [|f IH]; intros pre url Hp Hl; [lia|]. cbn [space_loop].
  rewrite find_char_split. destruct (split_once 32 (pre ++ url)) as [[a b]|] eqn:E.
  - apply split_once_some in E as [E Hn].
    assert (exists m, a = pre ++ m /\ url = m ++ 32%N :: b) as (m & -> & ->).
    { clear -E Hp. revert a E. induction pre as [|c pre IH]; intros a E; [exists a; auto|].
      destruct a as [|x a].
      - injection E as -> _. exfalso. apply Hp. left; auto.
      - injection E as -> E. destruct (IH ltac:(intro X; apply Hp; right; auto) _ E) as (m & -> & ->). exists m. auto. }
    rewrite app_assoc. change (32%N :: b) with ([32%N] ++ b).
    change (blen (pre ++ m) + 1) with (blen (pre ++ m) + blen [32%N]). rewrite replace_range_app.
    replace ((pre ++ m) ++ lit "%20" ++ b) with (((pre ++ m) ++ lit "%20") ++ b) by (rewrite <- app_assoc; reflexivity).
    rewrite IH.
    + unfold encode_spaces. rewrite !flat_map_app. cbn [flat_map]. rewrite ceqb_refl. rewrite <- !app_assoc. do 2 f_equal.
      assert (Em : flat_map (fun c => if ceqb c 32 then lit "%20" else [c]) m = m).
      { assert (Hm : ~ In 32%N m) by (intro X; apply Hn; apply in_app_iff; auto). clear -Hm.
        induction m as [|c m IH]; auto. cbn [flat_map].
        destruct (ceqb c 32) eqn:E; [apply ceqb_eq in E; exfalso; apply Hm; left; auto|].
        cbn [app]. f_equal. apply IH. intro X. apply Hm. right; auto. }
      rewrite Em. reflexivity.
    + intro X. apply in_app_iff in X as [X|X]; [auto|]. cbn in X. intuition discriminate.
    + rewrite app_length in Hl. cbn [length] in Hl. lia.
  - apply split_once_none in E. f_equal. f_equal.
    assert (Hu : ~ In 32%N url) by (intro X; apply E; apply in_app_iff; auto). clear -Hu.
    unfold encode_spaces. induction url as [|c m IH]; auto. cbn [flat_map].
    destruct (ceqb c 32) eqn:E; [apply ceqb_eq in E; exfalso; apply Hu; left; auto|].
    cbn [app]. f_equal. apply IH. intro X. apply Hu. right; auto.
Qed.
Lemma dollars_replace path s t : dollars path s t <-> str_replace (lit "$$") path s = t.
Proof.
  split.
  - induction 1 as [|s t H IH|c s t Hn H IH].
    + reflexivity.
    + change (36%N :: 36%N :: s) with (lit "$$" ++ s). rewrite str_replace_match by discriminate. congruence.
    + rewrite str_replace_other; [congruence|]. destruct (starts_with (lit "$$") (c :: s)) eqn:E; auto.
      apply starts_with_iff in E as [r E]. exfalso. apply (Hn r). exact E.
  - intros <-. remember (length s) as n eqn:En. assert (Hl : length s <= n) by lia. clear En.
    revert s Hl. induction n as [|n IH]; intros s Hl; destruct s as [|c s]; try constructor; [simpl in Hl; lia|].
    destruct (starts_with (lit "$$") (c :: s)) eqn:E.
    + apply starts_with_iff in E as [r E]. rewrite E. rewrite str_replace_match by discriminate. apply dol_hit.
      apply IH. apply (f_equal (@length N)) in E. cbn in E, Hl. lia.
    + rewrite str_replace_other by auto. apply dol_other.
      * intros r Er. assert (starts_with (lit "$$") (c :: s) = true) by (apply starts_with_iff; exists r; exact Er). congruence.
      * apply IH. cbn in Hl. lia.
Qed.
Lemma iw_build_spec get link : iw_build get link =
  match split_once 58 link with
  | Some (prefix, path) =>
      match prefix, path with
      | _ :: _, _ :: _ =>
          match get prefix with
          | Some template => Good (encode_spaces (str_replace (lit "$$") path template))
          | None => Bad
          end
      | _, _ => Bad
      end
  | None => Bad
  end.
Proof.
  unfold iw_build. rewrite find_char_split. destruct (split_once 58 link) as [[a b]|] eqn:E; auto.
  apply split_once_some in E as [-> Hn]. destruct (blen a) as [|n] eqn:Eb.
  - apply blen_zero in Eb as ->. reflexivity.
  - rewrite <- Eb, bsplit_app. change (bfrom (58%N :: b) 1) with (bfrom ([58%N] ++ b) (blen [58%N])).
    rewrite bfrom_app. destruct a as [|c a]; [discriminate|]. destruct b as [|d b]; auto.
    destruct (get (c :: a)); auto. change (str_replace (lit "$$") (d :: b) l) with ([] ++ str_replace (lit "$$") (d :: b) l) at 2.
    rewrite space_loop_ok; auto.
Qed.

(** *** link locations *)
Definition sharp_slash (c : char) : bool := ceqb c 35 || ceqb c 47.
Lemma split_char_head d s : exists l, split_char d s = take_while (fun c => negb (ceqb c d)) s :: l.
Proof.
  induction s as [|c s [l IH]]; cbn [split_char take_while]; [eauto|].
  destruct (ceqb c d); cbn [negb]; [eauto|]. rewrite IH. eauto.
Qed.
Lemma take_while_twice s : take_while (fun c => negb (ceqb c 47)) (take_while (fun c => negb (ceqb c 35)) s)
  = take_while (fun c => negb (sharp_slash c)) s.
Proof.
  unfold sharp_slash. induction s as [|c s IH]; auto. cbn [take_while].
  destruct (ceqb c 35); cbn [negb orb take_while]; auto. destruct (ceqb c 47); cbn [negb]; auto. congruence.
Qed.
Lemma extra_path link :
  match splitn2 35 link with
    | a0 :: arest =>
        match splitn2 47 a0 with
        | _ :: prest => Some (join [35%N] (join [47%N] ([] :: prest) :: arest))
        | [] => None
        end
    | [] => None
    end = Some (drop_while (fun c => negb (sharp_slash c)) link).
Proof.
  unfold splitn2, sharp_slash. induction link as [|c s IH]; auto.
  cbn [split_once drop_while]. destruct (ceqb c 35) eqn:E1; cbn [orb negb].
  - apply ceqb_eq in E1 as ->. reflexivity.
  - destruct (split_once 35 s) as [[a b]|] eqn:Es.
    + cbn [split_once]. destruct (ceqb c 47) eqn:E2; cbn [negb].
      * apply ceqb_eq in E2 as ->. apply split_once_some in Es as [-> _]. reflexivity.
      * destruct (split_once 47 a) as [[x y]|]; auto.
    + cbn [split_once]. destruct (ceqb c 47) eqn:E2; cbn [negb].
      * apply ceqb_eq in E2 as ->. reflexivity.
      * destruct (split_once 47 s) as [[x y]|]; auto.
Qed.

(** AttrLemmas.v *)
From Coq Require Import Permutation.
From Verif Require Import Base BaseLemmas Strings StringsLemmas Links SpecLinks LinksLemmas Attr SpecAttr HtmlLemmas.

Lemma slower_idem s : slower (slower s) = slower s.
Proof.
  unfold slower. rewrite map_map. apply map_ext. intro c. unfold lower.
  destruct (is_upper c) eqn:E; [|rewrite E; reflexivity].
  unfold is_upper in *. apply andb_true_iff in E as [E1 E2]. apply N.leb_le in E1, E2.
  assert ((65 <=? c + 32)%N && (c + 32 <=? 90)%N = false) as ->; auto. apply andb_false_iff. right. apply N.leb_gt. lia.
Qed.
Lemma unicase_mem_iff s l : (forall x, In x l -> slower x = x) -> unicase_mem s l = true <-> In (slower s) l.
Proof.
  intro H. unfold unicase_mem. rewrite existsb_exists. split.
  - intros (x & Hx & E). unfold eq_nocase in E. apply seqb_eq in E. rewrite E, H; auto.
  - intro Hin. exists (slower s). split; auto. unfold eq_nocase. rewrite slower_idem. apply seqb_refl.
Qed.
Lemma lower_list l : forallb (fun x => seqb (slower x) x) l = true -> forall x, In x l -> slower x = x.
Proof. intros H x Hx. rewrite forallb_forall in H. apply seqb_eq. auto. Qed.
Lemma is_safe_iff k : is_safe_attribute k = true <-> In (slower k) safe_names \/ prefixed_name k.
Proof.
  unfold is_safe_attribute.
  assert (K : unicase_mem k SAFE_ATTRIBUTES = true <-> In (slower k) safe_names).
  { apply unicase_mem_iff. apply lower_list. vm_compute. reflexivity. }
  destruct (unicase_mem k SAFE_ATTRIBUTES) eqn:E; [split; auto; intros _; left; apply K; reflexivity|].
  assert (Hn : ~ In (slower k) safe_names) by (intro X; apply K in X; discriminate).
  assert (S : forall p r, In 97%N p -> k = p ++ r -> suffix_safe k = true).
  { intros p r Hp ->. unfold suffix_safe. apply existsb_exists. exists 97%N. split; [apply in_app_iff; auto|reflexivity]. }
  unfold SAFE_ATTRIBUTE_PREFIXES. cbn [map existsb]. rewrite orb_false_r, orb_true_iff, !andb_true_iff, !starts_with_iff.
  unfold prefixed_name. split.
  - intros [[[r ->] _]|[[r ->] _]]; right; exists r; auto.
  - intros [X|(r & [X|X])]; [contradiction| |].
    + left. split; [eauto|]. eapply S; eauto. vm_compute; auto.
    + right. split; [eauto|]. eapply S; eauto. vm_compute; auto.
Qed.

Lemma bool_names_iff k : In (slower k) safe_names \/ prefixed_name k ->
  unicase_mem k BOOLEAN_ATTRIBUTES = true <-> In (slower k) boolean_names.
Proof.
  intro Hs. rewrite unicase_mem_iff by (apply lower_list; vm_compute; reflexivity).
  assert (K : forall x, In x BOOLEAN_ATTRIBUTES -> In x boolean_names \/
              (~ In x safe_names /\ forall r, x <> lit "aria-" ++ r /\ x <> lit "data-" ++ r)).
  { assert (Hall : forallb (fun x => smem x boolean_names || (negb (smem x safe_names) && negb (starts_with (lit "aria-") x) && negb (starts_with (lit "data-") x))) BOOLEAN_ATTRIBUTES = true) by (vm_compute; reflexivity).
    rewrite forallb_forall in Hall. intros x Hx. apply Hall in Hx. apply orb_true_iff in Hx as [Hx|Hx]; [left; apply smem_In; auto|].
    right. rewrite !andb_true_iff, !negb_true_iff in Hx. destruct Hx as [[H1 H2] H3]. split.
    - intro X. apply smem_In in X. congruence.
    - intro r. split; intros ->; [assert (starts_with (lit "aria-") (lit "aria-" ++ r) = true) by (apply starts_with_iff; eauto)
        |assert (starts_with (lit "data-") (lit "data-" ++ r) = true) by (apply starts_with_iff; eauto)]; congruence. }
  assert (B : forall x, In x boolean_names -> In x BOOLEAN_ATTRIBUTES).
  { assert (Hall : forallb (fun x => smem x BOOLEAN_ATTRIBUTES) boolean_names = true) by (vm_compute; reflexivity).
    rewrite forallb_forall in Hall. intros x Hx. apply smem_In. auto. }
  split; auto. intro Hb. destruct (K _ Hb) as [|[H1 H2]]; auto. exfalso.
  destruct Hs as [Hs|(r & [->| ->])]; [auto| |]; destruct (H2 (slower r)) as [H3 H4]; [apply H3|apply H4]; rewrite slower_app; reflexivity.
Qed.
Lemma url_names_iff k : unicase_mem k URL_ATTRIBUTES = true <-> In (slower k) url_names.
Proof. apply unicase_mem_iff. apply lower_list. vm_compute. reflexivity. Qed.
Lemma url_bool_disj x : In x url_names -> In x boolean_names -> False.
Proof.
  intros H1 H2. assert (Hall : forallb (fun x => negb (smem x boolean_names)) url_names = true) by (vm_compute; reflexivity).
  rewrite forallb_forall in Hall. apply Hall in H1. apply smem_In in H2. rewrite H2 in H1. discriminate.
Qed.
Lemma attr_entry_spec word nz k v : In (slower k) safe_names \/ prefixed_name k ->
  exists r, attr_entry word nz (k, v) = Some (match r with Some w => Some (slower k, w) | None => None end)
    /\ attr_result (normalize_href word nz) k v r.
Proof.
  intro Hs. unfold attr_entry. pose proof (bool_names_iff k Hs) as HB. pose proof (url_names_iff k) as HU.
  destruct (unicase_mem k URL_ATTRIBUTES) eqn:EU.
  - assert (Hu : In (slower k) url_names) by (apply HU; auto).
    assert (Hnb : unicase_mem k BOOLEAN_ATTRIBUTES = false).
    { apply not_true_iff_false. intro X. apply HB in X. eapply url_bool_disj; eauto. }
    rewrite Hnb. destruct (normalize_href_total word nz v) as (w & E & _). rewrite E.
    exists (Some w). split; auto. apply ar_url; auto.
  - assert (Hnu : ~ In (slower k) url_names) by (intro X; apply HU in X; discriminate).
    destruct (unicase_mem k BOOLEAN_ATTRIBUTES) eqn:EB.
    + assert (Hb : In (slower k) boolean_names) by (apply HB; auto).
      destruct (parse_boolean v) as [[]|] eqn:Ep.
      * exists (Some []). split; auto. apply ar_true; auto.
      * exists None. split; auto. apply ar_false; auto.
      * exists (Some v). split; auto. apply ar_plain; auto.
    + assert (Hnb : ~ In (slower k) boolean_names) by (intro X; apply HB in X; discriminate).
      exists (Some v). split; auto. apply ar_plain; auto. tauto.
Qed.

(** Sorted maps. *)
Lemma bt_insert_In m k v k' v' : In (k', v') (bt_insert m k v) -> (k', v') = (k, v) \/ In (k', v') m.
Proof.
  induction m as [|[a b] m IH]; cbn [bt_insert]; [intros [H|[]]; auto|].
  destruct (seqb a k); [intros [H|H]; [auto|right; right; auto]|].
  destruct (str_ltb k a); [intros [H|H]; [auto|right; auto]|].
  intros [H|H]; [right; left; auto|]. apply IH in H as [H|H]; [auto|right; right; auto].
Qed.
Lemma bt_insert_In_new m k v : In (k, v) (bt_insert m k v).
Proof.
  induction m as [|[a b] m IH]; cbn [bt_insert]; [left; auto|].
  destruct (seqb a k); [left; auto|]. destruct (str_ltb k a); [left; auto|right; auto].
Qed.
Lemma bt_insert_In_old m k v k' v' : k' <> k -> In (k', v') m -> In (k', v') (bt_insert m k v).
Proof.
  intros Hk. induction m as [|[a b] m IH]; cbn [bt_insert]; [intros []|].
  destruct (seqb a k) eqn:E.
  - apply seqb_eq in E as ->. intros [[= <- <-]|H]; [contradiction|right; auto].
  - destruct (str_ltb k a); [right; auto|]. intros [H|H]; [left; auto|right; auto].
Qed.
Lemma str_ltb_irrefl a : str_ltb a a = false.
Proof. induction a as [|c a IH]; auto. cbn. rewrite N.ltb_irrefl. auto. Qed.
Lemma str_ltb_trans a : forall b c, str_ltb a b = true -> str_ltb b c = true -> str_ltb a c = true.
Proof.
  induction a as [|x a IH]; intros [|y b] [|z c]; cbn; auto; try discriminate.
  destruct (N.ltb_spec x y), (N.ltb_spec y x), (N.ltb_spec y z), (N.ltb_spec z y), (N.ltb_spec x z), (N.ltb_spec z x);
    try discriminate; try lia; auto. apply IH.
Qed.
Lemma str_ltb_total a : forall b, a <> b -> str_ltb a b = false -> str_ltb b a = true.
Proof.
  induction a as [|x a IH]; intros [|y b]; cbn; auto; try congruence; try discriminate.
  destruct (N.ltb_spec x y), (N.ltb_spec y x); auto; try discriminate; try lia.
  intros Hn. apply IH. intros ->. apply Hn. f_equal. lia.
Qed.
Inductive sorted_keys : btmap -> Prop :=
| sk_nil : sorted_keys []
| sk_cons k v m : Forall (fun e => str_ltb k (fst e) = true) m -> sorted_keys m -> sorted_keys ((k, v) :: m).
Lemma bt_insert_sorted m k v : sorted_keys m -> sorted_keys (bt_insert m k v).
Proof.
  induction 1 as [|a b m Hf Hs IH]; cbn [bt_insert]; [repeat constructor|].
  destruct (seqb a k) eqn:E; [apply seqb_eq in E as ->; constructor; auto|]. apply seqb_neq in E.
  destruct (str_ltb k a) eqn:L.
  - constructor; [|constructor; auto]. constructor; auto. eapply Forall_impl; [|exact Hf].
    intros [x y] Hx. cbn in *. eapply str_ltb_trans; eauto.
  - constructor; auto. apply Forall_forall. intros [x y] Hx. cbn. apply bt_insert_In in Hx as [[= -> ->]|Hx].
    + apply str_ltb_total; auto.
    + rewrite Forall_forall in Hf. apply (Hf (x, y)); auto.
Qed.
Lemma sorted_NoDup m : sorted_keys m -> NoDup (map fst m).
Proof.
  induction 1 as [|a b m Hf Hs IH]; cbn; constructor; auto. intro X. apply in_map_iff in X as ([x y] & E & Hin).
  cbn in E. subst. rewrite Forall_forall in Hf. apply Hf in Hin. cbn in Hin. rewrite str_ltb_irrefl in Hin. discriminate.
Qed.
Lemma sorted_ext m1 : forall m2, sorted_keys m1 -> sorted_keys m2 -> (forall e, In e m1 <-> In e m2) -> m1 = m2.
Proof.
  induction m1 as [|[a b] m1 IH]; intros [|[c d] m2] H1 H2 H; auto.
  - exfalso. apply (H (c, d)). left; auto.
  - exfalso. apply (H (a, b)). left; auto.
  - inversion H1 as [|? ? ? F1 S1]; inversion H2 as [|? ? ? F2 S2]; subst. rewrite Forall_forall in F1, F2.
    assert (E : (a, b) = (c, d)).
    { destruct (proj1 (H (a, b)) (or_introl eq_refl)) as [E|Hin1]; auto.
      destruct (proj2 (H (c, d)) (or_introl eq_refl)) as [E|Hin2]; auto.
      apply F2 in Hin1. apply F1 in Hin2. cbn in *. pose proof (str_ltb_trans _ _ _ Hin1 Hin2) as X. rewrite str_ltb_irrefl in X. discriminate. }
    injection E as -> ->. f_equal. apply IH; auto. intro e. specialize (H e). cbn in H. split; intro X.
    + destruct (proj1 H (or_intror X)) as [<-|]; auto. apply F1 in X. cbn in X. rewrite str_ltb_irrefl in X. discriminate.
    + destruct (proj2 H (or_intror X)) as [<-|]; auto. apply F2 in X. cbn in X. rewrite str_ltb_irrefl in X. discriminate.
Qed.

Section From.
Variable word : char -> bool.
Variable nz : str -> str.
Notation href := (normalize_href word nz).
Definition accepted (k : str) : Prop := In (slower k) safe_names \/ prefixed_name k.
Definition distinct_keys (args : arguments) : Prop := NoDup (map (fun kv => slower (fst kv)) args).
Lemma attr_result_fun k v r r' : attr_result href k v r -> attr_result href k v r' -> r = r'.
Proof.
  intros H H'. inversion H; subst; inversion H'; subst; try congruence; auto; try (exfalso; eapply url_bool_disj; eauto; fail); try tauto.
  all: match goal with X : In (slower ?x) boolean_names -> _, Y : In (slower ?x) boolean_names |- _ => specialize (X Y) end; congruence.
Qed.
Lemma from_arguments_spec args : forall acc, distinct_keys args -> sorted_keys acc ->
  (forall k, In k (map (fun kv => slower (fst kv)) args) -> ~ In k (map fst acc)) ->
  exists m, from_arguments word nz acc args = Some m /\ sorted_keys m /\
    forall k w, In (k, w) m <-> In (k, w) acc \/
      exists k0 v, In (k0, v) args /\ accepted k0 /\ k = slower k0 /\ attr_result href k0 v (Some w).
Proof.
  induction args as [|[k0 v0] args IH]; intros acc Hd Hs Hn; cbn [from_arguments fst].
  - exists acc. split; [auto|split; auto]. intros k w. split; auto. intros [H|(? & ? & [] & _)]; auto.
  - unfold distinct_keys in Hd. cbn [map fst] in Hd. inversion Hd as [|? ? Hnin Hd']; subst.
    assert (Hacc : forall k w, ((exists k1 v, In (k1, v) ((k0, v0) :: args) /\ accepted k1 /\ k = slower k1 /\ attr_result href k1 v (Some w)) <->
       (accepted k0 /\ k = slower k0 /\ attr_result href k0 v0 (Some w)) \/ exists k1 v, In (k1, v) args /\ accepted k1 /\ k = slower k1 /\ attr_result href k1 v (Some w))).
    { intros k w. split.
      - intros (k1 & v & [[= <- <-]|Hin] & Hr); [left; auto|right; eauto].
      - intros [H|(k1 & v & Hin & Hr)]; [exists k0, v0; split; [left; auto|auto]|exists k1, v; split; [right; auto|auto]]. }
    destruct (is_safe_attribute k0) eqn:E.
    + assert (Ha : accepted k0) by (apply is_safe_iff; auto).
      destruct (attr_entry_spec word nz k0 v0 Ha) as (r & -> & Hr). destruct r as [w0|].
      * destruct (IH (bt_insert acc (slower k0) w0)) as (m & Em & Sm & Hm); auto.
        { apply bt_insert_sorted; auto. }
        { intros k Hk X. apply in_map_iff in X as ([x y] & Ex & Hin). cbn in Ex. subst x.
          apply bt_insert_In in Hin as [[= -> ->]|Hin]; [apply Hnin; auto|].
          apply (Hn k); [right; auto|]. apply in_map_iff. exists (k, y). auto. }
        exists m. split; [auto|split; auto]. intros k w. rewrite Hm, Hacc. split.
        -- intros [H|H]; [|auto]. apply bt_insert_In in H as [[= -> ->]|H]; auto.
        -- intros [H|[(_ & -> & Hr')|H]]; auto.
           ++ left. apply bt_insert_In_old; auto. intros ->. apply (Hn (slower k0)); [left; auto|].
              apply in_map_iff. exists (slower k0, w). auto.
           ++ left. pose proof (attr_result_fun _ _ _ _ Hr Hr') as X. injection X as ->. apply bt_insert_In_new.
      * destruct (IH acc) as (m & Em & Sm & Hm); auto. { intros k Hk. apply Hn. right; auto. }
        exists m. split; [auto|split; auto]. intros k w. rewrite Hm, Hacc. split; [tauto|].
        intros [H|[(_ & -> & Hr')|H]]; auto. pose proof (attr_result_fun _ _ _ _ Hr Hr') as X. discriminate.
    + destruct (IH acc) as (m & Em & Sm & Hm); auto. { intros k Hk. apply Hn. right; auto. }
      exists m. split; [auto|split; auto]. intros k w. rewrite Hm, Hacc. split; [tauto|].
      intros [H|[(Ha & _)|H]]; auto. apply is_safe_iff in Ha. congruence.
Qed.
Lemma from_arguments_perm args args' : distinct_keys args -> Permutation args args' ->
  from_arguments word nz [] args = from_arguments word nz [] args'.
Proof.
  intros Hd Hp.
  assert (Hd' : distinct_keys args') by (unfold distinct_keys in *; eapply Permutation_NoDup; [apply Permutation_map; exact Hp|auto]).
  destruct (from_arguments_spec args [] Hd ltac:(constructor) ltac:(auto)) as (m & -> & Sm & Hm).
  destruct (from_arguments_spec args' [] Hd' ltac:(constructor) ltac:(auto)) as (m' & -> & Sm' & Hm').
  f_equal. apply sorted_ext; auto. intros [k w]. rewrite Hm, Hm'. split; intros [[]|(k0 & v & Hin & Hr)]; right; exists k0, v; split; auto.
  - eapply Permutation_in; eauto.
  - eapply Permutation_in; [symmetry; exact Hp|auto].
Qed.
End From.
(** Argument maps always have distinct keys. *)
Lemma args_insert_keys m k v : map (fun kv => slower (fst kv)) (args_insert m k v) =
  if smem (slower k) (map (fun kv => slower (fst kv)) m) then map (fun kv => slower (fst kv)) m
  else map (fun kv => slower (fst kv)) m ++ [slower k].
Proof.
  induction m as [|[a b] m IH]; auto. cbn [args_insert map fst smem]. unfold eq_nocase.
  destruct (seqb (slower a) (slower k)) eqn:E.
  - apply seqb_eq in E. rewrite E, seqb_refl. cbn [orb map fst]. rewrite E. reflexivity.
  - assert (seqb (slower k) (slower a) = false) as -> by (apply seqb_neq in E; apply seqb_neq; auto).
    cbn [map fst orb]. rewrite IH. destruct (smem _ _); reflexivity.
Qed.
Lemma args_insert_distinct m k v : distinct_keys m -> distinct_keys (args_insert m k v).
Proof.
  unfold distinct_keys. rewrite args_insert_keys. intro H. destruct (smem _ _) eqn:E; auto.
  apply NoDup_app; auto; [repeat constructor; auto|].
  intros x Hx [<-|[]]. apply smem_In in Hx. congruence.
Qed.

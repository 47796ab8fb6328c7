(** HtmlLemmas.v *)
From Verif Require Import Base BaseLemmas Strings SpecStrings StringsLemmas Attr Html SpecHtml.

Lemma escape_app a b : escape (a ++ b) = escape a ++ escape b.
Proof.
  induction a as [|c a IH]; cbn [app escape]; auto. destruct (escape_char c); rewrite IH; auto using app_assoc.
Qed.
Lemma escape_id s : Forall (fun c => ~ In c [62; 60; 38; 39; 34; 0]%N) s -> escape s = s.
Proof.
  induction 1 as [|c s Hc Hs IH]; auto. cbn [escape].
  destruct (escape_char_cases c) as [[E _]|[[-> _]|(e & E & _)]]; [rewrite E; congruence|exfalso; apply Hc; simpl; auto 10|].
  exfalso. apply Hc. clear -E. unfold escape_char in E.
  repeat match type of E with (if ceqb c ?k then _ else _) = _ =>
    let H := fresh in destruct (ceqb c k) eqn:H; [apply ceqb_eq in H as ->; simpl; auto 10|] end. discriminate.
Qed.
Definition all_empty (parts : list str) : bool := forallb (fun s => match s with [] => true | _ => false end) parts.
Lemma all_empty_concat parts : all_empty parts = true <-> concat parts = [].
Proof.
  induction parts as [|p parts IH]; simpl; [tauto|]. destruct p; simpl; [auto|]. split; discriminate.
Qed.
Lemma fold_push parts : forall buf, fold_left push_escaped parts buf = buf ++ escape (concat parts).
Proof.
  induction parts as [|p parts IH]; intro buf; cbn [fold_left concat]; [simpl; rewrite app_nil_r; auto|].
  rewrite IH. unfold push_escaped. rewrite escape_app, app_assoc. reflexivity.
Qed.
Lemma attr_single_text b key parts :
  attr_single b key parts = set_buf b (bt_buf b ++ single_text (key, concat parts)).
Proof.
  unfold attr_single. fold (all_empty parts). destruct (all_empty parts) eqn:E; cbn [negb].
  - apply all_empty_concat in E. unfold attr_key, single_text, push_escaped, push_raw_str. cbn [fst snd].
    rewrite E. rewrite <- app_assoc. reflexivity.
  - destruct (concat parts) as [|x v] eqn:Ec.
    { apply all_empty_concat in Ec. congruence. }
    unfold attr_value, attr_key, single_text. rewrite fold_push, Ec.
    unfold set_buf, push_raw_str, push_escaped. cbn [bt_buf bt_tag bt_in_tag bt_in_contents fst snd].
    rewrite <- !app_assoc. reflexivity.
Qed.
Lemma fold_single {A} (f : btag -> A -> btag) (g : A -> list (str * str)) l :
  (forall b x, f b x = set_buf b (bt_buf b ++ flat_map single_text (g x))) ->
  forall b, fold_left f l b = set_buf b (bt_buf b ++ flat_map single_text (flat_map g l)).
Proof.
  intro H. induction l as [|x l IH]; intro b; cbn [fold_left flat_map].
  - simpl. rewrite app_nil_r. destruct b; reflexivity.
  - rewrite IH, H. unfold set_buf. cbn. rewrite flat_map_app, app_assoc. reflexivity.
Qed.
(** Name/value pairs written by one [attr] call. *)
Definition merged_pairs (m : btmap) (es : list (str * list str)) : list (str * str) :=
  flat_map (fun e => match bt_get m (fst e) with Some v => [(fst e, concat (snd e) ++ [32%N] ++ v)] | None => [] end) es.
Definition merged_keys (m : btmap) (es : list (str * list str)) : list str :=
  flat_map (fun e => match bt_get m (fst e) with Some v => [fst e] | None => [] end) es.
Lemma attr_merge_eq m es : forall b merged, attr_merge b m es merged =
  (set_buf b (bt_buf b ++ flat_map single_text (merged_pairs m es)), rev (merged_keys m es) ++ merged).
Proof.
  induction es as [|[k p] es IH]; intros b merged; cbn [attr_merge].
  - simpl. rewrite app_nil_r. destruct b; reflexivity.
  - unfold merged_pairs, merged_keys. cbn [flat_map fst snd]. destruct (bt_get m k) as [v|].
    + rewrite IH, attr_single_text. cbn [app rev flat_map]. rewrite <- app_assoc. cbn [app].
      unfold set_buf. cbn [bt_buf bt_tag bt_in_tag bt_in_contents]. rewrite concat_app. cbn [concat]. rewrite app_nil_r.
      rewrite <- app_assoc. reflexivity.
    + rewrite IH. reflexivity.
Qed.
Definition attr_pairs (a : added) : list (str * str) :=
  let es := filter_entries a in
  match ad_map a with
  | Some m =>
      let ks := rev (merged_keys m es) ++ [] in
      merged_pairs m es
      ++ flat_map (fun e => if smem (fst e) ks then [] else [(fst e, concat (snd e))]) es
      ++ flat_map (fun e => if smem (fst e) ks then [] else [e]) m
  | None => flat_map (fun e => [(fst e, concat (snd e))]) es
  end.
Lemma attr_eq b a : attr b a = set_buf b (bt_buf b ++ flat_map single_text (attr_pairs a)).
Proof.
  unfold attr, attr_pairs. destruct (ad_map a) as [m|].
  - rewrite attr_merge_eq. set (ks := rev (merged_keys m (filter_entries a)) ++ []).
    rewrite (fold_single _ (fun e => if smem (fst e) ks then [] else [(fst e, concat (snd e))])).
    2: { intros c e. destruct (smem (fst e) ks); [simpl; rewrite app_nil_r; destruct c; reflexivity|].
         rewrite attr_single_text. simpl. rewrite app_nil_r. reflexivity. }
    rewrite (fold_single _ (fun e => if smem (fst e) ks then [] else [e])).
    2: { intros c e. destruct (smem (fst e) ks); [simpl; rewrite app_nil_r; destruct c; reflexivity|].
         rewrite attr_single_text. simpl. rewrite !app_nil_r. destruct e; reflexivity. }
    unfold set_buf. cbn [bt_buf bt_tag bt_in_tag bt_in_contents]. rewrite !flat_map_app, <- !app_assoc. reflexivity.
  - rewrite (fold_single _ (fun e => [(fst e, concat (snd e))])); [reflexivity|].
    intros c e. cbn [smem]. rewrite attr_single_text. simpl. rewrite app_nil_r. reflexivity.
Qed.
Lemma attrs_eq l : forall b, fold_left attr l b = set_buf b (bt_buf b ++ flat_map single_text (flat_map attr_pairs l)).
Proof. apply fold_single. apply attr_eq. Qed.

(** Which pairs, when neither side has duplicate names. *)
Lemma bt_get_In m k v : NoDup (map fst m) -> (bt_get m k = Some v <-> In (k, v) m).
Proof.
  induction m as [|[k' v'] m IH]; intro Hd; cbn [bt_get].
  - split; [discriminate|intros []].
  - inversion Hd as [|? ? Hn Hd']; subst. destruct (seqb k' k) eqn:E.
    + apply seqb_eq in E as ->. split.
      * intros [= ->]. left; auto.
      * intros [[= ->]|Hin]; auto. exfalso. apply Hn. change k with (fst (k, v)). apply in_map; auto.
    + apply seqb_neq in E. rewrite IH by auto. split; [right; auto|]. intros [[= -> ->]|]; [contradiction|auto].
Qed.
Lemma bt_get_None m k : bt_get m k = None <-> ~ In k (map fst m).
Proof.
  induction m as [|[k' v'] m IH]; cbn [bt_get map fst In]; [split; auto|].
  destruct (seqb k' k) eqn:E.
  - apply seqb_eq in E. split; [discriminate|]. intro H. exfalso. apply H. auto.
  - apply seqb_neq in E. rewrite IH. split; [intros H [X|X]; auto|intros H X; apply H; auto].
Qed.
Lemma merged_keys_In m es k : In k (merged_keys m es) <-> In k (map fst es) /\ In k (map fst m).
Proof.
  unfold merged_keys. rewrite in_flat_map. split.
  - intros ([k' p] & Hin & H). cbn [fst] in H. destruct (bt_get m k') as [v|] eqn:E; [|contradiction].
    destruct H as [<-|[]]. split; [apply (in_map fst) in Hin; exact Hin|].
    destruct (In_dec (list_eq_dec N.eq_dec) k' (map fst m)); auto. apply bt_get_None in n. congruence.
  - intros [H1 H2]. apply in_map_iff in H1 as ([k' p] & E & Hin). cbn in E. subst k'. exists (k, p). split; auto.
    cbn [fst]. destruct (bt_get m k) eqn:E; [left; auto|]. apply bt_get_None in E. contradiction.
Qed.
Lemma attr_pairs_In a k v : let es := filter_entries a in let m := match ad_map a with Some m => m | None => [] end in
  NoDup (map fst m) ->
  In (k, v) (attr_pairs a) <->
    (exists p u, In (k, p) es /\ In (k, u) m /\ v = concat p ++ [32%N] ++ u) \/
    (exists p, In (k, p) es /\ ~ In k (map fst m) /\ v = concat p) \/
    (In (k, v) m /\ ~ In k (map fst es)).
Proof.
  cbn zeta. unfold attr_pairs. set (es := filter_entries a). destruct (ad_map a) as [m|]; intro Hd.
  - set (ks := rev (merged_keys m es) ++ []).
    assert (Hks : forall x, smem x ks = true <-> In x (map fst es) /\ In x (map fst m)).
    { intro x. unfold ks. rewrite app_nil_r, smem_In, <- in_rev. apply merged_keys_In. }
    rewrite !in_app_iff. apply or_iff_compat_both || idtac.
    assert (A : In (k, v) (merged_pairs m es) <-> exists p u, In (k, p) es /\ In (k, u) m /\ v = concat p ++ [32%N] ++ u).
    { unfold merged_pairs. rewrite in_flat_map. split.
      - intros ([k' p] & Hin & H). cbn [fst snd] in H. destruct (bt_get m k') as [u|] eqn:E; [|contradiction].
        destruct H as [[= -> <-]|[]]. exists p, u. apply bt_get_In in E; auto.
      - intros (p & u & H1 & H2 & ->). exists (k, p). split; auto. cbn [fst snd].
        apply bt_get_In in H2; auto. rewrite H2. left. reflexivity. }
    assert (B : In (k, v) (flat_map (fun e => if smem (fst e) ks then [] else [(fst e, concat (snd e))]) es) <->
              exists p, In (k, p) es /\ ~ In k (map fst m) /\ v = concat p).
    { rewrite in_flat_map. split.
      - intros ([k' p] & Hin & H). cbn [fst snd] in H. destruct (smem k' ks) eqn:E; [contradiction|].
        destruct H as [[= -> <-]|[]]. exists p. repeat split; auto. intro X.
        assert (smem k ks = true) by (apply Hks; split; auto; apply (in_map fst) in Hin; auto). congruence.
      - intros (p & H1 & H2 & ->). exists (k, p). split; auto. cbn [fst snd].
        destruct (smem k ks) eqn:E; [apply Hks in E; tauto|]. left; auto. }
    assert (C : In (k, v) (flat_map (fun e => if smem (fst e) ks then [] else [e]) m) <-> In (k, v) m /\ ~ In k (map fst es)).
    { rewrite in_flat_map. split.
      - intros ([k' u] & Hin & H). cbn [fst] in H. destruct (smem k' ks) eqn:E; [contradiction|].
        destruct H as [[= -> ->]|[]]. split; auto. intro X.
        assert (smem k ks = true) by (apply Hks; split; auto; apply (in_map fst) in Hin; auto). congruence.
      - intros [H1 H2]. exists (k, v). split; auto. cbn [fst]. destruct (smem k ks) eqn:E; [apply Hks in E; tauto|]. left; auto. }
    rewrite A, B, C. tauto.
  - rewrite in_flat_map. split.
    + intros ([k' p] & Hin & [[= -> <-]|[]]). right. left. exists p. repeat split; auto.
    + intros [(p & u & _ & [] & _)|[(p & H & _ & ->)|[[] _]]]. exists (k, p). split; auto. left; auto.
Qed.
Lemma NoDup_flat_sub {A B} (f : A -> list B) (g : A -> B) l :
  (forall x, f x = [] \/ f x = [g x]) -> NoDup (map g l) -> NoDup (flat_map f l).
Proof.
  intros Hf. induction l as [|x l IH]; intro H; cbn [flat_map]; [constructor|]. inversion H; subst.
  destruct (Hf x) as [-> | ->]; cbn [app]; auto. constructor; auto.
  intro X. apply H2. apply in_flat_map in X as (y & Hy & Hx). apply in_map_iff. exists y. split; auto.
  destruct (Hf y) as [E|E]; rewrite E in Hx; [contradiction|]. destruct Hx as [|[]]; auto.
Qed.
Lemma map_flat_map {A B C} (g : B -> C) (f : A -> list B) l : map g (flat_map f l) = flat_map (fun x => map g (f x)) l.
Proof. induction l; cbn; auto. rewrite map_app. congruence. Qed.
Lemma NoDup_app {A} (a b : list A) : NoDup a -> NoDup b -> (forall x, In x a -> ~ In x b) -> NoDup (a ++ b).
Proof.
  induction 1 as [|x a Hx Ha IH]; intros Hb H; auto. cbn. constructor.
  - rewrite in_app_iff. intros [X|X]; [auto|]. eapply H; eauto. left; auto.
  - apply IH; auto. intros y Hy. apply H. right; auto.
Qed.
Lemma attr_pairs_NoDup a : NoDup (map fst (filter_entries a)) ->
  NoDup (map fst (match ad_map a with Some m => m | None => [] end)) -> NoDup (map fst (attr_pairs a)).
Proof.
  intros He Hm. unfold attr_pairs. set (es := filter_entries a) in *. destruct (ad_map a) as [m|].
  - set (ks := rev (merged_keys m es) ++ []).
    assert (Hks : forall x, smem x ks = true <-> In x (map fst es) /\ In x (map fst m)).
    { intro x. unfold ks. rewrite app_nil_r, smem_In, <- in_rev. apply merged_keys_In. }
    rewrite !map_app. 
    assert (I1 : forall x, In x (map fst (merged_pairs m es)) -> smem x ks = true).
    { intros x Hx. apply in_map_iff in Hx as ([k v] & <- & Hx). unfold merged_pairs in Hx.
      apply in_flat_map in Hx as ([k' p] & Hin & Hx). cbn [fst snd] in Hx. destruct (bt_get m k') as [u|] eqn:E; [|contradiction].
      destruct Hx as [[= <- <-]|[]]. apply Hks. split; [apply (in_map fst) in Hin; auto|].
      destruct (In_dec (list_eq_dec N.eq_dec) k' (map fst m)); auto. apply bt_get_None in n. congruence. }
    assert (I2 : forall x, In x (map fst (flat_map (fun e => if smem (fst e) ks then [] else [(fst e, concat (snd e))]) es)) ->
               smem x ks = false /\ In x (map fst es)).
    { intros x Hx. apply in_map_iff in Hx as ([k v] & <- & Hx). apply in_flat_map in Hx as ([k' p] & Hin & Hx).
      cbn [fst snd] in *. destruct (smem k' ks) eqn:E; [contradiction|]. destruct Hx as [[= <- <-]|[]]. split; auto.
      apply (in_map fst) in Hin; auto. }
    assert (I3 : forall x, In x (map fst (flat_map (fun e => if smem (fst e) ks then [] else [e]) m)) ->
               smem x ks = false /\ In x (map fst m)).
    { intros x Hx. apply in_map_iff in Hx as ([k v] & <- & Hx). apply in_flat_map in Hx as ([k' p] & Hin & Hx).
      cbn [fst snd] in *. destruct (smem k' ks) eqn:E; [contradiction|]. destruct Hx as [[= <- <-]|[]]. split; auto.
      apply (in_map fst) in Hin; auto. }
    apply NoDup_app; [|apply NoDup_app|].
    + unfold merged_pairs. rewrite map_flat_map. apply (NoDup_flat_sub _ fst); auto.
      intros [k p]. cbn. destruct (bt_get m k); auto.
    + rewrite map_flat_map. apply (NoDup_flat_sub _ fst); auto. intros [k p]. cbn. destruct (smem k ks); auto.
    + rewrite map_flat_map. apply (NoDup_flat_sub _ fst); auto. intros [k p]. cbn. destruct (smem k ks); auto.
    + intros x H2 H3. apply I2 in H2 as [E Hx1]. apply I3 in H3 as [_ Hx2].
      assert (smem x ks = true) by (apply Hks; auto). congruence.
    + intros x H1 H23. apply I1 in H1. apply in_app_iff in H23 as [H|H]; [apply I2 in H as [E _]|apply I3 in H as [E _]]; congruence.
  - rewrite map_flat_map. apply (NoDup_flat_sub _ fst); auto.
Qed.

(** *** trees *)
Lemma write_nodes_fix ns : forall buf,
  (fix go buf ns := match ns with
     | [] => Some buf
     | n :: ns' => match write_node buf n with Some buf => go buf ns' | None => None end
     end) buf ns = write_nodes buf ns.
Proof. induction ns; intro buf; cbn; auto. Qed.
Lemma node_ind' (P : node -> Prop) :
  (forall s, P (NText s)) -> (forall s, P (NRaw s)) ->
  (forall t a, P (NTag t a None)) -> (forall t a ns, Forall P ns -> P (NTag t a (Some ns))) -> forall n, P n.
Proof.
  intros H1 H2 H3 H4. fix IH 1. intros [s|s|t a [ns|]]; [apply H1|apply H2| |apply H3].
  apply H4. induction ns as [|n ns IHns]; constructor; [apply IH|exact IHns].
Qed.
Lemma attr_pairs_keys a k : In k (map fst (attr_pairs a)) -> In k (added_keys a).
Proof.
  unfold attr_pairs, added_keys. set (es := filter_entries a). intro H. apply in_map_iff in H as ([k' v] & <- & H). cbn [fst].
  apply in_app_iff. destruct (ad_map a) as [m|].
  - rewrite !in_app_iff in H. destruct H as [H|[H|H]].
    + unfold merged_pairs in H. apply in_flat_map in H as ([k2 p] & Hin & H). cbn [fst snd] in H.
      destruct (bt_get m k2); [|contradiction]. destruct H as [[= <- _]|[]]. left. apply (in_map fst) in Hin. auto.
    + apply in_flat_map in H as ([k2 p] & Hin & H). cbn [fst snd] in H. destruct (smem k2 _); [contradiction|].
      destruct H as [[= <- _]|[]]. left. apply (in_map fst) in Hin. auto.
    + apply in_flat_map in H as ([k2 p] & Hin & H). cbn [fst snd] in H. destruct (smem k2 _); [contradiction|].
      destruct H as [[= <- _]|[]]. right. apply (in_map fst) in Hin. auto.
  - apply in_flat_map in H as ([k2 p] & Hin & H). destruct H as [[= <- _]|[]]. left. apply (in_map fst) in Hin. auto.
Qed.
Lemma tag_keys_NoDup l : Forall nodup_added l -> ForallOrdPairs disjoint_added l ->
  NoDup (map fst (flat_map attr_pairs l)).
Proof.
  induction l as [|a l IH]; intros H1 H2; cbn [flat_map map]; [constructor|].
  inversion H1 as [|? ? Ha Hl]; subst. inversion H2 as [|? ? Hf Hr]; subst. rewrite map_app. apply NoDup_app; auto.
  - destruct Ha. apply attr_pairs_NoDup; auto.
  - intros k Hk X. apply attr_pairs_keys in Hk. apply in_map_iff in X as ([k' v] & E & X). cbn in E. subst k'.
    apply in_flat_map in X as (a' & Ha' & X). apply (in_map fst) in X. apply attr_pairs_keys in X. cbn in X.
    rewrite Forall_forall in Hf. apply (Hf _ Ha' k); auto.
Qed.
Lemma tag_keys_names l : Forall (fun a => Forall (fun k => attr_name (escape k)) (added_keys a)) l ->
  Forall (fun k => attr_name (escape k)) (map fst (flat_map attr_pairs l)).
Proof.
  intro H. apply Forall_forall. intros k Hk. apply in_map_iff in Hk as ([k' v] & E & X). cbn in E. subst k'.
  apply in_flat_map in X as (a & Ha & X). apply (in_map fst) in X. apply attr_pairs_keys in X.
  rewrite Forall_forall in H. specialize (H _ Ha). rewrite Forall_forall in H. apply H. auto.
Qed.
Lemma pairs_attributes ps : Forall (fun k => attr_name (escape k)) (map fst ps) ->
  attributes (map escape (map fst ps)) (flat_map single_text ps).
Proof.
  induction ps as [|[k v] ps IH]; intro H; cbn [map flat_map fst]; [constructor|]. inversion H; subst.
  constructor; auto. unfold single_text. cbn [fst snd]. destruct v as [|c v]; [constructor; auto|].
  apply at_val; auto. unfold attr_text. eapply Forall_impl; [|apply escape_safe]. cbn. tauto.
Qed.
Lemma balanced_text t s : Forall (fun c => ~ In c [60; 62; 34; 39; 0]%N) t -> balanced s -> balanced (t ++ s).
Proof. induction 1; cbn; auto. intro. constructor; auto. Qed.
Lemma balanced_app a b : balanced a -> balanced b -> balanced (a ++ b).
Proof.
  induction 1 as [|c s Hc H IH|tag ks at_ s Ht Hv Ha Hd H IH|tag ks at_ inner s Ht Hv Ha Hd Hi IHi H IH]; intro Hb; auto.
  - cbn. constructor; auto.
  - cbn. rewrite <- !app_assoc. cbn. eapply bal_void; eauto.
  - cbn. rewrite <- !app_assoc. cbn. rewrite <- !app_assoc. cbn. rewrite <- !app_assoc. cbn. eapply bal_pair; eauto.
Qed.
(** Distinct names stay distinct when escaped, if they contain no NUL. *)
Lemma escape_inj a b : ~ In 0%N a -> ~ In 0%N b -> escape a = escape b -> a = b.
Proof.
  intros Ha Hb E. assert (X : nul_to_space a = nul_to_space b) by (rewrite <- !escape_decode; congruence).
  assert (K : forall s, ~ In 0%N s -> nul_to_space s = s).
  { induction s as [|c s IH]; intro H; auto. cbn. destruct (ceqb c 0) eqn:E0.
    - apply ceqb_eq in E0. exfalso. apply H. left; auto.
    - f_equal. apply IH. intro; apply H; right; auto. }
  rewrite !K in X; auto.
Qed.
Lemma attr_name_no_nul k : attr_name (escape k) -> ~ In 0%N k.
Proof.
  intros [_ H] Hin. apply in_split in Hin as (a & b & ->). rewrite escape_app in H. cbn [escape] in H.
  change (escape_char 0) with (Some (lit " ")) in H. cbn iota in H.
  apply Forall_app in H as [_ H]. cbn in H. inversion H as [|? ? [H1 _] _]; subst. discriminate H1.
Qed.
Lemma NoDup_map_escape ks : NoDup ks -> Forall (fun k => attr_name (escape k)) ks -> NoDup (map escape ks).
Proof.
  induction 1 as [|k ks Hk Hks IH]; intro H; cbn; constructor; inversion H; subst; auto.
  intro X. apply in_map_iff in X as (k' & E & Hin). apply Hk. 
  rewrite Forall_forall in H3. apply escape_inj in E; [congruence| |]; apply attr_name_no_nul; auto.
Qed.
Lemma write_node_balanced n : well_named n -> forall buf, exists out, write_node buf n = Some (buf ++ out) /\ balanced out.
Proof.
  induction n as [s|s|t a|t a ns IH] using node_ind'; intros Hw buf; inversion Hw as [|? Hraw|? ? ? Ht Hd1 Hd2 Hk1 Hv Hc]; subst; cbn [write_node];
    try (pose proof (tag_keys_NoDup _ Hd1 Hd2) as Hd; pose proof (tag_keys_names _ Hk1) as Hk).
  - eexists. split; [reflexivity|]. rewrite <- (app_nil_r (escape s)). apply balanced_text; [apply escape_safe|constructor].
  - eexists. split; [reflexivity|]. rewrite <- (app_nil_r s). apply balanced_text; [auto|constructor].
  - rewrite attrs_eq. unfold tag_drop, set_buf, tag_new, push_raw_str. cbn [bt_buf bt_tag bt_in_tag bt_in_contents andb negb].
    pose proof (pairs_attributes _ Hk) as Ha. pose proof (NoDup_map_escape _ Hd Hk) as Hnd.
    set (ks := map escape (map fst (flat_map attr_pairs a))) in *. set (at_ := flat_map single_text (flat_map attr_pairs a)) in *.
    unfold should_close_tag. destruct (smem t SOLO_HTML_TAGS) eqn:E; cbn [negb].
    + eexists. split; [rewrite <- !app_assoc; reflexivity|]. apply smem_In in E.
      change ([60%N] ++ t ++ at_ ++ [62%N]) with (60%N :: t ++ at_ ++ 62%N :: []).
      eapply bal_void; eauto. constructor.
    + eexists. split; [rewrite <- !app_assoc; reflexivity|].
      assert (Hnv : ~ In t void_tags) by (intro X; apply smem_In in X; change void_tags with SOLO_HTML_TAGS in X; congruence).
      change ([60%N] ++ t ++ at_ ++ [62%N] ++ lit "</" ++ t ++ [62%N]) with (60%N :: t ++ at_ ++ 62%N :: [] ++ 60%N :: 47%N :: t ++ 62%N :: []).
      eapply bal_pair; eauto; constructor.
  - assert (Hnv : ~ In t void_tags) by (intro X; apply Hv in X; discriminate).
    specialize (Hc ns eq_refl). rewrite attrs_eq. unfold content_start, set_buf, tag_new, push_raw_str.
    cbn [bt_buf bt_tag bt_in_tag bt_in_contents andb negb]. rewrite write_nodes_fix.
    pose proof (pairs_attributes _ Hk) as Ha. pose proof (NoDup_map_escape _ Hd Hk) as Hnd.
    set (ks := map escape (map fst (flat_map attr_pairs a))) in *. set (at_ := flat_map single_text (flat_map attr_pairs a)) in *.
    assert (K : forall buf, exists out, write_nodes buf ns = Some (buf ++ out) /\ balanced out).
    { clear -IH Hc. induction ns as [|n ns IHns]; intro buf; cbn [write_nodes].
      - exists []. rewrite app_nil_r. split; [auto|constructor].
      - inversion IH; subst. inversion Hc; subst. destruct (H1 H3 buf) as (o1 & -> & B1).
        destruct (IHns H2 H4 (buf ++ o1)) as (o2 & -> & B2). exists (o1 ++ o2). rewrite app_assoc. split; auto.
        apply balanced_app; auto. }
    match goal with |- context [write_nodes ?b ns] => destruct (K b) as (o & -> & Bo) end.
    unfold tag_drop, push_raw_str. cbn [bt_buf bt_tag bt_in_tag bt_in_contents andb negb].
    assert (should_close_tag t = true) as ->.
    { unfold should_close_tag. destruct (smem t SOLO_HTML_TAGS) eqn:E; auto. apply smem_In in E. contradiction. }
    exists (60%N :: t ++ at_ ++ 62%N :: o ++ 60%N :: 47%N :: t ++ 62%N :: []). split.
    + f_equal. rewrite <- !app_assoc. cbn [app]. reflexivity.
    + eapply bal_pair; eauto. constructor.
Qed.
Lemma write_nodes_balanced ns : Forall well_named ns -> forall buf, exists out, write_nodes buf ns = Some (buf ++ out) /\ balanced out.
Proof.
  induction 1 as [|n ns Hn Hns IH]; intro buf; cbn [write_nodes].
  - exists []. rewrite app_nil_r. split; [auto|constructor].
  - destruct (write_node_balanced n Hn buf) as (o1 & -> & B1). destruct (IH (buf ++ o1)) as (o2 & -> & B2).
    exists (o1 ++ o2). rewrite app_assoc. split; auto. apply balanced_app; auto.
Qed.

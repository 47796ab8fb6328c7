(** RenderDom.v -- the rendered text as a tree, and how a browser reads it. *)
From Verif Require Import Base BaseLemmas Strings StringsLemmas Links Attr Html SpecHtml HtmlLemmas Tree Text PState Parse SpecParse SpecPage ParseInv
  Render SpecReader SpecRender.

(** *** Builder calls as a tree *)
Fixpoint dom_of (n : node) : dom :=
  match n with
  | NText s => DText s
  | NRaw s => DRaw s
  | NTag tag attrs contents =>
      DTag tag (flat_map attr_pairs attrs) (match contents with Some ns => map dom_of ns | None => [] end)
  end.
Lemma write_node_dom n : forall buf, write_node buf n = Some (buf ++ dom_text (dom_of n)).
Proof.
  assert (Ec : forall tg, should_close_tag tg = negb (smem tg void_tags)) by reflexivity.
  induction n as [s|s|t a|t a ns IH] using node_ind'; intro buf; try reflexivity.
  - cbn [write_node dom_of dom_text flat_map]. rewrite attrs_eq. unfold tag_drop, set_buf, tag_new, push_raw_str.
    cbn [bt_buf bt_tag bt_in_tag bt_in_contents andb negb]. rewrite Ec. f_equal. destruct (smem t void_tags); cbn [negb];
      rewrite <- ?app_assoc; repeat f_equal.
  - cbn [write_node dom_of dom_text flat_map]. rewrite attrs_eq. unfold content_start, set_buf, tag_new, push_raw_str.
    cbn [bt_buf bt_tag bt_in_tag bt_in_contents andb negb]. rewrite write_nodes_fix.
    assert (K : forall b, write_nodes b ns = Some (b ++ flat_map dom_text (map dom_of ns))).
    { induction IH as [|n ns Hn _ IHns]; intro b; cbn [write_nodes map flat_map]; [rewrite app_nil_r; auto|].
      rewrite Hn, IHns, <- app_assoc. auto. }
    rewrite K. unfold tag_drop, push_raw_str. cbn [bt_buf bt_tag bt_in_tag bt_in_contents andb negb]. rewrite Ec. f_equal.
    destruct (smem t void_tags); cbn [negb]; rewrite <- ?app_assoc, ?app_nil_r; repeat f_equal.
Qed.
Lemma write_nodes_dom ns : forall buf, write_nodes buf ns = Some (buf ++ flat_map dom_text (map dom_of ns)).
Proof.
  induction ns as [|n ns IH]; intro b; cbn [write_nodes map flat_map]; [rewrite app_nil_r; auto|].
  rewrite write_node_dom, IH, <- app_assoc. auto.
Qed.

(** *** Reading *)
Lemma hrun_app a : forall s b, hrun s (a ++ b) = (let '(s1, t1) := hrun s a in let '(s2, t2) := hrun s1 b in (s2, t1 ++ t2)).
Proof.
  induction a as [|c a IH]; intros s b; cbn [app hrun].
  - destruct (hrun s b). reflexivity.
  - destruct (hstep s c) as [s1 t1]. rewrite IH. destruct (hrun s1 a) as [s2 t2]. destruct (hrun s2 b) as [s3 t3].
    rewrite app_assoc. reflexivity.
Qed.
Lemma hrun_seq s a b s1 t1 s2 t2 : hrun s a = (s1, t1) -> hrun s1 b = (s2, t2) -> hrun s (a ++ b) = (s2, t1 ++ t2).
Proof. intros H1 H2. rewrite hrun_app, H1, H2. reflexivity. Qed.
Lemma hrun_cons s c b s1 t1 s2 t2 : hstep s c = (s1, t1) -> hrun s1 b = (s2, t2) -> hrun s (c :: b) = (s2, t1 ++ t2).
Proof. intros H1 H2. cbn [hrun]. rewrite H1, H2. reflexivity. Qed.
Lemma escape_cases c : (exists e, escape_char c = Some e /\
     ((c = 62%N /\ e = lit "&gt;") \/ (c = 60%N /\ e = lit "&lt;") \/ (c = 38%N /\ e = lit "&amp;") \/ (c = 39%N /\ e = lit "&#39;")
      \/ (c = 34%N /\ e = lit "&quot;") \/ (c = 0%N /\ e = lit " "))) \/
  (escape_char c = None /\ ~ In c [62; 60; 38; 39; 34; 0]%N).
Proof.
  unfold escape_char.
  destruct (ceqb c 62) eqn:E1; [apply ceqb_eq in E1; subst; left; eexists; split; [reflexivity|tauto]|].
  destruct (ceqb c 60) eqn:E2; [apply ceqb_eq in E2; subst; left; eexists; split; [reflexivity|tauto]|].
  destruct (ceqb c 38) eqn:E3; [apply ceqb_eq in E3; subst; left; eexists; split; [reflexivity|tauto]|].
  destruct (ceqb c 39) eqn:E4; [apply ceqb_eq in E4; subst; left; eexists; split; [reflexivity|tauto]|].
  destruct (ceqb c 34) eqn:E5; [apply ceqb_eq in E5; subst; left; eexists; split; [reflexivity|tauto]|].
  destruct (ceqb c 0) eqn:E6; [apply ceqb_eq in E6; subst; left; eexists; split; [reflexivity|tauto]|].
  right. split; auto. intro H. cbn in H. repeat match goal with H : _ \/ _ |- _ => destruct H as [H|H] end; try subst;
    try contradiction; try (rewrite ceqb_refl in *; discriminate).
Qed.
Lemma ceqb_ne c d : c <> d -> ceqb c d = false.
Proof. intro H. destruct (ceqb c d) eqn:E; auto. apply ceqb_eq in E. contradiction. Qed.
Lemma ceqb_out c l d : ~ In c l -> In d l -> ceqb c d = false.
Proof. intros H Hd. apply ceqb_ne. intros ->. auto. Qed.
Ltac ne H := rewrite ?(ceqb_out _ _ 62 H), ?(ceqb_out _ _ 60 H), ?(ceqb_out _ _ 38 H), ?(ceqb_out _ _ 34 H), ?(ceqb_out _ _ 61 H), ?(ceqb_out _ _ 47 H), ?(ceqb_out _ _ 0 H)
  by (cbn; tauto).
Lemma read_escaped s : hrun SData (escape s) = (SData, chars (shown s)).
Proof.
  induction s as [|c s IH]; [reflexivity|]. cbn [escape]. destruct (escape_cases c) as [(e & -> & He)|[-> Hn]].
  - change (chars (shown (c :: s))) with (chars (shown [c]) ++ chars (shown s)). eapply hrun_seq; [|exact IH].
    decompose [or and] He; subst; reflexivity.
  - change (chars (shown (c :: s))) with (chars (shown [c]) ++ chars (shown s)). eapply hrun_cons; [|exact IH].
    cbn [hstep shown map]. unfold in_data. ne Hn. reflexivity.
Qed.
Lemma read_value tag attrs name s : forall acc, hrun (SValue 34 tag attrs name acc) (escape s) = (SValue 34 tag attrs name (rev (shown s) ++ acc), []).
Proof.
  induction s as [|c s IH]; intro acc; [reflexivity|]. cbn [escape].
  change (shown (c :: s)) with (shown [c] ++ shown s). rewrite rev_app_distr, <- app_assoc.
  destruct (escape_cases c) as [(e & -> & He)|[-> Hn]].
  - change (@nil htoken) with (@nil htoken ++ []). eapply hrun_seq; [|apply IH].
    decompose [or and] He; subst; reflexivity.
  - change (@nil htoken) with (@nil htoken ++ []). eapply hrun_cons; [|apply IH].
    cbn [hstep shown map rev app]. ne Hn. reflexivity.
Qed.
(** In a tag, ready for the next attribute or the end. *)
Inductive ready : hstate -> str -> list (str * str) -> Prop :=
| ry_tag acc : ready (STagName acc) (rev acc) []
| ry_name tag attrs acc : ready (SName tag attrs acc) tag (attrs ++ [(rev acc, [])])
| ry_value tag attrs : ready (SAfterValue tag attrs) tag attrs.
Lemma ready_space s tag attrs : ready s tag attrs -> hstep s 32 = (SAttrs tag attrs, []).
Proof. intros []; reflexivity. Qed.
Lemma ready_end s tag attrs : ready s tag attrs -> hstep s 62 = finish tag attrs.
Proof. intros []; reflexivity. Qed.
Lemma html_space_ws c : is_ws c = false -> html_space c = false.
Proof.
  intro H. unfold html_space. destruct (cmem c _) eqn:E; auto. exfalso. apply cmem_In in E. cbn in E.
  decompose [or] E; subst; try discriminate H; contradiction.
Qed.
Definition name_char (c : char) : Prop := is_ws c = false /\ ~ In c [47; 61; 62; 60; 34; 39; 0]%N /\ c <> 38%N.
Lemma read_name tag attrs k : Forall name_char k -> forall acc, hrun (SName tag attrs acc) k = (SName tag attrs (rev k ++ acc), []).
Proof.
  induction 1 as [|c k (H1 & H2 & H3) _ IH]; intro acc; [reflexivity|]. change (@nil htoken) with (@nil htoken ++ []).
  cbn [rev]. rewrite <- app_assoc. eapply hrun_cons; [|apply IH]. cbn [hstep]. rewrite html_space_ws by auto.
  ne H2. reflexivity.
Qed.
Lemma read_attr s tag attrs kv : ready s tag attrs -> attr_name (fst kv) /\ ~ In 38%N (fst kv) ->
  exists s', hrun s (single_text kv) = (s', []) /\ ready s' tag (attrs ++ [(fst kv, shown (snd kv))]).
Proof.
  intros Hr [[Hne Hk] Ha]. destruct kv as [k v]. cbn [fst snd] in *.
  assert (Hn : Forall name_char k).
  { rewrite Forall_forall in *. intros c Hc. destruct (Hk c Hc). split; auto. split; auto. intros ->. auto. }
  assert (Ek : escape k = k).
  { apply escape_id. rewrite Forall_forall in *. intros c Hc. destruct (Hn c Hc) as (_ & X & Y). cbn in *. intuition. }
  destruct k as [|c k]; [contradiction|]. pose proof Hn as Hn'. inversion Hn as [|? ? (C1 & C2 & C3) Hn2]; subst.
  assert (Hst : hrun s (32%N :: c :: k) = (SName tag attrs (rev (c :: k)), [])).
  { change (@nil htoken) with (@nil htoken ++ []). eapply hrun_cons; [apply ready_space; eauto|].
    change (@nil htoken) with (@nil htoken ++ []). eapply hrun_cons.
    - cbn [hstep]. rewrite html_space_ws by auto. ne C2. reflexivity.
    - apply read_name; auto. }
  unfold single_text. cbn [fst snd]. rewrite Ek. destruct v as [|d v].
  - exists (SName tag attrs (rev (c :: k))). split; auto. pose proof (ry_name tag attrs (rev (c :: k))) as R. rewrite rev_involutive in R. exact R.
  - exists (SAfterValue tag (attrs ++ [(c :: k, shown (d :: v))])). split; [|constructor].
    change (32%N :: (c :: k) ++ 61%N :: 34%N :: escape (d :: v) ++ [34%N]) with ((32%N :: c :: k) ++ [61%N; 34%N] ++ escape (d :: v) ++ [34%N]).
    change (@nil htoken) with (@nil htoken ++ []). eapply hrun_seq; [exact Hst|].
    change (@nil htoken) with (@nil htoken ++ []). eapply hrun_seq; [reflexivity|].
    change (@nil htoken) with (@nil htoken ++ []). eapply hrun_seq; [apply read_value|].
    cbn [hrun hstep]. change (ceqb 34 34) with true. cbn iota. rewrite app_nil_r, !rev_involutive. reflexivity.
Qed.
Lemma read_attrs kvs : proper_attrs kvs -> forall s tag attrs, ready s tag attrs ->
  exists s', hrun s (flat_map single_text kvs) = (s', []) /\ ready s' tag (attrs ++ map (fun kv => (fst kv, shown (snd kv))) kvs).
Proof.
  induction 1 as [|kv kvs Hkv _ IH]; intros s tag attrs Hr; cbn [flat_map map].
  - exists s. rewrite app_nil_r. auto.
  - destruct (read_attr s tag attrs kv Hr Hkv) as (s1 & E1 & R1). destruct (IH _ _ _ R1) as (s2 & E2 & R2).
    exists s2. rewrite <- app_assoc in R2. split; auto. change (@nil htoken) with (@nil htoken ++ []). eapply hrun_seq; eauto.
Qed.
Lemma read_tag_name r : Forall (fun c => is_alnum c = true \/ c = 45%N) r -> forall acc, hrun (STagName acc) r = (STagName (rev r ++ acc), []).
Proof.
  induction 1 as [|c r Hc _ IH]; intro acc; [reflexivity|]. change (@nil htoken) with (@nil htoken ++ []).
  cbn [rev]. rewrite <- app_assoc. eapply hrun_cons; [|apply IH]. cbn [hstep].
  assert (X : html_space c = false /\ ceqb c 47 = false /\ ceqb c 62 = false).
  { unfold html_space. assert (Y : forall d, In d [9; 10; 12; 13; 32; 47; 62]%N -> c <> d).
    { intros d Hd ->. cbn in Hd. destruct Hc as [Hc|Hc]; decompose [or] Hd; subst; try discriminate; try contradiction. }
    conj; [|apply ceqb_ne, Y; cbn; tauto|apply ceqb_ne, Y; cbn; tauto].
    destruct (cmem c _) eqn:E; auto. apply cmem_In in E. exfalso. apply (Y c); auto. cbn in *. tauto. }
  destruct X as (-> & -> & ->). reflexivity.
Qed.
Lemma read_end_name r : Forall (fun c => is_alnum c = true \/ c = 45%N) r -> forall acc, hrun (SEndTag acc) r = (SEndTag (rev r ++ acc), []).
Proof.
  induction 1 as [|c r Hc _ IH]; intro acc; [reflexivity|]. change (@nil htoken) with (@nil htoken ++ []).
  cbn [rev]. rewrite <- app_assoc. eapply hrun_cons; [|apply IH]. cbn [hstep]. rewrite ceqb_ne; [reflexivity|].
  intros ->. destruct Hc; discriminate.
Qed.
Lemma read_end_tag tag : proper_tag tag -> hrun SData (lit "</" ++ tag ++ [62%N]) = (SData, [TkClose tag]).
Proof.
  intros [[_ Ht] _]. change [TkClose tag] with ([] ++ [TkClose tag]). eapply hrun_seq; [reflexivity|].
  change [TkClose tag] with ([] ++ [TkClose tag]). eapply hrun_seq; [apply read_end_name; auto|].
  cbn [hrun hstep]. change (ceqb 62 62) with true. cbn iota. rewrite ?app_nil_r, rev_involutive. reflexivity.
Qed.
Lemma read_open tag attrs : proper_tag tag -> proper_attrs attrs ->
  hrun SData ([60%N] ++ tag ++ flat_map single_text attrs ++ [62%N]) = finish tag (map (fun kv => (fst kv, shown (snd kv))) attrs).
Proof.
  intros [[_ Ht] (c & r & -> & Hc)] Ha. inversion Ht as [|? ? Hc0 Hr]; subst.
  assert (Hs : hrun SData ([60%N] ++ (c :: r)) = (STagName (rev (c :: r)), [])).
  { cbn [app]. change (@nil htoken) with (@nil htoken ++ []). eapply hrun_cons; [reflexivity|].
    change (@nil htoken) with (@nil htoken ++ []). eapply hrun_cons; [cbn [hstep]; rewrite Hc; reflexivity|].
    apply read_tag_name; auto. }
  pose proof (ry_tag (rev (c :: r))) as Ry. rewrite rev_involutive in Ry.
  destruct (read_attrs attrs Ha _ _ _ Ry) as (s' & E & R'). cbn [app] in R'.
  rewrite (app_assoc [60%N]). destruct (finish (c :: r) _) as [fs ft] eqn:Ef. rewrite <- (app_nil_l ft).
  eapply hrun_seq; [exact Hs|]. rewrite <- (app_nil_l ft). eapply hrun_seq; [exact E|].
  rewrite <- (app_nil_r ft). eapply hrun_cons; [|reflexivity]. rewrite (ready_end _ _ _ R'). exact Ef.
Qed.
Lemma read_raw tag s : ~ substr (lit "</") s ->
  exists w, (hrun (SRaw tag) s = (SRaw tag, chars s) /\ w = false) \/
       (exists s', s = s' ++ [60%N] /\ hrun (SRaw tag) s = (SRawLt tag, chars s') /\ w = true).
Proof.
  intro Hn. assert (X : ~ substr (lit "</") s -> (hrun (SRaw tag) s = (SRaw tag, chars s)) \/
       (exists s', s = s' ++ [60%N] /\ hrun (SRaw tag) s = (SRawLt tag, chars s'))).
  2:{ destruct (X Hn) as [H|(s' & H1 & H2)]; [exists false; auto|exists true; right; eauto]. }
  clear Hn. assert (Y : forall n s, length s <= n -> ~ substr (lit "</") s -> 
     ((hrun (SRaw tag) s = (SRaw tag, chars s)) \/ (exists s', s = s' ++ [60%N] /\ hrun (SRaw tag) s = (SRawLt tag, chars s'))) /\
     ((forall r, s <> 47%N :: r) -> (s <> [] /\ hrun (SRawLt tag) s = (SRaw tag, chars (60%N :: s))) \/
         (exists s', 60%N :: s = s' ++ [60%N] /\ hrun (SRawLt tag) s = (SRawLt tag, chars s')))).
  2:{ intro Hn. apply (Y (length s)); auto. }
  clear s. induction n as [|n IH]; intros s Hl Hn.
  - destruct s; [|cbn in Hl; lia]. split; [left; reflexivity|]. intros _. right. exists []. auto.
  - destruct s as [|c s]; [split; [left; reflexivity|]; intros _; right; exists []; auto|].
    assert (Hn' : ~ substr (lit "</") s).
    { intros (a & b & E). apply Hn. exists (c :: a), b. rewrite E. reflexivity. }
    assert (Hc : c = 60%N -> forall r, s <> 47%N :: r).
    { intros -> r ->. apply Hn. exists [], r. reflexivity. }
    destruct (IH s ltac:(cbn in Hl; lia) Hn') as [I1 I2]. split.
    + destruct (ceqb c 60) eqn:E.
      * apply ceqb_eq in E. subst c. destruct (I2 (Hc eq_refl)) as [[Hne H]|(s' & E' & H)].
        -- left. cbn [hrun hstep]. change (ceqb 60 60) with true. cbn iota. rewrite H. reflexivity.
        -- right. exists s'. split; auto. cbn [hrun hstep]. change (ceqb 60 60) with true. cbn iota. rewrite H. reflexivity.
      * destruct I1 as [H|(s' & -> & H)].
        -- left. cbn [hrun hstep]. rewrite E, H. reflexivity.
        -- right. exists (c :: s'). split; auto. cbn [hrun hstep]. rewrite E, H. reflexivity.
    + intro Hs. destruct (ceqb c 60) eqn:E.
      * apply ceqb_eq in E. subst c. destruct (I2 (Hc eq_refl)) as [[Hne H]|(s' & E' & H)].
        -- left. split; [discriminate|]. cbn [hrun hstep]. change (ceqb 60 47) with false. change (ceqb 60 60) with true. cbn iota. rewrite H. reflexivity.
        -- right. exists (60%N :: s'). split; [rewrite E'; reflexivity|]. cbn [hrun hstep]. change (ceqb 60 47) with false. change (ceqb 60 60) with true. cbn iota. rewrite H. reflexivity.
      * assert (E2 : ceqb c 47 = false) by (apply ceqb_ne; intros ->; apply (Hs s); auto).
        destruct I1 as [H|(s' & -> & H)].
        -- left. split; [discriminate|]. cbn [hrun hstep]. rewrite E, E2, H. reflexivity.
        -- right. exists (60%N :: c :: s'). split; auto. cbn [hrun hstep]. rewrite E, E2, H. reflexivity.
Qed.
Lemma read_raw_end tag s : In tag raw_tags -> ~ substr (lit "</") s ->
  hrun (SRaw tag) (s ++ lit "</" ++ tag ++ [62%N]) = (SData, chars s ++ [TkClose tag]).
Proof.
  intros Ht Hs. assert (H1 : hrun (SRaw tag) (lit "</" ++ tag ++ [62%N]) = (SData, [TkClose tag])).
  { cbn in Ht. decompose [or] Ht; subst; try contradiction; reflexivity. }
  assert (H2 : hrun (SRawLt tag) (lit "</" ++ tag ++ [62%N]) = (SData, TkChar 60%N :: [TkClose tag])).
  { cbn in Ht. decompose [or] Ht; subst; try contradiction; reflexivity. }
  destruct (read_raw tag s Hs) as (w & [[H _]|(s' & -> & H & _)]).
  - eapply hrun_seq; eauto.
  - rewrite (hrun_seq _ _ _ _ _ _ _ H H2). unfold chars. rewrite map_app, <- app_assoc. reflexivity.
Qed.
Lemma dom_ind' (P : dom -> Prop) : (forall s, P (DText s)) -> (forall s, P (DRaw s)) ->
  (forall t a ks, Forall P ks -> P (DTag t a ks)) -> forall d, P d.
Proof.
  intros H1 H2 H3. fix IH 1. intros [s|s|t a ks]; [apply H1|apply H2|]. apply H3.
  induction ks as [|k ks IHk]; constructor; [apply IH|exact IHk].
Qed.
Lemma raw_tags_facts tag : In tag raw_tags -> proper_tag tag /\ smem tag void_tags = false.
Proof.
  intro H. cbn in H. decompose [or] H; subst; try contradiction;
   (split; [split; [split; [discriminate|]|]|reflexivity];
    [repeat (constructor; [left; reflexivity|]); constructor|eexists _, _; split; reflexivity]).
Qed.
Theorem read_dom d : readable d -> hrun SData (dom_text d) = (SData, dom_tokens d).
Proof.
  induction d as [s|s|tag attrs kids IH] using dom_ind'; intro Hd; inversion Hd as [|? Hc|? ? ? Ht Hr Ha Hk|? ? ? Ht Ha Hk]; subst; cbn [dom_text dom_tokens].
  - apply read_escaped.
  - unfold complete, html_tokens in *. destruct (hrun SData s) as [s' ts]. cbn in *. subst. reflexivity.
  - assert (Er : smem tag raw_tags = false) by (destruct (smem tag raw_tags) eqn:E; auto; apply smem_In in E; contradiction).
    rewrite Er.
    assert (Ho : hrun SData ([60%N] ++ tag ++ flat_map single_text attrs ++ [62%N]) = (SData, [TkOpen tag (map (fun kv => (fst kv, shown (snd kv))) attrs)])).
    { rewrite read_open by auto. unfold finish. rewrite Er. reflexivity. }
    assert (Hks : hrun SData (flat_map dom_text kids) = (SData, flat_map dom_tokens kids)).
    { clear - IH Hk. induction IH as [|k ks Hk1 _ IHk]; [reflexivity|]. inversion Hk; subst. cbn [flat_map]. eapply hrun_seq; eauto. }
    match goal with |- hrun _ ?x = (_, ?y) => replace x with (([60%N] ++ tag ++ flat_map single_text attrs ++ [62%N]) ++ flat_map dom_text kids ++
       (if smem tag void_tags then [] else lit "</" ++ tag ++ [62%N])) by (rewrite <- !app_assoc; reflexivity) end.
    match goal with |- _ = (_, ?a :: ?y) => change (a :: y) with ([a] ++ y) end. eapply hrun_seq; [exact Ho|]. eapply hrun_seq; [exact Hks|].
    destruct (smem tag void_tags); [reflexivity|]. apply read_end_tag; auto.
  - destruct (raw_tags_facts tag Ht) as [Hp Ev]. assert (Er : smem tag raw_tags = true) by (apply smem_In; auto). rewrite Er, Ev.
    match goal with |- hrun _ ?x = (_, ?y) => replace x with (([60%N] ++ tag ++ flat_map single_text attrs ++ [62%N]) ++ flat_map dom_text kids ++
       (lit "</" ++ tag ++ [62%N])) by (rewrite <- !app_assoc; reflexivity) end.
    match goal with |- _ = (_, ?a :: ?y) => change (a :: y) with ([a] ++ y) end. eapply hrun_seq.
    { rewrite read_open by auto. unfold finish. rewrite Er. reflexivity. }
    destruct Hk as [->|(s & -> & Hs)]; cbn [flat_map dom_text app].
    + apply (read_raw_end tag []); auto. intros (a & b & E). destruct a; discriminate.
    + rewrite !app_nil_r. apply read_raw_end; auto.
Qed.
Theorem read_doms ds : Forall readable ds -> hrun SData (flat_map dom_text ds) = (SData, flat_map dom_tokens ds).
Proof. induction 1 as [|d ds Hd _ IH]; [reflexivity|]. cbn [flat_map]. eapply hrun_seq; [apply read_dom; auto|exact IH]. Qed.

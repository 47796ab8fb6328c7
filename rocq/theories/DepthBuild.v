(** DepthBuild.v -- nested lists written down line by line are built again by Depth.v. *)
From Verif Require Import Base BaseLemmas Strings Depth SpecDepth DepthLemmas.

Section B.
Context {L T : Type}.
Variable leqb : L -> L -> bool.
Hypothesis leqb_eq : forall a b, leqb a b = true <-> a = b.
Notation item := (depth_item L T).
Notation lvl := (L * list (depth_item L T))%type.
Notation loop := (pd_loop (T := T) leqb).

Definition holds (d : dstack (L := L) (T := T)) (fin ts : list lvl) : Prop := ds_finished d = fin /\ tops d = ts.
Fixpoint collapse (k : nat) (ts : list lvl) : list lvl :=
  match k, ts with
  | S k', t1 :: t2 :: b => collapse k' ((fst t2, snd t2 ++ [DList (fst t1) (snd t1)]) :: b)
  | _, _ => ts
  end.
Lemma dec_holds k : forall d fin ts, holds d fin ts -> k < length ts -> exists d', decrease_n k d = Some d' /\ holds d' fin (collapse k ts).
Proof.
  induction k as [|k IH]; intros d fin ts [Hf Ht] Hk; [exists d; split; [reflexivity|split; auto]|].
  destruct ts as [|t1 [|t2 b]]; [cbn in Hk; lia|cbn in Hk; lia|].
  destruct (tops_decrease _ _ _ _ Ht) as (d1 & H1 & H2 & H3). cbn [decrease_n collapse]. rewrite H1. apply IH; [split; [congruence|auto]|]. cbn in Hk |- *. lia.
Qed.
Lemma push_holds it d fin t b : holds d fin (t :: b) -> holds (ds_push it d) fin ((fst t, snd t ++ [it]) :: b).
Proof. intros [Hf Ht]. split; [exact Hf|]. apply tops_push. auto. Qed.
Lemma inc_holds l d fin ts : holds d fin ts -> holds (increase_depth l d) fin ((l, []) :: ts).
Proof. intros [Hf Ht]. split; [exact Hf|]. rewrite tops_increase. congruence. Qed.
Lemma type_holds d fin t b : holds d fin (t :: b) -> last_type d = fst t.
Proof. intros [_ Ht]. eapply last_type_tops; eauto. Qed.
Lemma leqb_refl l : leqb l l = true. Proof. apply leqb_eq. auto. Qed.
Lemma leqb_ne a b : a <> b -> leqb a b = false.
Proof. intro H. destruct (leqb a b) eqn:E; auto. apply leqb_eq in E. contradiction. Qed.

(** Where the loop is: in a list of type [l] that has [acc] so far, with the lists [below] open. *)
Definition within (d : dstack) (fin : list lvl) (prev depth : nat) (l : L) (acc : list item) (below : list lvl) : Prop :=
  exists ts, holds d fin ts /\ length ts = S prev /\ length below = depth /\
    (prev = depth /\ ts = (l, acc) :: below \/
     depth < prev /\ exists l1 x acc0, acc = acc0 ++ [DList l1 x] /\ collapse (prev - S depth) ts = (l1, x) :: (l, acc0) :: below).
Lemma collapse_S k : forall ts t1 t2 b, collapse k ts = t1 :: t2 :: b -> collapse (S k) ts = (fst t2, snd t2 ++ [DList (fst t1) (snd t1)]) :: b.
Proof.
  induction k as [|k IH]; intros ts t1 t2 b H; [cbn in H; subst ts; reflexivity|].
  destruct ts as [|u1 [|u2 us]]; cbn [collapse] in H; [discriminate|discriminate|]. apply IH in H. exact H.
Qed.
Lemma within_back d fin prev depth l acc below : within d fin prev depth l acc below ->
  depth <= prev /\ exists d', decrease_n (prev - depth) d = Some d' /\ holds d' fin ((l, acc) :: below).
Proof.
  intros (ts & Hh & Hlen & Hb & H). destruct H as [[-> ->]|(Hlt & l1 & x & acc0 & -> & Hc)].
  - split; [lia|]. rewrite Nat.sub_diag. exists d. split; [reflexivity|auto].
  - split; [lia|]. destruct (dec_holds (prev - depth) d fin ts Hh ltac:(lia)) as (d' & H1 & H2). exists d'. split; auto.
    replace (prev - depth) with (S (prev - S depth)) in H2 by lia. rewrite (collapse_S _ _ _ _ _ Hc) in H2. exact H2.
Qed.
(** One line. *)
Lemma go_item d fin prev depth l acc below t rest : within d fin prev depth l acc below ->
  exists d', loop ((depth, l, t) :: rest) prev d = loop rest depth d' /\ within d' fin depth depth l (acc ++ [DItem t]) below.
Proof.
  intro H. pose proof H as (ts & _ & _ & Hb & _). destruct (within_back _ _ _ _ _ _ _ H) as (Hle & d1 & H1 & H2). cbn [pd_loop]. replace (depth - prev) with 0 by lia. cbn [increase_n]. rewrite H1.
  rewrite (type_holds _ _ _ _ H2). cbn [fst]. rewrite leqb_refl. eexists. split; [reflexivity|].
  exists ((l, acc ++ [DItem t]) :: below). conj; auto; [apply (push_holds (DItem t)) in H2; exact H2|cbn; lia].
Qed.
(** The first line of a new list inside. *)
Lemma go_open d fin prev depth l acc below l' t rest : within d fin prev depth l acc below ->
  (forall p l1 x, acc = p ++ [DList l1 x] -> l1 <> l') ->
  exists d', loop ((S depth, l', t) :: rest) prev d = loop rest (S depth) d' /\ within d' fin (S depth) (S depth) l' [DItem t] ((l, acc) :: below).
Proof.
  intros (ts & Hh & Hlen & Hb & H) Hne. assert (X : exists d0, decrease_n (prev - S depth) (increase_n (S depth - prev) l' d) = Some d0 /\
    match (if leqb (last_type d0) l' then Some d0 else new_list l' d0) with Some d1 => holds d1 fin ((l', []) :: (l, acc) :: below) | None => False end).
  { destruct H as [[-> ->]|(Hlt & l1 & x & acc0 & -> & Hc)].
    - replace (S depth - depth) with 1 by lia. replace (depth - S depth) with 0 by lia. cbn [increase_n decrease_n]. eexists. split; [reflexivity|].
      pose proof (inc_holds l' _ _ _ Hh) as Hi. rewrite (type_holds _ _ _ _ Hi). cbn [fst]. rewrite leqb_refl. exact Hi.
    - replace (S depth - prev) with 0 by lia. cbn [increase_n].
      destruct (dec_holds (prev - S depth) d fin ts Hh ltac:(lia)) as (d0 & H1 & H2). exists d0. split; auto. rewrite Hc in H2.
      rewrite (type_holds _ _ _ _ H2). cbn [fst]. rewrite (leqb_ne l1 l'); [|eapply Hne; eauto].
      unfold new_list. destruct H2 as [F2 T2]. rewrite (single_tops _ _ _ T2). destruct (tops_decrease _ _ _ _ T2) as (d2 & -> & T3 & F3). cbn [fst snd] in T3.
      apply inc_holds. split; congruence. }
  destruct X as (d0 & H1 & H2). cbn [pd_loop]. rewrite H1. destruct (if leqb (last_type d0) l' then Some d0 else new_list l' d0) as [d1|]; [|destruct H2].
  eexists. split; [reflexivity|]. exists ((l', [DItem t]) :: (l, acc) :: below). conj; auto; [apply (push_holds (DItem t)) in H2; exact H2|cbn; lia|cbn; lia].
Qed.
Lemma within_out d fin prev depth l' items l acc below : within d fin prev (S depth) l' items ((l, acc) :: below) ->
  within d fin prev depth l (acc ++ [DList l' items]) below.
Proof.
  intros (ts & Hh & Hlen & Hb & H). exists ts. cbn in Hb. conj; auto. right. destruct H as [[-> ->]|(Hlt & l1 & x & acc0 & -> & Hc)].
  - split; [lia|]. exists l', items, acc. split; auto. rewrite Nat.sub_diag. reflexivity.
  - split; [lia|]. exists l', (acc0 ++ [DList l1 x]), acc. split; auto. replace (prev - S depth) with (S (prev - S (S depth))) by lia. apply (collapse_S _ _ _ _ _ Hc).
Qed.
Lemma no_adjacent_next (acc x y rest : list item) l1 l2 : no_adjacent (acc ++ [DList l1 x] ++ DList l2 y :: rest) -> l1 <> l2.
Proof.
  induction acc as [|a acc IH]; intro H; [cbn in H; tauto|]. apply IH. change ((a :: acc) ++ [DList l1 x] ++ DList l2 y :: rest) with (a :: (acc ++ [DList l1 x] ++ DList l2 y :: rest)) in H. destruct a as [t|l xs]; [exact H|].
  remember (acc ++ [DList l1 x] ++ DList l2 y :: rest) as z. destruct z as [|[t|l' ys] z]; [exact H|exact H|destruct H; assumption].
Qed.
Fixpoint isize (i : item) : nat := match i with DItem _ => 1 | DList _ items => S (fold_right (fun x n => isize x + n) 0 items) end.
Definition isizes (l : list item) : nat := fold_right (fun x n => isize x + n) 0 l.
Lemma go_items n : forall os d fin prev depth l acc below rest, isizes os <= n -> within d fin prev depth l acc below ->
  no_adjacent (acc ++ os) -> Forall writable os ->
  exists d' prev', loop (flat_map (reading depth l) os ++ rest) prev d = loop rest prev' d' /\ within d' fin prev' depth l (acc ++ os) below.
Proof.
  induction n as [|n IHn]; [intros [|[|] os]; cbn; intros; [|lia..]; exists d, prev; rewrite app_nil_r; auto|].
  induction os as [|o os IHo]; intros d fin prev depth l acc below rest Hs Hw Ha Hf; [exists d, prev; rewrite app_nil_r; auto|].
  inversion Hf as [|? ? Ho Hos]; subst. cbn [flat_map]. rewrite <- app_assoc. cbn [isizes fold_right] in Hs. fold (isizes os) in Hs.
  assert (Hn : forall d' prev', within d' fin prev' depth l (acc ++ [o]) below -> exists d'' prev'', loop (flat_map (reading depth l) os ++ rest) prev' d' = loop rest prev'' d'' /\ within d'' fin prev'' depth l (acc ++ o :: os) below).
  { intros d' prev' Hw'. destruct (IHo d' fin prev' depth l (acc ++ [o]) below rest ltac:(lia) Hw' ltac:(rewrite <- app_assoc; exact Ha) Hos) as (d2 & p2 & H1 & H2). exists d2, p2. rewrite <- app_assoc in H2. auto. }
  destruct o as [t|l' items].
  - cbn [reading app]. destruct (go_item d fin prev depth l acc below t (flat_map (reading depth l) os ++ rest) Hw) as (d' & H1 & H2). rewrite H1. apply Hn. auto.
  - inversion Ho as [|? ? Hst Hna Hfi]; subst. destruct items as [|[t|? ?] items]; try (cbn in Hst; contradiction). cbn [reading flat_map app].
    destruct (go_open d fin prev depth l acc below l' t (flat_map (reading (S depth) l') items ++ flat_map (reading depth l) os ++ rest) Hw) as (d1 & H1 & H2).
    { intros p l1 x ->. rewrite <- app_assoc in Ha. apply no_adjacent_next in Ha. exact Ha. }
    rewrite H1.
    assert (Hfi' : Forall writable items) by (inversion Hfi; auto).
    cbn [isize fold_right] in Hs. fold (isizes items) in Hs.
    destruct (IHn items d1 fin (S depth) (S depth) l' [DItem t] ((l, acc) :: below) (flat_map (reading depth l) os ++ rest) ltac:(lia) H2 Hna Hfi') as (d2 & p2 & H3 & H4).
    rewrite H3. apply Hn. apply within_out. exact H4.
Qed.
(** Whole trees. *)
Definition tree_ok (t : lvl) : Prop := starts_item (snd t) /\ no_adjacent (snd t) /\ Forall writable (snd t).
Lemma finish_holds nl d fin prev l acc : within d fin prev 0 l acc [] ->
  exists d', finish_depth_list nl d = Some d' /\ holds d' (match acc with [] => fin | _ => fin ++ [(l, acc)] end) [(match nl with Some x => x | None => l end, [])].
Proof.
  intro H. pose proof H as (ts & [Hf Ht] & Hlen & _). destruct (within_back _ _ _ _ _ _ _ H) as (_ & d1 & H1 & H2). rewrite Nat.sub_0_r in H1.
  unfold finish_depth_list. rewrite tops_len, Ht, Hlen. replace (S prev - 1) with prev by lia. rewrite H1. destruct H2 as [F2 T2].
  assert (Hs : ds_stack d1 = NEV (l, acc) []).
  { unfold tops, nev_to_list in T2. destruct (ds_stack d1) as [x o]. cbn [nev_first nev_others rev] in T2. destruct (rev o) eqn:E; cbn in T2.
    - injection T2 as <-. rewrite <- (rev_involutive o), E. reflexivity.
    - destruct l0; discriminate. }
  rewrite Hs. cbn [nev_first nev_others]. eexists. split; [reflexivity|]. split; [cbn [ds_finished]; rewrite F2; reflexivity|]. unfold tops. cbn. reflexivity.
Qed.
Lemma go_first d fin prev l acc l' t rest : within d fin prev 0 l acc [] -> l <> l' ->
  exists d', loop ((0, l', t) :: rest) prev d = loop rest 0 d' /\ within d' (match acc with [] => fin | _ => fin ++ [(l, acc)] end) 0 0 l' [DItem t] [].
Proof.
  intros H Hne. destruct (within_back _ _ _ _ _ _ _ H) as (_ & d1 & H1 & H2). rewrite Nat.sub_0_r in H1. cbn [pd_loop]. rewrite Nat.sub_0_l, Nat.sub_0_r. cbn [increase_n]. rewrite H1.
  rewrite (type_holds _ _ _ _ H2). cbn [fst]. rewrite leqb_ne by auto. unfold new_list. rewrite (single_tops _ _ _ (proj2 H2)).
  destruct (finish_holds (Some l') d1 fin 0 l acc) as (d2 & -> & H3). { exists [(l, acc)]. conj; auto. }
  eexists. split; [reflexivity|]. exists [(l', [DItem t])]. conj; auto. apply (push_holds (DItem t)) in H3. exact H3.
Qed.
Fixpoint alternate (l : L) (ts : list lvl) : Prop := match ts with [] => True | t :: ts' => l <> fst t /\ alternate (fst t) ts' end.
Lemma go_trees ts : forall d fin prev l acc, within d fin prev 0 l acc [] -> acc <> [] -> alternate l ts -> Forall tree_ok ts ->
  exists d' fin' prev' l' acc', loop (reading_trees ts) prev d = Some d' /\ within d' fin' prev' 0 l' acc' [] /\ acc' <> [] /\ fin' ++ [(l', acc')] = fin ++ [(l, acc)] ++ ts.
Proof.
  induction ts as [|[l2 items] ts IH]; intros d fin prev l acc Hw Hne Ha Hf.
  - exists d, fin, prev, l, acc. conj; auto.
  - inversion Hf as [|? ? (Hst & Hna & Hwr) Hts]; subst. cbn [fst snd] in *. destruct Ha as [Hl Ha]. cbn [fst] in Hl, Ha. destruct items as [|[t|? ?] items]; try (cbn in Hst; contradiction).
    unfold reading_trees. cbn [flat_map reading app]. fold (reading_trees ts).
    destruct (go_first d fin prev l acc l2 t (flat_map (reading 0 l2) items ++ reading_trees ts) Hw Hl) as (d1 & H1 & H2). rewrite H1.
    assert (Hwr' : Forall writable items) by (inversion Hwr; auto).
    destruct (go_items (isizes items) items _ _ 0 0 l2 [DItem t] [] (reading_trees ts) (le_n _) H2 Hna Hwr') as (d2 & p2 & H3 & H4). rewrite H3.
    destruct acc as [|a acc]; [congruence|]. cbn [app] in H4.
    destruct (IH d2 _ p2 l2 _ H4 ltac:(discriminate) Ha Hts) as (d' & fin' & prev' & l' & acc' & H5 & H6 & H7 & H8).
    exists d', fin', prev', l', acc'. conj; auto. rewrite H8, <- !app_assoc. reflexivity.
Qed.
Theorem builds top ts : ts <> [] -> match ts with (l, _) :: ts' => alternate l ts' | [] => True end -> Forall tree_ok ts ->
  process_depths leqb top (reading_trees ts) = Some ts.
Proof.
  intros Hne Ha Hf. destruct ts as [|[l items] ts]; [congruence|]. inversion Hf as [|? ? (Hst & Hna & Hwr) Hts]; subst. cbn [fst snd] in *.
  destruct items as [|[t|? ?] items]; try (cbn in Hst; contradiction). unfold process_depths.
  assert (H0 : within (ds_new top) [] 0 0 top [] []). { exists [(top, [])]. conj; auto. split; reflexivity. }
  assert (X : exists d1, loop (reading_trees ((l, DItem t :: items) :: ts)) 0 (ds_new top) = loop (flat_map (reading 0 l) items ++ reading_trees ts) 0 d1 /\ within d1 [] 0 0 l [DItem t] []).
  { unfold reading_trees. cbn [flat_map reading app]. fold (reading_trees ts). destruct (leqb top l) eqn:E.
    - apply leqb_eq in E. subst l. apply (go_item (ds_new top) [] 0 0 top [] [] t); auto.
    - assert (top <> l) by (intro; apply leqb_eq in H; congruence). apply (go_first (ds_new top) [] 0 top [] l t); auto. }
  destruct X as (d1 & -> & H2). assert (Hwr' : Forall writable items) by (inversion Hwr; auto).
  destruct (go_items (isizes items) items _ _ 0 0 l [DItem t] [] (reading_trees ts) (le_n _) H2 Hna Hwr') as (d2 & p2 & H3 & H4). rewrite H3.
  destruct (go_trees ts d2 [] p2 l _ H4 ltac:(discriminate) Ha Hts) as (d' & fin' & prev' & l' & acc' & -> & H6 & H7 & H8).
  unfold into_trees. destruct (finish_holds None d' fin' prev' l' acc' H6) as (d3 & -> & [F3 _]). rewrite F3. destruct acc' as [|a acc']; [congruence|]. rewrite H8. reflexivity.
Qed.
End B.

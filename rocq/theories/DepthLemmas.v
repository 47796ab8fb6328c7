(** DepthLemmas.v -- proofs about Depth.v. *)
From Verif Require Import Base BaseLemmas Strings Depth SpecDepth.

Ltac conj := repeat match goal with |- _ /\ _ => split end.
Section P.
Context {L T : Type}.
Variable leqb : L -> L -> bool.
Hypothesis leqb_eq : forall a b, leqb a b = true <-> a = b.
Notation item := (depth_item L T).
Notation lvl := (L * list (depth_item L T))%type.

(** The stack, top first. *)
Definition tops (d : dstack (L := L) (T := T)) : list lvl := rev (nev_to_list (ds_stack d)).
Lemma tops_cons d : exists t b, tops d = t :: b.
Proof.
  unfold tops, nev_to_list. destruct (ds_stack d) as [x l]. cbn [nev_first nev_others].
  cbn [rev]. destruct (rev l); cbn; eauto.
Qed.
Lemma tops_increase l d : tops (increase_depth l d) = (l, []) :: tops d.
Proof.
  unfold tops, increase_depth, nev_push, nev_to_list. cbn [ds_stack nev_first nev_others].
  destruct (ds_stack d) as [x o]. cbn [nev_first nev_others].
  cbn [rev]. rewrite rev_app_distr. reflexivity.
Qed.
Lemma tops_push it d t b : tops d = t :: b -> tops (ds_push it d) = (fst t, snd t ++ [it]) :: b.
Proof.
  unfold tops, ds_push, nev_update_last, nev_to_list. cbn [ds_stack nev_first nev_others].
  destruct (ds_stack d) as [x o]. cbn [nev_first nev_others].
  destruct (rev o) as [|y r] eqn:E.
  - assert (o = []) as -> by (rewrite <- (rev_involutive o), E; reflexivity).
    cbn. intros H. injection H as <- <-. reflexivity.
  - cbn [nev_first nev_others rev]. rewrite E. cbn [app]. intros H. injection H as <- <-.
    rewrite rev_app_distr, rev_involutive. reflexivity.
Qed.
Lemma tops_decrease d t1 t2 b : tops d = t1 :: t2 :: b ->
  exists d', decrease_depth d = Some d' /\
    tops d' = (fst t2, snd t2 ++ [DList (fst t1) (snd t1)]) :: b /\ ds_finished d' = ds_finished d.
Proof.
  intros H. unfold decrease_depth, nev_pop. destruct d as [fin [x o]].
  unfold tops, nev_to_list in H. cbn [ds_stack nev_first nev_others rev] in *.
  destruct (rev o) as [|y r] eqn:E; cbn [app] in H; [discriminate|].
  destruct y as [l items]. injection H as <- H.
  eexists. split; [reflexivity|]. split; [|reflexivity].
  apply tops_push. unfold tops, nev_to_list. cbn [ds_stack nev_first nev_others rev].
  rewrite rev_involutive. exact H.
Qed.
Lemma tops_len d : nev_len (ds_stack d) = length (tops d).
Proof.
  unfold tops, nev_len, nev_to_list. rewrite rev_length. cbn. lia.
Qed.
Lemma last_type_tops d t b : tops d = t :: b -> last_type d = fst t.
Proof.
  unfold last_type, nev_last, tops, nev_to_list. destruct (ds_stack d) as [x o].
  cbn [nev_first nev_others rev]. destruct (rev o); cbn [app]; intros H; injection H as <- _; reflexivity.
Qed.
Lemma single_tops d t b : tops d = t :: b -> nev_is_single (ds_stack d) = match b with [] => true | _ => false end.
Proof.
  intros H. pose proof (tops_len d) as Hl. rewrite H in Hl. unfold nev_len, nev_is_single in *.
  cbn [length] in Hl. destruct (nev_others (ds_stack d)), b; cbn in *; auto; lia.
Qed.

(** The reading of a stack. *)
Fixpoint read_tops (ts : list lvl) : list (nat * L * T) :=
  match ts with
  | [] => []
  | (l, items) :: b => read_tops b ++ flat_map (reading (length b) l) items
  end.
Definition read_stack (d : dstack) : list (nat * L * T) := reading_trees (ds_finished d) ++ read_tops (tops d).

(** The stack invariants. [ends_ok]: the level below does not already end with a list of the type
    of the open level. *)
Definition ends_ok (items : list item) (l : L) : Prop := forall p l' x, items = p ++ [DList l' x] -> l' <> l.
Fixpoint wf_tops (ts : list lvl) : Prop :=
  match ts with
  | [] => True
  | (l, items) :: b =>
      Forall no_empty items /\ Forall merged items /\ no_adjacent items /\
      match b with (_, below) :: _ => ends_ok below l | [] => True end /\ wf_tops b
  end.
(** Finished trees and the bottom level of the stack. *)
Definition fin_ok (fin : list lvl) : Prop :=
  types_alternate fin /\
  Forall (fun t => snd t <> [] /\ Forall no_empty (snd t) /\ Forall merged (snd t) /\ no_adjacent (snd t)) fin.
Definition bot_ok (fin : list lvl) (ts : list lvl) : Prop :=
  forall p l items, ts = p ++ [(l, items)] -> forall q l' x, fin = q ++ [(l', x)] -> l' <> l.
Definition inv (d : dstack) : Prop :=
  wf_tops (tops d) /\ fin_ok (ds_finished d) /\ bot_ok (ds_finished d) (tops d).

Lemma no_adjacent_snoc items it :
  no_adjacent items ->
  (match it with DList l _ => ends_ok items l | DItem _ => True end) -> no_adjacent (items ++ [it]).
Proof.
  induction items as [|x items IH]; intros H He.
  - destruct it; cbn; auto.
  - assert (Hi : no_adjacent (items ++ [it])).
    { apply IH.
      - destruct x; cbn in H; auto. destruct items as [|[|] ?]; cbn in *; tauto.
      - destruct it; auto. intros p l' y E. apply (He (x :: p) l' y). rewrite E. reflexivity. }
    destruct x as [t|l xs]; cbn [app no_adjacent]; auto.
    destruct items as [|y items]; cbn [app].
    + destruct it as [|l2 ys]; cbn; auto. split; auto. apply (He [] l xs). reflexivity.
    + destruct y as [|l2 ys]; auto. cbn in H. split; [tauto|exact Hi].
Qed.
Lemma ends_ok_item items (t : T) l : ends_ok (items ++ [DItem t]) l.
Proof. intros p l' x E. apply app_inj_tail in E. destruct E; discriminate. Qed.
Lemma ends_ok_list items l1 x l : l1 <> l -> ends_ok (items ++ [DList l1 x]) l.
Proof. intros H p l' x' E. apply app_inj_tail in E. destruct E as [_ E]. injection E as <- _. exact H. Qed.
Lemma ends_ok_nil l : ends_ok [] l.
Proof. intros p l' x E. destruct p; discriminate. Qed.

(** Decreasing: reading and invariant kept, the new top is not empty. *)
Lemma decrease_ok d t1 t2 b : tops d = t1 :: t2 :: b -> inv d -> snd t1 <> [] ->
  exists d', decrease_depth d = Some d' /\ inv d' /\ read_stack d' = read_stack d /\
    tops d' = (fst t2, snd t2 ++ [DList (fst t1) (snd t1)]) :: b /\ ds_finished d' = ds_finished d.
Proof.
  intros Ht (Hw & Hf & Hb) Hne. destruct (tops_decrease _ _ _ _ Ht) as (d' & Hd & Ht' & Hfin).
  exists d'. split; [exact Hd|]. rewrite Ht in *. destruct t1 as [l1 i1], t2 as [l2 i2].
  cbn [fst snd] in *. cbn [wf_tops] in Hw.
  destruct Hw as (E1 & M1 & A1 & O1 & E2 & M2 & A2 & O2 & W).
  split; [split; [|split]|split; [|split]]; auto.
  - rewrite Ht'. cbn [wf_tops]. conj; auto.
    + apply Forall_app; split; auto. constructor; auto. constructor; auto.
    + apply Forall_app; split; auto. constructor; auto. constructor; auto.
    + apply no_adjacent_snoc; auto.
  - rewrite Hfin; auto.
  - rewrite Hfin, Ht'. intros p l items E q l' x Eq.
    destruct b as [|t b].
    + destruct p as [|? p]; [|destruct p; cbn in E; congruence]. cbn in E. injection E as <- _.
      eapply (Hb [(l1, i1)] l2 i2); eauto.
    + destruct p as [|? p]; [discriminate|]. cbn in E. injection E as _ E.
      eapply (Hb ((l1, i1) :: (l2, i2) :: p)). cbn. rewrite E. reflexivity. eauto.
  - unfold read_stack. rewrite Hfin, Ht', Ht. cbn [read_tops length]. rewrite flat_map_app.
    cbn [flat_map reading]. rewrite app_nil_r, !app_assoc. reflexivity.
Qed.
Lemma decrease_n_ok n : forall d t1 below, length below >= n -> tops d = t1 :: below -> inv d -> snd t1 <> [] ->
  exists d' t', decrease_n n d = Some d' /\ inv d' /\ read_stack d' = read_stack d /\
    tops d' = t' :: skipn n below /\ snd t' <> [] /\ ds_finished d' = ds_finished d /\
    (n = 0 -> d' = d /\ t' = t1).
Proof.
  induction n as [|n IH]; intros d t1 below Hl Ht Hi Hne.
  - exists d, t1. cbn. conj; auto; intros; auto.
  - destruct below as [|t2 b]; [cbn in Hl; lia|].
    destruct (decrease_ok _ _ _ _ Ht Hi Hne) as (d1 & H1 & I1 & R1 & T1 & F1).
    destruct (IH d1 _ b ltac:(cbn in Hl; lia) T1 I1) as (d' & t' & H2 & I2 & R2 & T2 & N2 & F2 & _).
    { cbn. intros E. apply app_eq_nil in E. destruct E; discriminate. }
    exists d', t'. cbn [decrease_n]. rewrite H1. conj; try congruence; auto.
Qed.
Lemma increase_ok l d t b : tops d = t :: b -> inv d -> ends_ok (snd t) l -> inv (increase_depth l d) /\
  read_stack (increase_depth l d) = read_stack d /\ ds_finished (increase_depth l d) = ds_finished d.
Proof.
  intros Ht (Hw & Hf & Hb) He. split; [split; [|split]|split]; auto.
  - rewrite tops_increase, Ht. rewrite Ht in Hw. destruct t as [lt it]. cbn [wf_tops]. cbn in He.
    conj; auto; try apply Forall_nil; try exact I; apply Hw.
  - cbn [ds_finished increase_depth]. rewrite tops_increase. intros p l0 items E q l' x Eq.
    rewrite Ht in E. destruct p; [discriminate|]. cbn in E. injection E as _ E.
    rewrite <- Ht in E. eapply Hb; eauto.
  - unfold read_stack. rewrite tops_increase. cbn [read_tops flat_map]. rewrite app_nil_r. reflexivity.
Qed.
Lemma increase_n_ok n l : forall d t b, tops d = t :: b -> inv d -> ends_ok (snd t) l ->
  exists t' b', tops (increase_n n l d) = t' :: b' /\ length b' = n + length b /\
    inv (increase_n n l d) /\ read_stack (increase_n n l d) = read_stack d /\
    ds_finished (increase_n n l d) = ds_finished d /\
    (n = 0 -> increase_n n l d = d) /\ (n > 0 -> t' = (l, []) /\ b' <> []).
Proof.
  induction n as [|n IH]; intros d t b Ht Hi He.
  - exists t, b. cbn. conj; auto; intros; lia.
  - destruct (increase_ok l d _ _ Ht Hi He) as (I1 & R1 & F1).
    pose proof (tops_increase l d) as T1.
    destruct (IH _ _ _ T1 I1 (ends_ok_nil l)) as (t' & b' & T2 & L2 & I2 & R2 & F2 & Z2 & P2).
    exists t', b'. cbn [increase_n]. rewrite T2.
    split; [reflexivity|]. split.
    { rewrite L2, Ht. cbn. lia. }
    split; [exact I2|]. split; [congruence|]. split; [congruence|]. split; [lia|].
    intros _. destruct n.
    + cbn [increase_n] in T2. rewrite T1 in T2. injection T2 as <- <-. rewrite Ht. split; [reflexivity|discriminate].
    + apply P2. lia.
Qed.
Lemma types_alternate_snoc (ts : list lvl) l (i : list item) : types_alternate ts ->
  (forall q l' x, ts = q ++ [(l', x)] -> l' <> l) -> types_alternate (ts ++ [(l, i)]).
Proof.
  induction ts as [|[l1 i1] ts IH]; intros H He; cbn [app types_alternate]; auto.
  destruct ts as [|[l2 i2] ts]; cbn [app].
  - split; auto. apply (He [] l1 i1); reflexivity.
  - cbn [types_alternate] in H. split; [tauto|]. apply IH; [tauto|].
    intros q l' x E. apply (He ((l1, i1) :: q) l' x). rewrite E. reflexivity.
Qed.
Lemma reading_trees_app a b : reading_trees (L := L) (T := T) (a ++ b) = reading_trees a ++ reading_trees b.
Proof. unfold reading_trees. apply flat_map_app. Qed.

(** finish_depth_list on a stack whose levels can all be wrapped. *)
Lemma finish_ok nl d t b : tops d = t :: b -> inv d -> (snd t <> [] \/ b = []) ->
  (forall x, nl = Some x -> b = [] /\ fst t <> x /\ (snd t = [] -> ds_finished d = [])) ->
  exists d' l', finish_depth_list nl d = Some d' /\ tops d' = [(l', [])] /\
    reading_trees (ds_finished d') = read_stack d /\ fin_ok (ds_finished d') /\
    (forall x, nl = Some x -> l' = x /\ inv d').
Proof.
  intros Ht Hi Hne Hnl.
  assert (exists d1 t1, decrease_n (nev_len (ds_stack d) - 1) d = Some d1 /\ inv d1 /\
    read_stack d1 = read_stack d /\ tops d1 = [t1] /\ ds_finished d1 = ds_finished d /\ (b = [] -> d1 = d)) as
    (d1 & t1 & Hd & I1 & R1 & T1 & F1 & Z1).
  { rewrite tops_len, Ht. cbn [length]. rewrite Nat.sub_succ, Nat.sub_0_r. destruct Hne as [Hne| ->].
    - destruct (decrease_n_ok (length b) d t b ltac:(lia) Ht Hi Hne) as (d1 & t1 & H1 & I1 & R1 & T1 & _ & F1 & Z).
      rewrite skipn_all in T1. exists d1, t1. conj; try apply I1; auto.
      intros E. apply Z. rewrite E. reflexivity.
    - exists d, t. cbn. conj; try apply Hi; auto. }
  unfold finish_depth_list. rewrite Hd.
  assert (Hs : ds_stack d1 = NEV t1 []).
  { unfold tops, nev_to_list in T1. destruct (ds_stack d1) as [x o]. cbn [nev_first nev_others rev] in T1.
    destruct (rev o) eqn:E; cbn in T1.
    - injection T1 as <-. rewrite <- (rev_involutive o), E. reflexivity.
    - destruct l; discriminate. }
  rewrite Hs. cbn [nev_first nev_others]. destruct t1 as [l items].
  eexists _, _. split; [reflexivity|]. unfold tops. cbn [ds_stack ds_finished].
  split; [reflexivity|].
  assert (Hbot : forall q l' x, ds_finished d = q ++ [(l', x)] -> l' <> l).
  { intros q l' x E. destruct I1 as (_ & _ & Hb). rewrite F1, T1 in Hb.
    eapply (Hb [] l items eq_refl); eauto. }
  assert (Hfin : fin_ok (match items with [] => ds_finished d1 | _ :: _ => ds_finished d1 ++ [(l, items)] end)).
  { destruct I1 as (W & Hf & _). destruct items as [|i0 items]; [exact Hf|]. destruct Hf as [Ha Hf]. split.
    - apply types_alternate_snoc; auto. rewrite F1. exact Hbot.
    - apply Forall_app; split; auto. constructor; auto. cbn [snd]. rewrite T1 in W. cbn [wf_tops] in W.
      split; [discriminate|]. tauto. }
  assert (Hr : reading_trees (match items with [] => ds_finished d1 | _ :: _ => ds_finished d1 ++ [(l, items)] end)
     = read_stack d).
  { rewrite <- R1. unfold read_stack. rewrite T1. cbn [read_tops length app].
    destruct items; cbn [flat_map]; [rewrite app_nil_r; reflexivity|].
    rewrite reading_trees_app. unfold reading_trees at 2. cbn [flat_map]. rewrite app_nil_r. reflexivity. }
  split; [exact Hr|]. split; [exact Hfin|].
  intros x E. split; [subst; reflexivity|]. destruct (Hnl x E) as (-> & Hx & Hemp). subst nl.
  specialize (Z1 eq_refl). subst d1. rewrite T1 in Ht. injection Ht as <-. cbn [fst snd] in *.
  split; [|split]; [ | exact Hfin | ].
  - unfold tops. cbn. conj; auto; constructor.
  - unfold tops. cbn [ds_stack ds_finished]. intros p l0 i0 E q l' y Eq. cbn in E.
    destruct p as [|? p]; [|destruct p; cbn in E; congruence]. cbn in E. injection E as <- _.
    destruct items.
    + rewrite (Hemp eq_refl) in Eq. destruct q; discriminate.
    + apply app_inj_tail in Eq. destruct Eq as [_ Eq]. injection Eq as <- _. exact Hx.
Qed.

(** Pushing an item. *)
Lemma push_item_ok t0 d t b : tops d = t :: b -> inv d ->
  inv (ds_push (DItem t0) d) /\ read_stack (ds_push (DItem t0) d) = read_stack d ++ [(length b, fst t, t0)].
Proof.
  intros Ht (Hw & Hf & Hb). pose proof (tops_push (DItem t0) d t b Ht) as Tp.
  rewrite Ht in Hw. destruct t as [l items]. cbn [fst snd] in *. cbn [wf_tops] in Hw.
  destruct Hw as (E1 & M1 & A1 & O1 & W).
  split; [split; [|split]|].
  - rewrite Tp. cbn [wf_tops]. conj; auto.
    + apply Forall_app; split; auto. constructor; auto. constructor.
    + apply Forall_app; split; auto. constructor; auto. constructor.
    + apply no_adjacent_snoc; auto.
  - exact Hf.
  - rewrite Tp. cbn [ds_finished ds_push]. intros p l0 i0 E q l' x Eq. destruct p as [|? p].
    + cbn in E. injection E as <- <- ->. eapply (Hb [] l items); eauto.
    + cbn in E. injection E as _ E. eapply (Hb ((l, items) :: p)); eauto. rewrite Ht, E. reflexivity.
  - unfold read_stack. rewrite Tp, Ht. cbn [read_tops ds_finished ds_push]. rewrite flat_map_app.
    cbn [flat_map reading]. rewrite app_nil_r, !app_assoc. reflexivity.
Qed.

(** At the head of the loop: the last thing in the top level is an item, or nothing happened yet. *)
Definition at_head (d : dstack) (prev : nat) : Prop :=
  inv d /\ exists t b, tops d = t :: b /\ length b = prev /\
    ((exists p x, snd t = p ++ [DItem x]) \/ (snd t = [] /\ b = [] /\ ds_finished d = [])).

Lemma loop_ok items : forall prev d, at_head d prev ->
  exists d' p', pd_loop leqb items prev d = Some d' /\ at_head d' p' /\ read_stack d' = read_stack d ++ items.
Proof.
  induction items as [|[[depth l] t0] items IH]; intros prev d Hh.
  - exists d, prev. cbn. rewrite app_nil_r. auto.
  - destruct Hh as (Hi & t & b & Ht & Hl & Hlast).
    assert (Hends : forall l, ends_ok (snd t) l).
    { intros l0. destruct Hlast as [(p & x & ->)|(-> & _)]; [apply ends_ok_item|apply ends_ok_nil]. }
    cbn [pd_loop].
    (* after opening and closing levels *)
    assert (exists d1 t1 b1, decrease_n (prev - depth) (increase_n (depth - prev) l d) = Some d1 /\ inv d1 /\
       read_stack d1 = read_stack d /\ tops d1 = t1 :: b1 /\ length b1 = depth /\ ds_finished d1 = ds_finished d /\
       (fst t1 = l \/ snd t1 <> [] \/ (snd t1 = [] /\ b1 = [] /\ ds_finished d1 = [])))
      as (d1 & t1 & b1 & Hd1 & I1 & R1 & T1 & L1 & F1 & C1).
    { destruct (Nat.le_gt_cases depth prev) as [Hle|Hgt].
      - replace (depth - prev) with 0 by lia. cbn [increase_n].
        destruct (Nat.eq_dec depth prev) as [->|Hne].
        + rewrite Nat.sub_diag. cbn [decrease_n]. exists d, t, b. conj; try apply Hi; auto.
          right. destruct Hlast as [(p & x & E)|Hz]; [left; rewrite E; intros E'; apply app_eq_nil in E'; destruct E'; discriminate|right; tauto].
        + destruct Hlast as [(p & x & E)|(_ & -> & _)]; [|cbn in Hl; lia].
          destruct (decrease_n_ok (prev - depth) d t b ltac:(lia) Ht Hi) as (d1 & t1 & H1 & I1 & R1 & T1 & N1 & F1 & _).
          { rewrite E. intros E'. apply app_eq_nil in E'. destruct E'; discriminate. }
          exists d1, t1, (skipn (prev - depth) b). conj; try apply I1; auto.
          rewrite skipn_length. lia.
      - replace (prev - depth) with 0 by lia. cbn [decrease_n].
        destruct (increase_n_ok (depth - prev) l d t b Ht Hi (Hends l)) as (t1 & b1 & T1 & L1 & I1 & R1 & F1 & _ & P1).
        exists (increase_n (depth - prev) l d), t1, b1. conj; try apply I1; auto; try lia.
        left. destruct (P1 ltac:(lia)) as [-> _]. reflexivity. }
    rewrite Hd1. rewrite (last_type_tops _ _ _ T1).
    (* after new_list, the top level has type l *)
    assert (exists d2 i2 b2, (if leqb (fst t1) l then Some d1 else new_list l d1) = Some d2 /\ inv d2 /\
       read_stack d2 = read_stack d /\ tops d2 = (l, i2) :: b2 /\ length b2 = depth)
      as (d2 & i2 & b2 & Hd2 & I2 & R2 & T2 & L2).
    { destruct (leqb (fst t1) l) eqn:El.
      - apply leqb_eq in El. destruct t1 as [l1 i1]. cbn [fst] in El. subst l1.
        exists d1, i1, b1. conj; try apply I1; auto.
      - assert (Hnl : fst t1 <> l) by (intros E; apply leqb_eq in E; congruence).
        unfold new_list. rewrite (single_tops _ _ _ T1). destruct b1 as [|t2 b1].
        + destruct (finish_ok (Some l) d1 t1 [] T1 I1 ltac:(auto)) as (d2 & l' & H2 & T2 & R2 & F2 & X2).
          { intros x E. injection E as <-. conj; auto. intros Ez.
            destruct C1 as [C1|[C1|C1]]; [congruence|congruence|tauto]. }
          destruct (X2 l eq_refl) as [-> I2]. exists d2, [], []. conj; try apply I2; auto.
          unfold read_stack. rewrite R2, T2. cbn. rewrite app_nil_r. exact R1.
        + destruct (decrease_ok d1 t1 t2 b1 T1 I1) as (d2 & H2 & I2 & R2 & T2 & F2).
          { destruct C1 as [C1|[C1|(_ & C1 & _)]]; [congruence|auto|discriminate]. }
          rewrite H2.
          destruct (increase_ok l d2 _ _ T2 I2) as (I3 & R3 & F3).
          { cbn [snd]. apply ends_ok_list. auto. }
          exists (increase_depth l d2), [], (tops d2). conj; try apply I3; auto; try congruence.
          * rewrite tops_increase. reflexivity.
          * rewrite T2. cbn in *. lia. }
    rewrite Hd2. destruct (push_item_ok t0 d2 _ _ T2 I2) as (I3 & R3).
    destruct (IH depth (ds_push (DItem t0) d2)) as (d' & p' & H' & A' & R').
    { split; [exact I3|]. rewrite (tops_push _ _ _ _ T2). eexists _, _. split; [reflexivity|].
      split; [exact L2|]. left. cbn [snd]. eauto. }
    exists d', p'. split; [exact H'|]. split; [exact A'|].
    rewrite R', R3, R2, L2. cbn [fst]. rewrite <- app_assoc. reflexivity.
Qed.

Theorem process_depths_ok top items : exists trees,
  process_depths leqb top items = Some trees /\ reading_trees trees = items /\ fin_ok trees.
Proof.
  destruct (loop_ok items 0 (ds_new top)) as (d' & p' & Hd & (Hi & t & b & Ht & Hl & Hlast) & R).
  { split; [split; [|split]|].
    - cbn. conj; auto; constructor.
    - split; [exact I|constructor].
    - intros p l i E q l' x Eq. destruct q; discriminate.
    - exists (top, []), []. cbn. conj; auto. }
  unfold process_depths. rewrite Hd. unfold into_trees.
  destruct (finish_ok None d' t b Ht Hi) as (d2 & l' & H2 & T2 & R2 & F2 & _).
  - destruct Hlast as [(p & x & ->)|(_ & -> & _)]; auto. left. intros E. apply app_eq_nil in E. destruct E; discriminate.
  - intros x E; discriminate.
  - rewrite H2. exists (ds_finished d2). conj; auto; try apply F2. rewrite R2, R. reflexivity.
Qed.
End P.

(** PegLemmas.v -- facts about Peg.v. *)
From Verif Require Import Base BaseLemmas Peg.

Lemma strip_prefix_i_inv p s m r : strip_prefix_i p s = Some (m, r) -> s = m ++ r.
Proof.
  revert s m r; induction p as [|x p IH]; intros s m r H; simpl in H.
  - injection H as <- <-. reflexivity.
  - destruct s as [|y s]; [discriminate|]. destruct (ceqb _ _); [|discriminate].
    destruct (strip_prefix_i p s) as [[m' r']|] eqn:E; [|discriminate].
    injection H as <- <-. simpl. f_equal. auto.
Qed.

Section P.
Context {R : Type}.
Notation res := (list (pair R) * str * str)%type.

Lemma star_unfold (f : nat -> str -> option res) n pos s :
  star f (S n) pos s =
  match f pos s with
  | None => ([], [], s)
  | Some (ps, m, r) => match m with
                       | [] => ([], [], s)
                       | _ => let '(ps', m', r') := star f n (pos + blen m) r in (ps ++ ps', m ++ m', r')
                       end
  end.
Proof. reflexivity. Qed.

Lemma star_split (f : nat -> str -> option res) :
  (forall pos s ps m r, f pos s = Some (ps, m, r) -> s = m ++ r) ->
  forall n pos s ps m r, star f n pos s = (ps, m, r) -> s = m ++ r.
Proof.
  intros Hf. induction n as [|n IH]; intros pos s ps m r H.
  - simpl in H. injection H as <- <- <-. reflexivity.
  - rewrite star_unfold in H. destruct (f pos s) as [[[ps1 m1] r1]|] eqn:E.
    + pose proof (Hf _ _ _ _ _ E) as ->. destruct m1 as [|c m1]; [injection H as <- <- <-; reflexivity|].
      destruct (star f n _ r1) as [[ps2 m2] r2] eqn:E2. injection H as <- <- <-.
      simpl. f_equal. rewrite <- app_assoc. f_equal. eauto.
    + injection H as <- <- <-. reflexivity.
Qed.

Lemma run_split (p : peg R) : forall pos s ps m r, run p pos s = Some (ps, m, r) -> s = m ++ r.
Proof.
  induction p; intros pos s0 ps m rr H; simpl in H.
  - destruct (strip_prefix s s0) eqn:E; [|discriminate]. injection H as <- <- <-.
    apply strip_prefix_inv; auto.
  - destruct (strip_prefix_i s s0) as [[m' r']|] eqn:E; [|discriminate]. injection H as <- <- <-.
    eapply strip_prefix_i_inv; eauto.
  - destruct s0 as [|c s0]; [discriminate|]. destruct (f c); [|discriminate]. injection H as <- <- <-. reflexivity.
  - destruct (run p1 pos s0) as [[[q1 m1] r1]|] eqn:E1; [|discriminate].
    destruct (run p2 _ r1) as [[[q2 m2] r2]|] eqn:E2; [|discriminate].
    injection H as <- <- <-. apply IHp1 in E1. apply IHp2 in E2. subst. rewrite app_assoc. reflexivity.
  - destruct (run p1 pos s0) as [x|] eqn:E1.
    + injection H as ->. eauto.
    + eauto.
  - destruct (run p pos s0) as [x|] eqn:E1.
    + injection H as ->. eauto.
    + injection H as <- <- <-. reflexivity.
  - injection H as H. eapply star_split; eauto.
  - destruct (run p pos s0); [discriminate|]. injection H as <- <- <-. reflexivity.
  - destruct (run p pos s0); [|discriminate]. injection H as <- <- <-. reflexivity.
  - destruct s0; [|discriminate]. injection H as <- <- <-. reflexivity.
  - destruct (run p pos s0) as [[[q1 m1] r1]|] eqn:E1; [|discriminate]. injection H as <- <- <-. eauto.
  - destruct (run p pos s0) as [[[q1 m1] r1]|] eqn:E1; [|discriminate]. injection H as <- <- <-. eauto.
Qed.

(** The text matched does not depend on the position. *)
Definition mr (x : option res) : option (str * str) :=
  match x with Some (_, m, r) => Some (m, r) | None => None end.
Lemma star_pos (f : nat -> str -> option res) :
  (forall pos pos' s, mr (f pos s) = mr (f pos' s)) ->
  forall n pos pos' s, mr (Some (star f n pos s)) = mr (Some (star f n pos' s)).
Proof.
  intros Hf. induction n as [|n IH]; intros pos pos' s; [reflexivity|].
  rewrite !star_unfold. specialize (Hf pos pos' s).
  destruct (f pos s) as [[[ps m] r]|], (f pos' s) as [[[ps' m'] r']|]; simpl in Hf; try discriminate; [|reflexivity].
  injection Hf as <- <-. destruct m as [|c m]; [reflexivity|].
  specialize (IH (pos + blen (c :: m)) (pos' + blen (c :: m)) r).
  destruct (star f n (pos + _) r) as [[? ?] ?], (star f n (pos' + _) r) as [[? ?] ?].
  cbn [mr] in *. injection IH as <- <-. reflexivity.
Qed.
Lemma run_pos (p : peg R) : forall pos pos' s, mr (run p pos s) = mr (run p pos' s).
Proof.
  induction p; intros pos pos' s0; cbn [run]; try reflexivity.
  - specialize (IHp1 pos pos' s0).
    destruct (run p1 pos s0) as [[[q1 m1] r1]|], (run p1 pos' s0) as [[[q1' m1'] r1']|]; simpl in IHp1;
      try discriminate; [|reflexivity].
    injection IHp1 as <- <-. specialize (IHp2 (pos + blen m1) (pos' + blen m1) r1).
    destruct (run p2 _ r1) as [[[q2 m2] r2]|], (run p2 (pos' + _) r1) as [[[q2' m2'] r2']|]; simpl in IHp2;
      try discriminate; [|reflexivity].
    injection IHp2 as <- <-. reflexivity.
  - specialize (IHp1 pos pos' s0).
    destruct (run p1 pos s0) as [[[q1 m1] r1]|], (run p1 pos' s0) as [[[q1' m1'] r1']|]; simpl in IHp1;
      try discriminate; auto.
  - specialize (IHp pos pos' s0).
    destruct (run p pos s0) as [[[q1 m1] r1]|], (run p pos' s0) as [[[q1' m1'] r1']|]; simpl in IHp;
      try discriminate; auto.
  - apply star_pos. exact IHp.
  - specialize (IHp pos pos' s0). destruct (run p pos s0) as [[[q1 m1] r1]|], (run p pos' s0) as [[[q1' m1'] r1']|];
      simpl in IHp; try discriminate; auto.
  - specialize (IHp pos pos' s0). destruct (run p pos s0) as [[[q1 m1] r1]|], (run p pos' s0) as [[[q1' m1'] r1']|];
      simpl in IHp; try discriminate; auto.
  - specialize (IHp pos pos' s0). destruct (run p pos s0) as [[[q1 m1] r1]|], (run p pos' s0) as [[[q1' m1'] r1']|];
      simpl in IHp; try discriminate; auto.
  - specialize (IHp pos pos' s0). destruct (run p pos s0) as [[[q1 m1] r1]|], (run p pos' s0) as [[[q1' m1'] r1']|];
      simpl in IHp; try discriminate; auto.
Qed.

(** Expressions that never match the empty string: their repetition is pest's. *)
Definition nonempty (p : peg R) : Prop := forall pos s ps m r, run p pos s = Some (ps, m, r) -> m <> [].

(** Big-step meaning of a repetition. *)
Inductive star_rel (f : nat -> str -> option res) : nat -> str -> list (pair R) -> str -> str -> Prop :=
| sr_stop pos s : f pos s = None -> star_rel f pos s [] [] s
| sr_more pos s ps m r ps' m' r' : f pos s = Some (ps, m, r) -> m <> [] ->
    star_rel f (pos + blen m) r ps' m' r' -> star_rel f pos s (ps ++ ps') (m ++ m') r'.
Lemma star_rel_run (f : nat -> str -> option res) :
  (forall pos s ps m r, f pos s = Some (ps, m, r) -> s = m ++ r /\ m <> []) ->
  forall n pos s ps m r, length s <= n -> star f n pos s = (ps, m, r) -> star_rel f pos s ps m r.
Proof.
  intros Hf. induction n as [|n IH]; intros pos s ps m r Hn H.
  - destruct s; [|simpl in Hn; lia]. simpl in H. injection H as <- <- <-.
    apply sr_stop. destruct (f pos []) as [[[ps m] r]|] eqn:E; auto.
    destruct (Hf _ _ _ _ _ E) as [H1 H2]. symmetry in H1. apply app_eq_nil in H1. tauto.
  - rewrite star_unfold in H. destruct (f pos s) as [[[ps1 m1] r1]|] eqn:E.
    + destruct (Hf _ _ _ _ _ E) as [-> H2]. destruct m1 as [|c m1]; [congruence|].
      destruct (star f n _ r1) as [[ps2 m2] r2] eqn:E2. injection H as <- <- <-.
      change (c :: m1 ++ m2) with ((c :: m1) ++ m2). eapply sr_more; eauto. apply IH; auto. rewrite app_length in Hn. simpl in Hn. lia.
    + injection H as <- <- <-. apply sr_stop; auto.
Qed.
Lemma run_star_rel (p : peg R) pos s ps m r : nonempty p ->
  run (PStar p) pos s = Some (ps, m, r) -> star_rel (run p) pos s ps m r.
Proof.
  intros Hp H. cbn [run] in H. injection H as H. eapply star_rel_run; eauto.
  intros. split; [eapply run_split|]; eauto.
Qed.
Lemma star_rel_det f pos s ps m r : star_rel f pos s ps m r ->
  forall ps' m' r', star_rel f pos s ps' m' r' -> ps = ps' /\ m = m' /\ r = r'.
Proof.
  induction 1 as [pos s Hn|pos s ps1 m1 r1 ps2 m2 r2 E Hm H IH]; intros ps' m' r' H'; inversion H'; subst.
  - auto.
  - congruence.
  - congruence.
  - rewrite E in H0. injection H0 as <- <- <-. destruct (IH _ _ _ H2) as (-> & -> & ->). auto.
Qed.

(** A repetition of a one-character set. *)
Lemma run_star_set (g : peg R) (f : char -> bool) :
  (forall pos s, run g pos s = match s with c :: r => if f c then Some ([], [c], r) else None | [] => None end) ->
  forall pos s, run (PStar g) pos s = Some ([], take_while f s, drop_while f s).
Proof.
  intros Hg pos s. cbn [run]. f_equal.
  assert (H : forall n pos s, length s <= n -> star (run g) n pos s = ([], take_while f s, drop_while f s)).
  { induction n as [|n IH]; intros p t Ht.
    - destruct t; [reflexivity|simpl in Ht; lia].
    - rewrite star_unfold, Hg. destruct t as [|c t]; [reflexivity|]. simpl.
      destruct (f c); [|reflexivity]. rewrite IH by (simpl in Ht; lia). reflexivity. }
  apply H. lia.
Qed.
Lemma run_PPlus_set (g : peg R) (f : char -> bool) :
  (forall pos s, run g pos s = match s with c :: r => if f c then Some ([], [c], r) else None | [] => None end) ->
  forall pos s, run (PPlus g) pos s =
    match s with c :: r => if f c then Some ([], c :: take_while f r, drop_while f r) else None | [] => None end.
Proof.
  intros Hg pos s. unfold PPlus. cbn [run]. rewrite Hg. destruct s as [|c s]; [reflexivity|].
  destruct (f c); [|reflexivity].
  pose proof (run_star_set g f Hg (pos + blen [c]) s) as E. cbn [run] in E.
  assert (E' : star (run g) (length s) (pos + blen [c]) s = ([], take_while f s, drop_while f s)) by congruence.
  rewrite E'. reflexivity.
Qed.
Lemma run_PAlts_none (l : list (peg R)) pos s : (forall p, In p l -> run p pos s = None) -> run (PAlts l) pos s = None.
Proof.
  induction l as [|a l IH]; intros H; [reflexivity|]. destruct l as [|b l].
  - apply H; simpl; auto.
  - change (PAlts (a :: b :: l)) with (PAlt a (PAlts (b :: l))). cbn [run].
    rewrite (H a) by (left; auto). apply IH. intros p Hp. apply H. right; auto.
Qed.
(** A choice that succeeds succeeds through its first successful alternative. *)
Lemma run_PAlts_some (l : list (peg R)) pos s x : run (PAlts l) pos s = Some x ->
  exists l1 p l2, l = l1 ++ p :: l2 /\ run p pos s = Some x /\ (forall q, In q l1 -> run q pos s = None).
Proof.
  induction l as [|a l IH]; intros H; [discriminate|]. destruct l as [|b l].
  - exists [], a, []. simpl in *. intuition.
  - change (PAlts (a :: b :: l)) with (PAlt a (PAlts (b :: l))) in H. cbn [run] in H.
    destruct (run a pos s) eqn:E.
    + exists [], a, (b :: l). rewrite E. simpl; intuition.
    + destruct (IH H) as (l1 & p & l2 & Hl & Hp & Hq). exists (a :: l1), p, l2. rewrite Hl. split; [reflexivity|].
      split; auto. intros q [<-|Hin]; auto.
Qed.
Lemma run_PAlts_in (l : list (peg R)) pos s p : In p l -> run p pos s <> None -> run (PAlts l) pos s <> None.
Proof.
  induction l as [|a l IH]; intros Hin H; [destruct Hin|]. destruct l as [|b l].
  - destruct Hin as [->|[]]; auto.
  - change (PAlts (a :: b :: l)) with (PAlt a (PAlts (b :: l))). cbn [run].
    destruct Hin as [->|Hin].
    + destruct (run p pos s) eqn:E; congruence.
    + destruct (run a pos s); [discriminate|auto].
Qed.

Lemma star_rel_split (p : peg R) pos s ps m r : star_rel (run p) pos s ps m r -> s = m ++ r.
Proof.
  intros H. remember (run p) as f. induction H as [|? ? ? ? ? ? ? ? E ? ? IH]; [reflexivity|].
  rewrite Heqf in E. apply run_split in E. rewrite <- app_assoc, <- IH; auto.
Qed.

(** Inversion. *)
Lemma run_seq_inv (a b : peg R) pos s ps m r : run (PSeq a b) pos s = Some (ps, m, r) ->
  exists p1 m1 r1 p2 m2, run a pos s = Some (p1, m1, r1) /\ run b (pos + blen m1) r1 = Some (p2, m2, r) /\
    ps = p1 ++ p2 /\ m = m1 ++ m2.
Proof.
  intros H. cbn [run] in H. destruct (run a pos s) as [[[p1 m1] r1]|]; [|discriminate].
  destruct (run b _ r1) as [[[p2 m2] r2]|] eqn:E; [|discriminate]. injection H as <- <- <-.
  exists p1, m1, r1, p2, m2. auto.
Qed.
Lemma run_str_inv t pos s ps m r : run (R:=R) (PStr t) pos s = Some (ps, m, r) -> ps = [] /\ m = t /\ s = t ++ r.
Proof.
  cbn [run]. destruct (strip_prefix t s) eqn:E; [|discriminate]. intros H. injection H as <- <- <-.
  apply strip_prefix_inv in E. auto.
Qed.
Lemma run_set_inv f pos s ps m r : run (R:=R) (PSet f) pos s = Some (ps, m, r) ->
  exists c, f c = true /\ ps = [] /\ m = [c] /\ s = c :: r.
Proof.
  cbn [run]. destruct s as [|c s]; [discriminate|]. destruct (f c) eqn:E; [|discriminate].
  intros H. injection H as <- <- <-. exists c. auto.
Qed.
Lemma run_alt_inv (a b : peg R) pos s x : run (PAlt a b) pos s = Some x ->
  run a pos s = Some x \/ (run a pos s = None /\ run b pos s = Some x).
Proof. cbn [run]. destruct (run a pos s); auto. Qed.
Lemma run_opt_inv (a : peg R) pos s x : run (POpt a) pos s = Some x ->
  run a pos s = Some x \/ (run a pos s = None /\ x = ([], [], s)).
Proof. cbn [run]. destruct (run a pos s); auto. intros H. right. split; congruence. Qed.
Lemma run_not_inv (a : peg R) pos s x : run (PNot a) pos s = Some x -> run a pos s = None /\ x = ([], [], s).
Proof. cbn [run]. destruct (run a pos s); [discriminate|]. split; congruence. Qed.
Lemma run_and_inv (a : peg R) pos s x : run (PAnd a) pos s = Some x -> (exists y, run a pos s = Some y) /\ x = ([], [], s).
Proof. cbn [run]. destruct (run a pos s); [|discriminate]. split; [eauto|congruence]. Qed.
Lemma run_atom_inv q (a : peg R) pos s ps m r : run (PAtom q a) pos s = Some (ps, m, r) ->
  (exists ps', run a pos s = Some (ps', m, r)) /\ ps = [Pair q pos m []].
Proof.
  cbn [run]. destruct (run a pos s) as [[[p1 m1] r1]|]; [|discriminate]. intros H. injection H as <- <- <-. eauto.
Qed.
Lemma run_rule_inv q (a : peg R) pos s ps m r : run (PRule q a) pos s = Some (ps, m, r) ->
  exists ps', run a pos s = Some (ps', m, r) /\ ps = [Pair q pos m ps'].
Proof.
  cbn [run]. destruct (run a pos s) as [[[p1 m1] r1]|]; [|discriminate]. intros H. injection H as <- <- <-. eauto.
Qed.
Lemma run_str_app t pos r : run (R:=R) (PStr t) pos (t ++ r) = Some ([], t, r).
Proof. cbn [run]. rewrite strip_prefix_app. reflexivity. Qed.
End P.

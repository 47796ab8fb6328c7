(** PreprocLemmas.v -- the replace loop equals a left-to-right scan; one scan function per pattern. *)
From Verif Require Import Base BaseLemmas Regex Preproc.

(** *** Generic scan *)
Section Scan.
  (** [H prev rest]: if the pattern matches at the head of [rest], the text written in place of the
      part up to the new offset, and the text after the new offset. *)
  Variable H : option char -> str -> option (str * str).
  Definition upd (prev : option char) (o : str) : option char :=
    match last_char o with Some c => Some c | None => prev end.
  Fixpoint scan (fuel : nat) (prev : option char) (rest : str) : str :=
    match fuel with
    | 0 => rest
    | S f =>
        match H prev rest with
        | Some (o, rest') => o ++ scan f (upd prev o) rest'
        | None => match rest with
                  | [] => []
                  | c :: rest' => c :: scan f (Some c) rest'
                  end
        end
    end.
  Hypothesis Hdec : forall prev rest o rest', H prev rest = Some (o, rest') -> length rest' < length rest.
  Lemma scan_fuel f1 f2 prev rest : length rest < f1 -> length rest < f2 ->
    scan f1 prev rest = scan f2 prev rest.
  Proof.
    revert f2 prev rest; induction f1 as [|f1 IH]; intros f2 prev rest H1 H2; [lia|].
    destruct f2 as [|f2]; [lia|]. cbn [scan].
    destruct (H prev rest) as [[o rest']|] eqn:E.
    - apply Hdec in E. f_equal. apply IH; lia.
    - destruct rest as [|c rest']; auto. simpl in *. f_equal. apply IH; lia.
  Qed.
  Lemma scan_some f prev rest o rest' : H prev rest = Some (o, rest') ->
    scan (S f) prev rest = o ++ scan f (upd prev o) rest'.
  Proof. intro E. cbn [scan]. rewrite E. reflexivity. Qed.
  Lemma scan_none f prev c rest : H prev (c :: rest) = None ->
    scan (S f) prev (c :: rest) = c :: scan f (Some c) rest.
  Proof. intro E. cbn [scan]. rewrite E. reflexivity. Qed.
End Scan.

Lemma last_char_app a b : last_char (a ++ b) = match last_char b with Some c => Some c | None => last_char a end.
Proof.
  unfold last_char. rewrite rev_app_distr. destruct (rev b) as [|c r]; reflexivity.
Qed.
Lemma last_char_snoc a c : last_char (a ++ [c]) = Some c.
Proof. rewrite last_char_app. reflexivity. Qed.
Lemma upd_last a o : upd (last_char a) o = last_char (a ++ o).
Proof. unfold upd. rewrite last_char_app. reflexivity. Qed.

Lemma byte_of_app a b : byte_of (a ++ b) (length a) = blen a.
Proof. unfold byte_of. rewrite firstn_app, firstn_all, Nat.sub_diag. simpl. rewrite app_nil_r. reflexivity. Qed.
Lemma byte_of_app2 a m b : byte_of (a ++ m ++ b) (length a + length m) = blen a + blen m.
Proof.
  rewrite app_assoc, <- app_length, byte_of_app, blen_app. reflexivity.
Qed.

(** The link between a regex with its replacement step and a head function. *)
Definition head_ok (r : re) (once : str -> rmatch -> option (str * nat))
    (H : option char -> str -> option (str * str)) : Prop :=
  forall pos prev rest,
    match mt r (RS pos prev rest) with
    | [] => H prev rest = None
    | (st1, c) :: _ =>
        exists o rest', H prev rest = Some (o, rest') /\ length rest' < length rest /\
          forall pre, length pre = pos ->
            once (pre ++ rest) (RM pos (r_pos st1) c) = Some (pre ++ o ++ rest', blen (pre ++ o))
    end.

Lemma head_ok_dec r once H : head_ok r once H ->
  forall prev rest o rest', H prev rest = Some (o, rest') -> length rest' < length rest.
Proof.
  intros Hh prev rest o rest' E. specialize (Hh 0 prev rest).
  destruct (mt r (RS 0 prev rest)) as [|[st1 c] l]; [congruence|].
  destruct Hh as (o1 & r1 & E1 & Hl & _). congruence.
Qed.

Lemma find_scan r once H : head_ok r once H ->
  forall rest pre f, length rest < f ->
    match find_from r (length pre) (last_char pre) rest with
    | None => scan H f (last_char pre) rest = rest
    | Some m => exists a o rest' , length rest' < length rest /\
        once (pre ++ rest) m = Some (pre ++ a ++ o ++ rest', blen (pre ++ a ++ o)) /\
        scan H f (last_char pre) rest = a ++ o ++ scan H f (last_char (pre ++ a ++ o)) rest'
    end.
Proof.
  intros Hh. pose proof (head_ok_dec _ _ _ Hh) as Hdec.
  induction rest as [|c rest IH]; intros pre f Hf; cbn [find_from].
  - specialize (Hh (length pre) (last_char pre) []).
    destruct (mt r (RS (length pre) (last_char pre) [])) as [|[st1 cp] l].
    + destruct f; cbn [scan]; auto. rewrite Hh. reflexivity.
    + destruct Hh as (o & rest' & E & Hl & Ho). simpl in Hl. lia.
  - specialize (Hh (length pre) (last_char pre) (c :: rest)).
    destruct (mt r (RS (length pre) (last_char pre) (c :: rest))) as [|[st1 cp] l].
    + destruct f as [|f]; [simpl in Hf; lia|]. simpl in Hf.
      specialize (IH (pre ++ [c]) f ltac:(lia)).
      rewrite app_length, last_char_snoc in IH. simpl in IH. rewrite Nat.add_1_r in IH.
      destruct (find_from r (S (length pre)) (Some c) rest) as [m|].
      * destruct IH as (a & o & rest' & Hl & Ho & Hs).
        exists (c :: a), o, rest'. split; [simpl; lia|]. split.
        -- rewrite <- !app_assoc in Ho. exact Ho.
        -- rewrite (scan_none _ f _ _ _ Hh), Hs. cbn [app]. do 3 f_equal.
           rewrite <- !app_assoc. cbn [app]. apply scan_fuel; auto; lia.
      * rewrite (scan_none _ f _ _ _ Hh), IH. reflexivity.
    + destruct Hh as (o & rest' & E & Hl & Ho). exists [], o, rest'.
      split; auto. split; [apply Ho; reflexivity|].
      destruct f as [|f]; [simpl in Hf; lia|]. rewrite (scan_some _ f _ _ _ _ E). cbn [app]. f_equal.
      rewrite upd_last. apply scan_fuel; auto; simpl in *; lia.
Qed.

Theorem replace_loop_scan r once H : head_ok r once H ->
  forall fuel pre rest, length rest < fuel ->
    replace_loop r once fuel (pre ++ rest) (blen pre)
    = ROk (pre ++ scan H (S (length rest)) (last_char pre) rest).
Proof.
  intros Hh. pose proof (head_ok_dec _ _ _ Hh) as Hdec.
  induction fuel as [|fuel IH]; intros pre rest Hf; [lia|]. cbn [replace_loop].
  unfold captures_at. rewrite bsplit_app.
  pose proof (find_scan r once H Hh rest pre (S (length rest)) ltac:(lia)) as Hfs.
  destruct (find_from r (length pre) (last_char pre) rest) as [m|].
  - destruct Hfs as (a & o & rest' & Hl & Ho & Hs). rewrite Ho, Hs.
    rewrite (app_assoc a o rest'), (app_assoc pre (a ++ o) rest').
    rewrite IH by lia. f_equal. rewrite <- !app_assoc. do 3 f_equal.
    apply scan_fuel; auto; lia.
  - rewrite Hfs. reflexivity.
Qed.

(** Replacement of the character range [pos+|m1|, pos+|m1|+|x|). *)
Lemma replace_once_app repl pre m1 x post c pos e :
  match cap_get repl_group c with Some se => se | None => (pos, e) end
    = (length pre + length m1, length pre + length m1 + length x) ->
  replace_once repl (pre ++ m1 ++ x ++ post) (RM pos e c)
  = Some (pre ++ (m1 ++ repl) ++ post, blen (pre ++ (m1 ++ repl))).
Proof.
  intro E. unfold replace_once. cbn [m_start m_end m_caps]. rewrite E.
  rewrite <- app_length.
  replace (pre ++ m1 ++ x ++ post) with ((pre ++ m1) ++ x ++ post) by (rewrite <- app_assoc; reflexivity).
  rewrite byte_of_app, byte_of_app2, replace_range_app.
  rewrite <- !app_assoc, !blen_app. f_equal. f_equal. lia.
Qed.

Lemma replace_whole repl pre x post pos e : pos = length pre -> e = pos + length x ->
  replace_once repl (pre ++ x ++ post) (RM pos e []) = Some (pre ++ repl ++ post, blen (pre ++ repl)).
Proof.
  intros -> ->. apply (replace_once_app repl pre [] x post []). simpl. f_equal; lia.
Qed.

Lemma surround_once_app b e pre m0 content m1 post c cs ce :
  cap_get 1 c = Some (cs, ce) -> cs = length pre + length m0 ->
  ce = length pre + length m0 + length content ->
  surround_once b e (pre ++ m0 ++ content ++ m1 ++ post)
     (RM (length pre) (length pre + length (m0 ++ content ++ m1)) c)
  = Some (pre ++ (b ++ content ++ e) ++ post, blen (pre ++ (b ++ content ++ e))).
Proof.
  intros E -> ->. unfold surround_once. cbn [m_start m_end m_caps]. rewrite E.
  rewrite byte_of_app.
  replace (byte_of (pre ++ m0 ++ content ++ m1 ++ post) (length pre + length m0 + length content))
    with (blen pre + blen m0 + blen content).
  2:{ rewrite <- !app_length. rewrite !app_assoc. rewrite <- (app_assoc (_ ++ _) m1 post), byte_of_app.
      rewrite !blen_app. reflexivity. }
  replace (byte_of (pre ++ m0 ++ content ++ m1 ++ post) (length pre + length m0))
    with (blen pre + blen m0).
  2:{ rewrite <- app_length, app_assoc, byte_of_app, blen_app. reflexivity. }
  replace (byte_of (pre ++ m0 ++ content ++ m1 ++ post) (length pre + length (m0 ++ content ++ m1)))
    with (blen pre + blen (m0 ++ content ++ m1)).
  2:{ rewrite <- byte_of_app2 with (b := post). rewrite <- !app_assoc. reflexivity. }
  replace (bslice (pre ++ m0 ++ content ++ m1 ++ post) (blen pre + blen m0) (blen pre + blen m0 + blen content))
    with (Some content).
  2:{ symmetry. rewrite app_assoc, <- blen_app. apply bslice_app. }
  replace (pre ++ m0 ++ content ++ m1 ++ post) with (pre ++ (m0 ++ content ++ m1) ++ post)
    by (rewrite <- !app_assoc; reflexivity).
  rewrite replace_range_app. rewrite !blen_app. f_equal. f_equal. lia.
Qed.

Opaque replace_once surround_once.

(** *** Runs of a character class *)
Fixpoint runs (p : char -> bool) (pos : nat) (prev : option char) (rest : str) : list (rstate * caps) :=
  (match rest with
   | c :: r => if p c then runs p (S pos) (Some c) r else []
   | [] => []
   end) ++ [(RS pos prev rest, [])].

Lemma map_caps_nil (l : list (rstate * caps)) : map (fun '(st2, c2) => (st2, c2 ++ [])) l = l.
Proof. induction l as [|[s c] l IH]; simpl; auto. rewrite app_nil_r, IH. reflexivity. Qed.

Lemma star_runs p fuel pos prev rest : length rest <= fuel ->
  star_all (mt (Chr p)) true fuel (RS pos prev rest) = runs p pos prev rest.
Proof.
  revert pos prev rest; induction fuel as [|fuel IH]; intros pos prev rest Hl.
  - destruct rest; [reflexivity|simpl in Hl; lia].
  - destruct rest as [|c rest]; [reflexivity|]. cbn [star_all mt r_rest r_pos runs].
    destruct (p c); [|reflexivity]. cbn [flat_map]. cbn [r_rest].
    destruct (Nat.ltb_spec (length rest) (length (c :: rest))) as [Hlt|Hlt]; [|simpl in Hlt; lia].
    rewrite IH by (simpl in Hl; lia). rewrite map_caps_nil, app_nil_r. reflexivity.
Qed.

Lemma runs_hd p rest : forall pos prev, exists st l, runs p pos prev rest = (st, []) :: l
  /\ r_pos st = pos + length (take_while p rest) /\ r_rest st = drop_while p rest.
Proof.
  induction rest as [|c rest IH]; intros pos prev; cbn [runs take_while drop_while].
  - eexists _, []; simpl; split; [reflexivity|]. simpl; auto.
  - destruct (p c).
    + destruct (IH (S pos) (Some c)) as (st & l & E & E1 & E2).
      rewrite E. eexists _, _; simpl; split; [reflexivity|]. simpl; split; auto. lia.
    + eexists _, []; simpl; split; [reflexivity|]. simpl; auto.
Qed.

Lemma mt_seq a b st : mt (Seq a b) st = flat_map (fun '(st1, c1) =>
                 map (fun '(st2, c2) => (st2, c2 ++ c1)) (mt b st1)) (mt a st).
Proof. reflexivity. Qed.
Lemma mt_star g a st : mt (Star g a) st = star_all (mt a) g (length (r_rest st)) st.
Proof. reflexivity. Qed.
Lemma mt_chr p pos prev c rest : mt (Chr p) (RS pos prev (c :: rest)) =
  if p c then [(RS (S pos) (Some c) rest, [])] else [].
Proof. reflexivity. Qed.
Lemma mt_alt a b st : mt (Alt a b) st = mt a st ++ mt b st.
Proof. reflexivity. Qed.

Definition after (r : re) (l : list (rstate * caps)) : list (rstate * caps) :=
  flat_map (fun '(st1, c1) => map (fun '(st2, c2) => (st2, c2 ++ c1)) (mt r st1)) l.
Lemma mt_seq_after a b st : mt (Seq a b) st = after b (mt a st).
Proof. reflexivity. Qed.
Lemma after_app r l1 l2 : after r (l1 ++ l2) = after r l1 ++ after r l2.
Proof. apply flat_map_app. Qed.
Lemma after_one r st c : after r [(st, c)] = map (fun '(st2, c2) => (st2, c2 ++ c)) (mt r st).
Proof. unfold after. simpl. apply app_nil_r. Qed.
Lemma after_one_nil r st : after r [(st, [])] = mt r st.
Proof. rewrite after_one. apply map_caps_nil. Qed.
Lemma after_nil r : after r [] = [].
Proof. reflexivity. Qed.
Lemma after_cons r st c l : after r ((st, c) :: l) =
  map (fun '(st2, c2) => (st2, c2 ++ c)) (mt r st) ++ after r l.
Proof. reflexivity. Qed.
Global Opaque after.

Lemma mt_plus p st : mt (plus (Chr p)) st =
  match r_rest st with
  | c :: rest => if p c then runs p (S (r_pos st)) (Some c) rest else []
  | [] => []
  end.
Proof.
  unfold plus. rewrite mt_seq. destruct st as [pos prev rest]. cbn [r_rest r_pos].
  destruct rest as [|c rest]; [reflexivity|]. rewrite mt_chr.
  destruct (p c); [|reflexivity]. cbn [flat_map]. rewrite mt_star. cbn [r_rest].
  rewrite star_runs by lia. rewrite map_caps_nil, app_nil_r. reflexivity.
Qed.

(** *** Head functions of the whitespace patterns *)
Definition bol (prev : option char) : bool := match prev with None => true | Some c => ceqb c newline end.

Definition h_dos (_ : option char) (s : str) : option (str * str) :=
  match s with
  | c :: r => if ceqb 13 c then
      Some ([10%N], match r with d :: r' => if ceqb 10 d then r' else r | [] => [] end)
      else None
  | [] => None
  end.
Lemma dos_ok : head_ok (Seq (ch 13) (opt (ch 10))) (replace_once [10%N]) h_dos.
Proof.
  intros pos prev rest. unfold h_dos, ch, opt. cbn [mt r_rest r_pos].
  destruct rest as [|c r]; [reflexivity|]. destruct (ceqb 13 c) eqn:E; [|reflexivity].
  apply ceqb_eq in E as <-. cbn [flat_map r_rest r_pos app].
  destruct r as [|d r'].
  - cbn. eexists _, _. split; [reflexivity|]. split; [simpl; lia|]. intros pre <-.
    apply (replace_whole [10%N] pre [13%N] []); simpl; lia.
  - destruct (ceqb 10 d) eqn:E.
    + apply ceqb_eq in E as <-. cbn. eexists _, _. split; [reflexivity|]. split; [simpl; lia|].
      intros pre <-.
      apply (replace_whole [10%N] pre [13%N;10%N] r'); simpl; lia.
    + cbn. eexists _, _. split; [reflexivity|]. split; [simpl; lia|].
      intros pre <-.
      apply (replace_whole [10%N] pre [13%N] (d :: r')); simpl; lia.
Qed.

Definition h_lead (prev : option char) (s : str) : option (str * str) :=
  if bol prev then
    match s with
    | c :: r => if is_nonstd_space c then
        Some (repeat 32%N (S (length (take_while is_nonstd_space r))), drop_while is_nonstd_space r)
      else None
    | [] => None
    end
  else None.
Lemma lead_ok : head_ok LEADING_NONSTANDARD_WHITESPACE spaces_once h_lead.
Proof.
  intros pos prev rest. unfold h_lead, LEADING_NONSTANDARD_WHITESPACE. cbn [mt].
  unfold at_bol, bol. cbn [r_prev].
  destruct (match prev with None => true | Some c => ceqb c newline end); [|reflexivity].
  cbn [flat_map]. rewrite mt_plus. cbn [r_rest r_pos].
  destruct rest as [|c r]; [reflexivity|]. destruct (is_nonstd_space c) eqn:E; [|reflexivity].
  destruct (runs_hd is_nonstd_space r (S pos) (Some c)) as (st & l & Er & Ep & Erest).
  rewrite Er. cbn [map app]. eexists _, _. split; [reflexivity|].
  split; [pose proof (drop_while_length is_nonstd_space r); simpl; lia|].
  intros pre <-. unfold spaces_once. cbn [m_start m_end]. rewrite Ep.
  rewrite byte_of_app.
  set (w := c :: take_while is_nonstd_space r).
  replace (c :: r) with (w ++ drop_while is_nonstd_space r)
    by (unfold w; simpl; rewrite take_drop_while; reflexivity).
  replace (S (length pre) + length (take_while is_nonstd_space r)) with (length pre + length w)
    by (unfold w; simpl; lia).
  rewrite byte_of_app2, bslice_app, replace_range_app, blen_app. f_equal. f_equal. f_equal.
  change (length w) with (S (length (take_while is_nonstd_space r))).
  generalize (S (length (take_while is_nonstd_space r))) as n. clear.
  induction n as [|n IH]; simpl; lia.
Qed.

Fixpoint wl (s : str) : option str :=
  match s with
  | [] => Some []
  | c :: r => if is_ws c then
                match wl r with
                | Some b => Some b
                | None => if ceqb c newline then Some (c :: r) else None
                end
              else None
  end.
Definition h_wol (prev : option char) (s : str) : option (str * str) :=
  if bol prev then
    match s with
    | c :: r => if is_ws c then match wl r with Some b => Some ([], b) | None => None end else None
    | [] => None
    end
  else None.
Lemma wl_runs rest : forall pos prev,
  match after EolM (runs is_ws pos prev rest) with
  | [] => wl rest = None
  | (st, c) :: _ => c = [] /\ wl rest = Some (r_rest st) /\
      exists m, rest = m ++ r_rest st /\ r_pos st = pos + length m
  end.
Proof.
  induction rest as [|c rest IH]; intros pos prev; cbn [runs wl].
  - cbn. split; auto. split; auto. exists []. auto.
  - rewrite after_app, after_one_nil. cbn [mt]. unfold at_eol. cbn [r_rest].
    destruct (is_ws c) eqn:Ews.
    + specialize (IH (S pos) (Some c)).
      destruct (after EolM (runs is_ws (S pos) (Some c) rest)) as [|[st cc] l].
      * cbn [app]. rewrite IH. destruct (ceqb c newline); [|reflexivity].
        cbn. split; auto. split; auto. exists []; simpl; auto.
      * cbn [app]. destruct IH as (-> & IH2 & m & Em & Ep). split; auto. rewrite IH2. split; auto.
        exists (c :: m). simpl. rewrite Ep. split; [congruence|lia].
    + rewrite after_nil. cbn [app]. destruct (ceqb c newline) eqn:En; [|reflexivity].
      apply ceqb_eq in En as ->. discriminate Ews.
Qed.
Lemma wol_ok : head_ok (Seq BolM (Seq (plus (Chr is_ws)) EolM)) (replace_once []) h_wol.
Proof.
  intros pos prev rest. unfold h_wol.
  rewrite mt_seq_after. unfold bol.
  replace (mt BolM (RS pos prev rest)) with
    (if match prev with None => true | Some c => ceqb c newline end then [(RS pos prev rest, [] : caps)] else [])
    by reflexivity.
  destruct (match prev with None => true | Some c => ceqb c newline end); [|reflexivity].
  rewrite after_one_nil, mt_seq_after, mt_plus. cbn [r_rest r_pos].
  destruct rest as [|c r]; [reflexivity|]. destruct (is_ws c); [|reflexivity].
  pose proof (wl_runs r (S pos) (Some c)) as Hw.
  destruct (after EolM (runs is_ws (S pos) (Some c) r)) as [|[st cc] l].
  - rewrite Hw. reflexivity.
  - destruct Hw as (-> & -> & m & Em & Ep). eexists _, _. split; [reflexivity|].
    split; [rewrite Em; simpl; rewrite app_length; lia|]. intros pre <-.
    rewrite Ep, Em at 1.
    apply (replace_whole [] pre (c :: m) (r_rest st)); simpl; lia.
Qed.

Definition h_concat (_ : option char) (s : str) : option (str * str) :=
  match s with
  | c :: d :: r => if ceqb 92 c && ceqb 10 d then Some ([], r) else None
  | _ => None
  end.
Lemma concat_ok : head_ok (Seq (ch 92) (ch 10)) (replace_once []) h_concat.
Proof.
  intros pos prev rest. unfold h_concat, ch. cbn [mt r_rest r_pos].
  destruct rest as [|c [|d r]]; [reflexivity| |].
  - destruct (ceqb 92 c); reflexivity.
  - destruct (ceqb 92 c) eqn:E; [|reflexivity]. cbn [flat_map r_rest r_pos andb].
    destruct (ceqb 10 d) eqn:E2; [|reflexivity]. cbn.
    eexists _, _. split; [reflexivity|]. split; [simpl; lia|]. intros pre <-.
    apply (replace_once_app [] pre [] [c; d] r [] (length pre)). simpl. f_equal; lia.
Qed.

Definition h_char (k : char) (repl : str) (_ : option char) (s : str) : option (str * str) :=
  match s with
  | c :: r => if ceqb k c then Some (repl, r) else None
  | _ => None
  end.
Lemma char_ok k repl : head_ok (ch k) (replace_once repl) (h_char k repl).
Proof.
  intros pos prev rest. unfold h_char, ch. cbn [mt r_rest r_pos].
  destruct rest as [|c r]; [reflexivity|]. destruct (ceqb k c); [|reflexivity].
  eexists _, _. split; [reflexivity|]. split; [simpl; lia|]. intros pre <-.
  apply (replace_once_app repl pre [] [c] r [] (length pre)). simpl. f_equal; lia.
Qed.

Definition h_leadnl (prev : option char) (s : str) : option (str * str) :=
  match prev with
  | Some _ => None
  | None => match s with
            | c :: r => if ceqb 10 c then Some ([], drop_while (ceqb 10) r) else None
            | [] => None
            end
  end.
Lemma leadnl_ok : head_ok (Seq Bot (plus (ch 10))) (replace_once []) h_leadnl.
Proof.
  intros pos prev rest. unfold h_leadnl. cbn [mt r_prev]. destruct prev; [reflexivity|].
  cbn [flat_map]. unfold ch. rewrite mt_plus. cbn [r_rest r_pos].
  destruct rest as [|c r]; [reflexivity|]. destruct (ceqb 10 c) eqn:E; [|reflexivity].
  destruct (runs_hd (ceqb 10) r (S pos) (Some c)) as (st & l & Er & Ep & Erest).
  rewrite Er. cbn [map app]. eexists _, _. split; [reflexivity|].
  split; [pose proof (drop_while_length (ceqb 10) r); simpl; lia|].
  intros pre <-. rewrite Ep.
  set (w := c :: take_while (ceqb 10) r).
  replace (c :: r) with ([] ++ w ++ drop_while (ceqb 10) r)
    by (unfold w; simpl; rewrite take_drop_while; reflexivity).
  apply (replace_once_app [] pre [] w (drop_while (ceqb 10) r) [] (length pre)).
  unfold w; simpl. f_equal; lia.
Qed.

Definition h_trailnl (_ : option char) (s : str) : option (str * str) :=
  match s with
  | c :: r => if ceqb 10 c && forallb (ceqb 10) r then Some ([], []) else None
  | [] => None
  end.
Lemma trail_runs rest : forall pos prev,
  match after Eot (runs (ceqb 10) pos prev rest) with
  | [] => forallb (ceqb 10) rest = false
  | (st, c) :: _ => c = [] /\ forallb (ceqb 10) rest = true /\ r_rest st = [] /\
       r_pos st = pos + length rest
  end.
Proof.
  induction rest as [|c rest IH]; intros pos prev; cbn [runs forallb].
  - rewrite app_nil_l, after_one_nil. cbn. repeat split; auto.
  - rewrite after_app, after_one_nil. cbn [mt r_rest]. rewrite app_nil_r.
    destruct (ceqb 10 c) eqn:E; [|reflexivity].
    specialize (IH (S pos) (Some c)).
    destruct (after Eot (runs (ceqb 10) (S pos) (Some c) rest)) as [|[st cc] l].
    + exact IH.
    + destruct IH as (-> & -> & E1 & E2). repeat split; auto. simpl. lia.
Qed.
Lemma trailnl_ok : head_ok (Seq (plus (ch 10)) Eot) (replace_once []) h_trailnl.
Proof.
  intros pos prev rest. unfold h_trailnl.
  rewrite mt_seq_after. unfold ch. rewrite mt_plus. cbn [r_rest r_pos].
  destruct rest as [|c r]; [reflexivity|]. destruct (ceqb 10 c) eqn:E; [|reflexivity].
  pose proof (trail_runs r (S pos) (Some c)) as Hw.
  destruct (after Eot (runs (ceqb 10) (S pos) (Some c) r)) as [|[st cc] l].
  - rewrite Hw. reflexivity.
  - destruct Hw as (-> & -> & E1 & E2). eexists _, _. split; [reflexivity|].
    split; [simpl; lia|]. intros pre <-. rewrite E2.
    pose proof (replace_whole [] pre (c :: r) [] (length pre) (S (length pre) + length r)) as Hr.
    rewrite app_nil_r in Hr. apply Hr; simpl; lia.
Qed.

(** *** Typography *)
Fixpoint lz (close : str) (s : str) : option (str * str) :=
  match strip_prefix close s with
  | Some b => Some ([], b)
  | None => match s with
            | [] => None
            | c :: r => if ceqb c newline then None else
                match lz close r with Some (m, b) => Some (c :: m, b) | None => None end
            end
  end.
Lemma lz_inv close s m b : lz close s = Some (m, b) -> s = m ++ close ++ b /\ forallb (fun c => negb (ceqb c newline)) m = true.
Proof.
  revert m b; induction s as [|c s IH]; intros m b; cbn [lz].
  - destruct (strip_prefix close []) eqn:E; [|discriminate].
    apply strip_prefix_inv in E. intro H; injection H as <- <-. auto.
  - destruct (strip_prefix close (c :: s)) eqn:E.
    + apply strip_prefix_inv in E. intro H; injection H as <- <-. auto.
    + destruct (ceqb c newline) eqn:En; [discriminate|].
      destruct (lz close s) as [[m' b']|]; [|discriminate].
      intro H; injection H as <- <-. destruct (IH _ _ eq_refl) as [-> Hf]. simpl. rewrite En, Hf. auto.
Qed.

(** [rc] matches exactly the literal text [close], without captures. *)
Definition lit_re (rc : re) (close : str) : Prop :=
  forall st, match strip_prefix close (r_rest st) with
             | Some b => exists p, mt rc st = [(RS (r_pos st + length close) p b, [])]
             | None => mt rc st = []
             end.

Lemma lz_star rc close start : lit_re rc close ->
  forall fuel pos prev rest, length rest <= fuel ->
  match after rc (map (fun '(st1, c1) => (st1, (1, (start, r_pos st1)) :: c1))
          (star_all (mt dot) false fuel (RS pos prev rest))) with
  | [] => lz close rest = None
  | (st, c) :: _ => exists m b, lz close rest = Some (m, b) /\
      cap_get 1 c = Some (start, pos + length m) /\
      r_pos st = pos + length m + length close
  end.
Proof.
  intro Hrc. induction fuel as [|fuel IH]; intros pos prev rest Hl.
  - destruct rest; [|simpl in Hl; lia]. cbn [star_all map lz]. rewrite after_one.
    specialize (Hrc (RS pos prev [])). cbn [r_rest r_pos] in *.
    destruct (strip_prefix close []) as [b|].
    + destruct Hrc as [p ->]. cbn [map]. exists [], b. simpl. split; auto. split; [do 2 f_equal; lia|lia].
    + rewrite Hrc. reflexivity.
  - cbn [star_all]. cbn [map]. rewrite after_cons.
    pose proof (Hrc (RS pos prev rest)) as Hrc'. cbn [r_rest r_pos] in *.
    destruct rest as [|c rest]; cbn [lz].
    + destruct (strip_prefix close []) as [b|].
      * destruct Hrc' as [p ->]. cbn [map app]. exists [], b. simpl. split; auto. split; [do 2 f_equal; lia|lia].
      * rewrite Hrc'. cbn. reflexivity.
    + destruct (strip_prefix close (c :: rest)) as [b|] eqn:Es.
      * destruct Hrc' as [p ->]. cbn [map app]. exists [], b. simpl. split; auto. split; [do 2 f_equal; lia|lia].
      * rewrite Hrc'. cbn [map app]. replace (mt dot (RS pos prev (c :: rest))) with
          (if negb (ceqb c newline) then [(RS (S pos) (Some c) rest, [] : caps)] else []) by reflexivity.
        destruct (ceqb c newline); cbn [negb].
        -- cbn. reflexivity.
        -- cbn [flat_map r_rest]. 
           destruct (Nat.ltb_spec (length rest) (length (c :: rest))) as [Hlt|Hlt]; [|simpl in Hlt; lia].
           rewrite app_nil_r, map_caps_nil.
           specialize (IH (S pos) (Some c) rest ltac:(simpl in Hl; lia)).
           destruct (after rc _) as [|[st cc] l].
           ++ rewrite IH. reflexivity.
           ++ destruct IH as (m & b & -> & Hc & Hp). exists (c :: m), b. simpl.
              split; auto. split; [rewrite Hc; do 2 f_equal; lia|lia].
Qed.

Definition h_quote (open close b e : str) (_ : option char) (s : str) : option (str * str) :=
  match strip_prefix open s with
  | Some r => match lz close r with
              | Some (m, rest') => Some (b ++ m ++ e, rest')
              | None => None
              end
  | None => None
  end.

Lemma quote_ok r rc open close b e : lit_re rc close ->
  (0 < length open) ->
  (forall pos prev rest, match strip_prefix open rest with
     | Some rest' => exists p, mt r (RS pos prev rest) = mt (Seq lazy_dots rc) (RS (pos + length open) p rest')
     | None => mt r (RS pos prev rest) = []
     end) ->
  head_ok r (surround_once b e) (h_quote open close b e).
Proof.
  intros Hc Ho Hr pos prev rest. unfold h_quote. specialize (Hr pos prev rest).
  destruct (strip_prefix open rest) as [r'|] eqn:Es; [|rewrite Hr; reflexivity].
  destruct Hr as [p ->]. rewrite mt_seq_after. unfold lazy_dots.
  apply strip_prefix_inv in Es. subst rest.
  change (mt (Grp 1 (Star false dot)) (RS (pos + length open) p r')) with
    (map (fun '(st1, c1) => (st1, (1, (pos + length open, r_pos st1)) :: c1))
        (star_all (mt dot) false (length r') (RS (pos + length open) p r'))).
  pose proof (lz_star rc close (pos + length open) Hc (length r') (pos + length open) p r' (le_n _)) as Hz.
  destruct (after rc _) as [|[st c] l].
  - rewrite Hz. reflexivity.
  - destruct Hz as (m & b' & E & Hcap & Hp). rewrite E. eexists _, _. split; [reflexivity|].
    apply lz_inv in E as [-> _]. split; [rewrite !app_length; lia|].
    intros pre <-. rewrite Hp.
    replace (length pre + length open + length m + length close) with
      (length pre + length (open ++ m ++ close)) by (rewrite !app_length; lia).
    apply surround_once_app with (cs := length pre + length open) (ce := length pre + length open + length m); auto.
Qed.

Lemma lit_re_1 k : lit_re (ch k) [k].
Proof.
  intros [pos prev rest]. cbn. destruct rest as [|c r]; [reflexivity|]. destruct (ceqb k c); [|reflexivity].
  exists (Some c). rewrite Nat.add_1_r. reflexivity.
Qed.
Lemma lit_re_2 k k' : lit_re (Seq (ch k) (ch k')) [k; k'].
Proof.
  intros [pos prev rest]. cbn. destruct rest as [|c r]; [reflexivity|]. destruct (ceqb k c); [|reflexivity].
  destruct r as [|d r]; [reflexivity|]. cbn. destruct (ceqb k' d); [|reflexivity].
  exists (Some d). replace (pos + 2) with (S (S pos)) by lia. reflexivity.
Qed.

Lemma open1 k R pos prev rest : match strip_prefix [k] rest with
     | Some rest' => exists p, mt (Seq (ch k) R) (RS pos prev rest) = mt R (RS (pos + 1) p rest')
     | None => mt (Seq (ch k) R) (RS pos prev rest) = []
     end.
Proof.
  rewrite mt_seq_after. unfold ch. cbn [strip_prefix].
  destruct rest as [|c r]; [reflexivity|]. rewrite mt_chr. destruct (ceqb k c); [|reflexivity].
  exists (Some c). rewrite after_one_nil, Nat.add_1_r. reflexivity.
Qed.
Lemma open2 k k' R pos prev rest : match strip_prefix [k; k'] rest with
     | Some rest' => exists p, mt (Seq (ch k) (Seq (ch k') R)) (RS pos prev rest) = mt R (RS (pos + 2) p rest')
     | None => mt (Seq (ch k) (Seq (ch k') R)) (RS pos prev rest) = []
     end.
Proof.
  pose proof (open1 k (Seq (ch k') R) pos prev rest) as H0. cbn [strip_prefix] in *.
  destruct rest as [|c r]; [exact H0|]. destruct (ceqb k c); [|exact H0].
  destruct H0 as [p H0].
  pose proof (open1 k' R (pos + 1) p r) as H1. cbn [strip_prefix] in H1.
  destruct r as [|d r]; [congruence|]. destruct (ceqb k' d); [|congruence].
  destruct H1 as [p' H1]. exists p'. rewrite H0, H1. replace (pos + 2) with (pos + 1 + 1) by lia. reflexivity.
Qed.

(** Ellipsis. *)
Definition el (s : str) : option str :=
  match strip_prefix (lit "...") s with
  | Some r => match r with c :: _ => if ceqb c 46 then None else Some r | [] => Some r end
  | None => match strip_prefix (lit ". . .") s with
            | Some r => match r with c :: _ => if ceqb c 46 then None else Some r | [] => Some r end
            | None => None
            end
  end.
Definition h_ell (prev : option char) (s : str) : option (str * str) :=
  match (match prev with None => el s | Some _ => None end) with
  | Some r => Some ([8230%N], r)
  | None => match s with
            | c :: s' => if ceqb c 46 then None else
                match el s' with Some r => Some ([c; 8230%N], r) | None => None end
            | [] => None
            end
  end.

Definition ell_body : re :=
  Seq (Grp repl_group (Seq (Grp 1 (Alt (lits (lit "..")) (lits (lit ". . ")))) (ch 46)))
         (Alt not_dot Eot).

Definition dot_tail (s : str) : bool := match s with c :: _ => negb (ceqb c 46) | [] => true end.
Lemma ell_tail st : match mt (Alt not_dot Eot) st with
  | [] => dot_tail (r_rest st) = false
  | (st', c) :: _ => dot_tail (r_rest st) = true /\ c = []
  end.
Proof.
  destruct st as [pos prev rest]. rewrite mt_alt. unfold not_dot. cbn [r_rest].
  destruct rest as [|c r].
  - cbn. auto.
  - rewrite mt_chr. cbn. destruct (ceqb c 46); cbn; auto.
Qed.

Local Arguments ceqb : simpl never.
Definition ell_caps (pos k : nat) : caps := [(repl_group, (pos, pos + S k)); (1, (pos, pos + k))].
Lemma ell_inner pos prev rest :
  mt (Grp repl_group (Seq (Grp 1 (Alt (lits (lit "..")) (lits (lit ". . ")))) (ch 46))) (RS pos prev rest)
  = match strip_prefix (lit "...") rest with
    | Some r => [(RS (S (S (S pos))) (Some 46%N) r, ell_caps pos 2)]
    | None => match strip_prefix (lit ". . .") rest with
              | Some r => [(RS (S (S (S (S (S pos))))) (Some 46%N) r, ell_caps pos 4)]
              | None => []
              end
    end.
Proof.
  unfold ell_caps.
  replace (pos + 2) with (S (S pos)) by lia. replace (pos + 3) with (S (S (S pos))) by lia.
  replace (pos + 4) with (S (S (S (S pos)))) by lia. replace (pos + 5) with (S (S (S (S (S pos))))) by lia.
  cbn [lit Ascii.N_of_ascii Ascii.N_of_digits lits]. cbn.
  destruct rest as [|c0 rest]; [reflexivity|].
  destruct (ceqb 46 c0) eqn:E0; [|reflexivity]. apply ceqb_eq in E0 as <-. cbn.
  destruct rest as [|c1 rest]; [reflexivity|].
  destruct (ceqb 46 c1) eqn:E1; cbn.
  - apply ceqb_eq in E1 as <-. change (ceqb 32 46) with false. cbn.
    destruct rest as [|c2 rest]; [reflexivity|]. destruct (ceqb 46 c2) eqn:E2; [|reflexivity].
    apply ceqb_eq in E2 as <-. reflexivity.
  - destruct (ceqb 32 c1) eqn:E1'; [|reflexivity]. apply ceqb_eq in E1' as <-. cbn.
    destruct rest as [|c2 rest]; [reflexivity|]. destruct (ceqb 46 c2) eqn:E2; [|reflexivity]. cbn.
    destruct rest as [|c3 rest]; [reflexivity|]. destruct (ceqb 32 c3) eqn:E3; [|reflexivity]. cbn.
    destruct rest as [|c4 rest]; [reflexivity|]. destruct (ceqb 46 c4) eqn:E4; [|reflexivity].
    apply ceqb_eq in E4 as <-. reflexivity.
Qed.

Lemma el_eq s : el s =
  match strip_prefix (lit "...") s with
  | Some r => if dot_tail r then Some r else None
  | None => match strip_prefix (lit ". . .") s with
            | Some r => if dot_tail r then Some r else None
            | None => None
            end
  end.
Proof.
  unfold el, dot_tail. destruct (strip_prefix (lit "...") s) as [[|c r]|]; auto.
  - destruct (ceqb c 46); reflexivity.
  - destruct (strip_prefix (lit ". . .") s) as [[|c r]|]; auto. destruct (ceqb c 46); reflexivity.
Qed.

Lemma ell_body_ok pos prev rest :
  match mt ell_body (RS pos prev rest) with
  | [] => el rest = None
  | (st, c) :: _ => exists x r, el rest = Some r /\ rest = x ++ r /\
      cap_get repl_group c = Some (pos, pos + length x) /\ 2 < length x
  end.
Proof.
  unfold ell_body. rewrite mt_seq_after, ell_inner, el_eq.
  destruct (strip_prefix (lit "...") rest) as [r|] eqn:E.
  - rewrite after_one. pose proof (ell_tail (RS (S (S (S pos))) (Some 46%N) r)) as Ht. cbn [r_rest] in Ht.
    destruct (mt (Alt not_dot Eot) _) as [|[st' c'] l']; cbn [map].
    + rewrite Ht. reflexivity.
    + destruct Ht as [-> ->]. apply strip_prefix_inv in E. exists (lit "..."), r.
      repeat split; auto.
  - destruct (strip_prefix (lit ". . .") rest) as [r|] eqn:E'.
    + rewrite after_one. pose proof (ell_tail (RS (S (S (S (S (S pos))))) (Some 46%N) r)) as Ht. cbn [r_rest] in Ht.
      destruct (mt (Alt not_dot Eot) _) as [|[st' c'] l']; cbn [map].
      * rewrite Ht. reflexivity.
      * destruct Ht as [-> ->]. apply strip_prefix_inv in E'. exists (lit ". . ."), r.
        repeat split; auto; simpl; lia.
    + reflexivity.
Qed.

Lemma ell_ok : head_ok (Seq (Alt Bot not_dot) ell_body) (replace_once [8230%N]) h_ell.
Proof.
  intros pos prev rest. unfold h_ell. rewrite mt_seq_after, mt_alt, after_app.
  assert (Hnd : match after ell_body (mt not_dot (RS pos prev rest)) with
    | [] => match rest with
            | c :: s' => if ceqb c 46 then None else
                match el s' with Some r => Some ([c; 8230%N], r) | None => None end
            | [] => None
            end = None
    | (st1, c) :: _ => exists o rest',
          match rest with
            | c :: s' => if ceqb c 46 then None else
                match el s' with Some r => Some ([c; 8230%N], r) | None => None end
            | [] => None
            end = Some (o, rest') /\ length rest' < length rest /\
          forall pre, length pre = pos ->
            replace_once [8230%N] (pre ++ rest) (RM pos (r_pos st1) c) = Some (pre ++ o ++ rest', blen (pre ++ o))
    end).
  { destruct rest as [|c r]; [reflexivity|]. unfold not_dot. rewrite mt_chr.
    destruct (ceqb c 46); cbn [negb]; [reflexivity|]. rewrite after_one_nil.
    pose proof (ell_body_ok (S pos) (Some c) r) as Hb.
    destruct (mt ell_body (RS (S pos) (Some c) r)) as [|[st cp] l]; [rewrite Hb; reflexivity|].
    destruct Hb as (x & r' & -> & -> & Hc & Hx). eexists _, _. split; [reflexivity|].
    split; [simpl; rewrite app_length; lia|]. intros pre <-.
    apply (replace_once_app [8230%N] pre [c] x r' cp (length pre)). rewrite Hc. simpl. f_equal; lia. }
  destruct prev as [p|].
  - cbn [mt r_prev]. rewrite after_nil. cbn [app]. exact Hnd.
  - cbn [mt r_prev]. rewrite after_one_nil.
    pose proof (ell_body_ok pos None rest) as Hb.
    destruct (mt ell_body (RS pos None rest)) as [|[st cp] l].
    + rewrite Hb. exact Hnd.
    + destruct Hb as (x & r' & -> & -> & Hc & Hx). cbn [app]. eexists _, _. split; [reflexivity|].
      split; [rewrite app_length; lia|]. intros pre <-.
      apply (replace_once_app [8230%N] pre [] x r' cp (length pre)). rewrite Hc. simpl. f_equal; lia.
Qed.

(** *** The whole preprocessor as a composition of scans *)
Definition sc (H : option char -> str -> option (str * str)) (s : str) : str :=
  scan H (S (length s)) None s.

Lemma replace_loop_sc r once H s : head_ok r once H ->
  replace_loop r once (S (length s)) s 0 = ROk (sc H s).
Proof.
  intro Hh. apply (replace_loop_scan r once H Hh (S (length s)) [] s). lia.
Qed.

Definition ws_fun (s : str) : str :=
  sc h_trailnl (sc h_leadnl (sc (h_char 0 (lit " ")) (sc (h_char 9 (lit "    "))
    (sc h_concat (sc h_wol (sc h_lead (sc h_dos s))))))).
Definition ty_fun (s : str) : str :=
  sc h_ell (sc (h_quote [96%N] [39%N] [8216%N] [8217%N])
    (sc (h_quote [44%N; 44%N] [39%N; 39%N] [8222%N] [8221%N])
      (sc (h_quote [96%N; 96%N] [39%N; 39%N] [8220%N] [8221%N]) s))).

Theorem ws_substitute_fun s : ws_substitute s = ROk (ws_fun s).
Proof.
  unfold ws_substitute, replace, replace_leading_spaces, DOS_MAC_NEWLINES, WHITESPACE_ONLY_LINE,
    CONCAT_LINES, TABS, NULL_SPACE, LEADING_NEWLINES, TRAILING_NEWLINES, ws_fun.
  rewrite (replace_loop_sc _ _ _ _ dos_ok). cbn [rbind].
  rewrite (replace_loop_sc _ _ _ _ lead_ok). cbn [rbind].
  rewrite (replace_loop_sc _ _ _ _ wol_ok). cbn [rbind].
  rewrite (replace_loop_sc _ _ _ _ concat_ok). cbn [rbind].
  rewrite (replace_loop_sc _ _ _ _ (char_ok _ _)). cbn [rbind].
  rewrite (replace_loop_sc _ _ _ _ (char_ok _ _)). cbn [rbind].
  rewrite (replace_loop_sc _ _ _ _ leadnl_ok). cbn [rbind].
  rewrite (replace_loop_sc _ _ _ _ trailnl_ok). reflexivity.
Qed.

Lemma quote2_ok k b e : head_ok (Seq (ch k) (Seq (ch k) (Seq lazy_dots (Seq (ch 39) (ch 39)))))
  (surround_once b e) (h_quote [k; k] [39%N; 39%N] b e).
Proof.
  apply quote_ok with (rc := Seq (ch 39) (ch 39)); [apply lit_re_2|simpl; lia|].
  intros. apply (open2 k k).
Qed.
Lemma quote1_ok b e : head_ok (Seq (ch 96) (Seq lazy_dots (ch 39)))
  (surround_once b e) (h_quote [96%N] [39%N] b e).
Proof.
  apply quote_ok with (rc := ch 39); [apply lit_re_1|simpl; lia|].
  intros. apply (open1 96).
Qed.

Theorem ty_substitute_fun s : ty_substitute s = ROk (ty_fun s).
Proof.
  unfold ty_substitute, replace, SINGLE_QUOTES, DOUBLE_QUOTES, LOW_DOUBLE_QUOTES, HORIZONTAL_ELLIPSIS, ty_fun.
  rewrite (replace_loop_sc _ _ _ _ (quote2_ok 96 _ _)). cbn [rbind].
  rewrite (replace_loop_sc _ _ _ _ (quote2_ok 44 _ _)). cbn [rbind].
  rewrite (replace_loop_sc _ _ _ _ (quote1_ok _ _)). cbn [rbind].
  rewrite (replace_loop_sc _ _ _ _ ell_ok). reflexivity.
Qed.

Theorem preprocess_fun s : preprocess s = ROk (ty_fun (ws_fun s)).
Proof. unfold preprocess. rewrite ws_substitute_fun. cbn [rbind]. apply ty_substitute_fun. Qed.

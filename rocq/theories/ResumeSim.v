(** * ResumeSim: a simulation that owns and owes nothing goes on like a new one. *)
From Coq Require Import ZArith QArith Qcanon Bool List PeanoNat Lia.
From Verif Require Import Num NumFacts RoundFacts Pandas Sim Frame SimSpec SimProofs SimLemmas Ind Signal Api RangeSpec RangeFacts ValueSpec FormulaSpec SignalSpec MirrorSpec QuietSpec QuietSim BooksSpec Books TurnSpec TurnSim.
Import ListNotations.
Open Scope Qc_scope.
Notation price := SimSpec.price.

Lemma none_left d k : open_longs d k = 0%nat -> open_shorts d k = 0%nat -> forall j, (j <= k)%nat -> still_open d j k = false.
Proof.
  intros A B j J. destruct (still_open d j k) eqn:O; [|reflexivity]. exfalso.
  assert (C : forall n (p : nat -> bool), count_days n p = 0%nat -> forall k, (k < n)%nat -> p k = false).
  { induction n as [|n IH]; intros p E k0 K; [lia|]. rewrite count_days_S in E. destruct (Nat.eq_dec k0 n) as [->|NE]; [destruct (p n); [lia|reflexivity]|apply IH; [destruct (p n); lia|lia]]. }
  pose proof (C _ _ A j ltac:(lia)) as CA. pose proof (C _ _ B j ltac:(lia)) as CB. cbn beta in CA, CB. rewrite O in CA, CB. cbn [andb] in CA, CB.
  unfold still_open in O. destruct (act d j); discriminate.
Qed.
Lemma shut d j k n : (j <= k)%nat -> still_open d j k = false -> still_open d j (k + n) = false.
Proof. intros J O. induction n as [|n IH]; [rewrite Nat.add_0_r; exact O|]. rewrite Nat.add_succ_r, still_open_step, IH by lia. reflexivity. Qed.

Section Flat.
  Variables (d d' : list simrow) (k i : nat).
  Hypothesis FL : forall j, (j <= k)%nat -> still_open d j k = false.
  Hypothesis PR : forall j, (j <= i)%nat -> price d (k + j) = price d' j.
  Hypothesis AC : forall j, (j <= i)%nat -> act d (k + j) = act d' j.
  Lemma shut_later j n : (j < k)%nat -> still_open d j (k + n) = false.
  Proof. intro J. apply shut; [lia|apply FL; lia]. Qed.
  Lemma shut_closed j n : (j < k)%nat -> closed_on d j (k + S n) = false.
  Proof. intro J. unfold closed_on. replace (k + S n - 1)%nat with (k + n)%nat by lia. rewrite shut_later by exact J. rewrite andb_false_r. reflexivity. Qed.
  Lemma resumed_before f n : (n <= S i)%nat -> spec_exposure_before f d (k + n) (k + i) = spec_exposure_before f d' n i.
  Proof.
    intro N. unfold spec_exposure_before. rewrite sum_days_shift by (intros j J; rewrite shut_later by exact J; reflexivity).
    apply sum_days_ext. intros j J. rewrite (open_later d d' k i PR AC) by lia. unfold opened_exposure. rewrite AC, PR by lia. reflexivity.
  Qed.
  Lemma resumed_longs : open_longs d (k + i) = open_longs d' i.
  Proof.
    unfold open_longs. rewrite <- Nat.add_succ_r. rewrite count_days_shift by (intros j J; rewrite shut_later by exact J; reflexivity).
    apply count_days_ext. intros j J. rewrite (open_later d d' k i PR AC), AC by lia. reflexivity.
  Qed.
  Lemma resumed_shorts : open_shorts d (k + i) = open_shorts d' i.
  Proof.
    unfold open_shorts. rewrite <- Nat.add_succ_r. rewrite count_days_shift by (intros j J; rewrite shut_later by exact J; reflexivity).
    apply count_days_ext. intros j J. rewrite (open_later d d' k i PR AC), AC by lia. reflexivity.
  Qed.
  Lemma resumed_earnings n : (n <= i)%nat -> spec_earnings d (k + n) = spec_earnings d k + spec_earnings d' n.
  Proof.
    induction n as [|n IH]; intro N.
    - rewrite Nat.add_0_r. replace (spec_earnings d' 0) with 0; [ring|]. unfold spec_earnings. rewrite sum_days_S. unfold sum_days. cbn. ring.
    - rewrite Nat.add_succ_r, !earnings_step, IH by lia. rewrite <- Qcplus_assoc. f_equal. f_equal.
      rewrite <- Nat.add_succ_r. rewrite sum_days_shift by (intros j J; rewrite shut_closed by exact J; reflexivity).
      apply sum_days_ext. intros j J. rewrite (closed_later d d' k i PR AC), (profit_later d d' k i PR AC) by lia. reflexivity.
  Qed.
End Flat.

Section Resume.
  Variables (ps : list Qc) (m : option num) (f : Qc) (sgs : list signal) (k : nat).
  Hypothesis F : 1 <= f.
  Hypothesis L : (length sgs <= length ps)%nat.
  Notation d := (data (simulate (map Fin ps) m (Fin f) sgs)).
  Notation d' := (data (simulate (map Fin (skipn k ps)) m (Fin f) (skipn k sgs))).
  Hypothesis OL : open_longs d k = 0%nat.
  Hypothesis OS : open_shorts d k = 0%nat.
  Lemma rest_len : (length (skipn k sgs) <= length (skipn k ps))%nat. Proof. rewrite !skipn_length. lia. Qed.
  Lemma rest_in i : (k + i < length sgs)%nat -> (i < length (skipn k sgs))%nat. Proof. rewrite skipn_length. lia. Qed.
  Lemma resumed_price j : (k + j < length sgs)%nat -> price d (k + j) = price d' j.
  Proof. intro J. rewrite (sp_price ps m f) by auto. rewrite (sp_price (skipn k ps) m f) by auto using rest_len, rest_in. rewrite nth_skip. reflexivity. Qed.
  Lemma resumed_act j : (k + j < length sgs)%nat -> act d (k + j) = act d' j.
  Proof.
    pose proof (none_left d k OL OS) as FL. induction j as [j IH] using lt_wf_ind. intro J. destruct j as [|j].
    - rewrite Nat.add_0_r. rewrite sp_act0 by auto using rest_len. pose proof (FL k (le_n k)) as X. rewrite still_open_self in X. destruct (act d k); congruence.
    - rewrite (sp_act ps m f sgs F L) by lia. rewrite (sp_act (skipn k ps) m f (skipn k sgs) F rest_len) by (split; [lia|apply rest_in, J]). cbv zeta.
      rewrite nth_skip, resumed_price by exact J.
      assert (E : spec_exposure_before f d (k + S j) (k + S j) = spec_exposure_before f d' (S j) (S j)).
      { unfold spec_exposure_before. rewrite sum_days_shift by (intros x X; rewrite (shut d x k) by (try apply FL; lia); reflexivity).
        apply sum_days_ext. intros x X. rewrite Nat.add_succ_r. rewrite !still_open_step by lia.
        assert (P : profitable d (k + x) (S (k + j)) = profitable d' x (S j)) by (unfold profitable; rewrite <- Nat.add_succ_r, !resumed_price, IH by lia; reflexivity).
        assert (O : still_open d (k + x) (k + j) = still_open d' x j) by (apply (open_later d d' k j); [intros; apply resumed_price; lia|intros; apply IH; lia|lia]).
        rewrite P, O. unfold opened_exposure. rewrite IH, resumed_price by lia. reflexivity. }
      rewrite E. reflexivity.
  Qed.
  Lemma run_resumed i : (k + i < length sgs)%nat -> let r := row_ d (k + i) in let r' := row_ d' i in
    x_signal r = x_signal r' /\ act d (k + i) = act d' i /\ x_stock r = x_stock r' /\ x_exposure r = x_exposure r' /\ x_portfolio_value r = x_portfolio_value r' /\
    x_earnings r = nadd (x_earnings (row_ d k)) (x_earnings r') /\ x_balance r = nadd (x_earnings (row_ d k)) (x_balance r') /\ open_longs d (k + i) = open_longs d' i /\ open_shorts d (k + i) = open_shorts d' i.
  Proof.
    intro I. cbv zeta. pose proof (none_left d k OL OS) as FL. pose proof rest_len as LK. pose proof (rest_in i I) as IK.
    assert (PR : forall j, (j <= i)%nat -> price d (k + j) = price d' j) by (intros; apply resumed_price; lia). assert (AC : forall j, (j <= i)%nat -> act d (k + j) = act d' j) by (intros; apply resumed_act; lia).
    pose proof (resumed_longs d d' k i FL PR AC) as OL2. pose proof (resumed_shorts d d' k i FL PR AC) as OS2.
    assert (V2 : x_portfolio_value (row_ d (k + i)) = x_portfolio_value (row_ d' i)) by (rewrite (sp_pv ps m f), (sp_pv (skipn k ps) m f) by auto; rewrite PR, OL2, OS2 by lia; reflexivity).
    assert (E2 : x_earnings (row_ d (k + i)) = nadd (x_earnings (row_ d k)) (x_earnings (row_ d' i))).
    { rewrite !(sp_earnings ps m f), (sp_earnings (skipn k ps) m f) by (auto; lia). rewrite (resumed_earnings d d' k i FL PR AC i (le_n i)). reflexivity. }
    split; [rewrite (sp_signal ps m f), (sp_signal (skipn k ps) m f) by auto; rewrite nth_skip; reflexivity|]. split; [apply AC; lia|].
    split; [rewrite (sp_stock ps m f), (sp_stock (skipn k ps) m f) by auto; rewrite nth_skip; reflexivity|].
    split; [rewrite (sp_exposure ps m f), (sp_exposure (skipn k ps) m f) by auto; f_equal; unfold spec_exposure; rewrite <- Nat.add_succ_r; apply (resumed_before d d' k i FL PR AC); lia|].
    split; [exact V2|]. split; [exact E2|]. split; [|split; [exact OL2|exact OS2]].
    rewrite (sp_balance ps m f), (sp_balance (skipn k ps) m f) by auto. rewrite E2, V2. rewrite (sp_earnings ps m f), (sp_earnings (skipn k ps) m f) by (auto; lia). rewrite (sp_pv (skipn k ps) m f) by auto. cbn [nadd]. f_equal. ring.
  Qed.
End Resume.

(** two runs that own nothing and see the same from a day on *)
Section TwoRuns.
  Variables (ps ps' : list Qc) (m : option num) (f : Qc) (sgs sgs' : list signal) (k k' : nat).
  Hypothesis F : 1 <= f.
  Hypothesis L : (length sgs <= length ps)%nat. Hypothesis L' : (length sgs' <= length ps')%nat.
  Notation d := (data (simulate (map Fin ps) m (Fin f) sgs)).
  Notation d' := (data (simulate (map Fin ps') m (Fin f) sgs')).
  Hypothesis OL : open_longs d k = 0%nat. Hypothesis OS : open_shorts d k = 0%nat.
  Hypothesis OL' : open_longs d' k' = 0%nat. Hypothesis OS' : open_shorts d' k' = 0%nat.
  Hypothesis EP : skipn k ps = skipn k' ps'. Hypothesis ES : skipn k sgs = skipn k' sgs'.
  Lemma runs_resumed i : (k + i < length sgs)%nat -> let r := row_ d (k + i) in let r' := row_ d' (k' + i) in
    act d (k + i) = act d' (k' + i) /\ x_exposure r = x_exposure r' /\ x_portfolio_value r = x_portfolio_value r' /\ open_longs d (k + i) = open_longs d' (k' + i) /\ open_shorts d (k + i) = open_shorts d' (k' + i) /\
    nsub (x_earnings r) (x_earnings (row_ d k)) = nsub (x_earnings r') (x_earnings (row_ d' k')).
  Proof.
    intro I. cbv zeta. assert (I' : (k' + i < length sgs')%nat) by (apply (f_equal (@length signal)) in ES; rewrite !skipn_length in ES; lia).
    destruct (run_resumed ps m f sgs k F L OL OS i I) as (_ & A & _ & X & V & E & _ & O1 & O2). destruct (run_resumed ps' m f sgs' k' F L' OL' OS' i I') as (_ & A' & _ & X' & V' & E' & _ & O1' & O2').
    rewrite <- EP, <- ES in A', X', V', E', O1', O2'. rewrite A, X, V, O1, O2, A', X', V', O1', O2'. do 5 (split; [reflexivity|]).
    rewrite E, E'. rewrite (sp_earnings ps m f), (sp_earnings ps' m f) by (auto; lia). rewrite (sp_earnings (skipn k ps) m f) by (auto; rewrite !skipn_length; lia). cbn [nadd nsub nneg]. f_equal. ring.
  Qed.
End TwoRuns.

(** * TurnSim: simulations turned upside down, and simulations cut in two. *)
From Coq Require Import ZArith QArith Qcanon Bool List PeanoNat Lia.
From Verif Require Import Num NumFacts RoundFacts Pandas Sim Frame SimSpec SimProofs SimLemmas Ind Signal Api RangeSpec RangeFacts ValueSpec FormulaSpec SignalSpec MirrorSpec QuietSpec QuietSim BooksSpec Books TurnSpec.
Import ListNotations.
Open Scope Qc_scope.
Notation price := SimSpec.price.

(** ** upside down *)
Definition turned (a : action) : action := match a with ALong => AShort | AShort => ALong | ANone => ANone end.
Section Turned.
  Variables (d d' : list simrow) (m : Qc) (i : nat).
  Hypothesis PR : forall k, (k <= i)%nat -> price d' k = m - price d k.
  Hypothesis AC : forall k, (k <= i)%nat -> act d' k = turned (act d k).
  Lemma qltb_turn a b : qltb (m - a) (m - b) = qltb b a.
  Proof. destruct (qltb_spec (m - a) (m - b)), (qltb_spec b a); try reflexivity; exfalso; qlra. Qed.
  Lemma profitable_turn j k : (j <= i)%nat -> (k <= i)%nat -> profitable d' j k = profitable d j k.
  Proof. intros J K. unfold profitable. rewrite AC, !PR by lia. destruct (act d j); cbn [turned]; rewrite ?qltb_turn; reflexivity. Qed.
  Lemma profit_turn j k : (j <= i)%nat -> (k <= i)%nat -> profit d' j k = profit d j k.
  Proof. intros J K. unfold profit. rewrite AC, !PR by lia. destruct (act d j); cbn [turned]; ring. Qed.
  Lemma open_turn j k : (k <= i)%nat -> still_open d' j k = still_open d j k.
  Proof.
    intro K. unfold still_open. destruct (Nat.leb_spec j k) as [L|L]; [|rewrite !andb_false_r; reflexivity]. rewrite AC by lia. f_equal; [destruct (act d j); reflexivity|].
    assert (G : forall l, (forall x, In x l -> (x <= i)%nat) -> forallb (fun k0 => negb (profitable d' j k0)) l = forallb (fun k0 => negb (profitable d j k0)) l).
    { induction l as [|x l IH]; intro H; [reflexivity|]. cbn. rewrite profitable_turn, IH; auto; [intros y Y; apply H; right; exact Y|lia|apply H; left; reflexivity]. }
    apply G. intros x X. apply in_seq in X. lia.
  Qed.
  Lemma closed_turn j k : (k <= i)%nat -> closed_on d' j k = closed_on d j k.
  Proof. intro K. unfold closed_on. destruct (Nat.ltb_spec j k) as [L|L]; [|reflexivity]. rewrite open_turn, profitable_turn by lia. reflexivity. Qed.
  Lemma earnings_turn : spec_earnings d' i = spec_earnings d i.
  Proof. unfold spec_earnings. apply sum_days_ext. intros k K. apply sum_days_ext. intros j J. rewrite closed_turn, profit_turn by lia. reflexivity. Qed.
  Lemma paper_turn : on_paper d' i = on_paper d i.
  Proof. unfold on_paper. apply sum_days_ext. intros j J. rewrite open_turn, profit_turn by lia. reflexivity. Qed.
  Lemma longs_turn : open_longs d' i = open_shorts d i.
  Proof. unfold open_longs, open_shorts. apply count_days_ext. intros j J. rewrite open_turn, AC by lia. destruct (act d j); reflexivity. Qed.
  Lemma shorts_turn : open_shorts d' i = open_longs d i.
  Proof. unfold open_longs, open_shorts. apply count_days_ext. intros j J. rewrite open_turn, AC by lia. destruct (act d j); reflexivity. Qed.
End Turned.
Lemma followed_turn j s : followed j (opposite s) = turned (followed j s).
Proof. destruct j; [reflexivity|]. destruct s; reflexivity. Qed.
Section Run.
  Variables (ps : list Qc) (m f f' : Qc) (sgs : list signal) (i : nat).
  Hypothesis F : 1 <= f.
  Hypothesis F' : 1 <= f'.
  Hypothesis L : (length sgs <= length ps)%nat.
  Hypothesis I : (i < length sgs)%nat.
  Notation d := (data (simulate (map Fin ps) None (Fin f) sgs)).
  Notation d' := (data (simulate (map Fin (upside_down m ps)) None (Fin f') (map opposite sgs))).
  Lemma lo : (length (map opposite sgs) <= length (upside_down m ps))%nat. Proof. unfold upside_down. rewrite !map_length. exact L. Qed.
  Lemma prices_turn k : (k <= i)%nat -> price d' k = m - price d k.
  Proof.
    intro K. rewrite (sp_price _ None f' _ F' lo) by (rewrite map_length; lia). rewrite (sp_price ps None f sgs F L) by lia. unfold upside_down.
    rewrite (nth_indep _ 0 (m - 0)) by (rewrite map_length; lia). apply (map_nth (fun p => m - p)).
  Qed.
  Lemma acts_turn k : (k <= i)%nat -> act d' k = turned (act d k).
  Proof.
    intro K. rewrite (free_act _ f' _ k F' lo) by (rewrite map_length; lia). rewrite (free_act ps f sgs k F L) by lia. rewrite <- followed_turn. f_equal.
    change Hold with (opposite Hold) at 1. apply map_nth.
  Qed.
  Lemma run_turned : x_earnings (row_ d' i) = x_earnings (row_ d i) /\ open_longs d' i = open_shorts d i /\ open_shorts d' i = open_longs d i /\ on_paper d' i = on_paper d i /\ moves d' i = moves d i.
  Proof.
    split; [rewrite (sp_earnings _ None f' _ F' lo) by (rewrite map_length; lia); rewrite (sp_earnings ps None f sgs F L) by exact I; f_equal; apply (earnings_turn d d' m i prices_turn acts_turn)|].
    split; [apply (longs_turn d d' m i prices_turn acts_turn)|]. split; [apply (shorts_turn d d' m i prices_turn acts_turn)|]. split; [apply (paper_turn d d' m i prices_turn acts_turn)|].
    rewrite <- !books. rewrite (earnings_turn d d' m i prices_turn acts_turn), (paper_turn d d' m i prices_turn acts_turn). reflexivity.
  Qed.
End Run.

(** ** cut in two *)
Lemma sum_days_shift k n g : (forall j, (j < k)%nat -> g j = 0) -> sum_days (k + n) g = sum_days n (fun j => g (k + j)%nat).
Proof. intro Z. induction n as [|n IH]; [rewrite Nat.add_0_r; apply sum_days_zero; exact Z|]. rewrite Nat.add_succ_r, !sum_days_S, IH. reflexivity. Qed.
Lemma count_days_shift k n p : (forall j, (j < k)%nat -> p j = false) -> count_days (k + n) p = count_days n (fun j => p (k + j)%nat).
Proof.
  intro Z. induction n as [|n IH].
  - rewrite Nat.add_0_r. clear - Z. induction k as [|k IH]; [reflexivity|]. rewrite count_days_S, Z, IH by (try (intros; apply Z); lia). reflexivity.
  - rewrite Nat.add_succ_r, !count_days_S, IH. reflexivity.
Qed.
Section Later.
  Variables (d d' : list simrow) (k i : nat).
  Hypothesis PR : forall j, (j <= i)%nat -> price d (k + j) = price d' j.
  Hypothesis AC : forall j, (j <= i)%nat -> act d (k + j) = act d' j.
  Hypothesis NO : forall j, (j < k)%nat -> act d j = ANone.
  Lemma profitable_later j n : (j <= i)%nat -> (n <= i)%nat -> profitable d (k + j) (k + n) = profitable d' j n.
  Proof. intros J N. unfold profitable. rewrite AC, !PR by lia. reflexivity. Qed.
  Lemma profit_later j n : (j <= i)%nat -> (n <= i)%nat -> profit d (k + j) (k + n) = profit d' j n.
  Proof. intros J N. unfold profit. rewrite AC, !PR by lia. reflexivity. Qed.
  Lemma open_later j n : (n <= i)%nat -> still_open d (k + j) (k + n) = still_open d' j n.
  Proof.
    intro N. unfold still_open. destruct (Nat.leb_spec j n) as [L|L]; [|destruct (Nat.leb_spec (k + j) (k + n)); [lia|]; rewrite !andb_false_r; reflexivity].
    destruct (Nat.leb_spec (k + j) (k + n)); [|lia]. rewrite AC by lia. f_equal. replace (k + n - (k + j))%nat with (n - j)%nat by lia.
    assert (G : forall c a, (a + c <= S i)%nat -> forallb (fun x => negb (profitable d (k + j) x)) (seq (k + a) c) = forallb (fun x => negb (profitable d' j x)) (seq a c)).
    { induction c as [|c IH]; intros a A; [reflexivity|]. cbn [seq forallb]. rewrite profitable_later by lia. rewrite <- IH by lia. rewrite Nat.add_succ_r. reflexivity. }
    rewrite <- Nat.add_succ_r. apply G. lia.
  Qed.
  Lemma closed_later j n : (n <= i)%nat -> closed_on d (k + j) (k + n) = closed_on d' j n.
  Proof.
    intro N. unfold closed_on. destruct (Nat.ltb_spec j n) as [L|L]; destruct (Nat.ltb_spec (k + j) (k + n)) as [L2|L2]; try lia; try reflexivity.
    replace (k + n - 1)%nat with (k + (n - 1))%nat by lia. rewrite open_later, profitable_later by lia. reflexivity.
  Qed.
  Lemma exposure_later f : spec_exposure f d (k + i) = spec_exposure f d' i.
  Proof.
    unfold spec_exposure, spec_exposure_before. rewrite <- Nat.add_succ_r. rewrite sum_days_shift by (intros j J; rewrite open_none by (apply NO, J); reflexivity).
    apply sum_days_ext. intros j J. rewrite open_later by lia. unfold opened_exposure. rewrite AC, PR by lia. reflexivity.
  Qed.
  Lemma earnings_later : spec_earnings d (k + i) = spec_earnings d' i.
  Proof.
    unfold spec_earnings. rewrite <- Nat.add_succ_r. rewrite sum_days_shift by (intros n N; apply sum_days_zero; intros j J; rewrite closed_none by (apply NO; lia); reflexivity).
    apply sum_days_ext. intros n N. rewrite sum_days_shift by (intros j J; rewrite closed_none by (apply NO; lia); reflexivity).
    apply sum_days_ext. intros j J. rewrite closed_later, profit_later by lia. reflexivity.
  Qed.
  Lemma longs_later : open_longs d (k + i) = open_longs d' i.
  Proof.
    unfold open_longs. rewrite <- Nat.add_succ_r. rewrite count_days_shift by (intros j J; rewrite open_none by (apply NO, J); reflexivity).
    apply count_days_ext. intros j J. rewrite open_later, AC by lia. reflexivity.
  Qed.
  Lemma shorts_later : open_shorts d (k + i) = open_shorts d' i.
  Proof.
    unfold open_shorts. rewrite <- Nat.add_succ_r. rewrite count_days_shift by (intros j J; rewrite open_none by (apply NO, J); reflexivity).
    apply count_days_ext. intros j J. rewrite open_later, AC by lia. reflexivity.
  Qed.
End Later.
Definition since (k : nat) (sgs : list signal) : list signal := repeat Hold (S k) ++ skipn (S k) sgs.
Lemma nth_repeat_hold n j : nth j (repeat Hold n) Hold = Hold.
Proof. revert j. induction n; intros [|j]; cbn; auto. Qed.
Lemma nth_skip {A} k (l : list A) j z : nth j (skipn k l) z = nth (k + j) l z.
Proof. revert l. induction k as [|k IH]; intro l; [reflexivity|]. destruct l; [destruct j; reflexivity|]. cbn. apply IH. Qed.
Lemma cut_divided k sgs : (k < length sgs)%nat -> divided sgs (until k sgs) (since k sgs).
Proof.
  intro K. unfold until, since. split; [rewrite app_length, firstn_length, repeat_length; lia|]. split; [rewrite app_length, repeat_length, skipn_length; lia|]. intro j. destruct (Nat.lt_ge_cases j (S k)) as [J|J].
  - left. split; [rewrite app_nth1 by (rewrite firstn_length; lia); apply firstn_nth_lt, J|rewrite app_nth1 by (rewrite repeat_length; exact J); apply nth_repeat_hold].
  - right. split; [rewrite app_nth2 by (rewrite firstn_length; lia); apply nth_repeat_hold|]. rewrite app_nth2 by (rewrite repeat_length; exact J). rewrite repeat_length, nth_skip. f_equal. lia.
Qed.
Section Cut.
  Variables (ps : list Qc) (f : Qc) (sgs : list signal) (k i : nat).
  Hypothesis F : 1 <= f.
  Hypothesis L : (length sgs <= length ps)%nat.
  Hypothesis I : (k + i < length sgs)%nat.
  Notation st s := (simulate (map Fin ps) None (Fin f) s).
  Notation d := (data (st (since k sgs))).
  Notation d' := (data (simulate (map Fin (skipn k ps)) None (Fin f) (skipn k sgs))).
  Lemma since_len : length (since k sgs) = length sgs. Proof. unfold since. rewrite app_length, repeat_length, skipn_length. lia. Qed.
  Lemma skip_len : (length (skipn k sgs) <= length (skipn k ps))%nat. Proof. rewrite !skipn_length. lia. Qed.
  Lemma cut_price j : (j <= i)%nat -> price d (k + j) = price d' j.
  Proof. intro J. rewrite (sp_price ps None f) by (auto; rewrite since_len; lia). rewrite (sp_price (skipn k ps) None f) by (auto using skip_len; rewrite skipn_length; lia). rewrite nth_skip. reflexivity. Qed.
  Lemma cut_act j : (j <= i)%nat -> act d (k + j) = act d' j.
  Proof.
    intro J. rewrite (free_act ps f) by (auto; rewrite since_len; lia). rewrite (free_act (skipn k ps) f) by (auto using skip_len; rewrite skipn_length; lia). rewrite nth_skip. unfold since. destruct j as [|j].
    - rewrite Nat.add_0_r, app_nth1 by (rewrite repeat_length; lia). rewrite nth_repeat_hold. apply followed_hold.
    - rewrite app_nth2 by (rewrite repeat_length; lia). rewrite repeat_length, nth_skip. replace (S k + (k + S j - S k))%nat with (k + S j)%nat by lia. replace (k + S j)%nat with (S (k + j)) by lia. reflexivity.
  Qed.
  Lemma cut_none j : (j < k)%nat -> act d j = ANone.
  Proof. intro J. rewrite (free_act ps f) by (auto; rewrite since_len; lia). unfold since. rewrite app_nth1 by (rewrite repeat_length; lia). rewrite nth_repeat_hold. apply followed_hold. Qed.
  Lemma run_cut : let r := row_ (data (st sgs)) (k + i) in let r1 := row_ (data (st (until k sgs))) (k + i) in let r2 := row_ d' i in
    x_earnings r = nadd (x_earnings r1) (x_earnings r2) /\ x_exposure r = nadd (x_exposure r1) (x_exposure r2) /\ x_portfolio_value r = nadd (x_portfolio_value r1) (x_portfolio_value r2) /\ x_balance r = nadd (x_balance r1) (x_balance r2) /\
    open_longs (data (st sgs)) (k + i) = (open_longs (data (st (until k sgs))) (k + i) + open_longs d' i)%nat /\ open_shorts (data (st sgs)) (k + i) = (open_shorts (data (st (until k sgs))) (k + i) + open_shorts d' i)%nat.
  Proof.
    cbv zeta. destruct (stand_alone ps f sgs (until k sgs) (since k sgs) (k + i) F L I (cut_divided k sgs ltac:(lia))) as (E & X & V & B & OL & OS). rewrite E, X, V, B, OL, OS.
    assert (LS : (length (since k sgs) <= length ps)%nat) by (rewrite since_len; lia). assert (IS : (k + i < length (since k sgs))%nat) by (rewrite since_len; lia).
    pose proof skip_len as LK. assert (IK : (i < length (skipn k sgs))%nat) by (rewrite skipn_length; lia).
    assert (E2 : x_earnings (row_ d (k + i)) = x_earnings (row_ d' i)) by (rewrite (sp_earnings ps None f), (sp_earnings (skipn k ps) None f) by auto; f_equal; apply (earnings_later d d' k i cut_price cut_act cut_none)).
    assert (OL2 : open_longs d (k + i) = open_longs d' i) by apply (longs_later d d' k i cut_price cut_act cut_none).
    assert (OS2 : open_shorts d (k + i) = open_shorts d' i) by apply (shorts_later d d' k i cut_price cut_act cut_none).
    assert (V2 : x_portfolio_value (row_ d (k + i)) = x_portfolio_value (row_ d' i)) by (rewrite (sp_pv ps None f), (sp_pv (skipn k ps) None f) by auto; rewrite cut_price, OL2, OS2 by lia; reflexivity).
    rewrite E2, OL2, OS2, V2. split; [reflexivity|]. split; [f_equal; rewrite (sp_exposure ps None f), (sp_exposure (skipn k ps) None f) by auto; f_equal; apply (exposure_later d d' k i cut_price cut_act cut_none)|].
    split; [reflexivity|]. split; [f_equal; rewrite (sp_balance ps None f), (sp_balance (skipn k ps) None f) by auto; rewrite E2, V2; reflexivity|]. split; reflexivity.
  Qed.
End Cut.

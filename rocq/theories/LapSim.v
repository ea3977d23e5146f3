(** * LapSim: a simulation without a limit on prices and signals that repeat themselves, whatever is open. *)
From Coq Require Import ZArith QArith Qcanon Bool List PeanoNat Lia.
From Verif Require Import Num NumFacts RoundFacts Pandas Sim Frame SimSpec SimProofs SimLemmas Ind Signal Api RangeSpec RangeFacts ValueSpec FormulaSpec SignalSpec MirrorSpec QuietSpec QuietSim BooksSpec Books TurnSpec TurnSim ResumeSim CycleSim.
Import ListNotations.
Open Scope Qc_scope.
Notation price := SimSpec.price.

Lemma sum_days_split a c g : sum_days (a + c) g = sum_days a g + sum_days c (fun j => g (a + j)%nat).
Proof. induction c as [|c IH]; [rewrite Nat.add_0_r; unfold sum_days at 3; cbn; ring|]. rewrite Nat.add_succ_r, !sum_days_S, IH. ring. Qed.
Lemma count_sum n h : qnat (count_days n h) = sum_days n (fun j => if h j then 1 else 0).
Proof.
  induction n as [|n IH]; [apply Qc_is_canon; reflexivity|]. rewrite count_days_S, sum_days_S, <- IH. destruct (h n); [rewrite Nat.add_1_r, qnat_S; reflexivity|rewrite Nat.add_0_r; ring].
Qed.

Section Rows.
  Variables (d : list simrow) (n k p : nat).
  Hypothesis P1 : (1 <= p)%nat.
  Hypothesis PR : forall j, (k <= j)%nat -> (j + p < n)%nat -> price d (j + p) = price d j.
  Hypothesis AC : forall j, (k <= j)%nat -> (j + p < n)%nat -> act d (j + p) = act d j.
  Lemma sway j x : (k <= x)%nat -> (x + p < n)%nat -> profitable d j (x + p) = profitable d j x.
  Proof. intros K X. unfold profitable. rewrite PR by auto. reflexivity. Qed.
  (** a whole cycle without profit and there never is one *)
  Lemma late j x : (j + p < x)%nat -> (k + p <= x)%nat -> (x < n)%nat -> closed_on d j x = false.
  Proof.
    intros J K X. unfold closed_on. destruct (profitable d j x) eqn:E; [|apply andb_false_r].
    replace (still_open d j (x - 1)) with false; [rewrite andb_false_r; reflexivity|]. symmetry. unfold still_open.
    apply andb_false_iff. right. destruct (forallb _ _) eqn:A; [|reflexivity]. rewrite forallb_forall in A.
    specialize (A (x - p)%nat ltac:(apply in_seq; lia)). rewrite <- (sway j (x - p)) in A by lia. replace (x - p + p)%nat with x in A by lia. rewrite E in A. discriminate.
  Qed.
  Lemma stays j x : (j + p <= x)%nat -> (k + p <= S x)%nat -> (S x < n)%nat -> still_open d j (S x) = still_open d j x.
  Proof.
    intros J K X. rewrite still_open_step by lia. pose proof (late j (S x) ltac:(lia) K X) as C. unfold closed_on in C. replace (S x - 1)%nat with x in C by lia.
    destruct (still_open d j x); [|reflexivity]. replace (j <? S x)%nat with true in C by (symmetry; apply Nat.ltb_lt; lia). cbn [andb] in C. rewrite C. reflexivity.
  Qed.
  Lemma stays_on j x e : (j + p <= x)%nat -> (k + p <= S x)%nat -> (x + e < n)%nat -> still_open d j (x + e) = still_open d j x.
  Proof. intros J K. induction e as [|e IH]; intro X; [rewrite Nat.add_0_r; reflexivity|]. rewrite Nat.add_succ_r, stays by lia. apply IH. lia. Qed.
  Lemma next_profitable j x : (k <= j)%nat -> (j <= x)%nat -> (x + p < n)%nat -> profitable d (j + p) (x + p) = profitable d j x.
  Proof. intros K J X. unfold profitable. rewrite AC, !PR by lia. reflexivity. Qed.
  Lemma next_open j x : (k <= j)%nat -> (j <= x)%nat -> (x + p < n)%nat -> still_open d (j + p) (x + p) = still_open d j x.
  Proof.
    intros K J. induction x as [|x IH]; intro X.
    - assert (j = 0%nat) by lia. subst j. rewrite !still_open_self, AC by lia. reflexivity.
    - destruct (Nat.eq_dec j (S x)) as [->|NE]; [rewrite !still_open_self, AC by lia; reflexivity|].
      change (S x + p)%nat with (S (x + p)). rewrite !still_open_step by lia. rewrite IH by lia. f_equal. f_equal. change (S (x + p)) with (S x + p)%nat. apply next_profitable; lia.
  Qed.
  Lemma next_closed j x : (k <= j)%nat -> (j < x)%nat -> (x + p < n)%nat -> closed_on d (j + p) (x + p) = closed_on d j x.
  Proof.
    intros K J X. unfold closed_on. replace (x + p - 1)%nat with (x - 1 + p)%nat by lia. rewrite next_open, next_profitable by lia. f_equal. f_equal.
    destruct (Nat.ltb_spec (j + p) (x + p)), (Nat.ltb_spec j x); auto; lia.
  Qed.
  Definition gain x := sum_days x (fun j => if closed_on d j x then profit d j x else 0).
  Lemma gain_next x : (k + p < x)%nat -> (x + p < n)%nat -> gain (x + p) = gain x.
  Proof.
    intros K X. unfold gain. rewrite (Nat.add_comm x p). rewrite sum_days_shift by (intros j J; rewrite late by lia; reflexivity).
    apply sum_days_ext. intros j J. rewrite !(Nat.add_comm p). destruct (Nat.le_gt_cases k j) as [KJ|KJ].
    - rewrite next_closed by lia. unfold profit. rewrite AC, !PR by lia. reflexivity.
    - rewrite !late by lia. reflexivity.
  Qed.
  Lemma earned_next x : (k + p <= x)%nat -> (x + p < n)%nat -> spec_earnings d (x + p) - spec_earnings d x = spec_earnings d (k + p + p) - spec_earnings d (k + p).
  Proof.
    intro K. replace x with (k + p + (x - (k + p)))%nat by lia. generalize (x - (k + p))%nat. clear x K. intro e. induction e as [|e IH]; intro X; [rewrite Nat.add_0_r; reflexivity|].
    rewrite <- IH by lia. replace (k + p + S e + p)%nat with (S (k + p + e + p)) by lia. rewrite Nat.add_succ_r. unfold spec_earnings. rewrite (sum_days_S (S (k + p + e + p))), (sum_days_S (S (k + p + e))).
    fold (spec_earnings d (k + p + e + p)) (spec_earnings d (k + p + e)). pose proof (gain_next (S (k + p + e)) ltac:(lia) ltac:(lia)) as G. unfold gain in G. cbn [Nat.add] in G. rewrite G. ring.
  Qed.
  (** what is open: any weight that repeats itself *)
  Variable w : nat -> Qc.
  Hypothesis WN : forall j, (k <= j)%nat -> (j + p < n)%nat -> w (j + p)%nat = w j.
  Definition held x := sum_days (S x) (fun j => if still_open d j x then w j else 0).
  Lemma held_next x : (k + p <= x)%nat -> (x + p < n)%nat -> held (x + p) - held x = sum_days (k + p) (fun j => if still_open d j (k + p + p) then w j else 0) - sum_days k (fun j => if still_open d j (k + p) then w j else 0).
  Proof.
    intros K X. unfold held.
    assert (E1 : forall g, sum_days (S (x + p)) g = sum_days (k + p) g + sum_days (S x - k) (fun j => g (k + p + j)%nat)) by (intro g; rewrite <- sum_days_split; f_equal; lia).
    assert (E2 : forall g, sum_days (S x) g = sum_days k g + sum_days (S x - k) (fun j => g (k + j)%nat)) by (intro g; rewrite <- sum_days_split; f_equal; lia).
    rewrite E1, E2. clear E1 E2.
    rewrite (sum_days_ext (k + p) (fun j => if still_open d j (x + p) then w j else 0) (fun j => if still_open d j (k + p + p) then w j else 0)).
    2: { intros j J. replace (x + p)%nat with (k + p + p + (x - (k + p)))%nat by lia. rewrite stays_on by lia. reflexivity. }
    rewrite (sum_days_ext k (fun j => if still_open d j x then w j else 0) (fun j => if still_open d j (k + p) then w j else 0)).
    2: { intros j J. replace x with (k + p + (x - (k + p)))%nat at 1 by lia. rewrite stays_on by lia. reflexivity. }
    rewrite (sum_days_ext (S x - k) (fun j => if still_open d (k + p + j) (x + p) then w (k + p + j)%nat else 0) (fun j => if still_open d (k + j) x then w (k + j)%nat else 0)).
    2: { intros j J. replace (k + p + j)%nat with (k + j + p)%nat by lia. rewrite next_open, WN by lia. reflexivity. }
    ring.
  Qed.
  Lemma held_laps x : (k + p <= x)%nat -> (x + p < n)%nat -> held (x + p) - held x = held (k + p + p) - held (k + p).
  Proof. intros K X. rewrite held_next by lia. rewrite held_next by lia. reflexivity. Qed.
End Rows.
(** from one cycle to all *)
Lemma laps (e : nat -> Qc) n s p t x : (forall y, (s <= y)%nat -> (y + p < n)%nat -> e (y + p)%nat - e y = e (s + p)%nat - e s) -> (s <= x)%nat -> (x + t * p < n)%nat -> e (x + t * p)%nat = e x + nq t * (e (s + p)%nat - e s).
Proof.
  intros H S0. induction t as [|t IH]; intro X.
  - replace (x + 0 * p)%nat with x by lia. assert (Z0 : nq 0 = 0) by (apply Qc_is_canon; reflexivity). rewrite Z0. ring.
  - replace (x + Datatypes.S t * p)%nat with (x + t * p + p)%nat in * by (cbn; lia). change (nq (Datatypes.S t)) with (qnat (Datatypes.S t)). rewrite qnat_S. change (qnat t) with (nq t).
    transitivity (e (x + t * p + p)%nat - e (x + t * p)%nat + e (x + t * p)%nat); [ring|]. rewrite H, IH by lia. ring.
Qed.

Section Run.
  Variables (ps : list Qc) (f : Qc) (sgs : list signal) (k p : nat).
  Hypothesis F : 1 <= f. Hypothesis L : (length sgs <= length ps)%nat. Hypothesis P1 : (1 <= p)%nat. Hypothesis K1 : (1 <= k)%nat.
  Notation d := (data (simulate (map Fin ps) None (Fin f) sgs)).
  Hypothesis RP : forall j, (k <= j)%nat -> (j + p < length sgs)%nat -> nth (j + p) ps 0 = nth j ps 0.
  Hypothesis RS : forall j, (k <= j)%nat -> (j + p < length sgs)%nat -> nth (j + p) sgs Hold = nth j sgs Hold.
  Lemma run_price j : (k <= j)%nat -> (j + p < length sgs)%nat -> price d (j + p) = price d j.
  Proof. intros K J. unfold SimSpec.price. rewrite !(sp_stock ps None f) by (auto; lia). cbn [qv]. apply RP; auto. Qed.
  Lemma run_act j : (k <= j)%nat -> (j + p < length sgs)%nat -> act d (j + p) = act d j.
  Proof. intros K J. rewrite !(sp_act ps None f) by (auto; lia). rewrite RS by auto. cbv zeta. cbn [fits]. reflexivity. Qed.
  Lemma run_laps t i : (k + p <= i)%nat -> (i + t * p < length sgs)%nat ->
    let earned j := qv (x_earnings (row_ d j)) in let exposed j := qv (x_exposure (row_ d j)) in let longs j := nq (open_longs d j) in let shorts j := nq (open_shorts d j) in let s := (k + p)%nat in
    earned (i + t * p)%nat = earned i + nq t * (earned (s + p)%nat - earned s) /\ exposed (i + t * p)%nat = exposed i + nq t * (exposed (s + p)%nat - exposed s) /\
    longs (i + t * p)%nat = longs i + nq t * (longs (s + p)%nat - longs s) /\ shorts (i + t * p)%nat = shorts i + nq t * (shorts (s + p)%nat - shorts s).
  Proof.
    intros K I. cbv zeta. pose proof run_price as PR. pose proof run_act as AC. split; [|split; [|split]].
    - apply (laps (fun j => qv (x_earnings (row_ d j))) (length sgs)); auto. intros y Y1 Y2. rewrite !(sp_earnings ps None f) by (auto; lia). cbn [qv]. apply (earned_next d (length sgs) k p P1 PR AC); auto.
    - apply (laps (fun j => qv (x_exposure (row_ d j))) (length sgs)); auto. intros y Y1 Y2. rewrite !(sp_exposure ps None f) by (auto; lia). cbn [qv].
      apply (held_laps d (length sgs) k p P1 PR AC (opened_exposure f d)); auto. intros j J1 J2. unfold opened_exposure. rewrite AC, PR by lia. reflexivity.
    - apply (laps (fun j => nq (open_longs d j)) (length sgs)); auto. intros y Y1 Y2.
      assert (E : forall z, nq (open_longs d z) = held d (fun j => match act d j with ALong => 1 | _ => 0 end) z).
      { intro z. unfold held, open_longs. change nq with qnat. rewrite count_sum. apply sum_days_ext. intros j _. destruct (still_open d j z), (act d j); reflexivity. }
      rewrite !E. apply (held_laps d (length sgs) k p P1 PR AC); auto. intros j J1 J2. rewrite AC by lia. reflexivity.
    - apply (laps (fun j => nq (open_shorts d j)) (length sgs)); auto. intros y Y1 Y2.
      assert (E : forall z, nq (open_shorts d z) = held d (fun j => match act d j with AShort => 1 | _ => 0 end) z).
      { intro z. unfold held, open_shorts. change nq with qnat. rewrite count_sum. apply sum_days_ext. intros j _. destruct (still_open d j z), (act d j); reflexivity. }
      rewrite !E. apply (held_laps d (length sgs) k p P1 PR AC); auto. intros j J1 J2. rewrite AC by lia. reflexivity.
  Qed.
End Run.

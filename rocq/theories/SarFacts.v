(** * SarFacts: the code follows the rules of SarSpec. *)
From Coq Require Import ZArith QArith Qcanon Bool List String PeanoNat Lia Sorted Permutation.
From Verif Require Import Num NumFacts RoundFacts Pandas Sim Frame FrameSpec FrameProofs Ind Signal Api IndSpec SeriesFacts Lengths Causal IndFacts Shape ApiSpec ApiCheck ApiProofs ApiLemmas RangeSpec Cells RangeFacts RangeMore Publish RangeApi ValueSpec ValueFacts ValueMore Recur ValueApi CumulApi.
From Verif Require Import FormulaSpec Starts Formula Formula2 Line SarSpec.
Import ListNotations.
Open Scope list_scope. Open Scope Qc_scope.

Lemma pymin_fin a b : pymin (Fin a) (Fin b) = Fin (smaller a b).
Proof. unfold pymin, smaller. cbn. destruct (qltb b a); reflexivity. Qed.
Lemma pymax_fin a b : pymax (Fin a) (Fin b) = Fin (larger a b).
Proof. unfold pymax, larger. cbn. destruct (qltb a b); reflexivity. Qed.
Lemma max_nan_seq f a n : max_nan (map Fin (map f (seq a (S n)))) = Fin (max_to f a n).
Proof.
  induction n as [|n IH]; [reflexivity|]. rewrite seq_S, !map_app. cbn [map]. cbn [seq map max_nan app] in *.
  rewrite fold_left_app, IH. cbn [fold_left max_to]. unfold npmax, larger. cbn. replace (a + S n)%nat with (S (a + n)) by lia.
  destruct (qltb _ _); reflexivity.
Qed.
Lemma min_nan_seq f a n : min_nan (map Fin (map f (seq a (S n)))) = Fin (min_to f a n).
Proof.
  induction n as [|n IH]; [reflexivity|]. rewrite seq_S, !map_app. cbn [map]. cbn [seq map min_nan app] in *.
  rewrite fold_left_app, IH. cbn [fold_left min_to]. unfold npmin, smaller. cbn. replace (a + S n)%nat with (S (a + n)) by lia.
  destruct (qltb _ _); reflexivity.
Qed.

Definition as_state (t : trend) : sar_state := mkSar (Fin (factor t)) (Fin (extreme t)) (Fin (stop t)) (rising t) (since t).
Lemma since_le h l k : (since (trend_at h l k) <= k)%nat.
  Proof.
    induction k as [|k IH]; cbn [trend_at].
    - unfold trend_first. destruct (qltb _ _); cbn; lia.
    - destruct (broken _ _ _ _); [unfold turned; destruct (rising _); cbn; lia|cbn; lia].
  Qed.
Section Follow.
  Variables (n : nat) (hs ls : series) (h l : nat -> Qc).
  Hypotheses (H : complete_as n hs h) (L : complete_as n ls l) (N : (2 <= n)%nat).
  Lemma high_slice a b : (a < b <= n)%nat -> max_nan (slice a b hs) = Fin (highest h a (b - 1)).
  Proof.
    intro B. rewrite (slice_map n 0 hs h) by (try apply st_complete; auto; lia). unfold highest.
    replace (b - a)%nat with (S (b - 1 - a)) by lia. apply max_nan_seq.
  Qed.
  Lemma low_slice a b : (a < b <= n)%nat -> min_nan (slice a b ls) = Fin (lowest l a (b - 1)).
  Proof.
    intro B. rewrite (slice_map n 0 ls l) by (try apply st_complete; auto; lia). unfold lowest.
    replace (b - a)%nat with (S (b - 1 - a)) by lia. apply min_nan_seq.
  Qed.
  Lemma first_follows : sar_first hs ls = as_state (trend_first h l).
  Proof.
    destruct H as [LH HH], L as [LL HL]. unfold sar_first, trend_first, ngtb. rewrite !HH, !HL by lia. cbn [nltb].
    destruct (qltb _ _); reflexivity.
  Qed.
  Lemma next_follows k : (S k < n)%nat -> sar_next hs ls (S k) (as_state (trend_at h l k)) = as_state (trend_at h l (S k)).
  Proof.
    intro K. pose proof (since_le h l k) as SL. cbn [trend_at]. set (t := trend_at h l k) in *. clearbody t.
    destruct H as [LH HH], L as [LL HL]. unfold sar_next. cbn [as_state sa_start sa_long sa_ep sa_af sa_sar].
    rewrite (high_slice (since t) (S (S k))), (low_slice (since t) (S (S k))), (high_slice (S k - 2) (S k)), (low_slice (S k - 2) (S k)),
      (high_slice (since t) (S k)), (low_slice (since t) (S k)) by lia.
    rewrite HH, HL by lia. replace (S (S k) - 1)%nat with (S k) by lia. replace (S k - 1)%nat with k by lia. replace (S k - 2)%nat with (k - 1)%nat by lia.
    cbn [nsub nneg nadd nmul]. unfold broken, turned, went_on, stop_for, moved, ngtb, as_state.
    rewrite !pymin_fin, !pymax_fin. unfold D. cbn [nadd]. rewrite ?pymin_fin.
    destruct (rising t) eqn:R; cbn [negb andb orb nltb rising factor extreme stop since].
    - replace (stop t + factor t * (extreme t + - stop t)) with (stop t + factor t * (extreme t - stop t)) by ring.
      destruct (qltb (l (S k)) _); cbn [rising factor extreme stop since]; [reflexivity|]. rewrite ?R. destruct (qltb (extreme t) _); reflexivity.
    - replace (stop t + factor t * (extreme t + - stop t)) with (stop t + factor t * (extreme t - stop t)) by ring. rewrite orb_false_r.
      destruct (qltb _ (h (S k))); cbn [rising factor extreme stop since]; [reflexivity|]. rewrite ?R. destruct (qltb _ (extreme t)); reflexivity.
  Qed.
  Lemma go_follows m : forall k, (k + m < n)%nat ->
    sar_go hs ls m (S k) (as_state (trend_at h l k)) = map (fun j => as_state (trend_at h l j)) (seq (S k) m).
  Proof.
    induction m as [|m IH]; intros k K; [reflexivity|]. cbn [sar_go seq map]. rewrite next_follows by lia. f_equal. apply IH. lia.
  Qed.
  Lemma psar_at k : (k < n)%nat -> nth k (psar hs ls) NaN = Fin (r4 (stop (trend_at h l k))).
  Proof.
    intro K. unfold psar, sar_states. rewrite (proj1 H). assert (EN : n = S (n - 1)) by lia. rewrite EN at 1. cbv iota. set (m := (n - 1)%nat) in *.
    rewrite first_follows. change (trend_first h l) with (trend_at h l 0) at 2. rewrite go_follows by lia.
    change (as_state (trend_first h l) :: map (fun j => as_state (trend_at h l j)) (seq 1 m)) with (map (fun j => as_state (trend_at h l j)) (seq 0 (S m))).
    unfold sround, smap. rewrite !map_map. rewrite (nth_map _ 0%nat) by (rewrite seq_length; lia). rewrite seq_nth by lia. reflexivity.
  Qed.
End Follow.

Lemma max_ge f a b j : (a <= j <= b)%nat -> f j <= highest f a b.
Proof. intro J. unfold highest. apply (proj2 (max_to_spec f a (b - a))). lia. Qed.
Lemma min_le f a b j : (a <= j <= b)%nat -> lowest f a b <= f j.
Proof. intro J. unfold lowest. apply (proj2 (min_to_spec f a (b - a))). lia. Qed.
Lemma smaller_le a b : smaller a b <= a /\ smaller a b <= b /\ (smaller a b = a \/ smaller a b = b).
Proof. unfold smaller. destruct (qltb_spec b a) as [A|A]; repeat split; auto; try apply Qcle_refl; [apply Qclt_le_weak; auto|apply Qcnot_lt_le; auto]. Qed.
Lemma larger_ge a b : a <= larger a b /\ b <= larger a b /\ (larger a b = a \/ larger a b = b).
Proof. unfold larger. destruct (qltb_spec a b) as [A|A]; repeat split; auto; try apply Qcle_refl; [apply Qclt_le_weak; auto|apply Qcnot_lt_le; auto]. Qed.

Section Rules.
  Variables h l : nat -> Qc.
  Notation T := (trend_at h l).
  Lemma factor_steps k : exists m, (1 <= m <= 10)%nat /\ factor (T k) = nq m * step02.
  Proof.
    induction k as [|k (m & M & E)]; cbn [trend_at].
    - exists 1%nat. split; [lia|]. unfold trend_first. destruct (qltb _ _); cbn; unfold nq; apply Qc_is_canon; reflexivity.
    - destruct (broken _ _ _ _).
      + exists 1%nat. split; [lia|]. unfold turned. destruct (rising _); cbn; apply Qc_is_canon; reflexivity.
      + unfold went_on. cbn [factor]. set (new := if rising _ then _ else _). destruct new; [|eauto].
        rewrite E. assert (M' : (m <= 9 \/ m = 10)%nat) by lia. destruct M' as [M'| ->].
        * exists (S m). split; [lia|]. assert (Q : nq m * step02 + step02 = nq (S m) * step02) by (rewrite (nq_S m); ring).
          rewrite Q. clear E Q. assert (D : (m = 1 \/ m = 2 \/ m = 3 \/ m = 4 \/ m = 5 \/ m = 6 \/ m = 7 \/ m = 8 \/ m = 9)%nat) by lia.
          decompose [or] D; subst; apply Qc_is_canon; vm_compute; reflexivity.
        * exists 10%nat. split; [lia|]. apply Qc_is_canon. vm_compute. reflexivity.
  Qed.
  Lemma factor_range k : step02 <= factor (T k) <= cap20.
  Proof.
    destruct (factor_steps k) as (m & M & ->). assert (D : (m = 1 \/ m = 2 \/ m = 3 \/ m = 4 \/ m = 5 \/ m = 6 \/ m = 7 \/ m = 8 \/ m = 9 \/ m = 10)%nat) by lia.
    decompose [or] D; subst; split; apply qleb_iff; vm_compute; reflexivity.
  Qed.
  (** a trend that went on: the stop is on its side of the last three days *)
  Lemma side k : (since (T (S k)) <= k)%nat ->
    if rising (T (S k)) then stop (T (S k)) <= l (S k) /\ stop (T (S k)) <= l k /\ stop (T (S k)) <= l (k - 1)%nat
    else h (S k) <= stop (T (S k)) /\ h k <= stop (T (S k)) /\ h (k - 1)%nat <= stop (T (S k)).
  Proof.
    cbn [trend_at]. destruct (broken h l (T k) k) eqn:B.
    - unfold turned. destruct (rising (T k)); cbn; lia.
    - intros _. unfold went_on. cbn [rising stop]. unfold broken in B. destruct (rising (T k)) eqn:R.
      + assert (X : ~ l (S k) < stop_for h l (T k) k) by (intro X; apply qltb_iff in X; congruence). apply Qcnot_lt_le in X. split; [exact X|].
        unfold stop_for. rewrite R. pose proof (smaller_le (moved (T k)) (lowest l (k - 1) k)) as (_ & Y & _).
        split; eapply Qcle_trans; try exact Y; apply min_le; lia.
      + assert (X : ~ stop_for h l (T k) k < h (S k)) by (intro X; apply qltb_iff in X; congruence). apply Qcnot_lt_le in X. split; [exact X|].
        unfold stop_for. rewrite R. pose proof (larger_ge (moved (T k)) (highest h (k - 1) k)) as (_ & Y & _).
        split; eapply Qcle_trans; try exact Y; apply max_ge; lia.
  Qed.
  (** a trend begins at the extreme of the one before *)
  Lemma begins k : since (T (S k)) = S k ->
    rising (T (S k)) = negb (rising (T k)) /\ factor (T (S k)) = step02 /\
    stop (T (S k)) = (if rising (T (S k)) then lowest l (since (T k)) k else highest h (since (T k)) k).
  Proof.
    cbn [trend_at]. destruct (broken h l (T k) k) eqn:B.
    - unfold turned. destruct (rising (T k)); cbn; auto.
    - unfold went_on. cbn. pose proof (since_le h l k). lia.
  Qed.
  Lemma turns k : rising (T (S k)) <> rising (T k) <->
    (if rising (T k) then l (S k) < stop_for h l (T k) k else stop_for h l (T k) k < h (S k)).
  Proof.
    cbn [trend_at]. unfold broken. destruct (rising (T k)) eqn:R.
    - destruct (qltb_spec (l (S k)) (stop_for h l (T k) k)) as [A|A]; [unfold turned|unfold went_on]; rewrite R; cbn; split; auto; try congruence; intuition.
    - destruct (qltb_spec (stop_for h l (T k) k) (h (S k))) as [A|A]; [unfold turned|unfold went_on]; rewrite R; cbn; split; auto; try congruence; intuition.
  Qed.
  (** the extreme is the highest high (lowest low) since the trend began *)
  Lemma extreme_is k : (1 <= k)%nat -> extreme (T k) = (if rising (T k) then highest h (since (T k)) k else lowest l (since (T k)) k).
  Proof.
    destruct k as [|k]; [lia|]. intros _. cbn [trend_at]. destruct (broken _ _ _ _).
    - unfold turned. destruct (rising (T k)); cbn; unfold highest, lowest; rewrite Nat.sub_diag; reflexivity.
    - unfold went_on. cbn. reflexivity.
  Qed.
  (** in a trend that goes on, the stop only moves in its direction *)
  Lemma moves_on k : (forall j, (j <= k)%nat -> l j <= h j) -> (since (T (S k)) <= k)%nat ->
    (if rising (T k) then stop (T k) <= l k /\ ((1 <= k)%nat -> stop (T k) <= l (k - 1)%nat)
     else h k <= stop (T k) /\ ((1 <= k)%nat -> h (k - 1)%nat <= stop (T k))) ->
    if rising (T (S k)) then stop (T k) <= stop (T (S k)) else stop (T (S k)) <= stop (T k).
  Proof.
    intros LH S1 PRE.
    assert (E : if rising (T k) then stop (T k) <= extreme (T k) else extreme (T k) <= stop (T k)).
    { destruct k as [|k].
      - cbn [trend_at]. unfold trend_first. specialize (LH O (le_n O)). destruct (qltb _ _); cbn; exact LH.
      - rewrite extreme_is by lia. specialize (LH (S k) (le_n _)). pose proof (since_le h l (S k)). destruct (rising (T (S k))).
        + destruct PRE as [P _]. eapply Qcle_trans; [exact P|]. eapply Qcle_trans; [exact LH|]. apply max_ge. lia.
        + destruct PRE as [P _]. eapply Qcle_trans; [|exact P]. eapply Qcle_trans; [|exact LH]. apply min_le. lia. }
    cbn [trend_at] in *. destruct (broken h l (T k) k) eqn:B.
    - unfold turned in S1. destruct (rising (T k)); cbn in S1; lia.
    - unfold went_on. cbn [rising stop]. unfold stop_for. pose proof (factor_range k) as [F1 _].
      assert (F0 : 0 <= factor (T k)) by (eapply Qcle_trans; [|exact F1]; apply qleb_iff; vm_compute; reflexivity).
      destruct (rising (T k)) eqn:R.
      + pose proof (smaller_le (moved (T k)) (lowest l (k - 1) k)) as (_ & _ & [-> | ->]).
        * unfold moved. revert F0 E; generalize (factor (T k)) (extreme (T k)) (stop (T k)); intros; qnra.
        * destruct PRE as [P1 P2]. destruct (proj1 (min_to_spec l (k - 1) (k - (k - 1)))) as (j & J & Q). unfold lowest. rewrite Q.
          assert (D : j = k \/ (1 <= k)%nat /\ j = (k - 1)%nat) by lia. destruct D as [-> |[D ->]]; auto.
      + pose proof (larger_ge (moved (T k)) (highest h (k - 1) k)) as (_ & _ & [-> | ->]).
        * unfold moved. revert F0 E; generalize (factor (T k)) (extreme (T k)) (stop (T k)); intros; qnra.
        * destruct PRE as [P1 P2]. destruct (proj1 (max_to_spec h (k - 1) (k - (k - 1)))) as (j & J & Q). unfold highest. rewrite Q.
          assert (D : j = k \/ (1 <= k)%nat /\ j = (k - 1)%nat) by lia. destruct D as [-> |[D ->]]; auto.
  Qed.
End Rules.

Open Scope string_scope.
Section Published.
  Variables (o : oracle) (raw : rawframe) (b : bool) (ob : obj).
  Hypothesis W : wf_raw raw.
  Notation constructed c := (snd (construct o c (RFrame raw) (VBool b)) = Ok ob).
  Lemma sar_shown m k h l : constructed cPSAR -> (1 <= m)%nat -> (k <= m)%nat ->
    known (given "high" ob) m h -> known (given "low" ob) m l -> shown "sar" ob k = Fin (r4 (stop (trend_at h l k))).
  Proof.
    intros C M K KH KL. look f V VV. unfold shown. shown V.
    rewrite <- (nth_firstn (S m) _ k NaN) by lia. rewrite <- psar_firstn by lia.
    apply (psar_at (S m)); try lia; apply (view_known V); auto; req.
  Qed.
  Lemma sar_sides k h l : constructed cPSAR -> known (given "high" ob) (S k) h -> known (given "low" ob) (S k) l ->
    exists s, shown "sar" ob (S k) = Fin s /\
      ((forall j, (k - 1 <= j <= S k)%nat -> s <= r4 (l j)) \/ (forall j, (k - 1 <= j <= S k)%nat -> r4 (h j) <= s) \/
       exists a, (a <= k)%nat /\ (s = r4 (lowest l a k) \/ s = r4 (highest h a k))).
  Proof.
    intros C KH KL. exists (r4 (stop (trend_at h l (S k)))). split; [apply (sar_shown (S k)); auto; lia|].
    pose proof (since_le h l (S k)) as SL. destruct (Nat.eq_dec (since (trend_at h l (S k))) (S k)) as [E|E].
    - right. right. destruct (begins h l k E) as (_ & _ & ->). exists (since (trend_at h l k)). split; [apply since_le|].
      destruct (rising (trend_at h l (S k))); auto.
    - pose proof (side h l k ltac:(lia)) as SD. destruct (rising (trend_at h l (S k))).
      + left. intros j J. destruct SD as (A & B & D). apply qround_mono. assert (Q : (j = S k \/ j = k \/ j = k - 1)%nat) by lia. destruct Q as [-> |[-> | ->]]; auto.
      + right. left. intros j J. destruct SD as (A & B & D). apply qround_mono. assert (Q : (j = S k \/ j = k \/ j = k - 1)%nat) by lia. destruct Q as [-> |[-> | ->]]; auto.
  Qed.
End Published.

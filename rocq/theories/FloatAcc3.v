(** * FloatAcc3: accuracy of the published columns. *)
From Coq Require Import ZArith QArith Qcanon Qreals Reals Bool List PeanoNat Lia Lra Psatz.
From Flocq Require Import Core Relative IEEE754.BinarySingleNaN.
From Verif Require Import Num NumFacts Pandas RangeSpec ValueSpec FormulaSpec Starts FloatSim FloatFacts FloatExact FloatInd FloatOrd FloatDec FloatRange FloatRange2 FloatSpec FloatAccSpec FloatAcc FloatAcc2.
Import ListNotations.
Open Scope R_scope.

Lemma real_units k : real (units k) = IZR k / 10000.
Proof. unfold units. rewrite real_Q2Qc. unfold Q2R. simpl. reflexivity. Qed.
Lemma real_zq z : real (zq z) = IZR z. Proof. apply real_z. Qed.
Lemma units_le a b : (units a <= units b)%Qc <-> (a <= b)%Z.
Proof. rewrite real_le, !real_units. split; intro H; [apply le_IZR; lra|apply IZR_le in H; lra]. Qed.
Lemma units_inj a b : units a = units b -> a = b.
Proof. intro E. apply (f_equal real) in E. rewrite !real_units in E. apply eq_IZR. lra. Qed.
Lemma real_prices t f i : real (prices t f i) = unit t * IZR (f i).
Proof. unfold prices, unit. rewrite real_units, mult_IZR. field. Qed.

(** ** rounding *)
Lemma tracks_round y q : ap y (real q) tolerance -> Rabs (real q) <= 4294967296 -> tracks (fround4 y) (Fin q).
Proof. intros A B. destruct (round_near y (real q) A B) as (m & _ & F & V & D). exists m. split; [exact F|]. split; [exact V|exact D]. Qed.
Lemma Q2R_abs q : Q2R (Qabs.Qabs q) = Rabs (Q2R q).
Proof.
  apply Qabs.Qabs_case; intro H; apply Qle_Rle in H; rewrite RMicromega.Q2R_0 in H; [rewrite Rabs_pos_eq by exact H; reflexivity|].
  rewrite Q2R_opp, Rabs_left1 by exact H. reflexivity.
Qed.
Lemma round_units q : exists n, qround 4 q = units n /\ Rabs (IZR n - 10000 * real q) <= / 2.
Proof.
  unfold qround. change (Q2Qc (inject_Z (pow10 4))) with (zq 10000). exists (rhe (q * zq 10000)%Qc). split.
  - apply real_inj. rewrite real_div, real_z, real_zq, real_units; [reflexivity|]. intro E. apply (f_equal real) in E. rewrite real_zq, real_0 in E. lra.
  - pose proof (rhe_close (q * zq 10000)%Qc) as C. apply Qle_Rle in C. rewrite Q2R_abs in C. set (z := rhe _) in *.
    assert (E : Q2R (inject_Z z - (q * zq 10000)%Qc) = IZR z - 10000 * real q).
    { rewrite Q2R_minus. change (Q2R (q * zq 10000)%Qc) with (real (q * zq 10000)%Qc). rewrite real_mul, real_zq.
      replace (Q2R (inject_Z z)) with (IZR z) by (unfold Q2R, inject_Z; simpl; field). ring. }
    rewrite E in C. eapply Rle_trans; [exact C|]. unfold Q2R; simpl; lra.
Qed.
(** the published float and the published exact number *)
Lemma tracks_agrees x u : tracks x u -> agrees x (rn u).
Proof.
  destruct u as [| | |q]; cbn; auto. intros (m & F & V & D). destruct (round_units q) as (n & E & D'). exists m, n. split; [exact E|]. split; [|split; assumption].
  change (Q2R q) with (real q) in D. apply Rabs_le_inv in D. apply Rabs_le_inv in D'.
  assert (L : IZR (m - n) < 2) by (rewrite minus_IZR; lra). assert (G : -2 < IZR (m - n)) by (rewrite minus_IZR; lra).
  apply lt_IZR in L. apply (lt_IZR (-2)) in G. lia.
Qed.
(** away from the half units both are the nearest four-decimal number *)
Lemma tracks_nearest x q n : tracks x (Fin q) -> Rabs (IZR n - 10000 * real q) < 2 / 5 -> rn (Fin q) = Fin (units n) /\ is_finite x = true /\ val x = val (dec4 n).
Proof.
  intros (m & F & V & D) H. destruct (round_units q) as (n' & E & D'). change (Q2R q) with (real q) in D.
  apply Rabs_le_inv in D. apply Rabs_le_inv in D'. apply Rabs_def2 in H.
  assert (m = n). { assert (L : IZR (m - n) < 1) by (rewrite minus_IZR; lra). assert (G : -1 < IZR (m - n)) by (rewrite minus_IZR; lra). apply lt_IZR in L. apply (lt_IZR (-1)) in G. lia. }
  assert (n' = n). { assert (L : IZR (n' - n) < 1) by (rewrite minus_IZR; lra). assert (G : -1 < IZR (n' - n)) by (rewrite minus_IZR; lra). apply lt_IZR in L. apply (lt_IZR (-1)) in G. lia. }
  subst m n'. split; [cbn; rewrite E; reflexivity|]. split; assumption.
Qed.

(** ** columns of ticks *)
Lemma column_length t f n : length (column t f n) = n.
Proof. unfold column. rewrite map_length, seq_length. reflexivity. Qed.
Lemma column_nth t f n i : (i < n)%nat -> nth i (column t f n) fnan = dec4 (t * f i).
Proof.
  intro H. unfold column. rewrite nth_indep with (d' := dec4 (t * f 0%nat)) by (rewrite map_length, seq_length; exact H).
  rewrite (map_nth (fun i => dec4 (t * f i)) (seq 0 n) 0%nat), seq_nth by exact H. reflexivity.
Qed.
Lemma column_finite t f n : fits t f n -> all_finite (column t f n).
Proof.
  intros [T B] x I. unfold column in I. apply in_map_iff in I. destruct I as (i & <- & I). apply in_seq in I.
  destruct (tick_ap t (f i) T ltac:(apply B; lia)) as [[F _] _]. exact F.
Qed.
Lemma tick_order t a b : (1 <= t <= 2 ^ 20)%Z -> (Z.abs a <= 2 ^ 24)%Z -> (Z.abs b <= 2 ^ 24)%Z -> fle (dec4 (t * a)) (dec4 (t * b)) -> (a <= b)%Z.
Proof.
  intros T A B L. destruct (tick_ap t a T A) as ((Fa & Ea) & _ & U). destruct (tick_ap t b T B) as ((Fb & Eb) & _ & _).
  apply fle_fin in L; auto. apply Rabs_le_inv in Ea, Eb.
  assert (X : unit t * (IZR a - IZR b) < unit t * 1) by lra. apply Rmult_lt_reg_l in X; [|lra].
  rewrite <- minus_IZR in X. apply (lt_IZR _ 1) in X. lia.
Qed.
Lemma tick_top t f n k p m : fits t f n -> (k < n)%nat -> (0 < p)%nat -> (m <= p)%nat -> (m <= S k)%nat ->
  exists j, (S k - p <= j <= k)%nat /\ nth k (froll_max p m (column t f n)) fnan = dec4 (t * f j) /\ forall i, (S k - p <= i <= k)%nat -> (f i <= f j)%Z.
Proof.
  intros H K P M1 M2. destruct (roll_max_in p m (column t f n) k (column_finite _ _ _ H) P M1 M2) as [(j & J & E) B]; [rewrite column_length; exact K|].
  rewrite column_nth in E by lia. exists j. split; [exact J|]. split; [exact E|]. intros i I. specialize (B i I). rewrite E, column_nth in B by lia.
  destruct H as [T H]. apply (tick_order t); auto; apply H; lia.
Qed.
Lemma tick_bottom t f n k p m : fits t f n -> (k < n)%nat -> (0 < p)%nat -> (m <= p)%nat -> (m <= S k)%nat ->
  exists j, (S k - p <= j <= k)%nat /\ nth k (froll_min p m (column t f n)) fnan = dec4 (t * f j) /\ forall i, (S k - p <= i <= k)%nat -> (f j <= f i)%Z.
Proof.
  intros H K P M1 M2. destruct (roll_min_in p m (column t f n) k (column_finite _ _ _ H) P M1 M2) as [(j & J & E) B]; [rewrite column_length; exact K|].
  rewrite column_nth in E by lia. exists j. split; [exact J|]. split; [exact E|]. intros i I. specialize (B i I). rewrite E, column_nth in B by lia.
  destruct H as [T H]. apply (tick_order t); auto; apply H; lia.
Qed.
Lemma prices_le t f g i j : (1 <= t)%Z -> (f i <= g j)%Z -> (prices t f i <= prices t g j)%Qc.
Proof. intros T H. apply units_le. nia. Qed.
Lemma max_last_at t f p k j : (1 <= t)%Z -> (0 < p <= S k)%nat -> (S k - p <= j <= k)%nat -> (forall i, (S k - p <= i <= k)%nat -> (f i <= f j)%Z) -> max_last (prices t f) p k = prices t f j.
Proof.
  intros T P J B. unfold max_last. destruct (max_to_spec (prices t f) (S k - p) (p - 1)) as [(i & I & E) M]. apply Qcle_antisym; [rewrite E; apply prices_le; auto; apply B; lia|apply M; lia].
Qed.
Lemma min_last_at t f p k j : (1 <= t)%Z -> (0 < p <= S k)%nat -> (S k - p <= j <= k)%nat -> (forall i, (S k - p <= i <= k)%nat -> (f j <= f i)%Z) -> min_last (prices t f) p k = prices t f j.
Proof.
  intros T P J B. unfold min_last. destruct (min_to_spec (prices t f) (S k - p) (p - 1)) as [(i & I & E) M]. apply Qcle_antisym; [apply M; lia|rewrite E; apply prices_le; auto; apply B; lia].
Qed.

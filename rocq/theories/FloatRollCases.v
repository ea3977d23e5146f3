(** * FloatRollCases: cases for the statements about rolling means in binary64. *)
From Coq Require Import ZArith QArith Qcanon Qreals Reals Bool List String PeanoNat Lia Lra.
From Flocq Require Import Core IEEE754.BinarySingleNaN.
From Verif Require Import Num FloatSim FloatFacts FloatExact FloatInd FloatOrd FloatSpec FloatAccSpec FloatRoll FloatRollSpec FloatRollAcc FloatRollAcc3 FloatEwmAcc3.
From Verif Require Import Sim Frame FrameSpec Api ApiSpec RangeSpec ValueSpec FormulaSpec PropsFormula FloatAccCases.
Import ListNotations.

Lemma whole_steady l n : forallb (fun z => (Z.abs (10000 * z) + 1) * Z.of_nat n <=? 2 ^ 43)%Z (0%Z :: l) = true -> steady (counts l) n.
Proof.
  intros H i _. unfold counts. rewrite forallb_forall in H. apply Z.leb_le. destruct (Nat.lt_ge_cases i (List.length l)) as [L|L].
  - apply H. right. apply nth_In. exact L.
  - rewrite nth_overflow by exact L. apply H. left. reflexivity.
Qed.
(** prices of an instrument that once cost eighteen million millions *)
Definition spike (i : nat) : Z := nth i [7788; 8972000000000000; 5098; 185200000000000000; 3423; 1370]%Z 1%Z.
Open Scope R_scope.
Lemma spike_cell : val (cell (fsma 2 (column 1 spike 6)) 5) = val (dec4 2377).
Proof.
  assert (E : cell (fsma 2 (column 1 spike 6)) 5 = dec4 2377) by (apply B2SF_inj; vm_compute; reflexivity). rewrite E. reflexivity.
Qed.
Lemma spike_mean : Q2R (mean_last (prices 1 spike) 2 5) = 23965 / 100000.
Proof.
  change (Q2R (mean_last (prices 1 spike) 2 5)) with (real (mean_last (prices 1 spike) 2 5)). rewrite real_m1 by lia. unfold FloatRollAcc2.rmean. cbn [Nat.sub rsums Nat.add]. unfold spike. cbn [nth]. cbn [INR]. field.
Qed.
Lemma spike_off : ~ tracks (cell (fsma 2 (column 1 spike 6)) 5) (Fin (mean_last (prices 1 spike) 2 5)).
Proof.
  intros (m & _ & V & D). rewrite spike_mean in D. rewrite spike_cell in V. apply Rabs_le_inv in D.
  assert (M1 : (2395 < m)%Z) by (apply lt_IZR; lra). assert (M2 : (m < 2398)%Z) by (apply lt_IZR; lra).
  assert (L : forall z, fltb (dec4 2377) (dec4 z) = true -> is_finite (dec4 z) = true -> val (dec4 2377) < val (dec4 z)).
  { intros z H F. rewrite fltb_fin in H by (auto; reflexivity). revert H. unfold val. case Rlt_bool_spec; [auto|discriminate]. }
  assert (E : m = 2396%Z \/ m = 2397%Z) by lia. destruct E as [-> | ->].
  - specialize (L 2396%Z ltac:(vm_compute; reflexivity) ltac:(vm_compute; reflexivity)). lra.
  - specialize (L 2397%Z ltac:(vm_compute; reflexivity) ltac:(vm_compute; reflexivity)). lra.
Qed.

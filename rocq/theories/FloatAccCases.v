(** * FloatAccCases: the concrete data of PropsFloatAcc. *)
From Coq Require Import ZArith QArith Qcanon Reals Bool List String PeanoNat Lia Lra.
From Flocq Require Import Core IEEE754.BinarySingleNaN.
From Verif Require Import Num NumFacts Frame Ind Api FloatSim FloatFacts FloatExact FloatInd FloatOrd FloatDec RangeSpec ValueSpec FormulaSpec PropsRange PropsCumul PropsFormula FloatSpec FloatAccSpec FloatAcc FloatAcc3 FloatCases.
Import ListNotations.
Open Scope list_scope. Open Scope string_scope.

(** whole numbers as ticks of 10000 units *)
Definition ticks (l : list Z) (j : nat) : Z := nth j l 0%Z.
Lemma whole_known c ob l k : reads c ob l = true -> (k < List.length l)%nat -> known (given c ob) k (prices 10000 (ticks l)).
Proof.
  intros R K j J. rewrite (reads_known c ob l k R K j J). f_equal. apply real_inj. rewrite real_prices. unfold unit, ticks, at_of. rewrite real_zq. lra.
Qed.
(** the same numbers counted in units *)
Definition counts (l : list Z) (j : nat) : Z := (10000 * nth j l 0)%Z.
Lemma counts_known c ob l k : reads c ob l = true -> (k < List.length l)%nat -> known (given c ob) k (prices 1 (counts l)).
Proof.
  intros R K j J. rewrite (reads_known c ob l k R K j J). f_equal. apply real_inj. rewrite real_prices. unfold unit, counts, at_of. rewrite real_zq, mult_IZR. lra.
Qed.
Lemma whole_fits l n : forallb (fun z => Z.abs z <=? 2 ^ 24)%Z l = true -> fits 10000 (ticks l) n.
Proof.
  intro H. split; [lia|]. intros i _. unfold ticks. destruct (Nat.lt_ge_cases i (List.length l)) as [L|L].
  - rewrite forallb_forall in H. apply Z.leb_le. apply H. apply nth_In. exact L.
  - rewrite nth_overflow by exact L. cbn. lia.
Qed.
Lemma counts_small l n : forallb (fun z => (0 <=? z) && (z <=? 2 ^ 24))%Z l = true -> forall i, (i < n)%nat -> (0 <= counts l i <= 2 ^ 50)%Z.
Proof.
  intros H i _. unfold counts. destruct (Nat.lt_ge_cases i (List.length l)) as [L|L].
  - rewrite forallb_forall in H. specialize (H (nth i l 0%Z) (nth_In _ _ L)). apply andb_prop in H as [A B]. apply Z.leb_le in A, B. lia.
  - rewrite nth_overflow by exact L. lia.
Qed.
(** the ten days over and over *)
Definition cycle (m : nat) : rawframe := bars (List.concat (repeat ten_days m)).
Definition cycle_highs := List.concat (repeat highs_ten 3).
Definition cycle_lows := List.concat (repeat lows_ten 3).
(** the median price of 10.0012 and 10.0011 *)
Lemma tie_differs : exists t h l n k m, fits t h n /\ fits t l n /\ (k < n)%nat /\
  rn (Fin ((prices t h k + prices t l k) / zq 2)%Qc) = Fin (units m) /\ val (cell (fmp (column t h n) (column t l n)) k) <> val (dec4 m).
Proof.
  exists 1%Z, (fun _ => 100012%Z), (fun _ => 100011%Z), 1%nat, 0%nat, 100012%Z.
  split; [split; [lia|]; intros; cbn; lia|]. split; [split; [lia|]; intros; cbn; lia|]. split; [lia|]. split.
  - unfold rn, nround. apply (f_equal Fin). apply Qc_is_canon. vm_compute. reflexivity.
  - assert (E : cell (fmp (column 1 (fun _ => 100012%Z) 1) (column 1 (fun _ => 100011%Z) 1)) 0 = dec4 100011) by (apply B2SF_inj; vm_compute; reflexivity).
    rewrite E. intro X.
    destruct (dec_ap 100011) as [_ A]; [lia|]. destruct (dec_ap 100012) as [_ B]; [lia|]. unfold val in X. rewrite X in A.
    clear E.
    rewrite (Rabs_pos_eq (100011 / 10000)) in A by lra. rewrite (Rabs_pos_eq (100012 / 10000)) in B by lra.
    apply Rabs_le_inv in A, B. lra.
Qed.

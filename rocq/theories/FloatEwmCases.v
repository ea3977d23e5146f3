(** * FloatEwmCases: the concrete data of PropsFloatEwm. *)
From Coq Require Import ZArith QArith Qcanon Reals Bool List String PeanoNat Lia Lra.
From Flocq Require Import Core IEEE754.BinarySingleNaN.
From Verif Require Import Num NumFacts Frame Ind Api FloatSim FloatFacts FloatExact FloatInd RangeSpec ValueSpec FormulaSpec PropsRange PropsCumul PropsFormula FloatSpec FloatAccSpec FloatAcc FloatAcc3 FloatCases FloatAccCases FloatEwm FloatEwmSpec.
Import ListNotations.
Open Scope list_scope.

Lemma whole_moderate p l n : forallb (fun z => (Z.abs (10000 * z) + 1) * (Z.of_nat p + 1) <=? 2 ^ 41)%Z (0%Z :: l) = true -> moderate p (counts l) n.
Proof.
  intros H i _. unfold counts. rewrite forallb_forall in H. apply Z.leb_le. destruct (Nat.lt_ge_cases i (List.length l)) as [L|L].
  - apply H. right. apply nth_In. exact L.
  - rewrite nth_overflow by exact L. apply H. left. reflexivity.
Qed.
(** the cells added from the left, starting with the first *)
Definition from_left (l : list f64) : f64 := match l with [] => f0 | x :: r => fold_left fadd r x end.
Lemma from_left_adds l : added l (from_left l).
Proof.
  destruct l as [|x r]; [constructor|]. cbn [from_left]. assert (H : forall r a y, added a y -> added (a ++ r) (fold_left fadd r y)).
  { induction r0 as [|z r0 IH]; intros a y A; [rewrite app_nil_r; exact A|]. cbn [fold_left]. replace (a ++ z :: r0) with ((a ++ [z]) ++ r0) by (rewrite <- app_assoc; reflexivity).
    apply IH. apply added_app; [exact A|constructor]. }
  apply (H r [x] x). constructor.
Qed.
(** forty days of a price that swings *)
Definition swings : list Z := map (fun j => (100 + (Z.of_nat j * 7919) mod 37)%Z) (seq 0 40).
Definition swing_days : rawframe := bars (map (fun a => (a, a, a, a, 1)%Z) swings).

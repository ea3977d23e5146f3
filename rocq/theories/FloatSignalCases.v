(** * FloatSignalCases: cases for the statements about signals in binary64. *)
From Coq Require Import ZArith QArith Qcanon Qreals Reals Bool List String PeanoNat Lia Lra.
From Flocq Require Import Core IEEE754.BinarySingleNaN.
From Verif Require Import Num NumFacts Pandas Sim Frame FrameSpec Ind Signal Api IndSpec ApiSpec RangeSpec ValueSpec FormulaSpec SignalSpec SignalApi PropsApi PropsFormula PropsSignal.
From Verif Require Import FloatSim FloatSpec FloatAccSpec FloatInd FloatAccCases FloatEwm FloatEwmSpec FloatEwmCases FloatRoll FloatRollSpec FloatRollCases FloatSignal FloatSignalSpec.
Import ListNotations.
Open Scope list_scope. Open Scope string_scope.

Definition ordinaryb (a : num) : bool := match a with Fin q => qleb (- zq (2 ^ 32)) q && qleb q (zq (2 ^ 32)) | _ => true end.
Definition clearb (d : Z) (a b : num) : bool :=
  ordinaryb a && ordinaryb b && match a, b with Fin p, Fin q => Z.eqb d 0 || qltb (units d) (p - q) || qltb (units d) (q - p) | _, _ => true end.
Lemma ordinary_of a : ordinaryb a = true -> ordinary a.
Proof. destruct a; cbn; auto. intro H. apply andb_true_iff in H as [A B]. split; apply qleb_iff; assumption. Qed.
Lemma clear_of d a b : clearb d a b = true -> clear d a b.
Proof.
  intro H. apply andb_true_iff in H as [H C]. apply andb_true_iff in H as [A B]. split; [apply ordinary_of; exact A|]. split; [apply ordinary_of; exact B|].
  destruct a, b; auto. apply orb_true_iff in C as [C|C]; [apply orb_true_iff in C as [C|C]; [left; apply Z.eqb_eq; exact C|]|].
  - right; left. apply qltb_iff. exact C.
  - right; right. apply qltb_iff. exact C.
Qed.
Lemma apart_days_of st d m x y : forallb (fun e => clearb m (x e) (y e)) (seq 1 d) = true -> apart_days st d m x y.
Proof. intros H e E _. rewrite forallb_forall in H. apply clear_of. apply H. apply in_seq. lia. Qed.
Lemma holds_of col st t c : forallb (fun j => neqb (given col st j) (Fin (prices t c j))) (seq 0 (days_given st)) = true -> holds col st t c.
Proof.
  intros H j J. rewrite forallb_forall in H. specialize (H j ltac:(apply in_seq; lia)). apply same_iff in H. destruct (given col st j); cbn in H; try tauto. subst. reflexivity.
Qed.
Definition season_at (f : Z * Z * Z * Z * Z -> Z) : nat -> Z := counts (map f season).
Definition open_of (r : Z * Z * Z * Z * Z) := let '(a, _, _, _, _) := r in a.
Definition high_of (r : Z * Z * Z * Z * Z) := let '(_, h, _, _, _) := r in h.
Definition low_of (r : Z * Z * Z * Z * Z) := let '(_, _, l, _, _) := r in l.
Definition close_of (r : Z * Z * Z * Z * Z) := let '(_, _, _, c, _) := r in c.
Definition volume_of (r : Z * Z * Z * Z * Z) := let '(_, _, _, _, v) := r in v.
Definition fsays (s : signal) (r : option (res signal)) : bool := match r with Some x => signal_is s x | None => false end.
(** two days, 10.0041 and 10.0042 *)
Definition two_ticks : rawframe := mkRaw true [LStr "close"] [true] [(1%Z, [D 100041 10000]); (2%Z, [D 100042 10000])].
Definition tick2 (i : nat) : Z := nth i [100041; 100042]%Z 0%Z.
Definition short_of (c : ctor) := the (made ora0 c two_ticks true).

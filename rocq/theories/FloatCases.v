(** * FloatCases: the concrete data of PropsFloatInd and PropsFloatAcc. *)
From Coq Require Import ZArith Reals Bool List PeanoNat Lia Lra.
From Flocq Require Import Core IEEE754.BinarySingleNaN.
From Verif Require Import Pandas FloatSim FloatFacts FloatInd FloatOrd FloatDec FloatRange FloatRange2 FloatSpec FloatApi.
Import ListNotations.
Open Scope list_scope.

Definition bits (x : f64) := B2SF x.
Definition day_high : list f64 := map dec4 [102000; 103000; 105000]%Z.
Definition day_low : list f64 := map dec4 [100000; 99000; 100000]%Z.
Definition day_close : list f64 := map dec4 [101000; 100000; 104000]%Z.
Lemma line_of_bars n high low k : (0 < n)%nat -> bars_ok high low -> (k < length high)%nat ->
  exists i j, recent n k i /\ recent n k j /\
    (forall x, recent n k x -> (val (cell low i) <= val (cell low x))%R /\ (val (cell high x) <= val (cell high j))%R) /\
    between (val (cell low i)) (val (cell high j)) (cell (fich n high low) k) /\
    between (val (fround4 (cell low i))) (val (fround4 (cell high j))) (fround4 (cell (fich n high low) k)).
Proof. intros N [L H] K. apply line_cell; auto. Qed.
Lemma channel_of_bars p high low k : (0 < p)%nat -> bars_ok high low -> (k < length high)%nat ->
  let u := cell (fpch_high p high) k in let d := cell (fpch_low p low) k in
  ((k < p)%nat -> missing u /\ missing d) /\
  ((p <= k)%nat -> (is_finite u = true /\ is_finite d = true /\ (val d <= val u)%R) /\
    exists i j, (k - p <= i < k)%nat /\ (k - p <= j < k)%nat /\ val u = val (fround4 (cell high i)) /\ val d = val (fround4 (cell low j)) /\
      forall x, (k - p <= x < k)%nat -> (val (cell high x) <= val (cell high i))%R /\ (val (cell low j) <= val (cell low x))%R).
Proof. intros N [L H] K. apply channel_cell; auto. Qed.
Lemma round_monotone x y : price x -> price y -> (val x <= val y)%R ->
  is_finite (fround4 x) = true /\ is_finite (fround4 y) = true /\ (val (fround4 x) <= val (fround4 y))%R.
Proof.
  intros Px Py H. pose proof (fround4_modest x Px) as Fx. pose proof (fround4_modest y Py) as Fy. repeat split; auto.
  apply fle_fin; auto. apply fround4_mono. apply fle_fin; [apply Px|apply Py|exact H].
Qed.
Lemma dec_le a b : (Z.abs a <= 2 ^ 46)%Z -> (Z.abs b <= 2 ^ 46)%Z -> (a <= b)%Z -> (val (dec4 a) <= val (dec4 b))%R.
Proof.
  intros A B O. destruct (decimal_val a) as [_ Va]; [lia|]. destruct (decimal_val b) as [_ Vb]; [lia|]. change (RV (decimal a) <= RV (decimal b))%R. rewrite Va, Vb. apply rnd_le. apply IZR_le in O. lra.
Qed.
Lemma day_ok : days day_high day_low day_close.
Proof.
  split; [reflexivity|]. split; [reflexivity|]. intros i L. cbn in L.
  do 3 (destruct i as [|i]; [cbn [cell day_high day_low day_close map nth]; repeat split; try (apply decimal_price; lia); apply dec_le; lia|]). lia.
Qed.
Lemma day_bars : bars_ok day_high day_low.
Proof.
  split; [reflexivity|]. intros i L. cbn in L.
  do 3 (destruct i as [|i]; [cbn [cell day_high day_low map nth]; repeat split; try (apply decimal_price; lia); apply dec_le; lia|]). lia.
Qed.
Lemma dec_lt x y : is_finite x = true -> is_finite y = true -> fltb x y = true -> (val x < val y)%R.
Proof. intros Fx Fy L. rewrite fltb_fin in L by auto. revert L. case Rlt_bool_spec; [auto|discriminate]. Qed.
Lemma day_wide : wide 2 2 day_high day_low.
Proof. exists 2%nat, 2%nat. unfold recent. repeat split; try lia. apply dec_lt; vm_compute; reflexivity. Qed.
Lemma day_decimal : decimal_cells day_close.
Proof. intros x I. unfold day_close in I. apply in_map_iff in I. destruct I as (k & <- & I). exists k. split; [|reflexivity]. repeat (destruct I as [<-|I]; [lia|]). destruct I. Qed.
Lemma pi_price : price (dec4 31416). Proof. apply decimal_price. lia. Qed.
Lemma pi2_price : price (fdiv (fz 22 0) (fz 7 0)).
Proof.
  destruct (fz_val 22) as [F V]; [lia|]. destruct (fz_val 7) as [F' V']; [lia|]. destruct (fz_val 4) as [F4 V4]; [lia|].
  edestruct (fun H => comes_fin f0 (fz 4 0) _ _ eq_refl F4 H (fdiv_comes _ _ F F' ltac:(lra))) as (A & B & C); [rewrite V, V', V4; change (RV f0) with 0%R; lra|].
  split; [exact A|]. change (RV f0) with 0%R in C. rewrite V4 in C. unfold val. rewrite Rabs_pos_eq by lra.
  apply Rle_trans with (bpow radix2 2); [change (bpow radix2 2) with 4%R; lra|apply bpow_le; lia].
Qed.
Lemma huge_so : exists hh ll c, is_finite hh = true /\ is_finite ll = true /\ is_finite c = true /\
    fltb ll c = true /\ fltb c hh = true /\ fltb (fz 100 0) (nth 0 (fso_k 1 [hh] [ll] [c]) fnan) = true.
Proof. exists (fz 3 1020), f0, (fz 1 1020). vm_compute. repeat split. Qed.
Lemma huge_round : exists x, is_finite x = true /\ fround4 x = B754_infinity false.
Proof. exists (fz 1 1020). vm_compute. auto. Qed.

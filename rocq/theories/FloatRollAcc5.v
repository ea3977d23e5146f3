(** * FloatRollAcc5: running sums of whole numbers are exact; flat windows; signs. *)
From Coq Require Import ZArith QArith Qcanon Qreals Reals Bool List PeanoNat Lia Lra Psatz.
From Flocq Require Import Core Relative IEEE754.BinarySingleNaN.
From Verif Require Import Num NumFacts Pandas SeriesFacts FloatSim FloatFacts FloatExact FloatInd FloatOrd FloatDec FloatRange FloatRange2 RangeSpec ValueSpec FormulaSpec Starts FloatSpec FloatAccSpec FloatAcc FloatAcc2 FloatAcc3 FloatAcc5 FloatEwm FloatEwmAcc FloatEwmAcc2 FloatEwmAcc3 FloatRoll FloatRollSpec FloatRollAcc FloatRollAcc2 FloatRollAcc3 FloatRollAcc4.
Import ListNotations.
Open Scope R_scope.
Notation u := (/ 9007199254740992).

Lemma feqb_same a b : is_finite a = true -> is_finite b = true -> RV a = RV b -> feqb a b = true.
Proof. intros Fa Fb E. unfold feqb. rewrite Beqb_correct by assumption. rewrite E. apply Req_bool_true. reflexivity. Qed.
(** ** whatever the sum, how the mean is made from it *)
Section Made.
Variables (w : nat) (s : fseries) (n k : nat).
Notation x i := (nth i s fnan).
Hypothesis (W : (0 < w)%nat) (F : forall i, (i < n)%nat -> is_finite (x i) = true) (K : (k < n)%nat) (KW : (w <= S k)%nat).
Notation g := (fun i => RV (x i)).
Lemma full_window : size w k = w. Proof. unfold size, lo. lia. Qed.
Lemma run_sum : (w <= ro_same (ro_at w s k))%nat -> rsums g (lo w k) w = INR w * RV (x k).
Proof.
  intro H. destruct (counted_at w s n W F k K) as [A B C D E]. apply rsums_const. intros i I. unfold lo in I. replace i with (k - (k - i))%nat by lia. cbv beta. apply E. lia.
Qed.
Lemma mean_made e : ap (fdiv (ro_sum (ro_at w s k)) (fz (Z.of_nat w) 0)) (rsums g (lo w k) w / INR w) e -> ap (ro_mean w (ro_at w s k)) (rsums g (lo w k) w / INR w) e.
Proof.
  intro Q. pose proof (counted_at w s n W F k K) as CN. pose proof (cn_nobs _ _ _ _ CN) as CO. pose proof (cn_neg _ _ _ _ CN) as CG. pose proof full_window as FU. rewrite FU in *.
  assert (W1 : 1 <= INR w) by (apply (le_INR 1); exact W). set (r := rsums g (lo w k) w) in *.
  unfold ro_mean. rewrite CO. destruct (Nat.leb_spec w w); [|lia]. destruct (Nat.ltb_spec 0 w); [|lia]. cbn [andb].
  set (q := fdiv (ro_sum (ro_at w s k)) (fz (Z.of_nat w) 0)) in *. pose proof Q as [Fq Hq]. pose proof (Rle_trans _ _ _ (Rabs_pos _) Hq) as E0. apply Rabs_le_inv in Hq as Hq'.
  destruct (Nat.leb_spec w (ro_same (ro_at w s k))) as [L|L].
  { rewrite (cn_prev _ _ _ _ CN). split; [apply F, K|]. unfold r. rewrite (run_sum L). replace (INR w * RV (x k) / INR w) with (RV (x k)) by (field; lra). rewrite Rminus_eq_0, Rabs_R0. exact E0. }
  rewrite CG. destruct (Nat.eqb_spec (signs s (lo w k) w) 0) as [Z|Z]; cbn [andb].
  { destruct (fltb q f0) eqn:E.
    - rewrite fltb_fin in E by (auto; reflexivity). change (RV f0) with 0 in E. revert E. case Rlt_bool_spec; [intros E _|discriminate].
      assert (R0 : 0 <= r). { apply rsums_pos. intros i I. apply sign_false; [apply F; unfold lo in I; lia|]. apply (signs_none s (lo w k) w Z). exact I. }
      assert (R1 : 0 <= r / INR w) by (apply Rmult_le_pos; [exact R0|apply Rlt_le, Rinv_0_lt_compat; lra]).
      split; [reflexivity|]. change (RV f0) with 0. apply Rabs_le. lra.
    - destruct (Nat.eqb_spec (signs s (lo w k) w) w); [lia|]. exact Q. }
  destruct (Nat.eqb_spec (signs s (lo w k) w) w) as [Z'|Z']; cbn [andb]; [|exact Q].
  destruct (fltb f0 q) eqn:E; [|exact Q].
  rewrite fltb_fin in E by (auto; reflexivity). change (RV f0) with 0 in E. revert E. case Rlt_bool_spec; [intros E _|discriminate].
  assert (R0 : r <= 0). { apply rsums_neg. intros i I. apply sign_true; [apply F; unfold lo in I; lia|]. apply (signs_all s (lo w k) w Z'). exact I. }
  assert (R1 : r / INR w <= 0). { assert (0 < / INR w) by (apply Rinv_0_lt_compat; lra). unfold Rdiv. assert (0 <= - r * / INR w) by (apply Rmult_le_pos; lra). lra. }
  split; [reflexivity|]. change (RV f0) with 0. apply Rabs_le. lra.
Qed.
(** the run of equal values is not cut short *)
Lemma run_long m : (m <= w)%nat -> (m <= S k)%nat -> (forall j, (j < m)%nat -> RV (x (k - j)%nat) = RV (x k)) -> (m <= ro_same (ro_at w s k))%nat.
Proof.
  clear KW. revert m K. induction k as [|j IH]; intros m K MW MK E.
  - pose proof (cn_same _ _ _ _ (counted_at w s n W F 0 K)). lia.
  - cbn [ro_at]. destruct (Nat.leb_spec w 1) as [W1|W1].
    + pose proof (F (S j) K) as Fx. unfold ro_enter. rewrite Fx. destruct (kahan _ _ _). cbn [ro_same ro_fresh]. destruct (feqb _ _); lia.
    + assert (L : exists st1, (if w <=? S j then ro_leave (x (S j - w)%nat) (ro_at w s j) else ro_at w s j) = st1 /\ ro_prev st1 = x j /\ ro_same st1 = ro_same (ro_at w s j)).
      { pose proof (cn_prev _ _ _ _ (counted_at w s n W F j ltac:(lia))) as P. destruct (w <=? S j); [|eauto]. eexists. split; [reflexivity|]. unfold ro_leave. destruct (is_finite _); [|auto]. destruct (kahan _ _ _). auto. }
      destruct L as (st1 & -> & P1 & P2). unfold ro_enter. rewrite (F (S j) K). destruct (kahan _ _ _). cbn [ro_same]. rewrite P1, P2.
      destruct m as [|m]; [lia|]. destruct m as [|m]; [destruct (feqb _ _); lia|].
      assert (Q : RV (x j) = RV (x (S j))) by (specialize (E 1%nat ltac:(lia)); replace (S j - 1)%nat with j in E by lia; exact E).
      assert (FE : feqb (x (S j)) (x j) = true) by (apply feqb_same; [apply F; lia|apply F; lia|symmetry; exact Q]). rewrite FE. apply le_n_S. apply IH; try lia.
      intros i I. specialize (E (S i) ltac:(lia)). replace (S j - S i)%nat with (j - i)%nat in E by lia. rewrite E. symmetry. exact Q.
Qed.
Lemma flat_mean : (forall i, recent w k i -> RV (x i) = RV (x k)) -> ro_mean w (ro_at w s k) = x k.
Proof.
  intro E. pose proof (counted_at w s n W F k K) as CN. pose proof (cn_nobs _ _ _ _ CN) as CO. rewrite full_window in CO.
  unfold ro_mean. rewrite CO. destruct (Nat.leb_spec w w); [|lia]. destruct (Nat.ltb_spec 0 w); [|lia]. cbn [andb].
  assert (L : (w <= ro_same (ro_at w s k))%nat) by (apply run_long; [lia|exact KW|]; intros j J; apply E; unfold recent; lia).
  destruct (Nat.leb_spec w (ro_same (ro_at w s k))); [|lia]. apply (cn_prev _ _ _ _ CN).
Qed.
Lemma not_below : (forall i, recent w k i -> Bsign (x i) = false) -> fltb (ro_mean w (ro_at w s k)) f0 = false.
Proof.
  intro E. pose proof (counted_at w s n W F k K) as CN. pose proof (cn_nobs _ _ _ _ CN) as CO. pose proof (cn_neg _ _ _ _ CN) as CG. rewrite full_window in CO, CG.
  assert (Z : signs s (lo w k) w = 0%nat).
  { assert (G : forall m, (m <= w)%nat -> signs s (lo w k) m = 0%nat); [|apply G; lia]. induction m as [|m IH]; intro M; [reflexivity|]. cbn [signs]. rewrite IH by lia. rewrite E by (unfold recent, lo; lia). reflexivity. }
  unfold ro_mean. rewrite CO. destruct (Nat.leb_spec w w); [|lia]. destruct (Nat.ltb_spec 0 w); [|lia]. cbn [andb]. rewrite CG, Z. cbn [Nat.eqb].
  destruct (Nat.leb_spec w (ro_same (ro_at w s k))) as [L|L].
  - rewrite (cn_prev _ _ _ _ CN). rewrite fltb_fin by (auto; reflexivity). pose proof (sign_false _ (F k K) (E k ltac:(unfold recent; lia))) as P. change (RV f0) with 0. apply Rlt_bool_false. exact P.
  - cbn [andb]. set (q := fdiv _ _). destruct (fltb q f0) eqn:Q; [reflexivity|]. destruct w as [|w']; [lia|]. exact Q.
Qed.
End Made.

(** ** whole numbers *)
Lemma whole_add a b p q : is_finite a = true -> is_finite b = true -> RV a = IZR p -> RV b = IZR q -> (Z.abs (p + q) < 2 ^ 53)%Z ->
  is_finite (fadd a b) = true /\ RV (fadd a b) = IZR (p + q).
Proof.
  intros Fa Fb Va Vb S. destruct (fz_val (p + q) S) as [F V]. pose proof (fadd_comes a b Fa Fb) as C. rewrite Va, Vb, <- plus_IZR, <- V in C.
  destruct (comes_fin _ _ _ _ F F (conj (Rle_refl _) (Rle_refl _)) C) as (G1 & G2 & _). rewrite rnd_id in G2. rewrite <- V. auto.
Qed.
Lemma whole_sub a b p q : is_finite a = true -> is_finite b = true -> RV a = IZR p -> RV b = IZR q -> (Z.abs (p - q) < 2 ^ 53)%Z ->
  is_finite (fsub a b) = true /\ RV (fsub a b) = IZR (p - q).
Proof.
  intros Fa Fb Va Vb S. destruct (fz_val (p - q) S) as [F V]. pose proof (fsub_comes a b Fa Fb) as C. rewrite Va, Vb, <- minus_IZR, <- V in C.
  destruct (comes_fin _ _ _ _ F F (conj (Rle_refl _) (Rle_refl _)) C) as (G1 & G2 & _). rewrite rnd_id in G2. rewrite <- V. auto.
Qed.
Definition holds (a : f64) (z : Z) : Prop := is_finite a = true /\ RV a = IZR z.
Lemma kahan_whole sum comp x p q : holds sum p -> holds comp 0 -> holds x q -> (Z.abs p < 2 ^ 53)%Z -> (Z.abs q < 2 ^ 53)%Z -> (Z.abs (p + q) < 2 ^ 53)%Z ->
  holds (fst (kahan sum comp x)) (p + q) /\ holds (snd (kahan sum comp x)) 0.
Proof.
  intros [Fs Vs] [Fc Vc] [Fx Vx] B1 B2 B3. unfold kahan. cbn [fst snd].
  destruct (whole_sub x comp q 0 Fx Fc Vx Vc ltac:(lia)) as [Fy Vy]. rewrite Z.sub_0_r in Vy.
  destruct (whole_add sum _ p q Fs Fy Vs Vy B3) as [Ft Vt].
  destruct (whole_sub _ sum (p + q) p Ft Fs Vt Vs ltac:(lia)) as [Fd Vd]. replace (p + q - p)%Z with q in Vd by lia.
  destruct (whole_sub _ _ q q Fd Fy Vd Vy ltac:(lia)) as [Fe Ve]. rewrite Z.sub_diag in Ve. repeat split; assumption.
Qed.
Fixpoint zsums (v : nat -> Z) (a m : nat) : Z := match m with O => 0%Z | S j => (zsums v a j + v (a + j)%nat)%Z end.
Lemma zsums_front v m : forall a, zsums v a (S m) = (v a + zsums v (S a) m)%Z.
Proof. induction m as [|m IH]; intro a; [cbn [zsums]; rewrite Nat.add_0_r; ring|]. cbn [zsums] in IH |- *. rewrite IH. replace (S a + m)%nat with (a + S m)%nat by lia. ring. Qed.
Lemma zsums_bound v a m B : (forall i, (a <= i < a + m)%nat -> (0 <= v i <= B)%Z) -> (0 <= zsums v a m <= Z.of_nat m * B)%Z.
Proof. induction m as [|m IH]; intro H; [cbn; lia|]. cbn [zsums]. specialize (IH ltac:(intros; apply H; lia)). specialize (H (a + m)%nat ltac:(lia)). lia. Qed.
Lemma zsums_real v a m : IZR (zsums v a m) = rsums (fun i => IZR (v i)) a m.
Proof. induction m as [|m IH]; [reflexivity|]. cbn [zsums rsums]. rewrite plus_IZR, IH. reflexivity. Qed.
Lemma whole_nth v n i : (i < n)%nat -> nth i (whole v n) fnan = fz (v i) 0.
Proof. apply (seq_map_nth (fun i => fz (v i) 0)). Qed.
Lemma whole_length v n : length (whole v n) = n. Proof. unfold whole. rewrite map_length, seq_length. reflexivity. Qed.

Section Whole.
Variables (v : nat -> Z) (n w : nat).
Hypothesis (W : (0 < w)%nat) (Wm : (Z.of_nat w <= 2 ^ 20)%Z) (V : forall i, (i < n)%nat -> (0 <= v i <= 2 ^ 32)%Z).
Notation s := (whole v n).
Lemma cell_holds i : (i < n)%nat -> holds (nth i s fnan) (v i).
Proof. intro I. rewrite whole_nth by exact I. apply fz_val. specialize (V i I). lia. Qed.
Lemma zpart a m : (m <= w)%nat -> (a + m <= n)%nat -> (0 <= zsums v a m <= 2 ^ 52)%Z.
Proof.
  intros H L. destruct (zsums_bound v a m (2 ^ 32)) as [A B]; [intros; apply V; lia|]. split; [exact A|]. assert (Z.of_nat m <= 2 ^ 20)%Z by lia. nia.
Qed.
Lemma fresh_whole k : (k < n)%nat -> let st := ro_enter (nth k s fnan) (ro_fresh (nth k s fnan)) in holds (ro_sum st) (v k) /\ holds (ro_add st) 0 /\ holds (ro_rem st) 0.
Proof.
  intro K. pose proof (cell_holds k K) as H. pose proof (V k K). assert (Z0 : holds f0 0) by (split; reflexivity). unfold ro_enter, ro_fresh. rewrite (proj1 H). cbn [ro_sum ro_add ro_rem ro_prev].
  pose proof (kahan_whole f0 f0 _ 0 (v k) Z0 Z0 H ltac:(lia) ltac:(lia) ltac:(lia)) as X. destruct (kahan _ _ _) as [t c]. exact (conj (proj1 X) (conj (proj2 X) Z0)).
Qed.
Lemma sum_whole k : (k < n)%nat -> let st := ro_at w s k in holds (ro_sum st) (zsums v (lo w k) (size w k)) /\ holds (ro_add st) 0 /\ holds (ro_rem st) 0.
Proof.
  induction k as [|k IH]; intro K.
  - cbn [ro_at]. pose proof (fresh_whole 0 K) as X. cbv zeta in *. unfold size, lo. replace (1 - w)%nat with 0%nat by lia. cbn [Nat.sub zsums Nat.add]. rewrite Z.add_0_l. exact X.
  - cbn [ro_at]. destruct (Nat.leb_spec w 1) as [W1|W1].
    + pose proof (fresh_whole (S k) K) as X. cbv zeta in *. unfold size, lo. replace (S (S k) - (S (S k) - w))%nat with 1%nat by lia. replace (S (S k) - w)%nat with (S k) by lia. cbn [zsums]. rewrite Nat.add_0_r, Z.add_0_l. exact X.
    + specialize (IH ltac:(lia)). cbv zeta in IH. destruct IH as (A & B & C). set (st := ro_at w s k) in *.
      pose proof (zpart (lo w k) (size w k) ltac:(unfold size, lo; lia) ltac:(unfold size, lo; lia)) as PB1. pose proof (zpart (lo w (S k)) (S k - lo w (S k)) ltac:(unfold lo; lia) ltac:(unfold lo; lia)) as PB2. pose proof (zpart (lo w (S k)) (size w (S k)) ltac:(unfold size, lo; lia) ltac:(unfold size, lo; lia)) as PB3.
      assert (L : exists st1, (if w <=? S k then ro_leave (nth (S k - w) s fnan) st else st) = st1 /\
        holds (ro_sum st1) (zsums v (lo w (S k)) (S k - lo w (S k))) /\ holds (ro_add st1) 0 /\ holds (ro_rem st1) 0).
      { destruct (Nat.leb_spec w (S k)) as [L|L].
        - eexists. split; [reflexivity|]. unfold ro_leave. pose proof (cell_holds (S k - w) ltac:(lia)) as H. pose proof (V (S k - w)%nat ltac:(lia)) as Hv. rewrite (proj1 H). destruct (fneg_val _ (proj1 H)) as [Fn Vn].
          assert (Hn : holds (fneg (nth (S k - w) s fnan)) (- v (S k - w)%nat)) by (split; [exact Fn|]; rewrite Vn, (proj2 H), opp_IZR; reflexivity).
          assert (E : zsums v (lo w k) (size w k) = (v (S k - w)%nat + zsums v (lo w (S k)) (S k - lo w (S k)))%Z).
          { unfold size, lo. replace (S k - (S k - w))%nat with (S (w - 1)) by lia. rewrite zsums_front. replace (S (S k) - w)%nat with (S (S k - w)) by lia. replace (S k - S (S k - w))%nat with (w - 1)%nat by lia. reflexivity. }
          rewrite E in A, PB1. pose proof (kahan_whole _ _ _ _ _ A C Hn ltac:(lia) ltac:(lia) ltac:(lia)) as X. destruct (kahan _ _ _) as [t c]. cbn [fst snd] in X. cbn [ro_sum ro_add ro_rem]. destruct X as [X1 X2]. split; [|auto].
          replace (zsums v (lo w (S k)) (S k - lo w (S k))) with (v (S k - w)%nat + zsums v (lo w (S k)) (S k - lo w (S k)) + - v (S k - w)%nat)%Z by ring. exact X1.
        - exists st. split; [reflexivity|]. split; [|auto]. unfold size, lo in A |- *. replace (S (S k) - w)%nat with 0%nat by lia. replace (S k - w)%nat with 0%nat in A by lia. exact A. }
      destruct L as (st1 & -> & A1 & B1 & C1). pose proof (cell_holds (S k) K) as H. pose proof (V (S k) K) as Hv. unfold ro_enter. rewrite (proj1 H).
      assert (E : zsums v (lo w (S k)) (size w (S k)) = (zsums v (lo w (S k)) (S k - lo w (S k)) + v (S k))%Z).
      { unfold size. replace (S (S k) - lo w (S k))%nat with (S (S k - lo w (S k))) by (unfold lo; lia). cbn [zsums]. replace (lo w (S k) + (S k - lo w (S k)))%nat with (S k) by (unfold lo; lia). reflexivity. }
      rewrite E in PB3 |- *. pose proof (kahan_whole _ _ _ _ _ A1 B1 H ltac:(lia) ltac:(lia) ltac:(lia)) as X. destruct (kahan _ _ _) as [t c]. cbn [fst snd] in X. cbn [ro_sum ro_add ro_rem]. destruct X as [X1 X2]. auto.
Qed.
Lemma whole_mean_row k : (k < n)%nat -> let y := nth k (froll_mean w s) fnan in
  if (k <? w - 1)%nat then y = fnan else ap y (rmean (fun i => IZR (v i)) w k) (4294967300 * u) /\ 0 <= rmean (fun i => IZR (v i)) w k <= 4294967296.
Proof.
  intro K. cbv zeta. rewrite froll_mean_nth by (rewrite whole_length; exact K). assert (F : forall i, (i < n)%nat -> is_finite (nth i s fnan) = true) by (intros i I; apply cell_holds, I).
  destruct (Nat.ltb_spec k (w - 1)) as [L|L].
  - unfold ro_mean. rewrite (cn_nobs _ _ _ _ (counted_at w s n W F k K)). unfold size, lo. destruct (Nat.leb_spec w (S k - (S k - w))); [lia|reflexivity].
  - destruct (sum_whole k K) as ([Fs Vs] & _). assert (FU : size w k = w) by (unfold size, lo; lia). rewrite FU in Vs. destruct (zsums_bound v (lo w k) w (2 ^ 32)) as [Z0 Z1]; [intros i I; apply V; unfold lo in I; lia|].
    assert (W1 : 1 <= INR w) by (apply (le_INR 1); exact W). assert (W2 : INR w <= 1048576) by (rewrite INR_IZR_INZ; apply (IZR_le _ (2 ^ 20)); exact Wm). destruct (count_val w ltac:(lra)) as [Fw Vw].
    apply IZR_le in Z0, Z1. rewrite mult_IZR, <- INR_IZR_INZ in Z1. change (IZR (2 ^ 32)) with 4294967296 in Z1. set (z := zsums v (lo w k) w) in *.
    assert (Iw : 0 < / INR w) by (apply Rinv_0_lt_compat; lra).
    assert (Q : 0 <= IZR z / INR w <= 4294967296).
    { unfold Rdiv. split; [apply Rmult_le_pos; lra|]. apply Rmult_le_reg_r with (INR w); [lra|]. rewrite Rmult_assoc, Rinv_l by lra. lra. }
    assert (E : rsums (fun i => RV (nth i s fnan)) (lo w k) w = IZR z).
    { unfold z. rewrite zsums_real. assert (G : forall m, (m <= w)%nat -> rsums (fun i => RV (nth i s fnan)) (lo w k) m = rsums (fun i => IZR (v i)) (lo w k) m); [|apply G; lia].
      induction m as [|m IH]; intro Hm; [reflexivity|]. cbn [rsums]. rewrite IH by lia. f_equal. apply cell_holds. unfold lo. lia. }
    assert (E' : rmean (fun i => IZR (v i)) w k = IZR z / INR w) by (unfold rmean, z; rewrite zsums_real; reflexivity).
    rewrite E'. split; [|exact Q]. rewrite <- E. apply (mean_made w s n k W F K ltac:(lia)). rewrite E.
    apply (ap_divc _ _ _ _ 0 4294967296 _ Fw Vw ltac:(lra) (ap_exact _ _ Fs Vs)); try lra.
    rewrite Rabs_pos_eq by lra. lra.
Qed.
End Whole.
Lemma real_mean_whole v w k : (0 < w)%nat -> real (mean_last (fun i => zq (v i)) w k) = rmean (fun i => IZR (v i)) w k.
Proof. intro W. rewrite real_mean_last by exact W. apply rmean_ext. intro i. apply real_zq. Qed.
Lemma fvosc_tracks v n long short k : (0 < short)%nat -> (short <= long)%nat -> (Z.of_nat long <= 2 ^ 20)%Z -> (forall i, (i < n)%nat -> (0 <= v i <= 2 ^ 32)%Z) -> (k < n)%nat ->
  tracks (cell (fvosc long short (whole v n)) k) (from (long - 1) k (Fin (mean_last (fun i => zq (v i)) short k - mean_last (fun i => zq (v i)) long k)%Qc)).
Proof.
  intros S0 SL Lm V K. unfold cell, fvosc. rewrite fmap2_nth by (rewrite ?froll_mean_length, ?whole_length; auto). apply tracks_from.
  pose proof (whole_mean_row v n short S0 ltac:(lia) V k K) as A. pose proof (whole_mean_row v n long ltac:(lia) Lm V k K) as B. cbv zeta in A, B.
  destruct (Nat.ltb_spec k (long - 1)); [rewrite B, fsub_nan; apply round_nan|]. destruct (Nat.ltb_spec k (short - 1)); [lia|].
  destruct A as [A1 A2], B as [B1 B2]. apply tracks_round; rewrite real_sub, !real_mean_whole by lia; [|apply Rabs_le; lra].
  apply (ap_sub _ _ _ _ _ _ 4294967300 _ A1 B1); unfold tolerance; try lra.
  match goal with |- Rabs ?a + _ + _ <= _ => assert (Rabs a <= 4294967296) by (apply Rabs_le; lra) end. lra.
Qed.

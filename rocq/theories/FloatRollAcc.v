(** * FloatRollAcc: how far a running mean is from the mean of the last w cells. *)
From Coq Require Import ZArith Reals Bool List PeanoNat Lia Lra Psatz.
From Flocq Require Import Core Relative IEEE754.BinarySingleNaN.
From Verif Require Import Pandas SeriesFacts FloatSim FloatFacts FloatInd FloatOrd FloatDec FloatRange FloatSpec FloatAcc FloatAcc2 FloatEwm FloatEwmAcc FloatRoll.
Import ListNotations.
Open Scope R_scope.
Notation u := (/ 9007199254740992).

Lemma fneg_val x : is_finite x = true -> is_finite (fneg x) = true /\ RV (fneg x) = - RV x.
Proof. intro F. unfold fneg. rewrite is_finite_Bopp. split; [exact F|apply B2R_Bopp]. Qed.
Definition small (M : R) (c : f64) : Prop := is_finite c = true /\ Rabs (RV c) <= 3 * M * u.
(** one step of the compensated sum *)
Lemma kahan_ap M s c x : / 10000 <= M <= 1000000000000000000000000 -> is_finite s = true -> is_finite x = true -> small M c ->
  Rabs (RV x) <= M -> Rabs (RV s + RV x) <= M ->
  ap (fst (kahan s c x)) (RV s + RV x) (6 * M * u) /\ small M (snd (kahan s c x)).
Proof.
  intros HM Fs Fx [Fc Bc] Bx Bt. unfold kahan. cbn [fst snd].
  set (y := fsub x c). set (t := fadd s y).
  assert (Y : ap y (RV x) (41 / 10 * M * u)).
  { apply (comes_ap (RV x - RV c) _ _ (3 * M * u) (M * (101 / 100))); [apply fsub_comes; assumption| | |lra|lra].
    - apply Rabs_le_inv in Bc. apply Rabs_le. lra.
    - apply Rabs_le_inv in Bx, Bc. apply Rabs_le. lra. }
  pose proof Y as [Fy Hy]. apply Rabs_le_inv in Bx as Bx', Bc as Bc', Bt as Bt', Hy as Hy'.
  assert (T : ap t (RV s + RV y) (11 / 10 * M * u)).
  { apply (comes_ap (RV s + RV y) _ _ 0 (M * (101 / 100))); [apply fadd_comes; assumption| | |lra|lra].
    - rewrite Rminus_eq_0, Rabs_R0. lra.
    - apply Rabs_le. lra. }
  pose proof T as [Ft Ht]. apply Rabs_le_inv in Ht as Ht'.
  split.
  - split; [exact Ft|]. apply Rabs_le. lra.
  - set (d := fsub t s).
    assert (D : ap d (RV t - RV s) (11 / 10 * M * u)).
    { apply (comes_ap (RV t - RV s) _ _ 0 (M * (101 / 100))); [apply fsub_comes; assumption| | |lra|lra].
      - rewrite Rminus_eq_0, Rabs_R0. lra.
      - apply Rabs_le. lra. }
    pose proof D as [Fd Hd]. apply Rabs_le_inv in Hd as Hd'.
    assert (C : ap (fsub d y) (RV d - RV y) (M * u / 100)).
    { apply (comes_ap (RV d - RV y) _ _ 0 (M * (3 * u))); [apply fsub_comes; assumption| | |lra|lra].
      - rewrite Rminus_eq_0, Rabs_R0. lra.
      - apply Rabs_le. lra. }
    destruct C as [Fe He]. apply Rabs_le_inv in He. split; [exact Fe|]. apply Rabs_le. lra.
Qed.

(** ** sums over rows lo .. lo + m - 1 *)
Fixpoint rsums (h : nat -> R) (lo m : nat) : R := match m with O => 0 | S j => rsums h lo j + h (lo + j)%nat end.
Lemma rsums_front h m : forall lo, rsums h lo (S m) = h lo + rsums h (S lo) m.
Proof.
  induction m as [|m IH]; intro lo; [cbn [rsums]; rewrite Nat.add_0_r; ring|]. cbn [rsums] in IH |- *. rewrite IH. replace (S lo + m)%nat with (lo + S m)%nat by lia. ring.
Qed.
Lemma rsums_bound h lo m B : (forall i, (lo <= i < lo + m)%nat -> Rabs (h i) <= B) -> Rabs (rsums h lo m) <= INR m * B.
Proof.
  induction m as [|m IH]; intro H; [cbn; rewrite Rabs_R0; lra|]. rewrite S_INR. cbn [rsums]. eapply Rle_trans; [apply Rabs_triang|].
  specialize (IH ltac:(intros; apply H; lia)). specialize (H (lo + m)%nat ltac:(lia)). lra.
Qed.
Lemma rsums_near h g lo m d : (forall i, (lo <= i < lo + m)%nat -> Rabs (h i - g i) <= d) -> Rabs (rsums h lo m - rsums g lo m) <= INR m * d.
Proof.
  induction m as [|m IH]; intro H; [cbn; rewrite Rminus_0_r, Rabs_R0; lra|]. rewrite S_INR. cbn [rsums].
  specialize (IH ltac:(intros; apply H; lia)). specialize (H (lo + m)%nat ltac:(lia)).
  replace (_ - _) with ((rsums h lo m - rsums g lo m) + (h (lo + m)%nat - g (lo + m)%nat)) by ring. eapply Rle_trans; [apply Rabs_triang|]. lra.
Qed.
Lemma rsums_const h lo m v : (forall i, (lo <= i < lo + m)%nat -> h i = v) -> rsums h lo m = INR m * v.
Proof.
  induction m as [|m IH]; intro H; [cbn; ring|]. rewrite S_INR. cbn [rsums]. rewrite IH, H by (intros; try apply H; lia). ring.
Qed.
Lemma rsums_pos h lo m : (forall i, (lo <= i < lo + m)%nat -> 0 <= h i) -> 0 <= rsums h lo m.
Proof.
  induction m as [|m IH]; intro H; [cbn; lra|]. cbn [rsums]. specialize (IH ltac:(intros; apply H; lia)). specialize (H (lo + m)%nat ltac:(lia)). lra.
Qed.
Lemma rsums_neg h lo m : (forall i, (lo <= i < lo + m)%nat -> h i <= 0) -> rsums h lo m <= 0.
Proof.
  induction m as [|m IH]; intro H; [cbn; lra|]. cbn [rsums]. specialize (IH ltac:(intros; apply H; lia)). specialize (H (lo + m)%nat ltac:(lia)). lra.
Qed.
(** how many cells have their sign bit set *)
Fixpoint signs (s : fseries) (lo m : nat) : nat := match m with O => 0 | S j => signs s lo j + (if Bsign (nth (lo + j) s fnan) then 1 else 0) end.
Lemma signs_front s m : forall lo, signs s lo (S m) = ((if Bsign (nth lo s fnan) then 1 else 0) + signs s (S lo) m)%nat.
Proof.
  induction m as [|m IH]; intro lo; [cbn [signs]; rewrite Nat.add_0_r; lia|]. cbn [signs] in IH |- *. rewrite IH. replace (S lo + m)%nat with (lo + S m)%nat by lia. lia.
Qed.
Lemma signs_le s lo m : (signs s lo m <= m)%nat.
Proof. induction m as [|m IH]; cbn [signs]; [lia|]. destruct (Bsign _); lia. Qed.
Lemma signs_none s lo m : signs s lo m = 0%nat -> forall i, (lo <= i < lo + m)%nat -> Bsign (nth i s fnan) = false.
Proof.
  induction m as [|m IH]; intros H i I; [lia|]. cbn [signs] in H. destruct (Nat.eq_dec i (lo + m)) as [->|N]; [destruct (Bsign _); [lia|reflexivity]|]. apply IH; lia.
Qed.
Lemma signs_all s lo m : signs s lo m = m -> forall i, (lo <= i < lo + m)%nat -> Bsign (nth i s fnan) = true.
Proof.
  induction m as [|m IH]; intros H i I; [lia|]. cbn [signs] in H. pose proof (signs_le s lo m). destruct (Nat.eq_dec i (lo + m)) as [->|N]; [destruct (Bsign _); [reflexivity|lia]|]. apply IH; [destruct (Bsign _); lia|lia].
Qed.

(** ** the count, the sign count and the run of equal cells: no size is needed *)
Section Counts.
Variables (w : nat) (s : fseries) (n : nat).
Hypothesis (W : (0 < w)%nat) (F : forall i, (i < n)%nat -> is_finite (nth i s fnan) = true).
Notation x i := (nth i s fnan).
Definition lo (k : nat) : nat := (S k - w)%nat.
Definition size (k : nat) : nat := (S k - lo k)%nat.
Lemma fresh_enter y : is_finite y = true -> let st := ro_enter y (ro_fresh y) in
  ro_nobs st = 1%nat /\ ro_neg st = (if Bsign y then 1 else 0)%nat /\ ro_same st = 1%nat /\ ro_prev st = y.
Proof.
  intro Y. unfold ro_enter, ro_fresh. rewrite Y. destruct (kahan _ _ _) as [t c]. cbn. destruct (Bsign y); repeat split; destruct (feqb _ _); reflexivity.
Qed.
Lemma feqb_true a b : is_finite a = true -> is_finite b = true -> feqb a b = true -> RV a = RV b.
Proof. intros A B H. unfold feqb in H. rewrite Beqb_correct in H by assumption. revert H. case Req_bool_spec; [auto|discriminate]. Qed.
Record counted (k : nat) (st : roll) : Prop := {
  cn_nobs : ro_nobs st = size k;
  cn_neg : ro_neg st = signs s (lo k) (size k);
  cn_prev : ro_prev st = x k;
  cn_same : (1 <= ro_same st <= S k)%nat;
  cn_run : forall j, (j < ro_same st)%nat -> RV (x (k - j)%nat) = RV (x k) }.
Lemma counted_at k : (k < n)%nat -> counted k (ro_at w s k).
Proof.
  induction k as [|k IH]; intro K.
  - cbn [ro_at]. destruct (fresh_enter (x 0) (F 0%nat K)) as (A & B & C & D). unfold size, lo. replace (1 - (1 - w))%nat with 1%nat by lia. replace (1 - w)%nat with 0%nat by lia.
    constructor; unfold size, lo; rewrite ?A, ?B, ?C, ?D; replace (1 - w)%nat with 0%nat by lia; auto; try lia.
  - cbn [ro_at]. destruct (Nat.leb_spec w 1) as [W1|W1].
    + destruct (fresh_enter (x (S k)) (F _ K)) as (A & B & C & D).
      constructor; unfold size, lo; rewrite ?A, ?B, ?C, ?D; auto; try lia.
      * replace (S (S k) - (S (S k) - w))%nat with 1%nat by lia. replace (S (S k) - w)%nat with (S k) by lia. cbn [signs]. rewrite Nat.add_0_r. reflexivity.
      * intros j J. replace (S k - j)%nat with (S k) by lia. reflexivity.
    + specialize (IH ltac:(lia)). destruct IH as [A B C D E]. set (st := ro_at w s k) in *.
      assert (L : exists st1, (if w <=? S k then ro_leave (x (S k - w)%nat) st else st) = st1 /\ ro_nobs st1 = (S k - lo (S k))%nat /\
        ro_neg st1 = signs s (lo (S k)) (S k - lo (S k)) /\ ro_prev st1 = x k /\ ro_same st1 = ro_same st).
      { destruct (Nat.leb_spec w (S k)) as [L|L].
        - eexists. split; [reflexivity|]. unfold ro_leave. rewrite F by lia. destruct (kahan _ _ _) as [t c]. cbn [ro_nobs ro_neg ro_prev ro_same].
          rewrite A, B, C. unfold size, lo. replace (S k - (S k - w))%nat with w by lia. replace (S (S k) - w)%nat with (S (S k - w)) by lia.
          replace (S k - S (S k - w))%nat with (w - 1)%nat by lia. split; [reflexivity|]. split; [|auto].
          assert (SW : signs s (S k - w) w = signs s (S k - w) (S (w - 1))) by (f_equal; lia). rewrite SW, signs_front. destruct (Bsign (x (S k - w)%nat)); lia.
        - exists st. unfold size, lo in *. rewrite A, B. replace (S (S k) - w)%nat with 0%nat by lia. replace (S k - w)%nat with 0%nat by lia. auto. }
      destruct L as (st1 & -> & A1 & B1 & C1 & D1). unfold ro_enter. rewrite F by lia. destruct (kahan _ _ _) as [t c].
      constructor; cbn [ro_nobs ro_neg ro_prev ro_same].
      * rewrite A1. unfold size, lo. lia.
      * unfold size. replace (S (S k) - lo (S k))%nat with (S (S k - lo (S k))) by (unfold lo; lia). cbn [signs]. rewrite B1. replace (lo (S k) + (S k - lo (S k)))%nat with (S k) by (unfold lo; lia). destruct (Bsign _); lia.
      * reflexivity.
      * rewrite D1. destruct (feqb _ _); lia.
      * rewrite C1, D1. destruct (feqb (x (S k)) (x k)) eqn:Q; intros j J.
        -- apply feqb_true in Q; [|apply F; lia|apply F; lia]. destruct j as [|j]; [reflexivity|]. replace (S k - S j)%nat with (k - j)%nat by lia. rewrite Q. apply E. lia.
        -- replace (S k - j)%nat with (S k) by lia. reflexivity.
Qed.
End Counts.

(** ** the sum *)
Section Size.
Variables (w : nat) (s : fseries) (n : nat) (P : R).
Notation x i := (nth i s fnan).
Hypothesis (W : (0 < w)%nat) (P0 : / 10000 <= P) (PW : INR w * P <= 100000000000000000000000) (N : INR n <= 10000000000000).
Hypothesis F : forall i, (i < n)%nat -> is_finite (x i) = true /\ Rabs (RV (x i)) <= P.
Notation g := (fun i => RV (x i)).
Notation lo := (lo w). Notation size := (size w).
Definition M : R := INR w * P * (102 / 100).
Definition drift (k : nat) : R := 12 * INR (S k) * (M * u).
Lemma w_1 : 1 <= INR w. Proof. apply (le_INR 1). exact W. Qed.
Lemma M_range : / 10000 <= M <= 1000000000000000000000000 /\ P <= M /\ INR w * P = M * (100 / 102).
Proof. pose proof w_1. assert (1 * P <= INR w * P) by (apply Rmult_le_compat_r; lra). unfold M. lra. Qed.
Lemma drift_small k : (k < n)%nat -> 0 <= drift k <= M * (14 / 1000).
Proof.
  intro K. pose proof M_range. assert (K1 : INR (S k) <= 10000000000000) by (eapply Rle_trans; [apply le_INR; exact K|exact N]).
  assert (K0 : 0 <= INR (S k)) by apply pos_INR. unfold drift. assert (INR (S k) * (M * u) <= 10000000000000 * (M * u)) by (apply Rmult_le_compat_r; lra). assert (0 <= INR (S k) * (M * u)) by (apply Rmult_le_pos; lra). lra.
Qed.
Lemma part_bound l m : (m <= w)%nat -> (l + m <= n)%nat -> Rabs (rsums g l m) <= M * (100 / 102).
Proof.
  intros H L. pose proof M_range as (_ & _ & E). rewrite <- E. eapply Rle_trans; [apply rsums_bound with (B := P); intros; apply F; lia|]. apply Rmult_le_compat_r; [lra|apply le_INR; exact H].
Qed.
Lemma small_0 : small M f0. Proof. split; [reflexivity|]. change (RV f0) with 0. rewrite Rabs_R0. pose proof M_range. lra. Qed.
Lemma start_sum k : (k < n)%nat -> let st := ro_enter (x k) (ro_fresh (x k)) in ap (ro_sum st) (g k) (6 * M * u) /\ small M (ro_add st) /\ small M (ro_rem st).
Proof.
  intro K. destruct (F k K) as [Fk Bk]. pose proof M_range as (M0 & M1 & _). unfold ro_enter, ro_fresh. rewrite Fk. cbn [ro_sum ro_add ro_rem ro_prev].
  pose proof (kahan_ap M f0 f0 (x k) M0 eq_refl Fk small_0 ltac:(lra)) as X. change (RV f0) with 0 in X. rewrite Rplus_0_l in X. specialize (X ltac:(lra)).
  destruct (kahan f0 f0 (x k)) as [t c]. cbn [fst snd] in X. cbn [ro_sum ro_add ro_rem]. destruct X. split; [assumption|]. split; [assumption|apply small_0].
Qed.
Lemma sum_at k : (k < n)%nat -> let st := ro_at w s k in
  ap (ro_sum st) (rsums g (lo k) (size k)) (drift k) /\ small M (ro_add st) /\ small M (ro_rem st).
Proof.
  pose proof M_range as (M0 & M1 & M2).
  induction k as [|k IH]; intro K.
  - cbn [ro_at]. pose proof (start_sum 0 K) as X. cbv zeta in *. destruct X as (A & B & C). split; [|auto]. unfold size, lo. replace (1 - w)%nat with 0%nat by lia. cbn [Nat.sub rsums Nat.add]. rewrite Rplus_0_l.
    eapply ap_weaken; [exact A|]. unfold drift. cbn [INR]. lra.
  - cbn [ro_at]. destruct (Nat.leb_spec w 1) as [W1|W1].
    + pose proof (start_sum (S k) K) as X. cbv zeta in *. destruct X as (A & B & C). split; [|auto]. unfold size, lo. replace (S (S k) - (S (S k) - w))%nat with 1%nat by lia. replace (S (S k) - w)%nat with (S k) by lia. cbn [rsums]. rewrite Nat.add_0_r, Rplus_0_l.
      eapply ap_weaken; [exact A|]. unfold drift. pose proof (pos_INR (S k)). rewrite (S_INR (S k)). assert (0 <= INR (S k) * (M * u)) by (apply Rmult_le_pos; lra). lra.
    + specialize (IH ltac:(lia)). cbv zeta in IH. destruct IH as (A & B & C). set (st := ro_at w s k) in *. pose proof (drift_small k ltac:(lia)) as D. pose proof (drift_small (S k) K) as D'.
      assert (L : exists st1, (if w <=? S k then ro_leave (x (S k - w)%nat) st else st) = st1 /\
        ap (ro_sum st1) (rsums g (lo (S k)) (S k - lo (S k))) (drift k + 6 * M * u) /\ small M (ro_add st1) /\ small M (ro_rem st1)).
      { destruct (Nat.leb_spec w (S k)) as [L|L].
        - eexists. split; [reflexivity|]. unfold ro_leave. destruct (F (S k - w)%nat ltac:(lia)) as [Fo Bo]. rewrite Fo. destruct (fneg_val _ Fo) as [Fn Vn].
          assert (E : rsums g (lo k) (size k) = g (S k - w)%nat + rsums g (lo (S k)) (S k - lo (S k))).
          { unfold size, lo. replace (S k - (S k - w))%nat with (S (w - 1)) by lia. rewrite rsums_front. replace (S (S k) - w)%nat with (S (S k - w)) by lia. replace (S k - S (S k - w))%nat with (w - 1)%nat by lia. reflexivity. }
          pose proof (part_bound (lo (S k)) (S k - lo (S k)) ltac:(unfold lo; lia) ltac:(unfold lo; lia)) as PB.
          destruct A as [Fs Hs]. rewrite E in Hs. set (r := rsums g (lo (S k)) (S k - lo (S k))) in *. cbv beta in Hs.
          apply Rabs_le_inv in Hs as Hs', PB as PB', Bo as Bo'.
          pose proof (kahan_ap M (ro_sum st) (ro_rem st) (fneg (x (S k - w)%nat)) M0 Fs Fn C) as X. rewrite Vn, Rabs_Ropp in X. specialize (X ltac:(lra)).
          assert (X1 : Rabs (RV (ro_sum st) + - RV (x (S k - w)%nat)) <= M) by (apply Rabs_le; lra). specialize (X X1).
          destruct (kahan _ _ _) as [t c]. cbn [fst snd] in X. cbn [ro_sum ro_add ro_rem]. destruct X as [[Ft Ht] Sc]. split; [|auto]. split; [exact Ft|]. apply Rabs_le_inv in Ht. apply Rabs_le. lra.
        - exists st. split; [reflexivity|]. split; [|auto]. unfold size, lo in A |- *. replace (S (S k) - w)%nat with 0%nat by lia. replace (S k - w)%nat with 0%nat in A by lia. eapply ap_weaken; [exact A|lra]. }
      destruct L as (st1 & -> & A1 & B1 & C1). destruct (F (S k) K) as [Fx Bx]. unfold ro_enter. rewrite Fx.
      assert (E : rsums g (lo (S k)) (size (S k)) = rsums g (lo (S k)) (S k - lo (S k)) + g (S k)).
      { unfold size. replace (S (S k) - lo (S k))%nat with (S (S k - lo (S k))) by (unfold lo; lia). cbn [rsums]. replace (lo (S k) + (S k - lo (S k)))%nat with (S k) by (unfold lo; lia). reflexivity. }
      pose proof (part_bound (lo (S k)) (size (S k)) ltac:(unfold size, lo; lia) ltac:(unfold size, lo; lia)) as PB. rewrite E in PB |- *. set (r := rsums g (lo (S k)) (S k - lo (S k))) in *. cbv beta in PB.
      destruct A1 as [Fs Hs]. apply Rabs_le_inv in Hs as Hs', PB as PB'.
      assert (DD : drift (S k) = drift k + 12 * (M * u)) by (unfold drift; rewrite (S_INR (S k)); ring).
      pose proof (kahan_ap M (ro_sum st1) (ro_add st1) (x (S k)) M0 Fs Fx B1 ltac:(lra)) as X.
      assert (X1 : Rabs (RV (ro_sum st1) + RV (x (S k))) <= M) by (apply Rabs_le; lra). specialize (X X1).
      destruct (kahan _ _ _) as [t c]. cbn [fst snd] in X. cbn [ro_sum ro_add ro_rem]. destruct X as [[Ft Ht] Sc]. split; [|auto]. split; [exact Ft|]. apply Rabs_le_inv in Ht. apply Rabs_le. lra.
Qed.

(** ** the published mean and sum of a full window *)
Variable k : nat.
Hypothesis (K : (k < n)%nat) (KW : (w <= S k)%nat).
Lemma full : size k = w. Proof. unfold size, lo. lia. Qed.
Lemma fin_all i : (i < n)%nat -> is_finite (x i) = true. Proof. intro I. apply F, I. Qed.
Lemma w_const : is_finite (fz (Z.of_nat w) 0) = true /\ RV (fz (Z.of_nat w) 0) = INR w.
Proof.
  assert (B : (Z.of_nat w < 2 ^ 53)%Z).
  { apply lt_IZR. rewrite <- INR_IZR_INZ. apply Rle_lt_trans with (INR n); [apply le_INR; lia|]. eapply Rle_lt_trans; [exact N|]. change (IZR (2 ^ 53)) with 9007199254740992. lra. }
  destruct (fz_val (Z.of_nat w)) as [G V]; [lia|]. split; [exact G|]. rewrite V, <- INR_IZR_INZ. reflexivity.
Qed.
Lemma run_equal : (w <= ro_same (ro_at w s k))%nat -> rsums g (lo k) w = INR w * RV (x k).
Proof.
  intro H. destruct (counted_at w s n W fin_all k K) as [A B C D E]. apply rsums_const. intros i I. unfold lo in I. replace i with (k - (k - i))%nat by lia. cbv beta. apply E. lia.
Qed.
Definition spread : R := 125 / 10 * INR (S k) * (P * u).
Lemma roll_total_ap : ap (ro_total w (ro_at w s k)) (rsums g (lo k) w) (INR w * spread) /\ Rabs (rsums g (lo k) w) <= INR w * P.
Proof.
  destruct (sum_at k K) as (A & _). pose proof (counted_at w s n W fin_all k K) as CN. pose proof (cn_nobs _ _ _ _ CN) as CO. pose proof full as FU. rewrite FU in *. pose proof M_range as (M0 & M1 & M2).
  pose proof (part_bound (lo k) w (le_n w) ltac:(unfold lo; lia)) as PB. rewrite <- M2 in PB. split; [|exact PB].
  pose proof w_1 as W1. assert (K1 : 1 <= INR (S k)) by (apply (le_INR 1); lia). assert (WP : 0 < INR w * P) by (apply Rmult_lt_0_compat; lra).
  assert (KP : 1 * (INR w * P) <= INR (S k) * (INR w * P)) by (apply Rmult_le_compat_r; lra).
  assert (SP : INR w * spread = 125 / 10 * (INR (S k) * (INR w * P)) * u) by (unfold spread; ring). 
  assert (DR : drift k = 1224 / 100 * (INR (S k) * (INR w * P)) * u) by (unfold drift, M; field).
  unfold ro_total. rewrite CO. destruct (Nat.eqb_spec w 0); [lia|]. cbn [andb]. destruct (Nat.leb_spec w w); [|lia].
  destruct (Nat.leb_spec w (ro_same (ro_at w s k))) as [L|L].
  - rewrite (run_equal L), (cn_prev _ _ _ _ CN). destruct w_const as [Fw Vw]. destruct (F k K) as [Fk Bk].
    replace (INR w * RV (x k)) with (RV (x k) * RV (fz (Z.of_nat w) 0)) by (rewrite Vw; ring).
    apply (comes_ap (RV (x k) * RV (fz (Z.of_nat w) 0)) _ _ 0 (INR w * P)).
    + apply fmul_comes; assumption.
    + rewrite Rminus_eq_0, Rabs_R0. lra.
    + rewrite Vw, Rabs_mult, (Rabs_pos_eq (INR w)) by lra. rewrite Rmult_comm. apply Rmult_le_compat_l; lra.
    + lra.
    + rewrite SP. assert (/ 10000 <= INR w * P) by (assert (1 * P <= INR w * P) by (apply Rmult_le_compat_r; lra); lra). lra.
  - eapply ap_weaken; [exact A|]. rewrite SP, DR. lra.
Qed.
Lemma roll_mean_ap : ap (ro_mean w (ro_at w s k)) (rsums g (lo k) w / INR w) (spread + 2 * P * u) /\ Rabs (rsums g (lo k) w / INR w) <= P.
Proof.
  destruct (sum_at k K) as (A & _). pose proof (counted_at w s n W fin_all k K) as CN. pose proof (cn_nobs _ _ _ _ CN) as CO. pose proof (cn_neg _ _ _ _ CN) as CG. pose proof full as FU. rewrite FU in *. pose proof M_range as (M0 & M1 & M2).
  pose proof (part_bound (lo k) w (le_n w) ltac:(unfold lo; lia)) as PB. rewrite <- M2 in PB. pose proof w_1 as W1.
  assert (K1 : 1 <= INR (S k)) by (apply (le_INR 1); lia). assert (WP : 0 < INR w * P) by (apply Rmult_lt_0_compat; lra).
  set (r := rsums g (lo k) w) in *.
  assert (RW : Rabs (r / INR w) <= P).
  { unfold Rdiv. rewrite Rabs_mult, Rabs_inv, (Rabs_pos_eq (INR w)) by lra. apply Rmult_le_reg_r with (INR w); [lra|]. rewrite Rmult_assoc, Rinv_l by lra. lra. }
  split; [|exact RW]. destruct w_const as [Fw Vw].
  assert (SK : 0 <= spread) by (unfold spread; apply Rmult_le_pos; [lra|]; apply Rmult_le_pos; lra).
  unfold ro_mean. rewrite CO. destruct (Nat.leb_spec w w); [|lia]. destruct (Nat.ltb_spec 0 w); [|lia]. cbn [andb].
  set (q := fdiv (ro_sum (ro_at w s k)) (fz (Z.of_nat w) 0)).
  assert (Q : ap q (r / INR w) (spread + 2 * P * u)).
  { assert (DW : drift k / INR w = 1224 / 100 * INR (S k) * (P * u)) by (unfold drift, M; field; lra).
    assert (DS : 0 <= drift k / INR w <= P * (15 / 1000)).
    { pose proof (drift_small k K) as [D1 D2]. replace (P * (15 / 1000)) with (INR w * P * (15 / 1000) / INR w) by (field; lra). unfold Rdiv at 1 4. split; [apply Rmult_le_pos; [exact D1|apply Rlt_le, Rinv_0_lt_compat; lra]|]. apply Rmult_le_compat_r; [apply Rlt_le, Rinv_0_lt_compat; lra|]. rewrite M2. lra. }
    assert (KP : 0 <= INR (S k) * (P * u)) by (apply Rmult_le_pos; lra).
    assert (RR : Rabs r / INR w <= P) by (unfold Rdiv in RW; rewrite Rabs_mult, Rabs_inv, (Rabs_pos_eq (INR w)) in RW by lra; exact RW).
    apply (ap_divc _ _ _ _ _ (P * (102 / 100)) _ Fw Vw ltac:(lra) A).
    - lra.
    - assert (1 * P <= INR w * P) by (apply Rmult_le_compat_r; lra). lra.
    - rewrite DW. unfold spread. lra. }
  destruct (Nat.leb_spec w (ro_same (ro_at w s k))) as [L|L].
  { rewrite (cn_prev _ _ _ _ CN). destruct (F k K) as [Fk Bk]. split; [exact Fk|]. unfold r. rewrite (run_equal L). replace (INR w * RV (x k) / INR w) with (RV (x k)) by (field; lra). rewrite Rminus_eq_0, Rabs_R0. lra. }
  pose proof Q as [Fq Hq]. apply Rabs_le_inv in Hq as Hq'.
  rewrite CG. destruct (Nat.eqb_spec (signs s (lo k) w) 0) as [Z|Z]; cbn [andb].
  { destruct (fltb q f0) eqn:E.
    - rewrite fltb_fin in E by (auto; reflexivity). change (RV f0) with 0 in E. revert E. case Rlt_bool_spec; [intros E _|discriminate].
      assert (R0 : 0 <= r). { apply rsums_pos. intros i I. apply sign_false; [apply F; unfold lo in I; lia|]. apply (signs_none s (lo k) w Z). exact I. }
      assert (R1 : 0 <= r / INR w) by (apply Rmult_le_pos; [exact R0|apply Rlt_le, Rinv_0_lt_compat; lra]).
      split; [reflexivity|]. change (RV f0) with 0. apply Rabs_le. lra.
    - destruct (Nat.eqb_spec (signs s (lo k) w) w); [lia|]. exact Q. }
  destruct (Nat.eqb_spec (signs s (lo k) w) w) as [Z'|Z']; cbn [andb]; [|exact Q].
  destruct (fltb f0 q) eqn:E; [|exact Q].
  rewrite fltb_fin in E by (auto; reflexivity). change (RV f0) with 0 in E. revert E. case Rlt_bool_spec; [intros E _|discriminate].
  assert (R0 : r <= 0). { apply rsums_neg. intros i I. apply sign_true; [apply F; unfold lo in I; lia|]. apply (signs_all s (lo k) w Z'). exact I. }
  assert (R1 : r / INR w <= 0). { assert (0 < / INR w) by (apply Rinv_0_lt_compat; lra). unfold Rdiv. assert (0 <= - r * / INR w) by (apply Rmult_le_pos; lra). lra. }
  split; [reflexivity|]. change (RV f0) with 0. apply Rabs_le. lra.
Qed.
End Size.

(** * FloatEwmAcc: rounding errors of the recursive averages do not add up. *)
From Coq Require Import ZArith Reals Bool List PeanoNat Lia Lra Psatz.
From Flocq Require Import Core Relative IEEE754.BinarySingleNaN.
From Verif Require Import Pandas SeriesFacts FloatSim FloatFacts FloatInd FloatOrd FloatDec FloatRange FloatSpec FloatAcc FloatAcc2 FloatEwm.
Import ListNotations.
Open Scope R_scope.

Lemma mul_ap x y r s e d S B f : ap x r e -> ap y s d -> Rabs s + d <= S -> (Rabs r + e) * S <= B -> B <= 1267650600228229401496703205376 ->
  Rabs r * d + e * S + B / 9007199254740992 + / 1267650600228229401496703205376 <= f -> ap (fmul x y) (r * s) f.
Proof.
  intros X Y HS HB M D. pose proof X as [Fx Hx]. pose proof Y as [Fy Hy].
  assert (BY : Rabs (RV y) <= S) by (apply (ap_bound _ _ _ _ Y); exact HS).
  assert (BX : Rabs (RV x) <= Rabs r + e) by (apply (ap_bound _ _ _ _ X); lra).
  apply (comes_ap (RV x * RV y) _ _ (Rabs r * d + e * S) B); auto using fmul_comes.
  - replace (RV x * RV y - r * s) with (r * (RV y - s) + (RV x - r) * RV y) by ring. eapply Rle_trans; [apply Rabs_triang|]. rewrite !Rabs_mult.
    apply Rplus_le_compat; [apply Rmult_le_compat_l; [apply Rabs_pos|exact Hy]|apply Rmult_le_compat; auto using Rabs_pos].
  - rewrite Rabs_mult. eapply Rle_trans; [|exact HB]. apply Rmult_le_compat; auto using Rabs_pos.
Qed.
Lemma ap_exact x r : is_finite x = true -> RV x = r -> ap x r 0.
Proof. intros F V. split; [exact F|]. rewrite V, Rminus_eq_0, Rabs_R0. lra. Qed.
Lemma ap_const z : (Z.abs z < 2 ^ 53)%Z -> ap (fz z 0) (IZR z) 0.
Proof. intro Z0. destruct (fz_val z) as [F V]; [lia|]. apply ap_exact; auto. Qed.

(** the weight of a new price *)
Definition weight (p : nat) : R := 2 / (INR p + 1).
Lemma weight_range p : (0 < p)%nat -> 0 < weight p <= 1 /\ weight p * (INR p + 1) = 2 /\ 1 <= INR p.
Proof.
  intro P. assert (P1 : 1 <= INR p) by (apply (le_INR 1); exact P). unfold weight. split; [|split; [field; lra|exact P1]].
  split; [apply Rdiv_lt_0_compat; lra|]. apply Rmult_le_reg_r with (INR p + 1); [lra|]. unfold Rdiv. rewrite Rmult_assoc, Rinv_l by lra. lra.
Qed.
Lemma alpha_ap p : (0 < p)%nat -> (Z.of_nat p < 2 ^ 45)%Z -> ap (falpha p) (weight p) (4 / 9007199254740992).
Proof.
  intros P B. destruct (weight_range p P) as ([W1 W2] & W3 & P1).
  assert (P2 : INR p <= 35184372088832) by (rewrite INR_IZR_INZ; apply (IZR_le _ (2 ^ 45)); lia).
  assert (Z1 : IZR (Z.of_nat p - 1) = INR p - 1) by (rewrite minus_IZR, <- INR_IZR_INZ; reflexivity).
  pose proof (ap_const (Z.of_nat p - 1) ltac:(lia)) as X. rewrite Z1 in X.
  destruct (fz_val 2 ltac:(lia)) as [F2 V2]. destruct (fz_val 1 ltac:(lia)) as [F1 V1]. unfold falpha, fone, ftwo in *.
  set (N := INR p) in *. assert (A1 : Rabs (N - 1) = N - 1) by (apply Rabs_pos_eq; lra).
  assert (Y : ap (fdiv (fz (Z.of_nat p - 1) 0) (fz 2 0)) ((N - 1) / 2) (N / 2 / 9007199254740992)).
  { apply (ap_divc _ _ _ _ _ ((N - 1) / 2) _ F2 V2 ltac:(lra) X); rewrite ?A1; lra. }
  assert (Z : ap (fadd (fz 1 0) (fdiv (fz (Z.of_nat p - 1) 0) (fz 2 0))) ((N + 1) / 2) ((N + 1) / 9007199254740992)).
  { replace ((N + 1) / 2) with (1 + (N - 1) / 2) by field.
    apply (ap_add _ _ _ _ _ _ ((N + 1) * (/ 2 + / 9007199254740992)) _ (ap_exact _ _ F1 V1) Y); try lra. rewrite Rabs_pos_eq; lra. }
  apply (ap_quot _ _ (weight p) ((N + 1) / 2) 0 ((N + 1) / 9007199254740992) (201 / 100 / 9007199254740992) ((N + 1) / 2 - (N + 1) / 9007199254740992) (11 / 10)).
  - replace (weight p * ((N + 1) / 2)) with 1 by (apply Rmult_eq_reg_r with 2; lra). apply ap_exact; auto.
  - exact Z.
  - lra.
  - rewrite Rabs_pos_eq by lra. replace (0 + weight p * ((N + 1) / 9007199254740992)) with (weight p * (N + 1) / 9007199254740992) by field. rewrite W3. lra.
  - rewrite Rabs_pos_eq by lra. lra.
  - lra.
  - lra.
Qed.

Section Line.
Variables (p : nat) (M : R).
Hypothesis (P : (0 < p)%nat) (PB : (Z.of_nat p < 2 ^ 45)%Z) (M0 : / 10000 <= M <= 1000000000).
Notation a := (weight p).
Notation u := (/ 9007199254740992).
Lemma rest_ap : ap (fmul fone (fsub fone (falpha p))) (1 - a) (7 * u).
Proof.
  destruct (weight_range p P) as ([W1 W2] & W3 & _). pose proof (alpha_ap p P PB) as A. destruct (fz_val 1 ltac:(lia)) as [F1 V1]. fold fone in F1, V1.
  assert (X : ap (fsub fone (falpha p)) (1 - a) (52 / 10 * u)).
  { apply (ap_sub _ _ _ _ _ _ (11 / 10) _ (ap_exact _ _ F1 V1) A); try lra. rewrite Rabs_pos_eq; lra. }
  replace (1 - a) with (1 * (1 - a)) by ring. assert (V : Rabs 1 = 1) by (apply Rabs_pos_eq; lra).
  apply (ap_mul _ _ _ _ _ (11 / 10) _ F1 V1 X); rewrite ?V, ?(Rabs_pos_eq (1 - a)); lra.
Qed.
Lemma move_ap w x r y e d : ap w r e -> ap x y d -> Rabs r <= M -> Rabs y <= M -> e <= M / 50 -> d <= M / 50 ->
  ap (fmove (falpha p) (fmul fone (fsub fone (falpha p))) w x) ((1 - a) * r + a * y) ((1 - a) * e + a * d + 29 * M * u).
Proof.
  intros Hw Hx Br By Be Bd. destruct (weight_range p P) as ([W1 W2] & _ & _). pose proof (alpha_ap p P PB) as A. pose proof rest_ap as R.
  assert (E0 : 0 <= e) by (destruct Hw as [_ H]; pose proof (Rabs_pos (RV w - r)); lra).
  assert (D0 : 0 <= d) by (destruct Hx as [_ H]; pose proof (Rabs_pos (RV x - y)); lra).
  assert (E1 : 0 <= (1 - a) * e <= e) by (split; [apply Rmult_le_pos; lra|rewrite <- (Rmult_1_l e) at 2; apply Rmult_le_compat_r; lra]).
  assert (D1 : 0 <= a * d <= d) by (split; [apply Rmult_le_pos; lra|rewrite <- (Rmult_1_l d) at 2; apply Rmult_le_compat_r; lra]).
  assert (V : Rabs ((1 - a) * r + a * y) <= M).
  { eapply Rle_trans; [apply Rabs_triang|]. rewrite !Rabs_mult, (Rabs_pos_eq a), (Rabs_pos_eq (1 - a)) by lra.
    assert ((1 - a) * Rabs r <= (1 - a) * M) by (apply Rmult_le_compat_l; lra). assert (a * Rabs y <= a * M) by (apply Rmult_le_compat_l; lra). lra. }
  unfold fmove. destruct (feqb w x) eqn:Q.
  - destruct Hw as [Fw Hw], Hx as [Fx Hx]. unfold feqb in Q. rewrite Beqb_correct in Q by assumption. apply Req_bool_true_iff in Q || (revert Q; case Req_bool_spec; [intros Q _|discriminate]).
    split; [exact Fw|]. change (B2R w) with (RV w) in Q. change (B2R x) with (RV x) in Q.
    replace (RV w - ((1 - a) * r + a * y)) with ((1 - a) * (RV w - r) + a * (RV x - y)) by (rewrite <- Q; ring).
    eapply Rle_trans; [apply Rabs_triang|]. rewrite !Rabs_mult, (Rabs_pos_eq a), (Rabs_pos_eq (1 - a)) by lra.
    assert ((1 - a) * Rabs (RV w - r) <= (1 - a) * e) by (apply Rmult_le_compat_l; lra). assert (a * Rabs (RV x - y) <= a * d) by (apply Rmult_le_compat_l; lra). lra.
  - assert (X1 : ap (fmul (fmul fone (fsub fone (falpha p))) w) ((1 - a) * r) ((1 - a) * e + 83 / 10 * M * u)).
    { apply (mul_ap _ _ _ _ _ _ (M * (51 / 50)) (M * (52 / 50)) _ R Hw); rewrite ?(Rabs_pos_eq (1 - a)) by lra; try lra.
      assert ((1 - a + 7 * u) * (M * (51 / 50)) <= (1 + 7 * u) * (M * (51 / 50))) by (apply Rmult_le_compat_r; lra). lra. }
    assert (X2 : ap (fmul (falpha p) x) (a * y) (a * d + 52 / 10 * M * u)).
    { apply (mul_ap _ _ _ _ _ _ (M * (51 / 50)) (M * (52 / 50)) _ A Hx); rewrite ?(Rabs_pos_eq a) by lra; try lra.
      assert ((a + 4 * u) * (M * (51 / 50)) <= (1 + 4 * u) * (M * (51 / 50))) by (apply Rmult_le_compat_r; lra). lra. }
    pose proof (ap_add _ _ _ _ _ _ (M * (11 / 10)) ((1 - a) * e + a * d + 147 / 10 * M * u) X1 X2 ltac:(lra) ltac:(lra) ltac:(lra)) as X3.
    assert (X4 : ap (fadd (fmul fone (fsub fone (falpha p))) (falpha p)) 1 (121 / 10 * u)).
    { replace 1 with (1 - a + a) by ring. apply (ap_add _ _ _ _ _ _ (101 / 100) _ R A); try lra. replace (1 - a + a) with 1 by ring. rewrite Rabs_R1. lra. }
    set (v := (1 - a) * r + a * y) in *. set (z := (1 - a) * e + a * d) in *.
    assert (Z1 : 0 <= z <= M / 25) by (unfold z; lra).
    apply (ap_quot _ _ v 1 (z + 147 / 10 * M * u) (121 / 10 * u) (z + 274 / 10 * M * u) (1 - 121 / 10 * u) (M * (11 / 10))); try lra.
    + rewrite Rmult_1_r. exact X3.
    + exact X4.
Qed.

(** the exact line *)
Fixpoint line (r : R) (g : nat -> R) (n : nat) : R := match n with O => r | S m => a * g m + (1 - a) * line r g m end.
Lemma line_shift r g n : line (a * g O + (1 - a) * r) (fun i => g (S i)) n = line r g (S n).
Proof. induction n as [|n IH]; [reflexivity|]. cbn [line]. rewrite IH. reflexivity. Qed.
Lemma between_M r y : Rabs r <= M -> Rabs y <= M -> Rabs ((1 - a) * r + a * y) <= M.
Proof.
  intros Br By. destruct (weight_range p P) as ([W1 W2] & _ & _).
  eapply Rle_trans; [apply Rabs_triang|]. rewrite !Rabs_mult, (Rabs_pos_eq a), (Rabs_pos_eq (1 - a)) by lra.
  assert ((1 - a) * Rabs r <= (1 - a) * M) by (apply Rmult_le_compat_l; lra). assert (a * Rabs y <= a * M) by (apply Rmult_le_compat_l; lra). lra.
Qed.
Lemma line_M r g n : Rabs r <= M -> (forall i, (i < n)%nat -> Rabs (g i) <= M) -> Rabs (line r g n) <= M.
Proof.
  intro Br. induction n as [|n IH]; intro G; [exact Br|]. cbn [line]. rewrite Rplus_comm. apply between_M; [apply IH; intros; apply G; lia|apply G; lia].
Qed.
Variables (d e : R) (m : nat).
Hypothesis (De : d <= e <= M / 50) (St : (1 - a) * e + a * d + 29 * M * u <= e).
Lemma fin_not_nan (x : f64) : is_finite x = true -> is_nan x = false. Proof. destruct x; cbn; congruence. Qed.
Lemma run_ap k : forall s w nobs r g, ap w r e -> Rabs r <= M ->
  (forall i, (i <= k)%nat -> ap (nth i s fnan) (g i) d /\ Rabs (g i) <= M) ->
  let y := nth k (fewm_from (falpha p) m w fone nobs s) fnan in
  if m <=? nobs + S k then ap y (line r g (S k)) e else y = fnan.
Proof.
  induction k as [|k IH]; intros s w nobs r g Aw Br G.
  - destruct (G O ltac:(lia)) as [[F0 H0] B0]. destruct s as [|x s]; [discriminate|]. cbn [nth] in F0, H0.
    cbv zeta. cbn [fewm_from nth]. rewrite (fin_not_nan w), F0 by apply Aw. replace (nobs + 1)%nat with (S nobs) by lia.
    destruct (m <=? S nobs); [|reflexivity]. cbn [line]. rewrite Rplus_comm. eapply ap_weaken; [apply (move_ap w x r (g O) e d)|]; auto; try lra. split; auto.
  - destruct (G O ltac:(lia)) as [[F0 H0] B0]. destruct s as [|x s]; [discriminate|]. cbn [nth] in F0, H0.
    cbv zeta. cbn [fewm_from nth]. rewrite (fin_not_nan w), F0 by apply Aw.
    assert (A' : ap (fmove (falpha p) (fmul fone (fsub fone (falpha p))) w x) (a * g O + (1 - a) * r) e).
    { rewrite Rplus_comm. eapply ap_weaken; [apply (move_ap w x r (g O) e d)|]; auto; try lra. split; auto. }
    replace (nobs + S (S k))%nat with (S nobs + S k)%nat by lia. rewrite <- line_shift. apply IH.
    + exact A'.
    + rewrite Rplus_comm. apply between_M; auto.
    + intros i I. exact (G (S i) ltac:(lia)).
Qed.
(** cells before [b] missing *)
Lemma lead b : forall s k, (b <= length s)%nat -> (forall i, (i < b)%nat -> is_finite (nth i s fnan) = false) ->
  ((k < b)%nat -> nth k (fewm_from (falpha p) m fnan fone 0 s) fnan = fnan) /\
  nth (b + k) (fewm_from (falpha p) m fnan fone 0 s) fnan = nth k (fewm_from (falpha p) m fnan fone 0 (skipn b s)) fnan.
Proof.
  induction b as [|b IH]; intros s k L N; [split; [lia|reflexivity]|]. destruct s as [|x s]; [cbn in L; lia|].
  pose proof (N O ltac:(lia)) as N0. cbn [nth] in N0. cbn [fewm_from skipn Nat.add nth]. rewrite N0. cbn [is_nan fnan].
  specialize (IH s). split.
  - intro K. destruct k as [|k]; [destruct (m <=? 0); reflexivity|]. cbn [nth]. apply IH; [cbn in L; lia| |lia]. intros i I. exact (N (S i) ltac:(lia)).
  - apply IH; [cbn in L; lia|]. intros i I. exact (N (S i) ltac:(lia)).
Qed.
Definition rema (b : nat) (g : nat -> R) (k : nat) : R := line (g b) (fun i => g (S b + i)%nat) (k - b).
Lemma ewm_ap b s g n : (b <= length s)%nat -> (0 < m)%nat -> (forall i, (i < b)%nat -> is_finite (nth i s fnan) = false) ->
  (forall i, (b <= i < n)%nat -> ap (nth i s fnan) (g i) d /\ Rabs (g i) <= M) -> forall k, (k < n)%nat ->
  let y := nth k (fewm_from (falpha p) m fnan fone 0 s) fnan in
  if (k <? b + (m - 1))%nat then y = fnan else ap y (rema b g k) e /\ Rabs (rema b g k) <= M.
Proof.
  intros L M1 N G k K. cbv zeta.
  destruct (Nat.lt_ge_cases k b) as [KB|KB].
  { destruct (Nat.ltb_spec k (b + (m - 1))); [|lia]. apply (lead b s k L N); exact KB. }
  assert (KE : nth k (fewm_from (falpha p) m fnan fone 0 s) fnan = nth (k - b) (fewm_from (falpha p) m fnan fone 0 (skipn b s)) fnan).
  { rewrite <- (proj2 (lead b s (k - b) L N)). f_equal. lia. }
  rewrite KE.
  assert (SK : forall i, nth i (skipn b s) fnan = nth (b + i) s fnan) by (intro i; apply nth_skipn).
  destruct (G b ltac:(lia)) as [A0 B0]. destruct (skipn b s) as [|x s'] eqn:E.
  { specialize (SK O). rewrite Nat.add_0_r in SK. rewrite <- SK in A0. destruct A0; discriminate. }
  assert (X : x = nth b s fnan) by (specialize (SK O); rewrite Nat.add_0_r in SK; exact SK). rewrite <- X in A0.
  cbn [fewm_from is_nan fnan]. rewrite (ap_fin _ _ _ A0). unfold rema.
  assert (A1 : ap x (g b) e) by (eapply ap_weaken; [exact A0|lra]).
  destruct (k - b)%nat as [|j] eqn:J.
  - cbn [nth line]. destruct (Nat.leb_spec m 1); destruct (Nat.ltb_spec k (b + (m - 1))); try lia; auto.
  - cbn [nth]. assert (GG : forall i, (i <= j)%nat -> ap (nth i s' fnan) (g (S b + i)%nat) d /\ Rabs (g (S b + i)%nat) <= M).
    { intros i I. replace (nth i s' fnan) with (nth (S b + i) s fnan); [apply G; lia|]. specialize (SK (S i)). cbn [nth] in SK. rewrite SK. f_equal. lia. }
    pose proof (run_ap j s' x 1 (g b) (fun i => g (S b + i)%nat) A1 B0 GG) as R. cbv zeta in R.
    destruct (Nat.leb_spec m (1 + S j)); destruct (Nat.ltb_spec k (b + (m - 1))); try lia; [|exact R]. split; [exact R|].
    apply line_M; [exact B0|]. intros i I. apply GG. lia.
Qed.
End Line.

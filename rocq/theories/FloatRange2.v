(** * FloatRange2: more ranges of the indicators in binary64. *)
From Coq Require Import ZArith Reals Bool List PeanoNat Permutation Lia Lra Psatz.
From Flocq Require Import Core Relative Plus_error Mult_error IEEE754.BinarySingleNaN.
From Verif Require Import Pandas Sim FloatSim FloatFacts FloatInd FloatOrd FloatDec FloatRange.
Import ListNotations.
Open Scope list_scope.

(** ** the relative strength index *)
Lemma not_neg_fle x : is_nan x = false -> not_neg x -> fle f0 x.
Proof. intros N H. apply not_lt_fle; auto. Qed.
Lemma fle_not_neg x : fle f0 x -> not_neg x.
Proof. apply fle_not_lt. Qed.
Lemma nan_or (x : f64) : x = fnan \/ is_nan x = false.
Proof. destruct x; auto. Qed.
Lemma fround4_not_neg x : not_neg x -> not_neg (fround4 x).
Proof.
  intro H. destruct (nan_or x) as [->|N]; [reflexivity|]. apply fle_not_neg. eapply fle_trans; [|apply fround4_mono; apply not_neg_fle; eauto]. vm_compute; reflexivity.
Qed.
Lemma fgain_not_neg c1 c0 : not_neg (fgain c1 c0).
Proof.
  apply fround4_not_neg. destruct (fltb c0 c1) eqn:L; [|reflexivity].
  destruct (is_finite c0) eqn:F0; [destruct (is_finite c1) eqn:F1|].
  - rewrite fltb_fin in L by auto. revert L. case Rlt_bool_spec; [intros L _|discriminate].
    apply fle_not_neg. apply (fun H => comes_ge f0 _ _ eq_refl H (fsub_comes c1 c0 F1 F0)). change (RV f0) with 0%R. lra.
  - destruct c1 as [|[]| |]; try discriminate; destruct c0 as [|[]| |[]]; try discriminate; reflexivity.
  - destruct c0 as [|[]| |]; try discriminate; destruct c1 as [|[]| |[]]; try discriminate; reflexivity.
Qed.
Lemma fdiv_not_neg x n : not_neg x -> is_finite n = true -> (0 < RV n)%R -> not_neg (fdiv x n).
Proof.
  intros H F P. destruct (is_finite x) eqn:Fx.
  - apply fle_not_neg. apply (fun H => comes_ge f0 _ _ eq_refl H (fdiv_comes x n Fx F ltac:(lra))). change (RV f0) with 0%R.
    apply not_neg_fin in H; auto. apply Rmult_le_pos; auto. apply Rlt_le, Rinv_0_lt_compat; auto.
  - assert (S : Bsign n = false) by (destruct (Bsign n) eqn:S; auto; apply sign_true in S; auto; lra).
    destruct x as [|[]| |]; try discriminate; try reflexivity. destruct n as [| | |[]]; try discriminate; try reflexivity; simpl in P; lra.
Qed.
Lemma fwilder_not_neg p prev x : (0 < p)%nat -> (Z.of_nat p < 2 ^ 53)%Z -> not_neg prev -> not_neg x -> not_neg (fwilder p prev x).
Proof.
  intros P0 P1 H1 H2. unfold fwilder. apply fround4_not_neg. set (n := fz (Z.of_nat p) 0).
  destruct (fz_val (Z.of_nat p)) as [Fn Vn]; [lia|]. fold n in Fn, Vn. assert (N1 : (1 <= RV n)%R) by (rewrite Vn; apply IZR_le; lia).
  assert (Sn : Bsign n = false) by (destruct (Bsign n) eqn:S; auto; apply sign_true in S; auto; lra).
  destruct (is_finite prev) eqn:Fp; [destruct (is_finite x) eqn:Fx|].
  - apply not_neg_fin in H1; auto. apply not_neg_fin in H2; auto.
    pose proof (fsub_comes x prev Fx Fp) as C.
    set (neg := Bopp prev).
    assert (Fo : is_finite neg = true) by (unfold neg; rewrite is_finite_Bopp; exact Fp). assert (Vo : RV neg = (- RV prev)%R) by (apply B2R_Bopp).
    edestruct (fun H => comes_fin neg x _ _ Fo Fx H C) as (G1 & G2 & G3); [rewrite Vo; lra|].
    pose proof (fdiv_comes _ n G1 Fn ltac:(lra)) as C2.
    assert (K : fle neg (fdiv (fsub x prev) n)).
    { apply (fun H => comes_ge neg _ _ Fo H C2). rewrite Vo. apply Rmult_le_reg_r with (RV n); [lra|]. unfold Rdiv. rewrite Rmult_assoc, Rinv_l by lra. nra. }
    apply fle_not_neg. destruct (is_finite (fdiv (fsub x prev) n)) eqn:Fd.
    + apply (fun H => comes_ge f0 _ _ eq_refl H (fadd_comes prev _ Fp Fd)). apply fle_fin in K; auto. rewrite Vo in K. change (RV f0) with 0%R. lra.
    + destruct (fdiv (fsub x prev) n) as [|[]| |]; try discriminate.
      * apply fle_to_ninf in K. rewrite K in Fo. discriminate.
      * destruct prev as [|[]| |[]]; try discriminate; reflexivity.
      * apply comes_nan in C2. discriminate.
  - destruct x as [|[]| |]; try discriminate.
    + destruct prev as [|[]| |[]]; try discriminate; (destruct n as [| | |[]]; try discriminate; try reflexivity; simpl in N1; lra).
    + destruct prev as [|[]| |[]]; try discriminate; reflexivity.
  - destruct prev as [|[]| |]; try discriminate; [|reflexivity].
    destruct x as [|[]| |[]]; try discriminate; destruct n as [| | |[]]; try discriminate; try reflexivity; simpl in N1; lra.
Qed.
Section Rsi.
Variable npsum : list f64 -> f64.
Hypothesis npsum_adds : forall l, added l (npsum l).
Lemma fmean_not_neg l : (forall x, In x l -> not_neg x) -> (Z.of_nat (length l) < 2 ^ 53)%Z -> not_neg (fmean npsum l).
Proof.
  intros H L. unfold fmean. set (v := filter (fun x => negb (is_nan x)) l).
  assert (Lv : (length v <= length l)%nat).
  { unfold v. clear. induction l as [|y l IH]; cbn; [lia|]. destruct (negb (is_nan y)); cbn; lia. }
  assert (Hv : not_neg (npsum v)) by (eapply added_not_neg; [apply npsum_adds|]; intros y I; apply filter_In in I; apply H, I).
  destruct (fz_val (Z.of_nat (length v))) as [Fn Vn]; [lia|].
  clearbody v. destruct v as [|y r].
  - assert (Q : forall x, added [] x -> x = f0).
    { assert (G : forall l x, added l x -> l = [] -> x = f0).
      { induction 1; intro Z; auto; try discriminate.
        - apply app_eq_nil in Z. destruct Z as [-> ->]. rewrite IHadded1, IHadded2 by reflexivity. reflexivity.
        - subst b. apply IHadded. symmetry in H0. apply Permutation_nil in H0. exact H0. }
      intros x A. eapply G; eauto. }
    change (not_neg (fdiv (npsum (@nil f64)) (fz 0 0))). pose proof (Q _ (npsum_adds nil)) as E0. rewrite E0. vm_compute. reflexivity.
  - apply fdiv_not_neg; auto. rewrite Vn. apply IZR_lt. simpl. lia.
Qed.
Lemma fsmooth_not_neg p n s : (0 < p)%nat -> (Z.of_nat p < 2 ^ 53)%Z -> (forall x, In x s -> not_neg x) -> not_neg (fsmooth npsum p n s).
Proof.
  intros P0 P1 H. induction n as [|n IH]; cbn [fsmooth].
  - apply fmean_not_neg.
    + intros x I. apply H. rewrite <- (firstn_skipn p s). apply in_app_iff. left; exact I.
    + rewrite firstn_length. lia.
  - apply fwilder_not_neg; auto. destruct (nth_in_or_default (p + n) s fnan) as [I|E]; [apply H; exact I|rewrite E; reflexivity].
Qed.
Lemma gains_not_neg close x : In x (fgains close) -> not_neg x.
Proof. unfold fgains. intro I. apply in_map_iff in I. destruct I as (q & <- & _). apply fgain_not_neg. Qed.
Lemma losses_not_neg close x : In x (flosses close) -> not_neg x.
Proof. unfold flosses. intro I. apply in_map_iff in I. destruct I as (q & <- & _). apply fgain_not_neg. Qed.
Lemma fdiv_sides up down : not_neg up -> not_neg down -> let q := fdiv up down in not_neg q \/ q = B754_infinity true.
Proof.
  intros U D. cbv zeta. destruct (is_finite down) eqn:Fd.
  - destruct (Req_dec (RV down) 0) as [Z|Z].
    + apply fin_sign0 in Z; auto. rewrite Z. destruct up as [|[]| |[]]; try discriminate; destruct (Bsign down); cbn; auto; left; reflexivity.
    + left. apply not_neg_fin in D; auto. apply fdiv_not_neg; auto. lra.
  - left. destruct down as [|[]| |]; try discriminate; destruct up as [[]|[]| |[]]; try discriminate; reflexivity.
Qed.
Lemma rsi_of_ranged up down : not_neg up -> not_neg down -> frsi_of up down = fnan \/ (is_finite (frsi_of up down) = true /\ fle f0 (frsi_of up down) /\ fle (frsi_of up down) p100).
Proof.
  intros U D. unfold frsi_of. fold p100 fone. destruct p100_val as [Fp Vp]. destruct fone_val as [F1 V1].
  assert (R : forall y, fle f0 y -> fle y p100 -> is_finite (fround4 y) = true /\ fle f0 (fround4 y) /\ fle (fround4 y) p100).
  { intros y A B. apply fround4_mono in A. apply fround4_mono in B.
    assert (A' : fle f0 (fround4 y)) by (eapply fle_trans; [|exact A]; vm_compute; reflexivity).
    assert (B' : fle (fround4 y) p100) by (eapply fle_trans; [exact B|]; vm_compute; reflexivity).
    split; [|split; assumption]. apply (fle_finite f0 _ p100); auto. }
  destruct (fdiv_sides up down U D) as [N|N]; cbv zeta in N.
  2: { rewrite N. right. replace (fadd (B754_infinity true) fone) with (B754_infinity true : f64) by reflexivity.
       replace (fdiv p100 (B754_infinity true)) with (B754_zero true : f64) by reflexivity. replace (fsub p100 (B754_zero true)) with p100 by reflexivity.
       apply R; vm_compute; reflexivity. }
  set (q := fdiv up down) in *. destruct (nan_or q) as [->|Nq]; [left; reflexivity|]. right. apply not_neg_fle in N; auto.
  assert (Q : fle fone (fadd q fone)).
  { destruct (is_finite q) eqn:Fq.
    - apply (fun H => comes_ge fone _ _ F1 H (fadd_comes q fone Fq F1)). apply fle_fin in N; auto. change (RV f0) with 0%R in N. lra.
    - destruct q as [|[]| |]; try discriminate. reflexivity. }
  set (d := fadd q fone) in *. destruct (is_finite d) eqn:Fd.
  - apply fle_fin in Q; auto. rewrite V1 in Q. pose proof (fdiv_comes p100 d Fp Fd ltac:(lra)) as C. rewrite Vp in C.
    edestruct (fun H => comes_fin f0 p100 _ _ eq_refl Fp H C) as (G1 & G2 & G3).
    { change (RV f0) with 0%R. rewrite Vp. split; [apply Rmult_le_pos; [lra|apply Rlt_le, Rinv_0_lt_compat; lra]|].
      apply Rmult_le_reg_r with (RV d); [lra|]. unfold Rdiv. rewrite Rmult_assoc, Rinv_l by lra. lra. }
    change (RV f0) with 0%R in G3. rewrite Vp in G3.
    pose proof (fsub_comes p100 _ Fp G1) as C2. apply R.
    + apply (fun H => comes_ge f0 _ _ eq_refl H C2). change (RV f0) with 0%R. rewrite Vp. lra.
    + apply (fun H => comes_le p100 _ _ Fp H C2). rewrite Vp. lra.
  - destruct d as [|[]| |]; try discriminate.
    replace (fdiv p100 (B754_infinity false)) with (B754_zero false : f64) by reflexivity. replace (fsub p100 (B754_zero false)) with p100 by reflexivity.
    apply R; vm_compute; reflexivity.
Qed.
Lemma rsi_ranged p close k : (0 < p)%nat -> (Z.of_nat p < 2 ^ 53)%Z ->
  let v := frsi npsum p close k in v = fnan \/ (is_finite v = true /\ fle f0 v /\ fle v p100).
Proof.
  intros P0 P1. cbv zeta. unfold frsi. destruct (k <? p)%nat; [left; reflexivity|].
  apply rsi_of_ranged; apply fsmooth_not_neg; auto; [apply gains_not_neg|apply losses_not_neg].
Qed.
End Rsi.

(** ** half sums *)
Definition fhalf : f64 := fz 1 (-1).
Definition ftwo : f64 := fz 2 0.
Lemma fhalf_val : is_finite fhalf = true /\ RV fhalf = (/ 2)%R.
Proof. destruct (fz_val2 1 (-1)) as [F V]; [lia|lia|]. split; [exact F|]. unfold fhalf. rewrite V. simpl. lra. Qed.
Lemma ftwo_val : is_finite ftwo = true /\ RV ftwo = 2%R.
Proof. apply fz_val. lia. Qed.
Lemma big1000 : exists u : f64, is_finite u = true /\ RV u = bpow radix2 1000.
Proof.
  exists (fz (2 ^ 40) 960). destruct (fz_val2 (2 ^ 40) 960) as [F V]; [lia|lia|]. split; [exact F|]. rewrite V.
  change (2 ^ 40)%Z with (Zpower radix2 40). rewrite IZR_Zpower by lia. rewrite <- bpow_plus. reflexivity.
Qed.
(** twice a float that is not extremely large is a float *)
Lemma twice x : modest x -> exists y : f64, is_finite y = true /\ RV y = (2 * RV x)%R.
Proof.
  intros [F B]. exists (fadd x x). pose proof (fadd_comes x x F F) as C. replace (RV x + RV x)%R with (2 * RV x)%R in C by ring.
  assert (G : rnd (2 * RV x) = (2 * RV x)%R).
  { apply round_generic; auto with typeclass_instances. change (SpecFloat.fexp 53 1024) with (FLT_exp (-1074) 53).
    rewrite Rmult_comm. change 2%R with (bpow radix2 1).
    apply mult_bpow_pos_exact_FLT; [|lia]. exact (generic_format_B2R 53 1024 x). }
  unfold comes in C. rewrite G in C. rewrite Rlt_bool_true in C; [tauto|]. rewrite Rabs_mult, (Rabs_pos_eq 2) by lra.
  apply Rle_lt_trans with (2 * bpow radix2 1000)%R; [lra|]. change 2%R with (bpow radix2 1). rewrite <- bpow_plus. apply bpow_lt. lia.
Qed.
Lemma mid_sum l h : modest l -> modest h -> fle l h ->
  is_finite (fadd h l) = true /\ (2 * RV l <= RV (fadd h l) <= 2 * RV h)%R.
Proof.
  intros Ml Mh A. destruct (twice l Ml) as (a & Fa & Va). destruct (twice h Mh) as (b & Fb & Vb). destruct Ml as [Fl _]. destruct Mh as [Fh _]. apply fle_fin in A; auto.
  edestruct (fun H => comes_fin a b _ _ Fa Fb H (fadd_comes h l Fh Fl)) as (G1 & G2 & G3); [lra|]. rewrite Va, Vb in G3. auto.
Qed.
Lemma mid_mul l h : modest l -> modest h -> fle l h -> let m := fmul fhalf (fadd h l) in is_finite m = true /\ fle l m /\ fle m h.
Proof.
  intros Ml Mh A. destruct (mid_sum l h Ml Mh A) as [F B]. destruct fhalf_val as [Fh Vh]. cbv zeta. destruct Ml as [Fl _]. destruct Mh as [Fh' _].
  edestruct (fun H => comes_fin l h _ _ Fl Fh' H (fmul_comes fhalf _ Fh F)) as (G1 & G2 & G3); [rewrite Vh; lra|].
  split; [exact G1|]. split; apply fle_fin; auto; tauto.
Qed.
Lemma mid_div l h : modest l -> modest h -> fle l h -> let m := fdiv (fadd h l) ftwo in is_finite m = true /\ fle l m /\ fle m h.
Proof.
  intros Ml Mh A. destruct (mid_sum l h Ml Mh A) as [F B]. destruct ftwo_val as [Fh Vh]. cbv zeta. destruct Ml as [Fl _]. destruct Mh as [Fh' _].
  edestruct (fun H => comes_fin l h _ _ Fl Fh' H (fdiv_comes _ ftwo F Fh ltac:(lra))) as (G1 & G2 & G3); [rewrite Vh; lra|].
  split; [exact G1|]. split; apply fle_fin; auto; tauto.
Qed.

(** ** Fibonacci levels *)
Lemma fib_order c c' mx mn : modest mx -> modest mn -> fle mn mx -> is_finite c = true -> is_finite c' = true -> (0 <= RV c)%R -> fle c c' -> (RV c' <= 1)%R ->
  fle (fround4 (fsub mx (fmul c' (fsub mx mn)))) (fround4 (fsub mx (fmul c (fsub mx mn)))).
Proof.
  intros Mx Mn A Fc Fc' P L U. apply fround4_mono. pose proof Mx as [Fx _]. pose proof Mn as [Fn _]. destruct (diff_fin mx mn Mx Mn) as (Fd & Ed & Bd).
  apply fle_fin in A; auto. apply fle_fin in L; auto.
  assert (Pd : (0 <= RV (fsub mx mn))%R) by (rewrite Ed, <- rnd_0; apply rnd_le; lra). set (d := fsub mx mn) in *.
  pose proof (fmul_comes c d Fc Fd) as C. pose proof (fmul_comes c' d Fc' Fd) as C'.
  edestruct (fun H => comes_fin f0 d _ _ eq_refl Fd H C) as (G1 & G2 & G3); [change (RV f0) with 0%R; nra|].
  edestruct (fun H => comes_fin f0 d _ _ eq_refl Fd H C') as (H1 & H2 & H3); [change (RV f0) with 0%R; nra|].
  apply (fun H => comes_mono _ _ _ _ H (fsub_comes mx _ Fx H1) (fsub_comes mx _ Fx G1)). rewrite G2, H2.
  assert (rnd (RV c * RV d) <= rnd (RV c' * RV d))%R by (apply rnd_le; nra). lra.
Qed.

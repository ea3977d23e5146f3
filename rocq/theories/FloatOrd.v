(** * FloatOrd: the order of binary64 numbers and the operations of FloatInd. *)
From Coq Require Import ZArith Reals Bool List PeanoNat Permutation Lia Lra Psatz.
From Flocq Require Import Core IEEE754.BinarySingleNaN.
From Verif Require Import Sim FloatSim FloatFacts FloatInd.
Import ListNotations.
Open Scope list_scope.

Notation big := (bpow radix2 1024).
Definition fle (x y : f64) : Prop := Bleb x y = true.

Lemma fle_fin (x y : f64) : is_finite x = true -> is_finite y = true -> (fle x y <-> (RV x <= RV y)%R).
Proof.
  intros Fx Fy. unfold fle. rewrite Bleb_correct by auto. case Rle_bool_spec; intro H; split; intro; auto; try lra; try discriminate.
Qed.
Lemma fle_pinf x : is_nan x = false -> fle x (B754_infinity false).
Proof. destruct x as [|[]| |[]]; try discriminate; reflexivity. Qed.
Lemma fle_ninf x : is_nan x = false -> fle (B754_infinity true) x.
Proof. destruct x as [|[]| |[]]; try discriminate; reflexivity. Qed.
Lemma fle_refl x : is_nan x = false -> fle x x.
Proof.
  intro N. destruct x as [s|s| |s m e B]; try discriminate; try (destruct s; reflexivity).
  apply fle_fin; auto. apply Rle_refl.
Qed.
Lemma fle_nan x y : fle x y -> is_nan x = false /\ is_nan y = false.
Proof. destruct x as [|[]| |[]], y as [|[]| |[]]; try discriminate; auto. Qed.
Lemma pinf_fle x : fle (B754_infinity false) x -> x = B754_infinity false.
Proof. destruct x as [|[]| |[]]; try discriminate; reflexivity. Qed.
Lemma fle_to_ninf x : fle x (B754_infinity true) -> x = B754_infinity true.
Proof. destruct x as [|[]| |[]]; try discriminate; reflexivity. Qed.
Lemma fle_trans x y z : fle x y -> fle y z -> fle x z.
Proof.
  intros A B. destruct (fle_nan _ _ A) as [Nx Ny]. destruct (fle_nan _ _ B) as [_ Nz].
  destruct x as [sx|[]| |sx mx ex Bx]; try discriminate; try (apply fle_ninf; assumption);
    try (apply pinf_fle in A; subst y; apply pinf_fle in B; subst z; reflexivity);
    (destruct z as [sz|[]| |sz mz ez Bz]; try discriminate; try (apply fle_pinf; assumption);
     try (apply fle_to_ninf in B; subst y; apply fle_to_ninf in A; discriminate));
    (destruct y as [sy|[]| |sy my ey By]; try discriminate;
     try (apply pinf_fle in B; discriminate); try (apply fle_to_ninf in A; discriminate));
    (apply fle_fin in A; [|reflexivity|reflexivity]; apply fle_fin in B; [|reflexivity|reflexivity]; apply fle_fin; [reflexivity|reflexivity|];
     exact (Rle_trans _ _ _ A B)).
Qed.
Lemma fle_not_lt x y : fle x y -> fltb y x = false.
Proof.
  intro A. destruct (fle_nan _ _ A) as [Nx Ny].
  destruct (is_finite x) eqn:Fx; [destruct (is_finite y) eqn:Fy|].
  - apply fle_fin in A; auto. rewrite fltb_fin by auto. apply Rlt_bool_false. exact A.
  - destruct y as [|[]| |]; try discriminate; [apply fle_to_ninf in A; subst x; discriminate|].
    destruct x as [|[]| |[]]; reflexivity.
  - destruct x as [|[]| |]; try discriminate; [destruct y as [|[]| |[]]; reflexivity|].
    apply pinf_fle in A. subst y. reflexivity.
Qed.
Lemma not_lt_fle x y : is_nan x = false -> is_nan y = false -> fltb y x = false -> fle x y.
Proof.
  intros Nx Ny L.
  destruct (is_finite x) eqn:Fx; [destruct (is_finite y) eqn:Fy|].
  - apply fle_fin; auto. rewrite fltb_fin in L by auto. revert L. case Rlt_bool_spec; auto; discriminate.
  - destruct y as [|[]| |]; try discriminate; [|apply fle_pinf; auto]. destruct x as [|[]| |[]]; try discriminate.
  - destruct x as [|[]| |]; try discriminate; [apply fle_ninf; auto|]. destruct y as [|[]| |[]]; try discriminate; reflexivity.
Qed.
Lemma lt_fle x y : fltb x y = true -> fle x y.
Proof.
  intro L. destruct (is_finite x) eqn:Fx; [destruct (is_finite y) eqn:Fy|].
  - apply fle_fin; auto. rewrite fltb_fin in L by auto. revert L. case Rlt_bool_spec; [|discriminate]. intros; lra.
  - destruct y as [|[]| |]; try discriminate; destruct x as [|[]| |[]]; try discriminate; reflexivity.
  - destruct x as [|[]| |]; try discriminate; destruct y as [|[]| |[]]; try discriminate; reflexivity.
Qed.
Lemma fle_finite a x b : is_finite a = true -> is_finite b = true -> fle a x -> fle x b -> is_finite x = true.
Proof.
  intros Fa Fb A B. destruct x as [|[]| |]; auto.
  - apply fle_to_ninf in A. subst a. discriminate.
  - apply pinf_fle in B. subst b. discriminate.
Qed.

(** z is the result of rounding the real number r *)
Definition comes (r : R) (z : f64) : Prop :=
  if Rlt_bool (Rabs (rnd r)) big then is_finite z = true /\ RV z = rnd r else z = B754_infinity (Rlt_bool r 0).
Lemma comes_nan r z : comes r z -> is_nan z = false.
Proof. unfold comes. destruct Rlt_bool; [intros [F _]; destruct z; try discriminate; reflexivity|intros ->; reflexivity]. Qed.
Lemma comes_id x : is_finite x = true -> comes (RV x) x.
Proof. intro F. unfold comes. rewrite rnd_id, Rlt_bool_true by apply abs_B2R_lt_emax. auto. Qed.
Lemma rnd_neg r : (rnd r < 0)%R -> (r < 0)%R.
Proof. intro H. apply Rnot_le_lt. intro P. apply rnd_le in P. rewrite rnd_0 in P. lra. Qed.
Lemma comes_mono r s x y : (r <= s)%R -> comes r x -> comes s y -> fle x y.
Proof.
  intros H Cx Cy. pose proof (comes_nan _ _ Cx) as Nx. pose proof (comes_nan _ _ Cy) as Ny. pose proof (rnd_le _ _ H) as HR.
  assert (B0 : (0 < big)%R) by apply bpow_gt_0.
  unfold comes in *. revert Cx Cy. case Rlt_bool_spec; intros Or Cx; case Rlt_bool_spec; intros Os Cy.
  - destruct Cx as [Fx Ex]. destruct Cy as [Fy Ey]. apply fle_fin; auto. rewrite Ex, Ey. exact HR.
  - subst y. revert Ny. case Rlt_bool_spec; intros S _; [|apply fle_pinf; auto]. exfalso.
    assert (rnd s <= 0)%R by (rewrite <- rnd_0; apply rnd_le; lra). rewrite (Rabs_left1 (rnd s)) in Os by auto.
    rewrite (Rabs_left1 (rnd r)) in Or by lra. lra.
  - subst x. revert Nx. case Rlt_bool_spec; intros S _; [apply fle_ninf; auto|]. exfalso.
    assert (0 <= rnd r)%R by (rewrite <- rnd_0; apply rnd_le; lra). rewrite (Rabs_pos_eq (rnd r)) in Or by auto.
    rewrite (Rabs_pos_eq (rnd s)) in Os by lra. lra.
  - subst x y. revert Nx. case (Rlt_bool_spec r 0); intros S _; [apply fle_ninf; reflexivity|]. rewrite Rlt_bool_false by lra. reflexivity.
Qed.
Lemma comes_ge x r z : is_finite x = true -> (RV x <= r)%R -> comes r z -> fle x z.
Proof. intros F H C. apply (comes_mono _ _ _ _ H); auto. apply comes_id; auto. Qed.
Lemma comes_le x r z : is_finite x = true -> (r <= RV x)%R -> comes r z -> fle z x.
Proof. intros F H C. apply (comes_mono _ _ _ _ H); auto. apply comes_id; auto. Qed.
(** a result known to lie between two finite numbers *)
Lemma comes_fin a b r z : is_finite a = true -> is_finite b = true -> (RV a <= r <= RV b)%R -> comes r z ->
  is_finite z = true /\ RV z = rnd r /\ (RV a <= RV z <= RV b)%R.
Proof.
  intros Fa Fb [A B] C. pose proof (comes_ge a r z Fa A C) as L. pose proof (comes_le b r z Fb B C) as U.
  assert (Fz : is_finite z = true) by (apply (fle_finite a z b); auto). split; [exact Fz|].
  assert (E : RV z = rnd r) by (unfold comes in C; revert C; destruct Rlt_bool; [intros [_ E]; exact E|intros ->; discriminate]).
  split; [exact E|]. apply fle_fin in L; auto. apply fle_fin in U; auto.
Qed.

Lemma sign_true (x : f64) : is_finite x = true -> Bsign x = true -> (RV x <= 0)%R.
Proof.
  destruct x as [s|s| |s m e B]; simpl; intros F S; try discriminate; try lra. subst s.
  apply Rlt_le. apply F2R_lt_0. reflexivity.
Qed.
Lemma sign_false (x : f64) : is_finite x = true -> Bsign x = false -> (0 <= RV x)%R.
Proof.
  destruct x as [s|s| |s m e B]; simpl; intros F S; try discriminate; try lra. subst s.
  apply Rlt_le. apply F2R_gt_0. reflexivity.
Qed.
Lemma sign_of r s : (big <= Rabs (rnd r))%R -> (s = true -> (r <= 0)%R) -> (s = false -> (0 <= r)%R) -> Rlt_bool r 0 = s.
Proof.
  intros O A B. assert (N : r <> 0%R) by (intro Z; rewrite Z, rnd_0, Rabs_R0 in O; pose proof (bpow_gt_0 radix2 1024); lra).
  destruct s; [apply Rlt_bool_true|apply Rlt_bool_false]; [specialize (A eq_refl)|specialize (B eq_refl)]; lra.
Qed.
Lemma fadd_comes x y : is_finite x = true -> is_finite y = true -> comes (RV x + RV y) (fadd x y).
Proof.
  intros Fx Fy. pose proof (@Bplus_correct 53 1024 prec_pos prec_lt mode_NE x y Fx Fy) as H. fold (fadd x y) in H. cbn [round_mode] in H.
  unfold comes. revert H. case Rlt_bool_spec; intros O H; [tauto|]. destruct H as [H S]. cbn in H. apply SF_inf in H. rewrite H. f_equal. symmetry.
  apply (sign_of _ _ O); intro E; pose proof E as E'; rewrite S in E';
    [pose proof (sign_true x Fx E); pose proof (sign_true y Fy E')|pose proof (sign_false x Fx E); pose proof (sign_false y Fy E')]; lra.
Qed.
Lemma fsub_comes x y : is_finite x = true -> is_finite y = true -> comes (RV x - RV y) (fsub x y).
Proof.
  intros Fx Fy. pose proof (@Bminus_correct 53 1024 prec_pos prec_lt mode_NE x y Fx Fy) as H. fold (fsub x y) in H. cbn [round_mode] in H.
  unfold comes. revert H. case Rlt_bool_spec; intros O H; [tauto|]. destruct H as [H S]. cbn in H. apply SF_inf in H. rewrite H. f_equal. symmetry.
  apply (sign_of _ _ O); intro E; pose proof E as E'; rewrite S in E';
    [pose proof (sign_true x Fx E); apply negb_true_iff in E'; pose proof (sign_false y Fy E')|
     pose proof (sign_false x Fx E); apply negb_false_iff in E'; pose proof (sign_true y Fy E')]; lra.
Qed.
Lemma prod_sign a b sa sb : (sa = true -> (a <= 0)%R) -> (sa = false -> (0 <= a)%R) -> (sb = true -> (b <= 0)%R) -> (sb = false -> (0 <= b)%R) ->
  (xorb sa sb = true -> (a * b <= 0)%R) /\ (xorb sa sb = false -> (0 <= a * b)%R).
Proof.
  intros A A' B B'. destruct sa, sb; cbn; split; intro; try discriminate;
    repeat match goal with H : true = true -> _ |- _ => specialize (H eq_refl) | H : false = false -> _ |- _ => specialize (H eq_refl) end; nra.
Qed.
Lemma fmul_comes x y : is_finite x = true -> is_finite y = true -> comes (RV x * RV y) (fmul x y).
Proof.
  intros Fx Fy. pose proof (@Bmult_correct 53 1024 prec_pos prec_lt mode_NE x y) as H. fold (fmul x y) in H. cbn [round_mode] in H. rewrite Fx, Fy in H.
  unfold comes. revert H. case Rlt_bool_spec; intros O H; [tauto|]. cbn in H. apply SF_inf in H. rewrite H. f_equal. symmetry.
  destruct (prod_sign (RV x) (RV y) (Bsign x) (Bsign y)); auto using sign_true, sign_false. apply (sign_of _ _ O); auto.
Qed.
Lemma fdiv_comes x y : is_finite x = true -> is_finite y = true -> RV y <> 0%R -> comes (RV x / RV y) (fdiv x y).
Proof.
  intros Fx Fy Z. pose proof (@Bdiv_correct 53 1024 prec_pos prec_lt mode_NE x y Z) as H. fold (fdiv x y) in H. cbn [round_mode] in H. rewrite Fx in H.
  unfold comes. revert H. case Rlt_bool_spec; intros O H; [tauto|]. cbn in H. apply SF_inf in H. rewrite H. f_equal. symmetry.
  assert (I : (Bsign y = true -> (/ RV y <= 0)%R) /\ (Bsign y = false -> (0 <= / RV y)%R)).
  { split; intro S; [pose proof (sign_true y Fy S) as P|pose proof (sign_false y Fy S) as P]; apply Rlt_le; [apply Rinv_lt_0_compat|apply Rinv_0_lt_compat]; lra. }
  destruct (prod_sign (RV x) (/ RV y) (Bsign x) (Bsign y)); auto using sign_true, sign_false; try tauto. apply (sign_of _ _ O); auto.
Qed.
Lemma frint_fin x : is_finite x = true -> is_finite (frint x) = true /\ RV (frint x) = round radix2 (FIX_exp 0) ZnearestE (RV x).
Proof. intro F. destruct (@Bnearbyint_correct 53 1024 prec_lt mode_NE x) as (A & B & _). fold (frint x) in A, B. rewrite B. auto. Qed.

(** a function of one float that rounds a nondecreasing function of reals *)
Record rises (f : f64 -> f64) : Prop := {
  ri_fin : forall x, is_finite x = true -> is_nan (f x) = false;
  ri_mono : forall x y, is_finite x = true -> is_finite y = true -> (RV x <= RV y)%R -> fle (f x) (f y);
  ri_pinf : f (B754_infinity false) = B754_infinity false;
  ri_ninf : f (B754_infinity true) = B754_infinity true }.
Lemma rises_fle f x y : rises f -> fle x y -> fle (f x) (f y).
Proof.
  intros R A. destruct (fle_nan _ _ A) as [Nx Ny].
  destruct (is_finite x) eqn:Fx; [destruct (is_finite y) eqn:Fy|].
  - apply (ri_mono _ R); auto. apply fle_fin; auto.
  - destruct y as [|[]| |]; try discriminate; [apply fle_to_ninf in A; subst x; discriminate|]. rewrite (ri_pinf _ R). apply fle_pinf. apply (ri_fin _ R); auto.
  - destruct x as [|[]| |]; try discriminate.
    + rewrite (ri_ninf _ R). apply fle_ninf. destruct (is_finite y) eqn:Fy; [apply (ri_fin _ R); auto|].
      destruct y as [|[]| |]; try discriminate; rewrite ?(ri_ninf _ R), ?(ri_pinf _ R); reflexivity.
    + apply pinf_fle in A. subst y. rewrite (ri_pinf _ R). reflexivity.
Qed.
Lemma ften4_val : is_finite ften4 = true /\ RV ften4 = 10000%R.
Proof.
  split; [reflexivity|]. unfold ften4, fz. pose proof (@binary_normalize_correct 53 1024 prec_pos prec_lt mode_NE 10000 0 false) as H. cbn [round_mode] in H.
  assert (E : F2R (Float radix2 10000 0) = 10000%R) by (unfold F2R; simpl; lra). rewrite E in H.
  assert (G : rnd 10000 = 10000%R).
  { apply round_generic; auto with typeclass_instances. rewrite <- E. apply (generic_format_FLT radix2 (-1074) 53).
    exists (Float radix2 10000 0); simpl; auto; lia. }
  rewrite G, Rlt_bool_true in H; [tauto|]. rewrite Rabs_pos_eq by lra. apply Rlt_trans with (bpow radix2 14); [simpl; lra|apply bpow_lt; lia].
Qed.
Lemma rises_mul : rises (fun x => fmul x ften4).
Proof.
  destruct ften4_val as [FT VT]. constructor; try reflexivity.
  - intros x F. eapply comes_nan. apply fmul_comes; auto.
  - intros x y Fx Fy H. eapply comes_mono; [|apply fmul_comes; auto|apply fmul_comes; auto]. rewrite VT. nra.
Qed.
Lemma rises_div : rises (fun x => fdiv x ften4).
Proof.
  destruct ften4_val as [FT VT]. constructor; try reflexivity.
  - intros x F. eapply comes_nan. apply fdiv_comes; auto. lra.
  - intros x y Fx Fy H. eapply comes_mono; [|apply fdiv_comes; auto; lra|apply fdiv_comes; auto; lra]. rewrite VT. lra.
Qed.
Lemma rises_rint : rises frint.
Proof.
  constructor; try reflexivity.
  - intros x F. destruct (frint_fin x F) as [A _]. destruct (frint x); try discriminate; reflexivity.
  - intros x y Fx Fy H. destruct (frint_fin x Fx) as [A A']. destruct (frint_fin y Fy) as [B B']. apply fle_fin; auto. rewrite A', B'.
    apply round_le; auto with typeclass_instances.
Qed.
Lemma fround4_mono x y : fle x y -> fle (fround4 x) (fround4 y).
Proof. intro H. unfold fround4. apply (rises_fle _ _ _ rises_div). apply (rises_fle _ _ _ rises_rint). apply (rises_fle _ _ _ rises_mul). exact H. Qed.
Lemma fround4_nan x : is_nan x = true -> fround4 x = fnan.
Proof. destruct x; try discriminate; reflexivity. Qed.

(** neither below lo nor above hi; missing is allowed *)
Definition ranged (lo hi x : f64) : Prop := fltb x lo = false /\ fltb hi x = false.
Lemma ranged_fle lo hi x : fle lo x -> fle x hi -> ranged lo hi x.
Proof. intros A B. split; apply fle_not_lt; auto. Qed.
Lemma ranged_nan lo hi : ranged lo hi fnan.
Proof. split; [reflexivity|destruct hi as [|[]| |[]]; reflexivity]. Qed.
(** rounding a number between two numbers that rounding leaves alone *)
Lemma ranged_round lo hi lo' hi' x : fle lo' x -> fle x hi' -> fle lo (fround4 lo') -> fle (fround4 hi') hi -> ranged lo hi (fround4 x).
Proof.
  intros A B C D. apply ranged_fle; [eapply fle_trans; [exact C|]|eapply fle_trans; [|exact D]]; apply fround4_mono; assumption.
Qed.
Lemma fz_val z : (Z.abs z < 2 ^ 53)%Z -> is_finite (fz z 0) = true /\ RV (fz z 0) = IZR z.
Proof.
  intro S. unfold fz. pose proof (@binary_normalize_correct 53 1024 prec_pos prec_lt mode_NE z 0 false) as H. cbn [round_mode] in H.
  assert (E : F2R (Float radix2 z 0) = IZR z) by (unfold F2R; simpl; lra). rewrite E in H.
  assert (G : rnd (IZR z) = IZR z).
  { apply round_generic; auto with typeclass_instances. rewrite <- E. apply (generic_format_FLT radix2 (-1074) 53).
    exists (Float radix2 z 0); simpl; auto; lia. }
  rewrite G, Rlt_bool_true in H; [tauto|]. rewrite <- abs_IZR. apply Rlt_trans with (IZR (2 ^ 53)); [apply IZR_lt; exact S|].
  change (2 ^ 53)%Z with (Zpower radix2 53). rewrite IZR_Zpower by lia. apply bpow_lt. lia.
Qed.

(** * FloatFacts: facts about the simulator in binary64 (FloatSim.v) *)
From Coq Require Import ZArith Reals Bool List PeanoNat Permutation Lia Lra.
From Flocq Require Import Core IEEE754.BinarySingleNaN.
From Verif Require Import Sim FloatSim.
Import ListNotations.
Open Scope list_scope.

(** not below zero: a number that is not negative, or missing *)
Definition not_neg (x : f64) : Prop := fltb x f0 = false.

Notation rnd := (round radix2 (SpecFloat.fexp 53 1024) ZnearestE).
Notation RV := (@B2R 53 1024).

Lemma fltb_fin (x y : f64) : is_finite x = true -> is_finite y = true ->
  fltb x y = Rlt_bool (RV x) (RV y).
Proof. apply Bltb_correct. Qed.

Lemma valid_fexp : Valid_exp (SpecFloat.fexp 53 1024).
Proof. apply fexp_correct. reflexivity. Qed.
#[export] Existing Instance valid_fexp.

Lemma rnd_id (x : f64) : rnd (RV x) = RV x.
Proof. apply round_generic; auto with typeclass_instances. apply generic_format_B2R. Qed.
Lemma rnd_le x y : (x <= y)%R -> (rnd x <= rnd y)%R.
Proof. apply round_le; auto with typeclass_instances. Qed.
Lemma rnd_0 : rnd 0 = 0%R.
Proof. apply round_0; auto with typeclass_instances. Qed.

Lemma not_neg_fin (x : f64) : is_finite x = true -> (not_neg x <-> (0 <= RV x)%R).
Proof.
  intro Fx. unfold not_neg. rewrite fltb_fin by (auto; reflexivity).
  change (RV f0) with 0%R. case Rlt_bool_spec; intro; split; intro; try lra; try easy.
Qed.

Lemma SF_inf (x : f64) s : B2SF x = SpecFloat.S754_infinity s -> x = B754_infinity s.
Proof. destruct x; simpl; intro E; inversion E; reflexivity. Qed.

Lemma neg_sign (x : f64) : not_neg x -> RV x <> 0%R -> Bsign x = false.
Proof.
  destruct x as [s|s| |s m e B]; simpl; intros N H; try congruence.
  destruct s; auto.
Qed.
Lemma fin_sign0 (x : f64) : is_finite x = true -> RV x = 0%R -> x = B754_zero (Bsign x).
Proof.
  destruct x as [s|s| |s m e B]; simpl; intros N H; try congruence.
  exfalso. destruct s; [apply (Rlt_not_eq (F2R (Float radix2 (Zneg m) e)) 0); auto; apply F2R_lt_0; reflexivity|].
  apply (Rgt_not_eq (F2R (Float radix2 (Zpos m) e)) 0); auto; apply F2R_gt_0; reflexivity.
Qed.

Lemma fadd_not_neg x y : not_neg x -> not_neg y -> not_neg (fadd x y).
Proof.
  intros Nx Ny.
  destruct (is_finite x) eqn:Fx; [destruct (is_finite y) eqn:Fy|].
  - pose proof (@Bplus_correct 53 1024 prec_pos prec_lt mode_NE x y Fx Fy) as H.
    fold (fadd x y) in H. cbn [round_mode] in H.
    pose proof (proj1 (not_neg_fin x Fx) Nx) as Px. pose proof (proj1 (not_neg_fin y Fy) Ny) as Py.
    destruct Rlt_bool.
    + destruct H as [H1 [H2 _]]. apply not_neg_fin; auto. rewrite H1. rewrite <- rnd_0. apply rnd_le. lra.
    + destruct H as [H1 H2]. unfold binary_overflow in H1. cbn in H1. apply SF_inf in H1.
      unfold not_neg. rewrite H1.
      destruct (Bsign x) eqn:S; [|reflexivity]. exfalso.
      assert (RV x = 0%R) as Zx by (destruct (Req_dec (RV x) 0); auto; rewrite (neg_sign x) in S; auto; discriminate).
      assert (RV y = 0%R) as Zy.
      { destruct (Req_dec (RV y) 0); auto. rewrite (neg_sign y) in H2; auto. discriminate. }
      apply fin_sign0 in Zx; auto. apply fin_sign0 in Zy; auto. rewrite S in Zx. rewrite Zx, Zy in H1.
      unfold fadd in H1. simpl in H1. rewrite <- H2 in H1. discriminate.
  - destruct x as [s|s| |s m e B], y as [s'|s'| |s' m' e' B']; try discriminate; try exact Ny; reflexivity.
  - destruct x as [s|s| |s m e B], y as [s'|s'| |s' m' e' B']; try discriminate; try exact Nx; try reflexivity.
    unfold fadd. simpl. destruct (Bool.eqb s s'); auto.
Qed.

Lemma fmul_not_neg x y : not_neg x -> not_neg y -> not_neg (fmul x y).
Proof.
  intros Nx Ny.
  destruct (is_finite x && is_finite y) eqn:Fxy.
  - pose proof (@Bmult_correct 53 1024 prec_pos prec_lt mode_NE x y) as H.
    fold (fmul x y) in H. cbn [round_mode] in H. rewrite Fxy in H.
    apply andb_true_iff in Fxy. destruct Fxy as [Fx Fy].
    pose proof (proj1 (not_neg_fin x Fx) Nx) as Px. pose proof (proj1 (not_neg_fin y Fy) Ny) as Py.
    revert H. case Rlt_bool_spec; intros L H.
    + destruct H as [H1 [H2 _]]. apply not_neg_fin; auto. rewrite H1. rewrite <- rnd_0. apply rnd_le.
      apply Rmult_le_pos; auto.
    + cbn in H. apply SF_inf in H. unfold not_neg. rewrite H.
      assert (RV x * RV y <> 0)%R as NZ.
      { intro Z. rewrite Z, rnd_0, Rabs_R0 in L. pose proof (bpow_gt_0 radix2 1024). lra. }
      rewrite (neg_sign x), (neg_sign y); auto; intro Z; rewrite Z in NZ; apply NZ; ring.
  - destruct x as [s|s| |s m e B], y as [s'|s'| |s' m' e' B']; try discriminate; try reflexivity;
      unfold not_neg in *; simpl in *;
      try destruct s; try destruct s'; try discriminate; reflexivity.
Qed.

(** taking something off never brings the rest above a bound *)
Lemma fsub_below m x y : fltb m x = false -> not_neg y -> fltb m (fsub x y) = false.
Proof.
  intros L Ny.
  destruct (is_finite x) eqn:Fx; [destruct (is_finite y) eqn:Fy|].
  - pose proof (@Bminus_correct 53 1024 prec_pos prec_lt mode_NE x y Fx Fy) as H.
    fold (fsub x y) in H. cbn [round_mode] in H.
    pose proof (proj1 (not_neg_fin y Fy) Ny) as Py.
    revert H. case Rlt_bool_spec; intros O H.
    + destruct H as [H1 [H2 _]].
      destruct (is_finite m) eqn:Fm.
      * rewrite fltb_fin by auto. rewrite fltb_fin in L by auto. rewrite H1.
        revert L. case Rlt_bool_spec; [easy|]. intros L _. apply Rlt_bool_false.
        apply Rle_trans with (rnd (RV x)); [apply rnd_le; lra|rewrite rnd_id; exact L].
      * destruct m as [s|[|]| |s m e B]; try discriminate; auto.
        -- exfalso. destruct x as [s|s| |s m e B]; try discriminate.
        -- destruct (fsub x y) as [|[]| |[]]; reflexivity.
    + destruct H as [H1 H2]. cbn in H1. apply SF_inf in H1. rewrite H1.
      assert (Bsign x = true) as S.
      { rewrite H2. rewrite (neg_sign y); auto. intro Z. rewrite Z, Rminus_0_r, rnd_id in O.
        pose proof (abs_B2R_lt_emax 53 1024 x). lra. }
      rewrite S. destruct m as [s|[|]| |[|] m e B]; try reflexivity.
  - destruct y as [s|[|]| |s m' e B]; try discriminate.
    + destruct x as [s|s| |s m' e B]; try discriminate; destruct m as [s'|[|]| |[|] m'' e'' B'']; reflexivity.
    + destruct x as [s|s| |s m' e B]; try discriminate; destruct m as [s'|[|]| |[|] m'' e'' B'']; reflexivity.
  - destruct x as [s|s| |s m' e B]; try discriminate.
    + destruct y as [s'|s'| |s' m' e B]; unfold fsub; simpl; auto.
      * destruct (Bool.eqb s (negb s')); auto. destruct m as [s2|[|]| |[|] m e B]; reflexivity.
      * destruct m as [s2|[|]| |[|] m e B]; reflexivity.
    + destruct y as [s'|s'| |s' m' e B]; destruct m as [s2|[|]| |[|] m e2 B2]; reflexivity.
Qed.

Lemma added_not_neg l x : added l x -> (forall y, In y l -> not_neg y) -> not_neg x.
Proof.
  induction 1; intro N.
  - reflexivity.
  - apply N; left; reflexivity.
  - apply fadd_not_neg; [apply IHadded1|apply IHadded2]; intros z Hz; apply N, in_app_iff; auto.
  - apply IHadded; intros z Hz. apply N. eapply Permutation_in; eauto.
Qed.

(** ** the invariant of the run *)
Lemma set_nth_length {A} (i : nat) (v : A) l : length (set_nth i v l) = length l.
Proof. revert i; induction l; destruct i; simpl; auto. Qed.
Lemma nth_set_same {A} (i : nat) (v d : A) l : (i < length l)%nat -> nth i (set_nth i v l) d = v.
Proof. revert i; induction l; destruct i; simpl; intros; try lia; auto. apply IHl. lia. Qed.
Lemma nth_set_other {A} (i j : nat) (v d : A) l : i <> j -> nth j (set_nth i v l) d = nth j l d.
Proof. revert i j; induction l; destruct i, j; simpl; intros; auto; try congruence. Qed.
Lemma in_set_nth {A} (i : nat) (v x : A) l : In x (set_nth i v l) -> x = v \/ In x l.
Proof.
  revert i; induction l as [|y l IH]; destruct i; simpl; auto.
  - intros [H|H]; auto.
  - intros [H|H]; auto. apply IH in H. tauto.
Qed.

Section Limit.
Variable npsum : list f64 -> f64.
Hypothesis npsum_adds : forall l, added l (npsum l).
Variables (c : list f64) (m f : f64).
Hypothesis c_pos : forall p, In p c -> not_neg p.
Hypothesis f_pos : not_neg f.
Hypothesis m_pos : fltb m f0 = false.

Lemma price_not_neg i : not_neg (nth i c fnan).
Proof.
  destruct (nth_in_or_default i c fnan) as [H|H]; [apply c_pos; exact H|rewrite H; reflexivity].
Qed.

Record within (i : nat) (st : fsim) : Prop := {
  w_close : f_close st = c;
  w_max : f_max st = Some m;
  w_factor : f_factor st = f;
  w_len : length (f_data st) = length c;
  w_slots : forall s, In s (f_portfolio st) -> not_neg (fs_exposure s);
  w_rows : forall j, (j < i)%nat -> fltb m (y_exposure (frow_at j st)) = false }.

Lemma sum_not_neg p pf : (forall s, In s pf -> not_neg (fs_exposure s)) -> not_neg (fsum_exposure npsum p pf).
Proof.
  intro H. eapply added_not_neg; [apply npsum_adds|].
  intros y Hy. apply in_map_iff in Hy. destruct Hy as [s [<- Hs]]. apply filter_In in Hs. apply H, Hs.
Qed.

Lemma fregister_within i sg a sl e st : (i < length c)%nat -> within i st ->
  not_neg (fs_exposure sl) -> fltb m e = false -> within (S i) (fregister i sg a sl e st).
Proof.
  intros Hi [H1 H2 H3 H4 H5 H6] Hs He. constructor; simpl; auto.
  - rewrite set_nth_length; auto.
  - intros s Hin. apply in_set_nth in Hin. destruct Hin as [->|Hin]; auto.
  - intros j Hj. unfold frow_at. simpl. destruct (Nat.eq_dec i j) as [->|N].
    + rewrite nth_set_same by lia. exact He.
    + rewrite nth_set_other by auto. apply H6. lia.
Qed.

Lemma fclose_within i st : (i < length c)%nat -> (0 < i)%nat -> within i st ->
  within (S i) (fclose_open_positions npsum i st).
Proof.
  intros Hi Hp [H1 H2 H3 H4 H5 H6]. constructor; simpl; auto.
  - rewrite set_nth_length; auto.
  - intros s Hin. apply in_map_iff in Hin. destruct Hin as [s' [<- Hin]].
    unfold fclose_slot. destruct (_ || _); simpl; auto.
  - intros j Hj. unfold frow_at. simpl. destruct (Nat.eq_dec i j) as [->|N].
    + rewrite nth_set_same by lia. simpl. apply fsub_below.
      * apply H6. lia.
      * apply fadd_not_neg; apply sum_not_neg; auto.
    + rewrite nth_set_other by auto. apply H6. lia.
Qed.

Lemma within_less i st : within (S i) st -> within i st.
Proof. intros [H1 H2 H3 H4 H5 H6]. constructor; auto. Qed.

Lemma fround_within i sg st : (i < length c)%nat -> within i st -> within (S i) (frun_round npsum i sg st).
Proof.
  intros Hi W. destruct i as [|i].
  - destruct W as [H1 H2 H3 H4 H5 H6]. constructor; cbn [frun_round f_close f_max f_factor f_portfolio f_data]; auto.
    + rewrite set_nth_length; auto.
    + intros s Hin. apply (in_set_nth 0) in Hin. destruct Hin as [->|Hin]; auto. reflexivity.
    + intros j Hj. replace j with 0%nat by lia. unfold frow_at. cbn [frun_round f_data]. rewrite nth_set_same by lia.
      exact m_pos.
  - unfold frun_round. assert (0 < S i)%nat as P by lia.
    pose proof (fclose_within (S i) st Hi P W) as W1.
    set (st1 := fclose_open_positions npsum (S i) st) in *.
    pose proof (w_rows _ _ W1 (S i) ltac:(lia)) as E.
    pose proof (within_less _ _ W1) as W2.
    assert (fprice_at (S i) st1 = nth (S i) c fnan) as Pr by (unfold fprice_at; rewrite (w_close _ _ W1); reflexivity).
    unfold fprocess_signal. rewrite (w_max _ _ W1), (w_factor _ _ W1), Pr.
    unfold fover_limit.
    destruct sg.
    + destruct (fltb m (fadd _ _)) eqn:L; apply fregister_within; auto; try reflexivity; apply price_not_neg.
    + apply fregister_within; auto; reflexivity.
    + destruct (fltb m (fadd _ _)) eqn:L; apply fregister_within; auto; try reflexivity.
      apply fmul_not_neg; auto; apply price_not_neg.
Qed.

Lemma frounds_within sgs : forall i st, (i + length sgs <= length c)%nat -> within i st ->
  within (i + length sgs) (frun_rounds npsum i sgs st).
Proof.
  induction sgs as [|sg r IH]; intros i st Hl W; simpl.
  - rewrite Nat.add_0_r. exact W.
  - simpl in Hl. replace (i + S (length r))%nat with (S i + length r)%nat by lia.
    apply IH; [lia|]. apply fround_within; auto; lia.
Qed.

Lemma start_within : within 0 (fsim_start c (Some m) f).
Proof.
  constructor; simpl; auto.
  - apply repeat_length.
  - intros s Hs. apply repeat_spec in Hs. subst. reflexivity.
  - intros; lia.
Qed.

Lemma float_limit sgs i : (length sgs <= length c)%nat -> (i < length sgs)%nat ->
  fltb m (y_exposure (nth i (f_data (fsimulate npsum c (Some m) f sgs)) frow0)) = false.
Proof.
  intros Hl Hi. pose proof (frounds_within sgs 0 _ Hl start_within) as W.
  apply (w_rows _ _ W). exact Hi.
Qed.
End Limit.

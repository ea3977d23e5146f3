(** * NumFacts: lemmas and tactics about [num] and [Qc] (no model content). *)
From Coq Require Import ZArith QArith Qcanon Bool List Lia Lqa Qround Qabs.
From Verif Require Import Num.
Import ListNotations.
Open Scope Qc_scope.

(** ** Moving from [Qc] to [Q] *)
Lemma this_add x y : (this (x + y) == this x + this y)%Q.
Proof. unfold Qcplus, Q2Qc, this; apply Qred_correct. Qed.
Lemma this_mul x y : (this (x * y) == this x * this y)%Q.
Proof. unfold Qcmult, Q2Qc, this; apply Qred_correct. Qed.
Lemma this_opp x : (this (- x) == - this x)%Q.
Proof. unfold Qcopp, Q2Qc, this; apply Qred_correct. Qed.
Lemma this_sub x y : (this (x - y) == this x - this y)%Q.
Proof. unfold Qcminus. rewrite this_add, this_opp. reflexivity. Qed.
Lemma this_inv x : (this (/ x) == / this x)%Q.
Proof. unfold Qcinv, Q2Qc, this; apply Qred_correct. Qed.
Lemma this_Q2Qc q : (this (Q2Qc q) == q)%Q.
Proof. unfold Q2Qc, this; apply Qred_correct. Qed.
Lemma this_0 : (this 0%Qc == 0)%Q. Proof. reflexivity. Qed.
Lemma this_1 : (this 1%Qc == 1)%Q. Proof. reflexivity. Qed.

Lemma qc_eq x y : (this x == this y)%Q -> x = y.
Proof. apply Qc_is_canon. Qed.
Lemma qc_eq_inv (x y : Qc) : x = y -> (this x == this y)%Q.
Proof. intros ->; reflexivity. Qed.

Ltac qc_known P := match goal with H : P |- _ => idtac end.
Ltac qc_add pf :=
  let P := type of pf in
  first [ (qc_known P; fail 1) | pose proof pf ].

Ltac qc_facts :=
  repeat match goal with
  | |- context [this (Qcplus ?x ?y)] => qc_add (this_add x y)
  | _ : context [this (Qcplus ?x ?y)] |- _ => qc_add (this_add x y)
  | |- context [this (Qcmult ?x ?y)] => qc_add (this_mul x y)
  | _ : context [this (Qcmult ?x ?y)] |- _ => qc_add (this_mul x y)
  | |- context [this (Qcminus ?x ?y)] => qc_add (this_sub x y)
  | _ : context [this (Qcminus ?x ?y)] |- _ => qc_add (this_sub x y)
  | |- context [this (Qcopp ?x)] => qc_add (this_opp x)
  | _ : context [this (Qcopp ?x)] |- _ => qc_add (this_opp x)
  | |- context [this (Q2Qc ?x)] => qc_add (this_Q2Qc x)
  | _ : context [this (Q2Qc ?x)] |- _ => qc_add (this_Q2Qc x)
  end.

(** ground constants [Q2Qc c] become rationals *)
Ltac qc_const q k :=
  let r := eval vm_compute in (Qred q) in
  lazymatch r with
  | Qmake Z0 _ => k r
  | Qmake (Zpos _) _ => k r
  | Qmake (Zneg _) _ => k r
  end.
Ltac qc_consts :=
  repeat match goal with
  | |- context [this (Q2Qc ?q)] =>
      qc_const q ltac:(fun r => change (this (Q2Qc q)) with r)
  | H : context [this (Q2Qc ?q)] |- _ =>
      qc_const q ltac:(fun r => change (this (Q2Qc q)) with r in H)
  end.

(** turn hypotheses/goal about Qc into Q *)
Ltac qc_prep :=
  repeat match goal with
  | H : ~ (@eq Qc _ _) |- _ => clear H
  | H : @eq Qc _ _ |- _ => apply qc_eq_inv in H
  end;
  try match goal with |- @eq Qc _ _ => apply qc_eq end;
  unfold Qcle, Qclt, Qcdiv in *;
  qc_facts; qc_consts.

Ltac qlra := qc_prep; Lqa.lra.
Ltac qnra := qc_prep; Lqa.nra.

(** ** boolean reflection *)
Lemma qleb_iff x y : qleb x y = true <-> x <= y.
Proof. unfold qleb, Qcle. apply Qle_bool_iff. Qed.
Lemma qltb_iff x y : qltb x y = true <-> x < y.
Proof.
  unfold qltb, Qclt. rewrite negb_true_iff. split; intro H.
  - apply Qnot_le_lt. intro C. apply Qle_bool_iff in C. congruence.
  - apply not_true_is_false. intro C. apply Qle_bool_iff in C. lra.
Qed.
Lemma qeqb_iff x y : qeqb x y = true <-> x = y.
Proof.
  unfold qeqb. split; intro H.
  - apply Qc_is_canon. apply Qeq_bool_iff; exact H.
  - subst; apply Qeq_bool_iff; reflexivity.
Qed.
Lemma qleb_false x y : qleb x y = false <-> y < x.
Proof.
  rewrite <- not_true_iff_false, qleb_iff. unfold Qcle, Qclt. split; intro; lra.
Qed.
Lemma qltb_false x y : qltb x y = false <-> y <= x.
Proof.
  rewrite <- not_true_iff_false, qltb_iff. unfold Qcle, Qclt. split; intro; lra.
Qed.
Lemma qeqb_false x y : qeqb x y = false <-> x <> y.
Proof. rewrite <- not_true_iff_false, qeqb_iff. tauto. Qed.

Lemma qleb_spec x y : reflect (x <= y) (qleb x y).
Proof. apply iff_reflect. symmetry. apply qleb_iff. Qed.
Lemma qltb_spec x y : reflect (x < y) (qltb x y).
Proof. apply iff_reflect. symmetry. apply qltb_iff. Qed.
Lemma qeqb_spec x y : reflect (x = y) (qeqb x y).
Proof. apply iff_reflect. symmetry. apply qeqb_iff. Qed.

Ltac qb :=
  repeat match goal with
  | H : qleb _ _ = true |- _ => apply qleb_iff in H
  | H : qltb _ _ = true |- _ => apply qltb_iff in H
  | H : qeqb _ _ = true |- _ => apply qeqb_iff in H
  | H : qleb _ _ = false |- _ => apply qleb_false in H
  | H : qltb _ _ = false |- _ => apply qltb_false in H
  | H : qeqb _ _ = false |- _ => apply qeqb_false in H
  | |- qleb _ _ = true => apply qleb_iff
  | |- qltb _ _ = true => apply qltb_iff
  | |- qeqb _ _ = true => apply qeqb_iff
  | |- qleb _ _ = false => apply qleb_false
  | |- qltb _ _ = false => apply qltb_false
  | |- qeqb _ _ = false => apply qeqb_false
  end.

Lemma qc_total_neq (x y : Qc) : x <> y -> x < y \/ y < x.
Proof.
  intro H. destruct (Qc_dec x y) as [[L|L]|L]; auto. contradiction.
Qed.

Lemma qc_le_antisym x y : x <= y -> y <= x -> x = y.
Proof. intros; qlra. Qed.

Lemma qc_nonneg_neq0_pos x : 0 <= x -> x <> 0 -> 0 < x.
Proof. intros H N. destruct (qc_total_neq x 0 N); [exfalso; qlra | auto]. Qed.

Lemma qc_pos_neq0 x : 0 < x -> x <> 0.
Proof. intros H E. subst. qlra. Qed.
Lemma qc_neg_neq0 x : x < 0 -> x <> 0.
Proof. intros H E. subst. qlra. Qed.

Lemma qcdiv_mul a b : b <> 0 -> (a / b) * b = a.
Proof. intro. field. auto. Qed.

Lemma qcdiv_le a b c : 0 < b -> a <= c * b -> a / b <= c.
Proof.
  intros Hb H. pose proof (qcdiv_mul a b (qc_pos_neq0 _ Hb)) as E.
  set (d := a / b) in *. clearbody d. subst a.
  unfold Qcle, Qclt in *. qc_facts.
  destruct (Qlt_le_dec (this c) (this d)); auto. exfalso. pose proof this_0. nra.
Qed.
Lemma qcle_div a b c : 0 < b -> c * b <= a -> c <= a / b.
Proof.
  intros Hb H. pose proof (qcdiv_mul a b (qc_pos_neq0 _ Hb)) as E.
  set (d := a / b) in *. clearbody d. subst a.
  unfold Qcle, Qclt in *. qc_facts.
  destruct (Qlt_le_dec (this d) (this c)); auto. exfalso. pose proof this_0. nra.
Qed.
Lemma qclt_div a b c : 0 < b -> c * b < a -> c < a / b.
Proof.
  intros Hb H. pose proof (qcdiv_mul a b (qc_pos_neq0 _ Hb)) as E.
  set (d := a / b) in *. clearbody d. subst a.
  unfold Qcle, Qclt in *. qc_facts.
  destruct (Qlt_le_dec (this c) (this d)); auto. exfalso. pose proof this_0. nra.
Qed.
Lemma qcdiv_lt a b c : 0 < b -> a < c * b -> a / b < c.
Proof.
  intros Hb H. pose proof (qcdiv_mul a b (qc_pos_neq0 _ Hb)) as E.
  set (d := a / b) in *. clearbody d. subst a.
  unfold Qcle, Qclt in *. qc_facts.
  destruct (Qlt_le_dec (this d) (this c)); auto. exfalso. pose proof this_0. nra.
Qed.
Lemma qcdiv_nonneg a b : 0 <= a -> 0 < b -> 0 <= a / b.
Proof. intros. apply qcle_div; [assumption | qlra]. Qed.

Lemma qabs_nonneg q : 0 <= qabs q.
Proof. unfold qabs. destruct (qltb_spec q 0); qlra. Qed.
Lemma qabs_0 : qabs 0 = 0.
Proof. reflexivity. Qed.
Lemma qabs_pos_eq q : 0 <= q -> qabs q = q.
Proof. unfold qabs. destruct (qltb_spec q 0); intros; auto; qlra. Qed.
Lemma qabs_neg_eq q : q <= 0 -> qabs q = - q.
Proof. unfold qabs. destruct (qltb_spec q 0); intros; auto; qlra. Qed.
Lemma qabs_le q c : - c <= q -> q <= c -> qabs q <= c.
Proof. unfold qabs. destruct (qltb_spec q 0); intros; qlra. Qed.
Lemma qabs_ge q : q <= qabs q.
Proof. unfold qabs. destruct (qltb_spec q 0); intros; qlra. Qed.
Lemma qabs_ge_neg q : - q <= qabs q.
Proof. unfold qabs. destruct (qltb_spec q 0); intros; qlra. Qed.

(** ** rounding *)
Lemma rhe_close q : (Qabs (inject_Z (rhe q) - q) <= 1 # 2)%Q.
Proof.
  destruct q as [n d]. unfold rhe; simpl Qnum; simpl Qden.
  pose proof (Z.div_mod n (Zpos d) ltac:(lia)) as E.
  pose proof (Z.mod_pos_bound n (Zpos d) ltac:(lia)) as B.
  set (f := (n / Zpos d)%Z) in *. set (r := (n mod Zpos d)%Z) in *. clearbody f r.
  assert (H : forall z, (-(Zpos d) <= 2 * (z * Zpos d - n) <= Zpos d)%Z ->
     (Qabs (inject_Z z - (n # d)) <= 1 # 2)%Q).
  { intros z Hz. apply Qabs_Qle_condition. unfold Qle, Qminus, Qplus, Qopp, inject_Z; simpl.
    rewrite ?Pos2Z.inj_mul. split; nia. }
  destruct (Z.compare_spec (2 * r) (Zpos d)); [destruct (Z.even f)| |]; apply H; subst n; split; nia.
Qed.

Lemma rhe_mono (x y : Qc) : x <= y -> (rhe x <= rhe y)%Z.
Proof.
  intro H. destruct (Qc_eq_dec x y) as [->|N]; [lia|].
  assert (L : x < y) by (destruct (qc_total_neq x y N); auto; exfalso; qlra).
  pose proof (rhe_close x) as A. pose proof (rhe_close y) as B.
  apply Qabs_Qle_condition in A. apply Qabs_Qle_condition in B.
  destruct (Z.le_gt_cases (rhe x) (rhe y)) as [|G]; auto. exfalso.
  assert (G' : (rhe y + 1 <= rhe x)%Z) by lia.
  assert (G2 : (inject_Z (rhe y) + 1 <= inject_Z (rhe x))%Q).
  { change 1%Q with (inject_Z 1). rewrite <- inject_Z_plus. rewrite <- Zle_Qle. exact G'. }
  unfold Qclt in L. lra.
Qed.

Lemma rhe_int (z : Z) (q : Q) : (q == inject_Z z)%Q -> rhe q = z.
Proof.
  intro H. pose proof (rhe_close q) as A. apply Qabs_Qle_condition in A.
  assert (L1 : (inject_Z (rhe q) < inject_Z (z + 1))%Q).
  { rewrite inject_Z_plus. change (inject_Z 1) with 1%Q. lra. }
  assert (L2 : (inject_Z (z - 1) < inject_Z (rhe q))%Q).
  { unfold Zminus. rewrite inject_Z_plus, inject_Z_opp. change (inject_Z 1) with 1%Q. lra. }
  rewrite <- Zlt_Qlt in L1, L2. lia.
Qed.

Definition dscale (k : nat) : Qc := Q2Qc (inject_Z (pow10 k)).
Lemma pow10_pos k : (0 < pow10 k)%Z.
Proof. unfold pow10. apply Z.pow_pos_nonneg; lia. Qed.
Lemma dscale_pos k : 0 < dscale k.
Proof.
  unfold dscale, Qclt. rewrite (this_Q2Qc (inject_Z (pow10 k))). change (inject_Z 0 < inject_Z (pow10 k))%Q.
  rewrite <- Zlt_Qlt. apply pow10_pos.
Qed.
Lemma dscale_neq0 k : dscale k <> 0.
Proof. apply qc_pos_neq0, dscale_pos. Qed.

Lemma qround_unfold k q : qround k q = Q2Qc (inject_Z (rhe (this (q * dscale k)%Qc))) / dscale k.
Proof. reflexivity. Qed.

Lemma qround_mono k x y : x <= y -> qround k x <= qround k y.
Proof.
  intro H. rewrite !qround_unfold. pose proof (dscale_pos k) as S.
  set (s := dscale k) in *.
  assert (H1 : x * s <= y * s) by qnra.
  apply rhe_mono in H1.
  apply qcdiv_le; auto. rewrite qcdiv_mul by (apply qc_pos_neq0; auto).
  unfold Qcle. rewrite !this_Q2Qc. rewrite <- Zle_Qle. exact H1.
Qed.

(** a number with at most k decimals is not changed by rounding *)
Definition has_decimals (k : nat) (q : Qc) : Prop :=
  exists z : Z, q * dscale k = Q2Qc (inject_Z z).

Lemma qround_fix k q : has_decimals k q -> qround k q = q.
Proof.
  intros [z H]. rewrite qround_unfold, H.
  rewrite (rhe_int z) by apply this_Q2Qc.
  rewrite <- H. field. apply dscale_neq0.
Qed.

Lemma has_decimals_int k z : has_decimals k (Q2Qc (inject_Z z)).
Proof.
  exists (z * pow10 k)%Z. unfold dscale. apply Qc_is_canon.
  rewrite this_mul, !this_Q2Qc, inject_Z_mult. reflexivity.
Qed.

Lemma qround_int k z : qround k (Q2Qc (inject_Z z)) = Q2Qc (inject_Z z).
Proof. apply qround_fix, has_decimals_int. Qed.

Lemma qround_decimals k q : has_decimals k (qround k q).
Proof.
  exists (rhe (this (q * dscale k)%Qc)). rewrite qround_unfold. apply qcdiv_mul, dscale_neq0.
Qed.

Lemma qround_idem k q : qround k (qround k q) = qround k q.
Proof. apply qround_fix, qround_decimals. Qed.

Lemma qround_lower k z q : Q2Qc (inject_Z z) <= q -> Q2Qc (inject_Z z) <= qround k q.
Proof. intro H. rewrite <- (qround_int k z). apply qround_mono; auto. Qed.
Lemma qround_upper k z q : q <= Q2Qc (inject_Z z) -> qround k q <= Q2Qc (inject_Z z).
Proof. intro H. rewrite <- (qround_int k z). apply qround_mono; auto. Qed.

Lemma qround_0 k : qround k 0 = 0.
Proof. change 0 with (Q2Qc (inject_Z 0)). apply qround_int. Qed.

(** half a unit in the last decimal *)
Definition half_ulp (k : nat) : Qc := / (Q2Qc (inject_Z 2) * dscale k).

Lemma qround_error k q : qabs (qround k q - q) <= half_ulp k.
Proof.
  rewrite qround_unfold. pose proof (dscale_pos k) as S. pose proof (dscale_neq0 k) as SN.
  set (s := dscale k) in *.
  pose proof (rhe_close (this (q * s)%Qc)) as A. apply Qabs_Qle_condition in A. destruct A as [A1 A2].
  set (r := Q2Qc (inject_Z (rhe (this (q * s)%Qc)))).
  assert (E1 : - Q2Qc (1#2) <= r - q * s).
  { unfold Qcle, r. rewrite this_sub, this_opp, !this_Q2Qc. lra. }
  assert (E2 : r - q * s <= Q2Qc (1#2)).
  { unfold Qcle, r. rewrite this_sub, !this_Q2Qc. lra. }
  assert (R : r / s - q = (r - q * s) / s) by (field; auto).
  rewrite R.
  assert (HU : half_ulp k = Q2Qc (1#2) / s).
  { unfold half_ulp. fold s. assert (Q2Qc (inject_Z 2) <> 0) by (intro C; inversion C).
    replace (Q2Qc (1#2)) with (/ Q2Qc (inject_Z 2)) by reflexivity. field. auto. }
  rewrite HU. apply qabs_le.
  - replace (- (Q2Qc (1#2) / s)) with ((- Q2Qc (1#2)) / s) by (field; auto).
    apply qcle_div; auto. rewrite qcdiv_mul by auto. auto.
  - apply qcdiv_le; auto. rewrite qcdiv_mul by auto. auto.
Qed.

Lemma Fin_inj a b : Fin a = Fin b -> a = b.
Proof. intro H. exact (f_equal (fun x => match x with Fin q => q | _ => 0 end) H). Qed.

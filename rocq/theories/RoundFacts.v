(** * RoundFacts: rounding half to even is symmetric. *)
From Coq Require Import ZArith QArith Qabs Qcanon Bool List Lia Lqa.
From Verif Require Import Num NumFacts.
Import ListNotations.

(** a tie is rounded to an even number *)
Lemma rhe_even q : (2 * inject_Z (rhe q) - 2 * q == 1 \/ 2 * inject_Z (rhe q) - 2 * q == - (1))%Q -> Z.even (rhe q) = true.
Proof.
  destruct q as [n d]. unfold rhe. cbn [Qnum Qden].
  pose proof (Z.div_mod n (Zpos d) ltac:(lia)) as E.
  pose proof (Z.mod_pos_bound n (Zpos d) ltac:(lia)) as B.
  set (f := (n / Zpos d)%Z) in *. set (r := (n mod Zpos d)%Z) in *. clearbody f r.
  assert (K : forall z : Z, (2 * inject_Z z - 2 * (n # d) == 1 \/ 2 * inject_Z z - 2 * (n # d) == - (1))%Q ->
    (2 * z * Zpos d - 2 * n = Zpos d \/ 2 * z * Zpos d - 2 * n = - Zpos d)%Z).
  { assert (R : forall z e : Z, (2 * inject_Z z - 2 * (n # d) == inject_Z e)%Q -> (2 * z * Zpos d - 2 * n = e * Zpos d)%Z).
    { intros z e H. rewrite (Qmake_Qdiv n d) in H. assert (D : ~ (inject_Z (Zpos d) == 0)%Q) by (intro X; discriminate X).
      assert (H2 : (2 * inject_Z z * inject_Z (Zpos d) - 2 * inject_Z n == inject_Z e * inject_Z (Zpos d))%Q)
        by (rewrite <- H; field; exact D).
      change 2%Q with (inject_Z 2) in H2. rewrite <- !inject_Z_mult in H2. unfold Qminus in H2. rewrite <- inject_Z_opp, <- inject_Z_plus in H2.
      apply (proj1 (inject_Z_injective _ _)) in H2. lia. }
    intros z [H|H]; [left; specialize (R z 1%Z H)|right; specialize (R z (-1)%Z H)]; lia. }
  destruct (Z.compare_spec (2 * r) (Zpos d)) as [C|C|C]; intro H.
  - destruct (Z.even f) eqn:EV; auto. rewrite Z.even_add, EV. reflexivity.
  - apply K in H. subst n. exfalso. destruct H; nia.
  - apply K in H. subst n. exfalso. destruct H; nia.
Qed.
Lemma rhe_unique q z : (Qabs (inject_Z z - q) <= 1 # 2)%Q ->
  ((2 * inject_Z z - 2 * q == 1 \/ 2 * inject_Z z - 2 * q == - (1))%Q -> Z.even z = true) -> rhe q = z.
Proof.
  intros A EV. pose proof (rhe_close q) as B. pose proof (rhe_even q) as EV'.
  apply Qabs_Qle_condition in A. apply Qabs_Qle_condition in B. set (w := rhe q) in *. clearbody w.
  assert (L : (z - 1 <= w <= z + 1)%Z).
  { split; rewrite Zle_Qle; [rewrite inject_Z_plus || unfold Zminus; rewrite inject_Z_plus, inject_Z_opp|rewrite inject_Z_plus]; change (inject_Z 1) with 1%Q; lra. }
  assert (C : (w = z \/ w = z + 1 \/ z = w + 1)%Z) by lia. destruct C as [->|[C|C]]; auto; exfalso.
  - assert (Q1 : (inject_Z w == inject_Z z + 1)%Q) by (rewrite C, inject_Z_plus; reflexivity).
    assert (E1 : Z.even w = true) by (apply EV'; lra). assert (E2 : Z.even z = true) by (apply EV; lra).
    rewrite C, Z.even_add, E2 in E1. discriminate.
  - assert (Q1 : (inject_Z z == inject_Z w + 1)%Q) by (rewrite C, inject_Z_plus; reflexivity).
    assert (E1 : Z.even w = true) by (apply EV'; lra). assert (E2 : Z.even z = true) by (apply EV; lra).
    rewrite C, Z.even_add, E1 in E2. discriminate.
Qed.
Lemma rhe_compat q q' : (q == q')%Q -> rhe q = rhe q'.
Proof.
  intro H. apply rhe_unique.
  - rewrite H. apply rhe_close.
  - intro T. apply rhe_even. rewrite H in T. exact T.
Qed.
Lemma rhe_opp q : rhe (- q) = (- rhe q)%Z.
Proof.
  apply rhe_unique.
  - pose proof (rhe_close q) as B. apply Qabs_Qle_condition in B. apply Qabs_Qle_condition. rewrite inject_Z_opp. lra.
  - intro T. rewrite Z.even_opp. apply rhe_even. rewrite inject_Z_opp in T. destruct T; [right|left]; lra.
Qed.
Lemma rhe_add_even q m : Z.even m = true -> rhe (q + inject_Z m) = (rhe q + m)%Z.
Proof.
  intro E. apply rhe_unique.
  - pose proof (rhe_close q) as B. apply Qabs_Qle_condition in B. apply Qabs_Qle_condition. rewrite inject_Z_plus. lra.
  - intro T. rewrite Z.even_add, E. rewrite rhe_even; auto. rewrite inject_Z_plus in T. destruct T; [left|right]; lra.
Qed.

Open Scope Qc_scope.
Lemma Q2Qc_opp z : Q2Qc (inject_Z (- z)) = - Q2Qc (inject_Z z).
Proof. apply qc_eq. rewrite this_opp, !this_Q2Qc, inject_Z_opp. reflexivity. Qed.
Lemma Q2Qc_add a b : Q2Qc (inject_Z (a + b)) = Q2Qc (inject_Z a) + Q2Qc (inject_Z b).
Proof. apply qc_eq. rewrite this_add, !this_Q2Qc, inject_Z_plus. reflexivity. Qed.
Lemma qround_opp k q : qround k (- q) = - qround k q.
Proof.
  rewrite !qround_unfold. rewrite (rhe_compat _ (- this (q * dscale k))).
  - rewrite rhe_opp, Q2Qc_opp. field. apply dscale_neq0.
  - rewrite <- this_opp. apply qc_eq_inv. ring.
Qed.
(** adding a number whose last of k decimals is even *)
Lemma qround_add_even k q x z : Z.even z = true -> x * dscale k = Q2Qc (inject_Z z) -> qround k (q + x) = qround k q + x.
Proof.
  intros E H. rewrite !qround_unfold.
  rewrite (rhe_compat _ (this (q * dscale k) + inject_Z z)).
  - rewrite rhe_add_even, Q2Qc_add by auto. rewrite <- H. field. apply dscale_neq0.
  - rewrite <- (this_Q2Qc (inject_Z z)), <- H, <- this_add. apply qc_eq_inv. ring.
Qed.
(** reflection at a number with k decimals *)
Lemma qround_reflect k m x : has_decimals k m -> qround k (m + x) + qround k (m - x) = m + m.
Proof.
  intros [z Z]. replace (m - x) with (- (m + x) + (m + m)) by ring.
  rewrite (qround_add_even k (- (m + x)) (m + m) (z + z)).
  - rewrite qround_opp. ring.
  - rewrite Z.even_add. destruct (Z.even z); reflexivity.
  - rewrite Q2Qc_add, <- Z. ring.
Qed.
Lemma qround_add_int k q z : (0 < k)%nat -> qround k (q + Q2Qc (inject_Z z)) = qround k q + Q2Qc (inject_Z z).
Proof.
  intro K. apply (qround_add_even k q _ (z * pow10 k)).
  - rewrite Z.even_mul. replace (Z.even (pow10 k)) with true; [apply orb_true_r|].
    unfold pow10. destruct k; [lia|]. rewrite Nat2Z.inj_succ, Z.pow_succ_r by lia. rewrite Z.even_mul. reflexivity.
  - unfold dscale. apply qc_eq. rewrite this_mul, !this_Q2Qc, inject_Z_mult. reflexivity.
Qed.

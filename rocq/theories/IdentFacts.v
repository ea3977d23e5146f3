(** * IdentFacts: cell-wise facts behind the identities between indicators. *)
From Coq Require Import ZArith QArith Qabs Qcanon Bool List String PeanoNat Lia Lqa.
From Verif Require Import Num NumFacts RoundFacts Pandas Ind SeriesFacts Lengths IndSpec RangeSpec Cells RangeFacts RangeMore ValueSpec ValueFacts FormulaSpec Starts.
Import ListNotations.
Open Scope list_scope. Open Scope Qc_scope.

Lemma r4_plus_100 x : r4 (zq 100 + x) = zq 100 + r4 x.
Proof. replace (zq 100 + x) with (x + zq 100) by ring. unfold r4. rewrite (qround_add_even 4 x (zq 100) 1000000%Z); [ring|reflexivity|]. apply Qc_is_canon. vm_compute. reflexivity. Qed.
Lemma r4_err x : qabs (r4 x - x) <= Q2Qc (5 # 100000).
Proof. pose proof (qround_error 4 x) as H. replace (half_ulp 4) with (Q2Qc (5 # 100000)) in H by (apply Qc_is_canon; vm_compute; reflexivity). exact H. Qed.

Definition noninf (x : num) : Prop := x <> PInf /\ x <> NInf.
Lemma noninf_agg w m agg s k : (forall v, noninf (agg v)) -> noninf (nth k (rolling w m agg s) NaN).
Proof.
  intro H. unfold rolling. destruct (Nat.lt_ge_cases k (List.length s)) as [L|L].
  - rewrite nth_map_seq by exact L. cbv zeta. destruct (Nat.leb _ _); [apply H|split; discriminate].
  - rewrite nth_overflow by (rewrite map_length, seq_length; exact L). split; discriminate.
Qed.
Lemma place_cell h l c : noninf h -> noninf l -> noninf c ->
  nround 4 (ndiv (nmul (F 100) (nsub c l)) (nsub h l)) = nadd (F 100) (nround 4 (nmul (F (-100)) (ndiv (nsub h c) (nsub h l)))).
Proof.
  intros [H1 H2] [L1 L2] [C1 C2]. destruct h as [| | |h]; try congruence; destruct l as [| | |l]; try congruence; destruct c as [| | |c]; try congruence; try reflexivity.
  unfold nsub, F. cbn [nadd nneg nmul ndiv]. fold (zq 100). change (Q2Qc (inject_Z (-100))) with (- zq 100).
  destruct (qeqb (h + - l) 0) eqn:E.
  - apply qeqb_iff in E. assert (X : h = l) by (replace h with (h + - l + l) by ring; rewrite E; ring). subst h. clear E.
    assert (P : 0 < zq 100) by (apply qltb_iff; reflexivity).
    destruct (qeqb_spec (l + - c) 0) as [E2|E2].
    + assert (X : l = c) by (replace l with (l + - c + c) by ring; rewrite E2; ring). subst c.
      replace (zq 100 * (l + - l)) with 0 by ring. rewrite (proj2 (qeqb_iff 0 0) eq_refl). reflexivity.
    + assert (E3 : zq 100 * (c + - l) <> 0).
      { intro X. apply E2. destruct (Qcmult_integral _ _ X) as [Y|Y]; [rewrite Y in P; discriminate P|].
        replace (l + - c) with (- (c + - l)) by ring. rewrite Y. ring. }
      rewrite (proj2 (qeqb_false _ _) E3).
      destruct (qltb_spec 0 (l + - c)) as [S|S]; destruct (qltb_spec 0 (zq 100 * (c + - l))) as [S'|S'].
      * exfalso. change (zq 100) with (Q2Qc (100 # 1)) in *. qnra.
      * reflexivity.
      * reflexivity.
      * exfalso. apply E3. change (zq 100) with (Q2Qc (100 # 1)) in *. apply Qcle_antisym; qnra.
  - apply qeqb_false in E. cbn [nround nadd]. apply (f_equal Fin). change (qround 4) with r4. rewrite <- r4_plus_100. apply (f_equal r4). field. exact E.
Qed.

(** 100 times a quotient, and the quotient of 100 times *)
Lemma hundred_div a b : nmul (F 100) (ndiv a b) = ndiv (nmul (F 100) a) b.
Proof.
  assert (P : 0 < zq 100) by (apply qltb_iff; reflexivity).
  assert (NZ : zq 100 <> 0) by (intro X; rewrite X in P; discriminate P).
  destruct a as [| | |a]; destruct b as [| | |b]; try reflexivity.
  - unfold F. cbn. destruct (qltb b 0); reflexivity.
  - unfold F. cbn. destruct (qltb b 0); reflexivity.
  - unfold F. cbn [nmul ndiv]. fold (zq 100). destruct (qeqb_spec b 0) as [B|B].
    + destruct (qeqb_spec a 0) as [A|A].
      * subst a. replace (zq 100 * 0) with 0 by ring. rewrite (proj2 (qeqb_iff 0 0) eq_refl). reflexivity.
      * assert (A' : zq 100 * a <> 0) by (intro X; destruct (Qcmult_integral _ _ X); congruence).
        rewrite (proj2 (qeqb_false _ _) A').
        destruct (qltb_spec 0 a) as [S|S]; destruct (qltb_spec 0 (zq 100 * a)) as [S'|S']; try reflexivity; exfalso;
          change (zq 100) with (Q2Qc (100 # 1)) in *; qnra.
    + cbn [nmul]. apply (f_equal Fin). field. exact B.
Qed.
Lemma nround_finite x q : nround 4 x = Fin q -> exists y, x = Fin y /\ q = r4 y.
Proof. destruct x as [| | |y]; cbn; intro H; try discriminate. injection H as <-. exists y. auto. Qed.

(** ** averages over one row *)
Lemma mean_last_1 f k : mean_last f 1 k = f k.
Proof.
  unfold mean_last, sum_last. cbn [total]. replace (S k - 1 + 0)%nat with k by lia.
  replace (nq 1) with 1 by (apply Qc_is_canon; reflexivity). field. discriminate.
Qed.
Lemma span_1 : span 1 = 1. Proof. apply Qc_is_canon. reflexivity. Qed.
Lemma ema_from_1 f k : ema_from 0 1 f k = f k.
Proof. unfold ema_from. rewrite span_1, Nat.sub_0_r. destruct k as [|k]; cbn [ema]; [reflexivity|]. cbn [plus]. ring. Qed.
Lemma wilders_1 f k : run_from 0 (wilders 1) (mean_last f 1 0) f k = f k.
Proof.
  unfold run_from. rewrite Nat.sub_0_r. destruct k as [|k]; cbn [run]; [apply mean_last_1|]. unfold wilders. cbn [plus].
  replace (nq 1) with 1 by (apply Qc_is_canon; reflexivity). field. discriminate.
Qed.

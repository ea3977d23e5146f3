(** * FloatAcc5: accuracy of whole columns. *)
From Coq Require Import ZArith QArith Qcanon Qreals Reals Bool List PeanoNat Lia Lra Psatz.
From Flocq Require Import Core Relative IEEE754.BinarySingleNaN.
From Verif Require Import Num NumFacts Pandas FloatSim FloatFacts FloatExact FloatInd FloatOrd FloatDec FloatRange FloatRange2 RangeSpec ValueSpec FormulaSpec Starts FloatSpec FloatAccSpec FloatAcc FloatAcc2 FloatAcc3 FloatAcc4.
Import ListNotations.
Open Scope R_scope.

Lemma fshift_length p s : length (fshift p s) = length s.
Proof. unfold fshift. rewrite firstn_length, app_length, repeat_length. lia. Qed.
Lemma fshift_nth p s k : (k < length s)%nat -> nth k (fshift p s) fnan = if (k <? p)%nat then fnan else nth (k - p) s fnan.
Proof.
  intro H. unfold fshift. rewrite firstn_nth by exact H. destruct (Nat.ltb_spec k p).
  - rewrite app_nth1 by (rewrite repeat_length; lia). rewrite nth_repeat. reflexivity.
  - rewrite app_nth2 by (rewrite repeat_length; lia). rewrite repeat_length. reflexivity.
Qed.
Lemma from_early a k v : (k < a)%nat -> from a k v = NaN.
Proof. intro H. unfold from. apply Nat.ltb_lt in H. rewrite H. reflexivity. Qed.
Lemma from_late a k v : (a <= k)%nat -> from a k v = v.
Proof. intro H. unfold from. apply Nat.ltb_ge in H. rewrite H. reflexivity. Qed.
Lemma nan_div x : fdiv fnan x = fnan. Proof. reflexivity. Qed.
Lemma div_nan x : fdiv x fnan = fnan. Proof. destruct x; reflexivity. Qed.
Lemma nan_sub x : fsub fnan x = fnan. Proof. reflexivity. Qed.
Lemma sub_nan x : fsub x fnan = fnan. Proof. destruct x; reflexivity. Qed.
Lemma round_nan : fround4 fnan = fnan. Proof. reflexivity. Qed.
Lemma self_minus x : is_finite x = true -> exists s, fsub x x = B754_zero s.
Proof.
  intro F. pose proof (fsub_comes x x F F) as C. rewrite Rminus_eq_0 in C.
  edestruct (fun H => comes_fin f0 f0 _ _ eq_refl eq_refl H C) as (G1 & G2 & _); [change (RV f0) with 0; lra|]. rewrite rnd_0 in G2. apply fin_sign0 in G2; auto. eauto.
Qed.
Lemma real_ratio a b : b <> 0%Qc -> real (a / b)%Qc = real a / real b. Proof. apply real_div. Qed.
Lemma units_0 : units 0 = 0%Qc. Proof. apply Qc_is_canon. reflexivity. Qed.
Lemma real_neq q : real q <> 0 -> q <> 0%Qc. Proof. intros H ->. apply H, real_0. Qed.

Section Window.
Variables (t : Z) (h l c : nat -> Z) (n k p : nat).
Hypothesis (Fh : fits t h n) (Fl : fits t l n) (Fc : fits t c n) (K : (k < n)%nat) (P : (0 < p)%nat).
Hypothesis O : forall i, (i <= k)%nat -> (l i <= c i <= h i)%Z.
Let H := column t h n. Let L := column t l n. Let C := column t c n.
Lemma t_range : (1 <= t <= 2 ^ 20)%Z. Proof. apply Fh. Qed.
Lemma unit_pos : / 10000 <= unit t <= 105.
Proof. destruct (tick_ap t 0 t_range ltac:(cbn; lia)) as (_ & _ & B). exact B. Qed.
Lemma wr_tracks : tracks (cell (fwr p H L C) k) (from (p - 1) k (nmul (Fin (- zq 100)) (ratio (max_last (prices t h) p k - prices t c k) (max_last (prices t h) p k - min_last (prices t l) p k)))%Qc).
Proof.
  pose proof t_range as T. pose proof unit_pos as U. unfold cell, fwr. rewrite fmap3_nth; unfold H, L, C; try (unfold froll_max, froll_min; rewrite ?frolling_length, ?column_length; auto; lia).
  destruct (Nat.lt_ge_cases (S k) p) as [E|E].
  - rewrite from_early by lia. unfold froll_max, froll_min. rewrite !roll_early by (rewrite ?column_length; lia). reflexivity.
  - rewrite from_late by lia.
    destruct (tick_top t h n k p p Fh K P ltac:(lia) ltac:(lia)) as (i & I & -> & Bi). destruct (tick_bottom t l n k p p Fl K P ltac:(lia) ltac:(lia)) as (j & J & -> & Bj).
    rewrite column_nth by exact K. rewrite (max_last_at t h p k i) by (auto; lia). rewrite (min_last_at t l p k j) by (auto; lia).
    destruct Fh as [_ Zh], Fl as [_ Zl], Fc as [_ Zc]. specialize (Zh i ltac:(lia)). specialize (Zl j ltac:(lia)). specialize (Zc k K).
    specialize (Bi k ltac:(lia)). specialize (Bj k ltac:(lia)). pose proof (O k ltac:(lia)) as [O1 O2].
    unfold ratio. destruct (Z.eq_dec (l j) (h i)) as [Q|Q].
    + assert (Ec : c k = h i) by lia. unfold prices. rewrite Ec, Q. replace (units (t * h i) - units (t * h i))%Qc with 0%Qc by ring. cbn.
      destruct (tick_ap t (h i) T Zh) as [[F _] _]. unfold fwr_of. destruct (self_minus _ F) as [s ->]. destruct s; reflexivity.
    + assert (D : real (prices t h i - prices t l j)%Qc = unit t * (IZR (h i) - IZR (l j))) by (rewrite real_sub, !real_prices; ring).
      assert (LT : IZR (l j) < IZR (h i)) by (apply IZR_lt; lia).
      assert (NZ : unit t * (IZR (h i) - IZR (l j)) <> 0) by (apply Rmult_integral_contrapositive_currified; lra).
      rewrite ndiv_fin by (apply real_neq; rewrite D; exact NZ). cbn [nmul].
      destruct (place (h i) (l j) (c k)) as (Pl & _); [lia|lia|].
      assert (Er : real (- zq 100 * ((prices t h i - prices t c k) / (prices t h i - prices t l j)))%Qc = -100 * ((IZR (h i) - IZR (c k)) / (IZR (h i) - IZR (l j)))).
      { rewrite real_mul, real_opp, real_zq, real_div, D, real_sub, !real_prices by (apply real_neq; rewrite D; exact NZ). field. split; lra. }
      unfold fwr_of. apply tracks_round; rewrite Er.
      * apply wr_near; auto; lia.
      * apply Rabs_le. lra.
Qed.
Lemma so_tracks : tracks (cell (fso_k p H L C) k) (from (p - 1) k (ratio (zq 100 * (prices t c k - min_last (prices t l) p k)) (max_last (prices t h) p k - min_last (prices t l) p k))%Qc).
Proof.
  pose proof t_range as T. pose proof unit_pos as U. unfold cell, fso_k. rewrite fmap3_nth; unfold H, L, C; try (unfold froll_max, froll_min; rewrite ?frolling_length, ?column_length; auto; lia).
  destruct (Nat.lt_ge_cases (S k) p) as [E|E].
  - rewrite from_early by lia. unfold froll_max, froll_min. rewrite !roll_early by (rewrite ?column_length; lia). unfold fso_of. rewrite sub_nan, fmul_nan. reflexivity.
  - rewrite from_late by lia.
    destruct (tick_top t h n k p p Fh K P ltac:(lia) ltac:(lia)) as (i & I & -> & Bi). destruct (tick_bottom t l n k p p Fl K P ltac:(lia) ltac:(lia)) as (j & J & -> & Bj).
    rewrite column_nth by exact K. rewrite (max_last_at t h p k i) by (auto; lia). rewrite (min_last_at t l p k j) by (auto; lia).
    destruct Fh as [_ Zh], Fl as [_ Zl], Fc as [_ Zc]. specialize (Zh i ltac:(lia)). specialize (Zl j ltac:(lia)). specialize (Zc k K).
    specialize (Bi k ltac:(lia)). specialize (Bj k ltac:(lia)). pose proof (O k ltac:(lia)) as [O1 O2].
    unfold ratio. destruct (Z.eq_dec (l j) (h i)) as [Q|Q].
    + assert (Ec : c k = h i) by lia. unfold prices. rewrite Ec, Q. replace (units (t * h i) - units (t * h i))%Qc with 0%Qc by ring. cbn.
      destruct (tick_ap t (h i) T Zh) as [[F _] _]. unfold fso_of. destruct (self_minus _ F) as [s ->]. destruct s; reflexivity.
    + assert (D : real (prices t h i - prices t l j)%Qc = unit t * (IZR (h i) - IZR (l j))) by (rewrite real_sub, !real_prices; ring).
      assert (LT : IZR (l j) < IZR (h i)) by (apply IZR_lt; lia).
      assert (NZ : unit t * (IZR (h i) - IZR (l j)) <> 0) by (apply Rmult_integral_contrapositive_currified; lra).
      rewrite ndiv_fin by (apply real_neq; rewrite D; exact NZ).
      destruct (place (h i) (l j) (c k)) as (_ & Pl & _); [lia|lia|].
      assert (Er : real (zq 100 * (prices t c k - prices t l j) / (prices t h i - prices t l j))%Qc = 100 * ((IZR (c k) - IZR (l j)) / (IZR (h i) - IZR (l j)))).
      { rewrite real_div, real_mul, real_zq, D, real_sub, !real_prices by (apply real_neq; rewrite D; exact NZ). field. split; lra. }
      unfold fso_of. apply tracks_round; rewrite Er.
      * apply so_near; auto; lia.
      * apply Rabs_le. lra.
Qed.
End Window.

Section Row.
Variables (t : Z) (h l c : nat -> Z) (n k : nat).
Hypothesis (Fh : fits t h n) (Fl : fits t l n) (Fc : fits t c n) (K : (k < n)%nat).
Let H := column t h n. Let L := column t l n. Let C := column t c n.
Lemma z2 : zq 2 <> 0%Qc. Proof. apply real_neq. rewrite real_zq. lra. Qed.
Lemma z3 : zq 3 <> 0%Qc. Proof. apply real_neq. rewrite real_zq. lra. Qed.
Lemma z4 : zq 4 <> 0%Qc. Proof. apply real_neq. rewrite real_zq. lra. Qed.
Lemma price_size : - 1761607680 <= unit t * IZR (h k) <= 1761607680 /\ - 1761607680 <= unit t * IZR (l k) <= 1761607680 /\ - 1761607680 <= unit t * IZR (c k) <= 1761607680.
Proof.
  destruct Fh as [T Zh], Fl as [_ Zl], Fc as [_ Zc]. specialize (Zh k K). specialize (Zl k K). specialize (Zc k K).
  destruct (tick_box t T (h k) Zh) as (_ & B1 & U). destruct (tick_box t T (l k) Zl) as (_ & B2 & _). destruct (tick_box t T (c k) Zc) as (_ & B3 & _). lra.
Qed.
Lemma mp_tracks : tracks (cell (fmp H L) k) (Fin ((prices t h k + prices t l k) / zq 2)%Qc).
Proof.
  unfold cell, fmp. rewrite fmap2_nth; unfold H, L; rewrite ?column_length; auto. rewrite !column_nth by exact K.
  destruct price_size as (S1 & S2 & S3). destruct Fh as [T Zh], Fl as [_ Zl]. specialize (Zh k K). specialize (Zl k K).
  assert (Er : real ((prices t h k + prices t l k) / zq 2)%Qc = / 2 * (unit t * (IZR (h k) + IZR (l k)))) by (rewrite real_div, real_add, !real_prices, real_zq by exact z2; field).
  apply tracks_round; rewrite Er; [apply mid_near; auto|apply Rabs_le; lra].
Qed.
Lemma wc_tracks : tracks (cell (fwc C H L) k) (Fin ((zq 2 * prices t c k + prices t h k + prices t l k) / zq 4)%Qc).
Proof.
  unfold cell, fwc. rewrite fmap3_nth; unfold H, L, C; rewrite ?column_length; auto. rewrite !column_nth by exact K.
  destruct price_size as (S1 & S2 & S3). destruct Fh as [T Zh], Fl as [_ Zl], Fc as [_ Zc]. specialize (Zh k K). specialize (Zl k K). specialize (Zc k K).
  assert (Er : real ((zq 2 * prices t c k + prices t h k + prices t l k) / zq 4)%Qc = unit t * (2 * IZR (c k) + IZR (h k) + IZR (l k)) / 4) by (rewrite real_div, !real_add, real_mul, !real_prices, !real_zq by exact z4; field).
  apply tracks_round; rewrite Er; [apply wc_near; auto|apply Rabs_le; lra].
Qed.
Lemma tp_tracks : tracks (cell (ftp H L C) k) (Fin ((prices t h k + prices t l k + prices t c k) / zq 3)%Qc).
Proof.
  unfold cell, ftp. rewrite fmap3_nth; unfold H, L, C; rewrite ?column_length; auto. rewrite !column_nth by exact K.
  destruct price_size as (S1 & S2 & S3). destruct Fh as [T Zh], Fl as [_ Zl], Fc as [_ Zc]. specialize (Zh k K). specialize (Zl k K). specialize (Zc k K).
  assert (Er : real ((prices t h k + prices t l k + prices t c k) / zq 3)%Qc = unit t * (IZR (h k) + IZR (l k) + IZR (c k)) / 3) by (rewrite real_div, !real_add, !real_prices, !real_zq by exact z3; field).
  apply tracks_round; rewrite Er; [apply tp_near; auto|apply Rabs_le; lra].
Qed.
End Row.

Section Past.
Variables (v : nat -> Z) (n k : nat).
Hypothesis (Fv : forall i, (i < n)%nat -> (0 <= v i <= 2 ^ 50)%Z) (K : (k < n)%nat).
Let V := column 1 v n.
Lemma real_one i : real (prices 1 v i) = IZR (v i) / 10000.
Proof. unfold prices. rewrite real_units, Z.mul_1_l. reflexivity. Qed.
Lemma one_nth i : (i < n)%nat -> nth i V fnan = dec4 (v i).
Proof. intro I. unfold V. rewrite column_nth by exact I. rewrite Z.mul_1_l. reflexivity. Qed.
Lemma one_zero i : v i = 0%Z -> prices 1 v i = 0%Qc.
Proof. intro E. unfold prices. rewrite E. apply units_0. Qed.
Section Pair.
Variable i : nat.
Hypothesis I : (i <= k)%nat.
Hypothesis R : (v i = 0 \/ v k <= 2 ^ 24 * v i)%Z.
Lemma kv : (0 <= v k <= 2 ^ 50)%Z. Proof. apply Fv. exact K. Qed.
Lemma iv : (0 <= v i <= 2 ^ 50)%Z. Proof. apply Fv. lia. Qed.
Lemma cases : ((1 <= v i <= 2 ^ 50)%Z /\ (Z.abs (v k) <= 2 ^ 50)%Z /\ (Z.abs (v k) <= 2 ^ 24 * v i)%Z) \/ (v i = 0%Z /\ (v k = 0%Z \/ (1 <= v k <= 2 ^ 50)%Z)).
Proof. pose proof kv. pose proof iv. destruct R; [right|destruct (Z.eq_dec (v i) 0); [right|left]]; lia. Qed.
Lemma neq : (1 <= v i <= 2 ^ 50)%Z -> prices 1 v i <> 0%Qc.
Proof. intros [A _]. apply real_neq. rewrite real_one. apply (IZR_le 1) in A. lra. Qed.
Lemma pos_ratio q : (0 < q)%Qc -> ratio q 0 = PInf.
Proof. intro P. unfold ratio, ndiv. cbn. destruct (qltb_spec 0 q) as [H|H]; [|contradiction].
  replace (qeqb q 0) with false; [reflexivity|]. symmetry. apply qeqb_false. intros ->. apply (Qclt_not_le _ _ P), Qcle_refl. Qed.
Lemma price_pos : (1 <= v k)%Z -> (0 < prices 1 v k)%Qc.
Proof. intro A. apply real_lt. rewrite real_0, real_one. apply (IZR_le 1) in A. lra. Qed.
Lemma pos_fin : (1 <= v k <= 2 ^ 50)%Z -> is_finite (dec4 (v k)) = true /\ 0 < RV (dec4 (v k)) /\ RV (dec4 (v k)) <= 1267650600228229401496703205376 / 100 /\ / 10000000 <= RV (dec4 (v k)).
Proof.
  intro A. destruct (dec4_pos _ A) as [F P]. split; [exact F|]. split; [exact P|]. destruct (dec_ap (v k)) as [_ E]; [lia|].
  assert (B : 1 <= IZR (v k) <= 1125899906842624) by (split; [apply (IZR_le 1)|apply (IZR_le _ (2 ^ 50))]; lia).
  rewrite (Rabs_pos_eq (IZR (v k) / 10000)) in E by lra. apply Rabs_le_inv in E. lra.
Qed.
Lemma mom_pair : tracks (fround4 (fdiv (fmul (fz 100 0) (dec4 (v k))) (dec4 (v i)))) (ratio (zq 100 * prices 1 v k)%Qc (prices 1 v i)).
Proof.
  destruct cases as [(A & B & C)|(Z & D)].
  - assert (E : real (zq 100 * prices 1 v k / prices 1 v i)%Qc = 100 * (IZR (v k) / IZR (v i))).
    { rewrite real_div, real_mul, real_zq, !real_one by (apply neq; exact A). destruct A as [A _]. apply (IZR_le 1) in A. field. lra. }
    unfold ratio. rewrite ndiv_fin by (apply neq; exact A). apply tracks_round; rewrite E; [apply mom_near; auto; lia|].
    destruct (ratio_facts (v k) (v i) A C) as (_ & _ & _ & Q). rewrite Rabs_mult, (Rabs_pos_eq 100) by lra. lra.
  - rewrite (one_zero i Z), Z, dec4_zero. destruct D as [D|D].
    + rewrite (one_zero k D), D, dec4_zero. replace (zq 100 * 0)%Qc with 0%Qc by ring. reflexivity.
    + rewrite pos_ratio; [|pose proof (price_pos ltac:(lia)) as P; apply real_lt; apply real_lt in P; rewrite real_mul, real_zq, real_0 in *; lra].
      destruct (pos_fin D) as (F & P1 & P2 & P3). destruct (pos_times _ F ltac:(lra) P3) as [G1 G2]. change (fz 100 0) with p100. rewrite over_zero by auto. reflexivity.
Qed.
Lemma prc_pair : tracks (fround4 (fdiv (fmul (fz 100 0) (fsub (dec4 (v k)) (dec4 (v i)))) (dec4 (v i)))) (ratio (zq 100 * (prices 1 v k - prices 1 v i))%Qc (prices 1 v i)).
Proof.
  destruct cases as [(A & B & C)|(Z & D)].
  - assert (E : real (zq 100 * (prices 1 v k - prices 1 v i) / prices 1 v i)%Qc = 100 * (IZR (v k) / IZR (v i) - 1)).
    { rewrite real_div, real_mul, real_zq, real_sub, !real_one by (apply neq; exact A). destruct A as [A _]. apply (IZR_le 1) in A. field. lra. }
    unfold ratio. rewrite ndiv_fin by (apply neq; exact A). apply tracks_round; rewrite E; [apply prc_near; auto; lia|].
    destruct (change_q (v k) (v i) A C) as (_ & Q). rewrite Rabs_mult, (Rabs_pos_eq 100) by lra. lra.
  - rewrite (one_zero i Z), Z, dec4_zero. replace (prices 1 v k - 0)%Qc with (prices 1 v k) by ring. destruct D as [D|D].
    + rewrite (one_zero k D), D, dec4_zero. replace (zq 100 * 0)%Qc with 0%Qc by ring. reflexivity.
    + rewrite pos_ratio; [|pose proof (price_pos ltac:(lia)) as P; apply real_lt; apply real_lt in P; rewrite real_mul, real_zq, real_0 in *; lra].
      destruct (pos_fin D) as (F & P1 & P2 & P3). rewrite minus_zero by auto. destruct (pos_times _ F ltac:(lra) P3) as [G1 G2]. change (fz 100 0) with p100. rewrite over_zero by auto. reflexivity.
Qed.
Lemma vrc_pair : tracks (fround4 (fmul (fz 100 0) (fdiv (fsub (dec4 (v k)) (dec4 (v i))) (dec4 (v i))))) (ratio (zq 100 * (prices 1 v k - prices 1 v i))%Qc (prices 1 v i)).
Proof.
  destruct cases as [(A & B & C)|(Z & D)].
  - assert (E : real (zq 100 * (prices 1 v k - prices 1 v i) / prices 1 v i)%Qc = 100 * (IZR (v k) / IZR (v i) - 1)).
    { rewrite real_div, real_mul, real_zq, real_sub, !real_one by (apply neq; exact A). destruct A as [A _]. apply (IZR_le 1) in A. field. lra. }
    unfold ratio. rewrite ndiv_fin by (apply neq; exact A). apply tracks_round; rewrite E; [apply vrc_near; auto; lia|].
    destruct (change_q (v k) (v i) A C) as (_ & Q). rewrite Rabs_mult, (Rabs_pos_eq 100) by lra. lra.
  - rewrite (one_zero i Z), Z, dec4_zero. replace (prices 1 v k - 0)%Qc with (prices 1 v k) by ring. destruct D as [D|D].
    + rewrite (one_zero k D), D, dec4_zero. replace (zq 100 * 0)%Qc with 0%Qc by ring. reflexivity.
    + rewrite pos_ratio; [|pose proof (price_pos ltac:(lia)) as P; apply real_lt; apply real_lt in P; rewrite real_mul, real_zq, real_0 in *; lra].
      destruct (pos_fin D) as (F & P1 & P2 & P3). rewrite minus_zero, over_zero by auto. reflexivity.
Qed.
Lemma prf_pair : tracks (fround4 (fdiv (fsub (dec4 (v k)) (dec4 (v i))) (dec4 (v i)))) (ratio (prices 1 v k - prices 1 v i)%Qc (prices 1 v i)).
Proof.
  destruct cases as [(A & B & C)|(Z & D)].
  - assert (E : real ((prices 1 v k - prices 1 v i) / prices 1 v i)%Qc = IZR (v k) / IZR (v i) - 1).
    { rewrite real_div, real_sub, !real_one by (apply neq; exact A). destruct A as [A _]. apply (IZR_le 1) in A. field. lra. }
    unfold ratio. rewrite ndiv_fin by (apply neq; exact A). apply tracks_round; rewrite E.
    + eapply ap_weaken; [apply prf_near; auto; lia|]. unfold tolerance. lra.
    + destruct (change_q (v k) (v i) A C) as (_ & Q). lra.
  - rewrite (one_zero i Z), Z, dec4_zero. replace (prices 1 v k - 0)%Qc with (prices 1 v k) by ring. destruct D as [D|D].
    + rewrite (one_zero k D), D, dec4_zero. reflexivity.
    + rewrite pos_ratio by (apply price_pos; lia). destruct (pos_fin D) as (F & P1 & P2 & P3). rewrite minus_zero, over_zero by auto. reflexivity.
Qed.
End Pair.
Variable p : nat.
Hypothesis R : (v (k - p)%nat = 0 \/ v k <= 2 ^ 24 * v (k - p)%nat)%Z.
Lemma past_row : nth k V fnan = dec4 (v k) /\ nth k (fshift p V) fnan = if (k <? p)%nat then fnan else dec4 (v (k - p)%nat).
Proof.
  split; [apply one_nth; exact K|]. rewrite fshift_nth by (unfold V; rewrite column_length; exact K). destruct (k <? p)%nat; [reflexivity|]. apply one_nth. lia.
Qed.
Lemma past2 g : nth k (fmap2 g V (fshift p V)) fnan = g (dec4 (v k)) (if (k <? p)%nat then fnan else dec4 (v (k - p)%nat)).
Proof. destruct past_row as [E1 E2]. rewrite fmap2_nth, E1, E2; [reflexivity| |]; rewrite ?fshift_length; unfold V; rewrite column_length; auto. Qed.
Lemma mom_tracks : tracks (cell (fmom p V) k) (from p k (ratio (zq 100 * prices 1 v k)%Qc (prices 1 v (k - p)%nat))).
Proof. unfold cell, fmom, from. rewrite past2. destruct (k <? p)%nat; [rewrite div_nan; reflexivity|]. apply mom_pair; auto; lia. Qed.
Lemma prc_tracks : tracks (cell (fprc p V) k) (from p k (ratio (zq 100 * (prices 1 v k - prices 1 v (k - p)%nat))%Qc (prices 1 v (k - p)%nat))).
Proof. unfold cell, fprc, from. rewrite past2. destruct (k <? p)%nat; [rewrite div_nan; reflexivity|]. apply prc_pair; auto; lia. Qed.
Lemma vrc_tracks : tracks (cell (fvrc p V) k) (from p k (ratio (zq 100 * (prices 1 v k - prices 1 v (k - p)%nat))%Qc (prices 1 v (k - p)%nat))).
Proof. unfold cell, fvrc, from. rewrite past2. destruct (k <? p)%nat; [rewrite div_nan, fmul_nan; reflexivity|]. apply vrc_pair; auto; lia. Qed.
Lemma prf_tracks : (v 0%nat = 0 \/ v k <= 2 ^ 24 * v 0%nat)%Z -> tracks (cell (fprf V) k) (ratio (prices 1 v k - prices 1 v 0%nat)%Qc (prices 1 v 0%nat)).
Proof.
  intro R0. unfold cell, fprf. rewrite (one_nth 0) by lia. set (g := fun a => _).
  rewrite nth_indep with (d' := g fnan) by (rewrite map_length; unfold V; rewrite column_length; exact K). rewrite map_nth, (one_nth k K). apply prf_pair; auto; lia.
Qed.
End Past.

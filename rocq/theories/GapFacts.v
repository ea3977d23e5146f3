(** * GapFacts: how missing cells go through the series operations. *)
From Coq Require Import ZArith QArith Qcanon Bool List String PeanoNat Lia.
From Verif Require Import Num NumFacts Pandas Frame Ind SeriesFacts Lengths Cells RangeFacts RangeMore Recur GapSpec.
Import ListNotations.
Open Scope list_scope.

(** rows a .. z of the series are missing *)
Definition gaps (s : series) (a z : nat) : Prop := forall k, (a <= k)%nat -> (k <= z)%nat -> nth k s NaN = NaN.
Lemma gap_of s a z k : gaps s a z -> (a <= k)%nat -> (k <= z)%nat -> nth k s NaN = NaN.
Proof. intros G. apply G. Qed.
Lemma gap_one s k : nth k s NaN = NaN -> gaps s k k.
Proof. intros G j A Z. replace j with k by lia. exact G. Qed.

Ltac low := let L := fresh in
  match goal with |- nth ?k ?s NaN = NaN => destruct (Nat.lt_ge_cases k (length s)) as [L|L]; [|apply nth_overflow; exact L] end.
Lemma g_map f s a z : f NaN = NaN -> gaps s a z -> gaps (smap f s) a z.
Proof. intros E G k A Z. low. unfold smap in *. rewrite map_length in *. rewrite (nth_map f NaN) by auto. rewrite G; auto. Qed.
Lemma g_zl (f : num -> num -> num) s t a z : (forall y, f NaN y = NaN) -> gaps s a z -> gaps (szip f s t) a z.
Proof. intros E G k A Z. low. rewrite len_szip in *. rewrite (nth_szip f s t k NaN NaN) by lia. rewrite G; auto. Qed.
Lemma g_zr (f : num -> num -> num) s t a z : (forall y, f y NaN = NaN) -> gaps t a z -> gaps (szip f s t) a z.
Proof. intros E G k A Z. low. rewrite len_szip in *. rewrite (nth_szip f s t k NaN NaN) by lia. rewrite (G k); auto. Qed.
Lemma g_3a (f : num -> num -> num -> num) s t u a z : (forall x y, f NaN x y = NaN) -> gaps s a z -> gaps (szip3 f s t u) a z.
Proof. intros E G k A Z. low. rewrite len_szip3 in *. rewrite (nth_szip3 f s t u k NaN NaN NaN) by lia. rewrite G; auto. Qed.
Lemma g_3b (f : num -> num -> num -> num) s t u a z : (forall x y, f x NaN y = NaN) -> gaps t a z -> gaps (szip3 f s t u) a z.
Proof. intros E G k A Z. low. rewrite len_szip3 in *. rewrite (nth_szip3 f s t u k NaN NaN NaN) by lia. rewrite (G k); auto. Qed.
Lemma g_3c (f : num -> num -> num -> num) s t u a z : (forall x y, f x y NaN = NaN) -> gaps u a z -> gaps (szip3 f s t u) a z.
Proof. intros E G k A Z. low. rewrite len_szip3 in *. rewrite (nth_szip3 f s t u k NaN NaN NaN) by lia. rewrite (G k); auto. Qed.
Lemma g_shift p s a z : gaps s a z -> gaps (shift p s) (a + p) (z + p).
Proof.
  intros G k A Z. low. rewrite len_shift in *. rewrite nth_shift by auto. destruct (Nat.ltb_spec k p); [reflexivity|]. apply G; lia.
Qed.
Lemma g_from_row p s a z : gaps s a z -> gaps (from_row p s) a z.
Proof. intros G k A Z. low. rewrite len_from_row in *. rewrite nth_from_row by auto. destruct (Nat.ltb_spec k p); [reflexivity|]. apply G; lia. Qed.
Lemma fins_nan l k : (k < length l)%nat -> nth k l NaN = NaN -> (length (fins l) < length l)%nat.
Proof.
  revert k; induction l as [|x l IH]; intros [|k] L E; cbn in L; [lia|lia| |].
  - cbn in E. subst x. cbn. pose proof (fins_len l). lia.
  - cbn in E. specialize (IH k ltac:(lia) E). destruct x; cbn; lia.
Qed.
Lemma g_roll w agg s a z : (1 <= w)%nat -> (a <= z)%nat -> gaps s a z -> gaps (rolling w w agg s) a (z + w - 1).
Proof.
  intros W0 AZ G k A Z. low. rewrite len_rolling in *. rewrite nth_rolling by auto.
  destruct (Nat.leb_spec w (length (fins (window w k s)))) as [B|B]; [exfalso|reflexivity].
  pose proof (window_len w k s ltac:(auto)) as WL. pose proof (fins_len (window w k s)) as FL.
  set (j := Nat.min k z). assert (J : (S k - w <= j)%nat) by (unfold j; lia).
  assert (X : nth (j - (S k - w)) (window w k s) NaN = NaN).
  { rewrite nth_window by (unfold j in *; lia). replace (S k - w + (j - (S k - w)))%nat with j by lia. apply G; unfold j; lia. }
  assert (Y : (j - (S k - w) < length (window w k s))%nat) by (rewrite WL; unfold j in *; lia). pose proof (fins_nan _ _ Y X). lia.
Qed.
Lemma g_diff s a z : (a <= z)%nat -> gaps s a z -> gaps (ssub s (shift 1 s)) a (S z).
Proof.
  intros AZ G k A Z. unfold ssub. destruct (Nat.eq_dec k (S z)) as [->|N].
  - refine (g_zr nsub s (shift 1 s) (z + 1) (z + 1) _ _ (S z) _ _); [intros []; reflexivity| |lia|lia].
    intros j J1 J2. apply (g_shift 1 s a z G); lia.
  - refine (g_zl nsub s (shift 1 s) a z _ G k A ltac:(lia)). reflexivity.
Qed.
Lemma g_assign h t n s a z : h NaN = false -> gaps t a z -> gaps s a z -> gaps (assign (map h t) n s) a z.
Proof.
  intros E G G' k A Z. low. unfold assign in *. rewrite len_szip3, map_length in *.
  rewrite (nth_szip3 _ (map h t) n s k false NaN NaN) by (rewrite ?map_length; lia).
  rewrite (nth_map h NaN) by lia. rewrite (G k), E by auto. apply G'; auto.
Qed.
Lemma g_cumsum acc s a z : gaps s a z -> gaps (cumsum_from acc s) a z.
Proof.
  revert acc a z; induction s as [|x s IH]; intros acc a z G k A Z; [destruct k; reflexivity|].
  assert (T : gaps s (a - 1) (z - 1) \/ z = 0%nat \/ a = 0%nat).
  { destruct (Nat.eq_dec z 0); [auto|]. destruct (Nat.eq_dec a 0); [auto|]. left. intros j J1 J2. apply (G (S j)); lia. }
  destruct k as [|k].
  - specialize (G 0%nat A Z). cbn in G. subst x. reflexivity.
  - assert (N : gaps s k k). { apply gap_one. apply (G (S k)); auto. }
    destruct x; cbn [cumsum_from nth]; apply (IH _ k k N); auto.
Qed.
Lemma g_astype s a z : gaps s a z -> gaps (astype_int s) a z.
Proof. intro G. unfold astype_int. destruct (forallb isfin s); [apply g_map; auto|exact G]. Qed.

(** a recurrence that has lost its value never finds it again *)
Lemma g_seeded {A} k0 seed (step : num -> A -> num) s d i z : (k0 < i)%nat ->
  (forall x, step NaN x = NaN) -> (forall prev, step prev (nth i s d) = NaN) -> gaps (seeded k0 seed step s) i z.
Proof.
  intros K N X k A1 Z. clear Z. low. rewrite len_seeded in *.
  remember (k - i)%nat as n eqn:E. revert k A1 E H. induction n as [|n IH]; intros k A1 E L.
  - replace k with (S (i - 1)) by lia. rewrite (seeded_next k0 seed step s d) by lia. replace (S (i - 1)) with i by lia. apply X.
  - replace k with (S (k - 1)) by lia. rewrite (seeded_next k0 seed step s d) by lia. rewrite (IH (k - 1)%nat) by lia. apply N.
Qed.
Lemma g_seed {A} k0 seed (step : num -> A -> num) s (d : A) z : seed = NaN ->
  (forall x, step NaN x = NaN) -> gaps (seeded k0 seed step s) k0 z.
Proof.
  intros E N k A1 Z. clear Z. low. rewrite len_seeded in *.
  remember (k - k0)%nat as n eqn:M. revert k A1 M H. induction n as [|n IH]; intros k A1 M L.
  - replace k with k0 by lia. rewrite seeded_at by lia. exact E.
  - replace k with (S (k - 1)) by lia. rewrite (seeded_next k0 seed step s d) by lia. rewrite (IH (k - 1)%nat) by lia. apply N.
Qed.
Lemma nadd_nan x : nadd x NaN = NaN. Proof. destruct x; reflexivity. Qed.
Lemma nmul_nan x : nmul x NaN = NaN. Proof. destruct x; reflexivity. Qed.
Lemma ndiv_nan x : ndiv x NaN = NaN. Proof. destruct x; reflexivity. Qed.
Lemma nsub_nan x : nsub x NaN = NaN. Proof. destruct x; reflexivity. Qed.

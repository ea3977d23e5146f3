(** * ValueMore: averages, retracement levels, rates of change. *)
From Coq Require Import ZArith QArith Qcanon Bool List String PeanoNat Lia.
From Verif Require Import Num NumFacts RoundFacts Pandas Frame Ind SeriesFacts Lengths Cells RangeSpec RangeFacts RangeMore Signal Api ApiSpec IndSpec ValueSpec ValueFacts.
Import ListNotations.
Open Scope list_scope. Open Scope Qc_scope.

(** ** Fibonacci *)
Lemma fold_npmax r : forall a, Forall (fun x => isfin x = true) r -> exists M, fold_left npmax r (Fin a) = Fin M /\
  (M = a \/ In (Fin M) r) /\ a <= M /\ forall q, In (Fin q) r -> q <= M.
Proof.
  induction r as [|x r IH]; intros a H; cbn [fold_left].
  - exists a. repeat split; auto; [apply Qcle_refl|intros q []].
  - inversion H as [|? ? X Y]; subst. destruct x; try discriminate. unfold npmax at 2. cbn [isnan orb nltb].
    destruct (qltb_spec a q) as [L|L].
    + destruct (IH q Y) as (M & E & I & A & B). exists M. split; auto. split; [destruct I as [->|I]; right; cbn; auto|].
      split; [qlra|]. intros q' [Q|Q]; [apply Fin_inj in Q; subst; auto|auto].
    + destruct (IH a Y) as (M & E & I & A & B). exists M. split; auto. split; [destruct I as [->|I]; auto; right; cbn; auto|].
      split; auto. intros q' [Q|Q]; [apply Fin_inj in Q; subst; qlra|auto].
Qed.
Lemma fold_npmin r : forall a, Forall (fun x => isfin x = true) r -> exists M, fold_left npmin r (Fin a) = Fin M /\
  (M = a \/ In (Fin M) r) /\ M <= a /\ forall q, In (Fin q) r -> M <= q.
Proof.
  induction r as [|x r IH]; intros a H; cbn [fold_left].
  - exists a. repeat split; auto; [apply Qcle_refl|intros q []].
  - inversion H as [|? ? X Y]; subst. destruct x; try discriminate. unfold npmin at 2. cbn [isnan orb nltb].
    destruct (qltb_spec q a) as [L|L].
    + destruct (IH q Y) as (M & E & I & A & B). exists M. split; auto. split; [destruct I as [->|I]; right; cbn; auto|].
      split; [qlra|]. intros q' [Q|Q]; [apply Fin_inj in Q; subst; auto|auto].
    + destruct (IH a Y) as (M & E & I & A & B). exists M. split; auto. split; [destruct I as [->|I]; auto; right; cbn; auto|].
      split; auto. intros q' [Q|Q]; [apply Fin_inj in Q; subst; qlra|auto].
Qed.
Lemma in_present x l : In x (present l) <-> In x l /\ isnan x = false.
Proof. unfold present. rewrite filter_In, negb_true_iff. tauto. Qed.
Lemma extreme_skip s : (forall x, In x s -> x = NaN \/ isfin x = true) ->
  (exists M m, max_skip s = Fin M /\ min_skip s = Fin m /\
     highest (fun j => nth j s NaN) 0 (length s - 1) M /\ lowest (fun j => nth j s NaN) 0 (length s - 1) m) \/
  (max_skip s = NaN /\ min_skip s = NaN /\ none_finite (fun j => nth j s NaN) 0 (length s - 1)).
Proof.
  intro H. unfold max_skip, min_skip.
  assert (FP : Forall (fun x => isfin x = true) (present s)).
  { apply Forall_forall. intros x I. apply in_present in I as [I N]. destruct (H x I) as [->|]; [discriminate|auto]. }
  assert (IN : forall j q, nth j s NaN = Fin q -> In (Fin q) (present s)).
  { intros j q E. apply in_present. split; [|reflexivity]. rewrite <- E. destruct (Nat.lt_ge_cases j (length s)) as [L|L].
    - apply nth_In; auto. - rewrite nth_overflow in E by auto. discriminate. }
  assert (OUT : forall q, In (Fin q) (present s) -> exists j, (0 <= j <= length s - 1)%nat /\ nth j s NaN = Fin q).
  { intros q I. apply in_present in I as [I _]. apply (In_nth _ _ NaN) in I as (j & J & E). exists j. split; [lia|auto]. }
  destruct (present s) as [|x r] eqn:P.
  - right. split; auto. split; auto. intros j J. destruct (nth j s NaN) eqn:E; auto. destruct (IN j q E).
  - left. inversion FP as [|? ? X Y]; subst. destruct x as [| | |a]; try discriminate.
    destruct (fold_npmax r a Y) as (M & E1 & I1 & A1 & B1). destruct (fold_npmin r a Y) as (m & E2 & I2 & A2 & B2).
    exists M, m. split; auto. split; auto. split; split.
    + apply OUT. destruct I1 as [->|I1]; [left; auto|right; auto].
    + intros j q J E. destruct (IN j q E) as [K|K]; [apply Fin_inj in K; subst; auto|auto].
    + apply OUT. destruct I2 as [->|I2]; [left; auto|right; auto].
    + intros j q J E. destruct (IN j q E) as [K|K]; [apply Fin_inj in K; subst; auto|auto].
Qed.
Lemma fib_cell c s k : (k < length s)%nat -> nth k (fib_level c s) NaN = nround 4 (nsub (max_skip s) (nmul c (nsub (max_skip s) (min_skip s)))).
Proof. intro L. unfold fib_level. rewrite nth_sround, nth_repeat_any by auto. reflexivity. Qed.
Lemma fib_values s : (forall x, In x s -> x = NaN \/ isfin x = true) ->
  (exists M m, highest (fun j => nth j s NaN) 0 (length s - 1) M /\ lowest (fun j => nth j s NaN) 0 (length s - 1) m /\
     forall c k, (k < length s)%nat -> nth k (fib_level (Fin c) s) NaN = Fin (r4 (M - c * (M - m)))) \/
  (none_finite (fun j => nth j s NaN) 0 (length s - 1) /\ forall c k, (k < length s)%nat -> nth k (fib_level (Fin c) s) NaN = NaN).
Proof.
  intro H. destruct (extreme_skip s H) as [(M & m & E1 & E2 & A & B)|(E1 & E2 & N)].
  - left. exists M, m. split; auto. split; auto. intros c k L. rewrite fib_cell, E1, E2 by auto. reflexivity.
  - right. split; auto. intros c k L. rewrite fib_cell, E1, E2 by auto. reflexivity.
Qed.
(** the ordering needs no assumption *)
Lemma npmax_ge r : forall a x, In x (a :: r) -> Forall (fun x => isnan x = false) (a :: r) -> nleb x (fold_left npmax r a) = true.
Proof.
  induction r as [|y r IH]; intros a x I H; cbn [fold_left].
  - destruct I as [<-|[]]. inversion H; subst. destruct a; try discriminate; try reflexivity. apply nleb_fin. apply Qcle_refl.
  - inversion H as [|? ? Xa H']; subst. inversion H' as [|? ? Xy H'']; subst.
    assert (E : npmax a y = a \/ npmax a y = y) by (unfold npmax; rewrite Xa, Xy; cbn; destruct (nltb a y); auto).
    assert (N : isnan (npmax a y) = false) by (destruct E as [->| ->]; auto).
    assert (G : nleb (npmax a y) (fold_left npmax r (npmax a y)) = true) by (apply IH; [left|constructor]; auto).
    destruct I as [<-|[<-|I]].
    + eapply nleb_trans_r; [|exact G]. unfold npmax. rewrite Xa, Xy. cbn [orb]. destruct (nltb a y) eqn:L; [unfold nleb; rewrite L; reflexivity|].
      destruct a; try discriminate; try reflexivity; apply nleb_fin; apply Qcle_refl.
    + eapply nleb_trans_r; [|exact G]. unfold npmax. rewrite Xa, Xy. cbn [orb]. destruct (nltb a y) eqn:L.
      * destruct y; try discriminate; try reflexivity; apply nleb_fin; apply Qcle_refl.
      * destruct a, y; try discriminate; try reflexivity. cbn in L. apply qltb_false in L. apply nleb_fin. exact L.
    + apply IH; [right; auto|constructor; auto].
Qed.
Lemma npmin_le r : forall a x, In x (a :: r) -> Forall (fun x => isnan x = false) (a :: r) -> nleb (fold_left npmin r a) x = true.
Proof.
  induction r as [|y r IH]; intros a x I H; cbn [fold_left].
  - destruct I as [<-|[]]. inversion H; subst. destruct a; try discriminate; try reflexivity. apply nleb_fin. apply Qcle_refl.
  - inversion H as [|? ? Xa H']; subst. inversion H' as [|? ? Xy H'']; subst.
    assert (E : npmin a y = a \/ npmin a y = y) by (unfold npmin; rewrite Xa, Xy; cbn; destruct (nltb y a); auto).
    assert (N : isnan (npmin a y) = false) by (destruct E as [->| ->]; auto).
    assert (G : nleb (fold_left npmin r (npmin a y)) (npmin a y) = true) by (apply IH; [left|constructor]; auto).
    destruct I as [<-|[<-|I]].
    + eapply nleb_trans_r; [exact G|]. unfold npmin. rewrite Xa, Xy. cbn [orb]. destruct (nltb y a) eqn:L; [unfold nleb; rewrite L; reflexivity|].
      destruct a; try discriminate; try reflexivity; apply nleb_fin; apply Qcle_refl.
    + eapply nleb_trans_r; [exact G|]. unfold npmin. rewrite Xa, Xy. cbn [orb]. destruct (nltb y a) eqn:L.
      * destruct y; try discriminate; try reflexivity; apply nleb_fin; apply Qcle_refl.
      * destruct a, y; try discriminate; try reflexivity. cbn in L. apply qltb_false in L. apply nleb_fin. exact L.
    + apply IH; [right; auto|constructor; auto].
Qed.
Lemma skip_ordered s : present s <> [] -> nleb (min_skip s) (max_skip s) = true.
Proof.
  unfold max_skip, min_skip. intro N. pose proof (present_not_nan s) as P. destruct (present s) as [|x r]; [congruence|].
  eapply nleb_trans_r; [apply npmin_le|apply npmax_ge]; try (left; reflexivity); auto.
Qed.
Lemma fib_ordered c c' s k : 0 <= c -> c <= c' ->
  present_le (nth k (fib_level (Fin c') s) NaN) (nth k (fib_level (Fin c) s) NaN).
Proof.
  intros C0 C. destruct (Nat.lt_ge_cases k (length s)) as [L|L]; [|left; apply nth_overflow; unfold fib_level; lens].
  2:{ unfold sround. rewrite len_smap, repeat_length. auto. }
  rewrite !fib_cell by auto. destruct (present s) as [|x r] eqn:P.
  - left. unfold max_skip. rewrite P. reflexivity.
  - assert (O : nleb (min_skip s) (max_skip s) = true) by (apply skip_ordered; congruence).
    destruct (max_skip s) as [| | |a], (min_skip s) as [| | |m]; try discriminate O.
    all: try (apply nleb_fin in O; apply present_le_fin; apply qround_mono; qnra).
    all: unfold nmul, nsub, nadd, nneg, infmul; destruct (qeqb c' 0) eqn:E'; destruct (qeqb c 0) eqn:E;
      try (left; reflexivity); try (right; left; reflexivity); destruct (qltb_spec 0 c') as [X|X]; cbn;
      try (left; reflexivity); destruct (qltb_spec 0 c) as [Y|Y]; cbn; try (right; right; reflexivity);
      exfalso; apply qeqb_false in E; apply qeqb_false in E'; (apply E; apply Qcle_antisym; assumption) || (apply E'; apply Qcle_antisym; qlra).
Qed.

(** ** averages stay between the prices seen *)
Lemma between_round k lo hi x : between lo hi x -> between (qround k lo) (qround k hi) (nround k x).
Proof. intros [->|(q & -> & A & B)]; [left; reflexivity|]. right. exists (qround k q). repeat split; apply qround_mono; auto. Qed.
Lemma seen_firstn s k lo hi : seen_between (fun j => nth j s NaN) k lo hi -> Forall (between lo hi) (firstn (S k) s).
Proof.
  intro H. apply Forall_of_nth. intros j J. rewrite firstn_length in J. rewrite nth_firstn by lia. apply H. lia.
Qed.
Lemma at_firstn (g : series -> series) s k : (forall n, g (firstn n s) = firstn n (g s)) -> nth k (g s) NaN = nth k (g (firstn (S k) s)) NaN.
Proof. intro H. rewrite H, nth_firstn by lia. reflexivity. Qed.
Lemma roll_mean_between p s lo hi : (0 < p)%nat -> Forall (between lo hi) s -> Forall (between lo hi) (roll_mean p s).
Proof.
  intros P H. apply Forall_of_nth. intros k K. assert (L : (k < length s)%nat) by (unfold roll_mean in K; rewrite len_rolling in K; auto).
  destruct (roll_mean_view p s k (length s) eq_refl L P) as [->|(-> & W & B)]; [left; reflexivity|right].
  eexists. split; [reflexivity|]. apply wmean_bounds; auto. intros j J.
  assert (X : between lo hi (nth j s NaN)) by (apply (Forall_nth_NaN (between lo hi)); auto; left; reflexivity).
  rewrite (B j J) in X. destruct X as [X|(q & E & X)]; [discriminate|]. apply Fin_inj in E. subst q. exact X.
Qed.
Lemma fin_between_of s lo hi : Forall (between lo hi) s -> Forall (fin_between lo hi) s.
Proof.
  apply Forall_impl. intros x [->|(q & -> & X)] r E; [discriminate|]. apply Fin_inj in E. subst. exact X.
Qed.
Lemma ewm_between' p m s lo hi : (0 < p)%nat -> Forall (between lo hi) s -> Forall (between lo hi) (ewm p m s).
Proof. intros P H. apply ewm_between; auto. apply fin_between_of; auto. Qed.
Lemma nsum_between lo hi l : Forall (fun x => exists q, x = Fin q /\ lo <= q /\ q <= hi) l ->
  exists q, nsum l = Fin q /\ lo * qnat (length l) <= q /\ q <= hi * qnat (length l).
Proof.
  unfold nsum. intro H. assert (G : forall a, exists q, fold_left nadd l (Fin a) = Fin q /\ a + lo * qnat (length l) <= q /\ q <= a + hi * qnat (length l)).
  { induction H as [|x l (q & -> & A & B) H IH]; intro a; cbn [fold_left].
    - exists a. cbn [length]. rewrite qnat_0. repeat split; qlra.
    - cbn [nadd]. destruct (IH (a + q)) as (r & R & R1 & R2). exists r. cbn [length]. rewrite qnat_S.
      revert R1 R2. generalize (qnat (length l)). intros z R1 R2. repeat split; auto; qnra. }
  destruct (G 0) as (q & Q & A & B). exists q. repeat split; auto; qlra.
Qed.
Lemma mean_skip_between s lo hi : Forall (between lo hi) s -> between lo hi (mean_skip s).
Proof.
  intro H. unfold mean_skip. destruct (Nat.eq_dec (length (present s)) 0) as [E|E].
  - apply length_zero_iff_nil in E. rewrite E. left. reflexivity.
  - destruct (nsum_between lo hi (present s)) as (q & -> & A & B).
    + apply Forall_forall. intros x I. apply in_present in I as [I N]. rewrite Forall_forall in H. destruct (H x I) as [->|X]; [discriminate|exact X].
    + right. assert (P : 0 < qnat (length (present s))) by (apply qnat_pos; lia).
      assert (NZ : qeqb (qnat (length (present s))) 0 = false) by (apply qeqb_false, qc_pos_neq0; auto).
      unfold ndiv. rewrite NZ. eexists. split; [reflexivity|]. split; [apply qcle_div|apply qcdiv_le]; auto.
Qed.
Lemma wilder_between p prev x lo hi : (0 < p)%nat -> between lo hi prev -> between lo hi x -> between lo hi (wilder p prev x).
Proof.
  intros P [->|(a & -> & A1 & A2)] [->|(x' & -> & X1 & X2)]; try (left; reflexivity).
  right. rewrite wilder_fin by auto. eexists. split; [reflexivity|]. pose proof (qnat_pos p P) as N. 
  assert (N1 : 1 <= qnat p) by (change 1 with (qnat 1); apply qnat_mono; lia).
  revert N N1. generalize (qnat p). intros z N N1. split; [apply qcle_div|apply qcdiv_le]; auto; qnra.
Qed.
Lemma ws_between p s lo hi : (0 < p)%nat -> Forall (between lo hi) s -> Forall (between (r4 lo) (r4 hi)) (ws p s).
Proof.
  intros P H. unfold ws, sround. apply Forall_smap with (P := between lo hi); [intros; apply between_round; auto|].
  apply seeded_all with (Q := between lo hi); [left; reflexivity| | |exact H].
  - apply mean_skip_between. apply Forall_firstn. auto.
  - intros; apply wilder_between; auto.
Qed.
Lemma mix_between lo hi a q w : 0 <= w -> w <= 1 -> lo <= a -> a <= hi -> lo <= q -> q <= hi ->
  lo <= w * q + (1 - w) * a /\ w * q + (1 - w) * a <= hi.
Proof. intros. split; qnra. Qed.
Lemma ma_variable_between p s cmo_data lo hi : (0 < p)%nat -> Forall (between lo hi) s ->
  Forall (within (-100) 100) cmo_data -> Forall (between lo hi) (ma_variable p s cmo_data).
Proof.
  intros P H C. unfold ma_variable. cbv zeta.
  apply seeded_all with (Q := fun cv => between lo hi (fst cv) /\ between 0 1 (snd cv)); [left; reflexivity| | |].
  - apply (Forall_nth_NaN (between lo hi)); auto. 
  - intros prev [c v] A [B D]. cbn [fst snd] in *.
    assert (PS : 0 < qnat (S p)) by (apply qnat_pos; lia).
    assert (P2 : zq 2 <= qnat (S p)) by (change (zq 2) with (qnat 2); apply qnat_mono; lia).
    unfold nn, F, ndiv. replace (qeqb (qnat (S p)) 0) with false by (symmetry; apply qeqb_false, qc_pos_neq0; auto).
    set (al := Q2Qc (inject_Z 2) / qnat (S p)).
    assert (AL : 0 <= al /\ al <= 1) by (split; [apply qcdiv_nonneg; auto; qlra|apply qcdiv_le; auto; unfold zq in P2; qlra]).
    destruct AL as [AL1 AL2]. clearbody al. change (Q2Qc (inject_Z 1)) with 1.
    destruct D as [->|(w & -> & W1 & W2)]; [left; destruct B as [->|(? & -> & ?)]; reflexivity|].
    destruct B as [->|(q & -> & Q1 & Q2)]; [left; reflexivity|].
    destruct A as [->|(a & -> & A1 & A2)]; [left; reflexivity|].
    cbn [nmul nsub nneg nadd]. right. eexists. split; [reflexivity|].
    destruct (mix_between lo hi a q (al * w)) as [M1 M2]; auto; try qnra.
    replace (al * q * w + (1 + - (al * w)) * a) with (al * w * q + (1 - al * w) * a) by ring. auto.
  - apply Forall_forall. intros [c v] I. cbn [fst snd]. split.
    + apply in_combine_l in I. rewrite Forall_forall in H. auto.
    + apply in_combine_r in I. unfold sabs, sdivc, smap in I. rewrite map_map in I. apply in_map_iff in I as (y & <- & Y).
      rewrite Forall_forall in C. destruct (C y Y) as [->|(q & -> & Q1 & Q2)]; [left; reflexivity|].
      right. cbn [ndiv F]. replace (qeqb (Q2Qc (inject_Z 100)) 0) with false by reflexivity. cbn [nabs].
      eexists. split; [reflexivity|]. unfold qabs. unfold zq in Q1, Q2.
      assert (B1 : q / Q2Qc (inject_Z 100) <= 1) by (apply qcdiv_le; [reflexivity|qlra]).
      assert (B2 : - (1) <= q / Q2Qc (inject_Z 100)) by (apply qcle_div; [reflexivity|qlra]).
      revert B1 B2. generalize (q / Q2Qc (inject_Z 100)). intros z B1 B2. destruct (qltb_spec z 0); split; qlra.
Qed.

(** ** daily averages, momentum and rate of change *)
Lemma nth_shift_any p s k : nth k (shift p s) NaN = if (k <? p)%nat then NaN else if (k <? length s)%nat then nth (k - p) s NaN else NaN.
Proof.
  destruct (Nat.ltb_spec k (length s)) as [L|L].
  - rewrite (c_shift p s k (length s)) by auto. reflexivity.
  - rewrite nth_overflow by (rewrite len_shift; auto). destruct (k <? p)%nat; reflexivity.
Qed.
Lemma mp_cell h l k a c : length h = length l -> nth k h NaN = Fin a -> nth k l NaN = Fin c -> nth k (mp h l) NaN = Fin (r4 ((a + c) / zq 2)).
Proof.
  intros E A C. unfold mp, scale, sadd. rewrite nth_sround, nth_smap_any, nth_szip_any, A, C by (auto; reflexivity).
  unfold D. cbn [nadd nmul nround]. do 2 f_equal. unfold zq.
  replace (Q2Qc (1 # 2)) with (1 / Q2Qc (inject_Z 2)) by (apply Qc_is_canon; reflexivity). unfold r4. f_equal. field. discriminate.
Qed.
Lemma wc_cell c h l k a b e n : length c = n -> length h = n -> length l = n -> nth k c NaN = Fin e -> nth k h NaN = Fin a -> nth k l NaN = Fin b ->
  nth k (wc c h l) NaN = Fin (r4 ((zq 2 * e + a + b) / zq 4)).
Proof.
  intros E E' E'' C A B. assert (K : (k < n)%nat).
  { destruct (Nat.lt_ge_cases k n) as [K|K]; auto. rewrite nth_overflow in C by lia. discriminate. }
  unfold wc, sdivc, scale, sadd, sround. cell. rewrite A, B, C. reflexivity.
Qed.
Lemma tp_cell h l c k a b e n : length c = n -> length h = n -> length l = n -> nth k c NaN = Fin e -> nth k h NaN = Fin a -> nth k l NaN = Fin b ->
  nth k (tp h l c) NaN = Fin (r4 ((a + b + e) / zq 3)).
Proof.
  intros E E' E'' C A B. assert (K : (k < n)%nat).
  { destruct (Nat.lt_ge_cases k n) as [K|K]; auto. rewrite nth_overflow in C by lia. discriminate. }
  unfold tp, row3, sround. cell. rewrite A, B, C. cbn. do 2 f_equal. 
  replace (0 + a + b + e) with (a + b + e) by ring. reflexivity.
Qed.
Lemma mom_cell p s k a c : nth k s NaN = Fin a -> (p <= k)%nat -> nth (k - p) s NaN = Fin c ->
  nth k (mom p s) NaN = nround 4 (ndiv (Fin (zq 100 * a)) (Fin c)) /\
  nth k (prc p s) NaN = nround 4 (ndiv (Fin (zq 100 * (a - c))) (Fin c)).
Proof.
  intros A P C. assert (K : (k < length s)%nat).
  { destruct (Nat.lt_ge_cases k (length s)) as [K|K]; auto. rewrite nth_overflow in A by auto. discriminate. }
  set (n := length s) in *. unfold mom, prc, sdiv, scale, ssub, sround. cell.
  replace (k <? p)%nat with false by (symmetry; apply Nat.ltb_ge; auto). rewrite A, C. split; reflexivity.
Qed.
Lemma mom_early p s k : (k < p)%nat -> nth k (mom p s) NaN = NaN /\ nth k (prc p s) NaN = NaN.
Proof.
  intro P. destruct (Nat.lt_ge_cases k (length s)) as [K|K].
  - set (n := length s) in *. unfold mom, prc, sdiv, scale, ssub, sround. cell.
    replace (k <? p)%nat with true by (symmetry; apply Nat.ltb_lt; auto). split; destruct (nth k s NaN); cbn; try reflexivity; unfold infmul; reflexivity.
  - split; apply nth_overflow; [rewrite (ln_mom p s _ eq_refl)|rewrite (ln_prc p s _ eq_refl)]; auto.
Qed.
Lemma mom_prc p s k m q : nth k (mom p s) NaN = Fin m -> nth k (prc p s) NaN = Fin q -> m - q = zq 100.
Proof.
  destruct (Nat.lt_ge_cases k p) as [P|P]; [intro A; rewrite (proj1 (mom_early p s k P)) in A; discriminate|].
  destruct (Nat.lt_ge_cases k (length s)) as [K|K].
  2:{ intro A. rewrite nth_overflow in A; [discriminate|]. rewrite (ln_mom p s _ eq_refl). auto. }
  set (n := length s) in *. unfold mom, prc, sdiv, scale, ssub, sround. cell.
  replace (k <? p)%nat with false by (symmetry; apply Nat.ltb_ge; auto).
  destruct (nth k s NaN) as [| | |a] eqn:A, (nth (k - p) s NaN) as [| | |c] eqn:C; try discriminate; cbn [nsub nneg nadd nmul];
    try (intros _ ?; discriminate); try (unfold infmul; cbn; intros; discriminate).
  all: try (cbn; unfold ndiv; destruct (qltb c 0); discriminate).
  unfold F. cbn [nmul ndiv]. destruct (qeqb_spec c 0) as [E|E].
  - intro X. exfalso. revert X. repeat match goal with |- context [if ?t then _ else _] => destruct t end; discriminate.
  - intros X Y. cbn [nround] in X, Y. apply Fin_inj in X, Y. subst m q.
    replace (Q2Qc (inject_Z 100) * a / c) with (Q2Qc (inject_Z 100) * (a + - c) / c + zq 100).
    + unfold zq. rewrite qround_add_int by lia. ring.
    + unfold zq. field. auto.
Qed.

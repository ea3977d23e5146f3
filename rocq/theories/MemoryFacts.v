(** * MemoryFacts: what the calculations keep from rows before the window. *)
From Coq Require Import ZArith QArith Qcanon Bool List String PeanoNat Lia.
From Verif Require Import Num NumFacts Pandas Frame Ind SeriesFacts Lengths Cells.
Import ListNotations.
Open Scope list_scope.
Notation length := List.length.

(** [a'] is computed from data without the first [d] rows, [a] from all of it; from
    row [n] of the shorter one on they are the same *)
Definition tailed {A} (d n : nat) (a a' : list A) : Prop :=
  length a = (d + length a')%nat /\ skipn n a' = skipn (d + n) a.

Lemma skipn_more {A} m n (l : list A) : (n <= m)%nat -> skipn m l = skipn (m - n) (skipn n l).
Proof.
  revert m l. induction n as [|n IH]; intros m l H; [rewrite Nat.sub_0_r; reflexivity|].
  destruct m; [lia|]. destruct l; [rewrite !skipn_nil; reflexivity|]. cbn [skipn]. rewrite Nat.sub_succ. apply IH. lia.
Qed.
Lemma T_le {A} d n m (a a' : list A) : (n <= m)%nat -> tailed d n a a' -> tailed d m a a'.
Proof.
  intros H [L E]. split; [exact L|]. rewrite (skipn_more m n) by exact H. rewrite (skipn_more (d + m) (d + n)) by lia. rewrite E. f_equal. lia.
Qed.
Lemma T_map {A B} d n (f : A -> B) a a' : tailed d n a a' -> tailed d n (map f a) (map f a').
Proof. intros [L E]. split; [rewrite !map_length; exact L|]. rewrite !skipn_map. congruence. Qed.
Lemma skipn_combine {A B} n (a : list A) (b : list B) : skipn n (combine a b) = combine (skipn n a) (skipn n b).
Proof.
  revert a b. induction n as [|n IH]; intros a b; [reflexivity|]. destruct a; [reflexivity|].
  destruct b; [cbn; destruct (skipn n a0); reflexivity|]. apply IH.
Qed.
Lemma T_combine {A B} d n (a a' : list A) (b b' : list B) : tailed d n a a' -> tailed d n b b' -> tailed d n (combine a b) (combine a' b').
Proof. intros [L E] [M F]. split; [rewrite !combine_length; lia|]. rewrite !skipn_combine. congruence. Qed.
Lemma T_szip {A B C} d n (f : A -> B -> C) a a' b b' : tailed d n a a' -> tailed d n b b' -> tailed d n (szip f a b) (szip f a' b').
Proof. intros H K. apply T_map. apply T_combine; auto. Qed.
Lemma T_szip3 {A B C E} d n (f : A -> B -> C -> E) a a' b b' c c' :
  tailed d n a a' -> tailed d n b b' -> tailed d n c c' -> tailed d n (szip3 f a b c) (szip3 f a' b' c').
Proof. intros. apply T_szip; auto. apply T_combine; auto. Qed.
Lemma T_repeat {A B} d n (x : A) (a a' : list B) : tailed d n a a' -> tailed d n (repeat x (length a)) (repeat x (length a')).
Proof.
  intros [L _]. split; [rewrite !repeat_length; exact L|]. rewrite L.
  assert (H : forall k m, skipn k (repeat x m) = repeat x (m - k)).
  { induction k; intros [|m]; cbn; auto. }
  rewrite !H. f_equal. lia.
Qed.
(** cells *)
Lemma T_nth {A} d n (a a' : list A) i x : tailed d n a a' -> (n <= i)%nat -> nth i a' x = nth (d + i) a x.
Proof.
  intros [_ E] H. replace i with (n + (i - n))%nat by lia. rewrite <- nth_skipn, E, nth_skipn. f_equal. lia.
Qed.
Lemma T_cells {A} d n (a a' : list A) x : length a = (d + length a')%nat ->
  (forall i, (n <= i)%nat -> (i < length a')%nat -> nth i a' x = nth (d + i) a x) -> tailed d n a a'.
Proof.
  intros L H. split; [exact L|]. apply nth_ext with (d := x) (d' := x); [rewrite !skipn_length; lia|].
  intros i I. rewrite skipn_length in I. rewrite !nth_skipn. rewrite (H (n + i)%nat) by lia. f_equal. lia.
Qed.
Lemma T_shift d n k s s' : (k <= n)%nat -> tailed d (n - k) s s' -> tailed d n (shift k s) (shift k s').
Proof.
  intros K H. pose proof (proj1 H) as L. apply T_cells with (x := NaN); [rewrite !len_shift; exact L|].
  intros i I J. rewrite len_shift in J. rewrite !nth_shift by lia. destruct (Nat.ltb_spec i k), (Nat.ltb_spec (d + i) k); try lia.
  rewrite (T_nth _ _ _ _ _ NaN H) by lia. f_equal. lia.
Qed.
Lemma nth_shift_back k s i : (i < length s)%nat -> nth i (shift_back k s) NaN = nth (k + i) s NaN.
Proof.
  intro H. unfold shift_back. rewrite nth_firstn by exact H.
  destruct (Nat.lt_ge_cases i (length (skipn k s))) as [L|L].
  - rewrite app_nth1 by exact L. apply nth_skipn.
  - rewrite app_nth2 by exact L. rewrite skipn_length in L. rewrite nth_overflow with (l := s) by lia.
    destruct (Nat.lt_ge_cases (i - length (skipn k s)) (length s)) as [Q|Q].
    + apply nth_repeat_any; exact Q.
    + apply nth_overflow. rewrite repeat_length. exact Q.
Qed.
Lemma T_shift_back d n k s s' : tailed d (n + k) s s' -> tailed d n (shift_back k s) (shift_back k s').
Proof.
  intros H. pose proof (proj1 H) as L. apply T_cells with (x := NaN); [rewrite !len_shift_back; exact L|].
  intros i I J. rewrite len_shift_back in J. rewrite !nth_shift_back by lia. rewrite (T_nth _ _ _ _ _ NaN H) by lia. f_equal. lia.
Qed.
Lemma T_from_row d n k s s' : (k <= n)%nat -> tailed d n s s' -> tailed d n (from_row k s) (from_row k s').
Proof.
  intros K H. pose proof (proj1 H) as L. apply T_cells with (x := NaN); [rewrite !len_from_row; exact L|].
  intros i I J. rewrite len_from_row in J. rewrite !nth_from_row by lia. destruct (Nat.ltb_spec i k), (Nat.ltb_spec (d + i) k); try lia.
  apply (T_nth _ _ _ _ _ NaN H). lia.
Qed.
Lemma window_back {A} w i (s : list A) : (w <= S i)%nat -> window w i s = firstn w (skipn (S i - w) s).
Proof. intro H. unfold window. rewrite skipn_firstn_comm. f_equal. lia. Qed.
Lemma T_window {A} d n w i (a a' : list A) : tailed d n a a' -> (n + w <= S i)%nat -> window w i a' = window w (d + i) a.
Proof.
  intros [L E] H. rewrite !window_back by lia. f_equal.
  rewrite (skipn_more (S i - w) n) by lia. rewrite (skipn_more (S (d + i) - w) (d + n)) by lia. rewrite E. f_equal. lia.
Qed.
Lemma T_seq {A B} d n (g g' : nat -> B) (a a' : list A) : length a = (d + length a')%nat ->
  (forall i, (n <= i)%nat -> (i < length a')%nat -> g' i = g (d + i)%nat) ->
  tailed d n (map g (seq 0 (length a))) (map g' (seq 0 (length a'))).
Proof.
  intros L H. destruct (Nat.eq_dec (length a') 0) as [Z|Z].
  { split; [rewrite !map_length, !seq_length; exact L|]. rewrite L, Z. rewrite !skipn_all2; auto; rewrite map_length, seq_length; lia. }
  apply T_cells with (x := g' 0%nat); rewrite !map_length, !seq_length; [exact L|].
  intros i I J. rewrite !(nth_map _ 0%nat) by (rewrite seq_length; lia). rewrite !seq_nth by lia. apply H; auto.
Qed.
Lemma T_rolling d n w m agg s s' : (1 <= w)%nat -> (w - 1 <= n)%nat -> tailed d (n - (w - 1)) s s' ->
  tailed d n (rolling w m agg s) (rolling w m agg s').
Proof.
  intros W N H. apply T_seq; [apply H|]. intros i I J. rewrite (T_window _ _ w i _ _ H) by lia. reflexivity.
Qed.

(** ** least squares does not depend on where the days are counted from *)
Section Ols.
  Local Open Scope Qc_scope.
  Lemma qnat_plus a b : qnat (a + b) = qnat a + qnat b.
  Proof. induction a as [|a IH]; cbn [Nat.add]; rewrite ?qnat_0, ?qnat_S, ?IH; ring. Qed.
  Lemma sum_moved k xs : qsum (map (Qcplus k) xs) = qnat (length xs) * k + qsum xs.
  Proof.
    induction xs as [|x r IH]; [cbn [map qsum fold_right length]; rewrite qnat_0; ring|]. cbn [map qsum fold_right length] in *. fold (qsum (map (Qcplus k) r)). fold (qsum r).
    fold (qsum (map (Qcplus k) r)) in IH. fold (qsum r) in IH. rewrite IH, qnat_S. ring.
  Qed.
  Lemma dot_moved k xs ys : length xs = length ys -> qdot (map (Qcplus k) xs) ys = k * qsum ys + qdot xs ys.
  Proof.
    unfold qdot, szip. revert ys. induction xs as [|x r IH]; intros [|y q] H; try discriminate H; [cbn; ring|].
    cbn [map combine qsum fold_right fst snd] in *. injection H as H. specialize (IH q H).
    fold (qsum (map (fun p : Qc * Qc => fst p * snd p) (combine (map (Qcplus k) r) q))).
    fold (qsum (map (fun p : Qc * Qc => fst p * snd p) (combine r q))). fold (qsum q). rewrite IH. ring.
  Qed.
  Lemma dot_comm xs ys : qdot xs ys = qdot ys xs.
  Proof.
    unfold qdot, szip. revert ys. induction xs as [|x r IH]; intros [|y q]; try reflexivity.
    cbn [map combine qsum fold_right fst snd]. specialize (IH q). unfold qsum in IH. rewrite IH. ring.
  Qed.
  Lemma square_moved k xs : qdot (map (Qcplus k) xs) (map (Qcplus k) xs) =
    qnat (length xs) * k * k + (1 + 1) * k * qsum xs + qdot xs xs.
  Proof.
    rewrite dot_moved by (rewrite map_length; reflexivity). rewrite sum_moved, dot_comm, dot_moved by reflexivity. ring.
  Qed.
  Lemma slope_moved k xs ys : length xs = length ys -> ols_slope (map (Qcplus k) xs) ys = ols_slope xs ys.
  Proof.
    intro H. unfold ols_slope. rewrite dot_moved, square_moved, sum_moved by exact H. rewrite H.
    f_equal; ring.
  Qed.
  Lemma intercept_moved k xs ys : (1 <= length ys)%nat -> length xs = length ys ->
    ols_intercept (map (Qcplus k) xs) ys = ols_intercept xs ys - k * ols_slope xs ys.
  Proof.
    intros P H. unfold ols_intercept. rewrite slope_moved, sum_moved by exact H. rewrite H. field. intro E. apply (Qclt_not_eq 0 (qnat (length ys))); [apply qnat_pos; exact P|symmetry; exact E].
  Qed.
  Lemma xs_moved d a p : ols_xs (d + a) p = map (Qcplus (qnat d)) (ols_xs a p).
  Proof.
    unfold ols_xs. rewrite map_map. revert a. induction p as [|p IH]; intro a; [reflexivity|]. cbn [seq map]. rewrite qnat_plus. f_equal.
    rewrite <- Nat.add_succ_r. apply IH.
  Qed.
  Lemma len_xs a p : length (ols_xs a p) = p.
  Proof. unfold ols_xs. rewrite map_length, seq_length. reflexivity. Qed.
End Ols.

Lemma T_fill0 d n s s' : tailed d n s s' -> tailed d n (fill0 s) (fill0 s').
Proof. apply T_map. Qed.
Lemma window_short {A} w i (s : list A) : (length (window w i s) <= w)%nat.
Proof. unfold window. rewrite skipn_length, firstn_length. lia. Qed.
Lemma ols_moved d n p s s' i : (1 <= p)%nat -> tailed d n s s' -> (n + p <= S i)%nat -> (i < length s')%nat ->
  (nth i (rolling_ols p s') (NaN, NaN) = (NaN, NaN) /\ nth (d + i) (rolling_ols p s) (NaN, NaN) = (NaN, NaN)) \/
  exists a b, nth i (rolling_ols p s') (NaN, NaN) = (Fin a, Fin b) /\
    nth (d + i) (rolling_ols p s) (NaN, NaN) = (Fin (a - qnat d * b)%Qc, Fin b).
Proof.
  intros P H I J. pose proof (proj1 H) as L. unfold rolling_ols.
  rewrite !(nth_map _ 0%nat) by (rewrite seq_length; lia). rewrite !seq_nth by lia. cbn [Nat.add].
  rewrite <- (T_window d n p i (fill0 s) (fill0 s')) by (auto using T_fill0). set (w := window p i (fill0 s')).
  pose proof (window_short p i (fill0 s')) as WS. fold w in WS. pose proof (fins_len w) as FL.
  destruct (Nat.leb_spec p (length (fins w))) as [Q|Q]; [right|left; split; reflexivity].
  do 2 eexists. split; [reflexivity|].
  replace (S (d + i) - p)%nat with (d + (S i - p))%nat by lia. rewrite xs_moved, intercept_moved, slope_moved; rewrite ?len_xs; try lia.
  reflexivity.
Qed.
Lemma T_pb_slope d n p s s' : (1 <= p)%nat -> (p - 1 <= n)%nat -> tailed d (n - (p - 1)) s s' -> tailed d n (pb_slope p s) (pb_slope p s').
Proof.
  intros P N H. pose proof (proj1 H) as L. apply T_cells with (x := NaN); unfold pb_slope; rewrite !map_length, !len_rolling_ols; [exact L|].
  intros i I J. rewrite !(nth_map _ (NaN, NaN)) by (rewrite len_rolling_ols; lia).
  destruct (ols_moved d (n - (p - 1)) p s s' i P H ltac:(lia) J) as [[-> ->]|(a & b & -> & ->)]; reflexivity.
Qed.
Lemma len_lri p c : length (lri p c) = length c.
Proof. unfold lri. rewrite len_szip, seq_length, len_rolling_ols. lia. Qed.
Lemma T_lri d n p s s' : (1 <= p)%nat -> (p - 1 <= n)%nat -> tailed d (n - (p - 1)) s s' -> tailed d n (lri p s) (lri p s').
Proof.
  intros P N H. pose proof (proj1 H) as L. apply T_cells with (x := NaN); rewrite !len_lri; [exact L|].
  intros i I J. unfold lri. rewrite !(nth_szip _ _ _ _ 0%nat (NaN, NaN)) by (rewrite ?seq_length, ?len_rolling_ols; lia).
  rewrite !seq_nth by lia. cbn [Nat.add].
  destruct (ols_moved d (n - (p - 1)) p s s' i P H ltac:(lia) J) as [[-> ->]|(a & b & -> & ->)]; [reflexivity|].
  cbn [fst snd]. unfold nn. rewrite qnat_plus. cbn [nmul nadd]. do 2 f_equal. ring.
Qed.
Lemma T_pb_band d n best p s s' : (1 <= p)%nat -> (p - 1 <= n)%nat -> tailed d (n - (p - 1)) s s' ->
  tailed d n (pb_band best p s) (pb_band best p s').
Proof.
  intros P N H. apply T_map. apply T_seq; [apply H|]. intros i I J.
  destruct (Nat.leb_spec p (S i)), (Nat.leb_spec p (S (d + i))); try lia.
  rewrite <- (T_nth d n _ _ i NaN (T_pb_slope d n p s s' P N H) I). rewrite (T_nth _ _ _ _ _ NaN H) by lia. f_equal.
  apply map_ext_in. intros j K. apply in_seq in K. rewrite (T_nth _ _ _ _ (i - j) NaN H) by lia. do 2 f_equal. lia.
Qed.
(** the sums of LinearRegressionSlope *)
Lemma window_szip {A B C} (f : A -> B -> C) w i a b : window w i (szip f a b) = szip f (window w i a) (window w i b).
Proof. unfold window, szip. rewrite firstn_map, skipn_map, combine_firstn, skipn_combine. reflexivity. Qed.
Lemma full_fins w (l : series) : (length l <= w)%nat -> (w <= length (fins l))%nat -> l = map Fin (fins l) /\ length (fins l) = w.
Proof.
  intros A B. pose proof (fins_len l) as L. split; [|lia]. destruct (fins_full l ltac:(lia)) as [E F]. rewrite E, map_map.
  rewrite <- (map_id l) at 1. apply map_ext_in. intros x I. apply fin0_fin. auto.
Qed.
Lemma fins_fin l : fins (map Fin l) = l.
Proof. induction l; cbn; congruence. Qed.
Lemma szip_fin (f : num -> num -> num) (g : Qc -> Qc -> Qc) a b : (forall x y, f (Fin x) (Fin y) = Fin (g x y)) ->
  szip f (map Fin a) (map Fin b) = map Fin (szip g a b).
Proof. intro H. unfold szip. revert b. induction a as [|x a IH]; intros [|y b]; try reflexivity. cbn. rewrite H, IH. reflexivity. Qed.
Lemma window_days n p i : (i < n)%nat -> (p <= S i)%nat -> window p i (days n) = map Fin (ols_xs (S (S i - p)) p).
Proof.
  intros I P. unfold days, ols_xs. rewrite window_back by exact P. rewrite map_map.
  rewrite skipn_map, firstn_map. unfold nn. f_equal.
  apply nth_ext with (d := 0%nat) (d' := 0%nat); [rewrite firstn_length, skipn_length, !seq_length; lia|].
  intros k K. rewrite firstn_length, skipn_length, seq_length in K. rewrite nth_firstn, nth_skipn, !seq_nth by lia. lia.
Qed.
Definition slope_of (p : nat) (x0 : nat) (ys : list Qc) : num :=
  let xs := ols_xs x0 p in
  nround 4 (ndiv (Fin (qnat p * qdot ys xs - qsum xs * qsum ys)%Qc) (Fin (qnat p * qdot xs xs - qsum xs * qsum xs)%Qc)).
Lemma len_lrs p c : length (lrs p c) = length c.
Proof. set (n := length c). assert (LC : length c = n) by reflexivity. lens. Qed.
Lemma lrs_cell p c i : (i < length c)%nat -> (p <= S i)%nat ->
  nth i (lrs p c) NaN = let ys := fins (window p i c) in if (p <=? length ys)%nat then slope_of p (S (S i - p)) ys else NaN.
Proof.
  intros I P. cbv zeta. set (n := length c).
  assert (LC : length c = n) by reflexivity.
  assert (LD : length (days n) = n) by (unfold days; rewrite map_length, seq_length; reflexivity).
  assert (LX : length (smul (days n) (days n)) = n) by (unfold smul; lens).
  assert (LY : length (smul c (days n)) = n) by (unfold smul; lens).
  assert (ED : nth i (roll_sum p (days n)) NaN = Fin (qsum (ols_xs (S (S i - p)) p))).
  { unfold roll_sum. rewrite nth_rolling by (rewrite LD; exact I). rewrite window_days, fins_fin, len_xs, Nat.leb_refl by (auto; lia). reflexivity. }
  assert (EX : nth i (roll_sum p (smul (days n) (days n))) NaN = Fin (qdot (ols_xs (S (S i - p)) p) (ols_xs (S (S i - p)) p))).
  { unfold roll_sum. rewrite nth_rolling by (rewrite ?LX, ?LY; exact I). unfold smul. rewrite window_szip, window_days by (auto; lia).
    rewrite (szip_fin nmul Qcmult) by reflexivity. rewrite fins_fin, len_szip, len_xs, Nat.min_id, Nat.leb_refl. reflexivity. }
  pose proof (window_short p i c) as WS.
  assert (EY : nth i (roll_sum p c) NaN = if (p <=? length (fins (window p i c)))%nat then Fin (qsum (fins (window p i c))) else NaN).
  { unfold roll_sum. rewrite nth_rolling by exact I. reflexivity. }
  unfold lrs. fold n. set (xy := smul c (days n)) in *. set (xx := smul (days n) (days n)) in *. unser. unfold roll_sum in *. cell.
  rewrite ED, EX, EY.
  destruct (Nat.leb_spec p (length (fins (window p i c)))) as [Q|Q].
  - destruct (full_fins p _ WS Q) as [E L].
    assert (EZ : nth i (rolling p p agg_sum xy) NaN = Fin (qdot (fins (window p i c)) (ols_xs (S (S i - p)) p))).
    { rewrite nth_rolling by (rewrite ?LX, ?LY; exact I). unfold xy, smul. rewrite window_szip, window_days by (auto; lia).
      remember (fins (window p i c)) as ys eqn:EE. rewrite E. rewrite (szip_fin nmul Qcmult) by reflexivity. rewrite fins_fin, len_szip, len_xs, L, Nat.min_id, Nat.leb_refl. reflexivity. }
    rewrite EZ. reflexivity.
  - cbn [nmul]. destruct (nmul (nn p) _); reflexivity.
Qed.
Lemma slope_of_moved d p x0 ys : length ys = p -> slope_of p (d + x0) ys = slope_of p x0 ys.
Proof.
  intro L. unfold slope_of. cbv zeta. rewrite xs_moved, !(dot_comm ys), dot_moved, square_moved, sum_moved by (rewrite len_xs; auto). rewrite len_xs.
  f_equal. f_equal; f_equal; ring.
Qed.
Lemma T_lrs d n p s s' : (1 <= p)%nat -> (p - 1 <= n)%nat -> tailed d (n - (p - 1)) s s' -> tailed d n (lrs p s) (lrs p s').
Proof.
  intros P N H. pose proof (proj1 H) as L. apply T_cells with (x := NaN); rewrite !len_lrs; [exact L|].
  intros i I J. rewrite !lrs_cell by lia. cbv zeta. rewrite <- (T_window _ _ p i _ _ H) by lia.
  destruct (Nat.leb_spec p (length (fins (window p i s')))) as [Q|Q]; [|reflexivity].
  destruct (full_fins p _ (window_short p i s') Q) as [_ E].
  replace (S (S (d + i) - p)) with (d + S (S i - p))%nat by lia. rewrite slope_of_moved by exact E. reflexivity.
Qed.
Lemma T_tsf_raw d n p s s' : (1 <= p)%nat -> (p - 1 <= n)%nat -> tailed d (n - (p - 1)) s s' -> tailed d n (tsf_raw p s) (tsf_raw p s').
Proof. intros P N H. apply T_from_row; [exact N|]. apply T_szip; [apply T_lrs|apply T_lri]; auto. Qed.
Lemma T_cci_diff d n p tp tp' sma sma' : (1 <= p)%nat -> (p - 1 <= n)%nat -> tailed d (n - (p - 1)) tp tp' -> tailed d n sma sma' ->
  tailed d n (cci_diff p tp sma) (cci_diff p tp' sma').
Proof.
  intros P N H K. apply T_seq; [apply H|]. intros i I J. destruct (Nat.leb_spec p (S i)), (Nat.leb_spec p (S (d + i))); try lia.
  rewrite <- (T_window _ _ p i _ _ H) by lia. rewrite (T_nth _ _ _ _ i NaN K) by exact I. reflexivity.
Qed.

(** * SeriesFacts: lengths, cells and prefixes of the series operations. *)
From Coq Require Import ZArith QArith Qcanon Bool List PeanoNat Lia.
From Verif Require Import Num NumFacts Pandas Frame Ind.
Import ListNotations.
Open Scope list_scope.

(** ** lengths *)
Lemma len_smap f s : length (smap f s) = length s.
Proof. apply map_length. Qed.
Lemma len_szip {A B C} (f : A -> B -> C) a b : length (szip f a b) = Nat.min (length a) (length b).
Proof. unfold szip. rewrite map_length. apply combine_length. Qed.
Lemma len_szip3 {A B C E} (f : A -> B -> C -> E) a b c :
  length (szip3 f a b c) = Nat.min (Nat.min (length a) (length b)) (length c).
Proof. unfold szip3. rewrite len_szip, combine_length. reflexivity. Qed.
Lemma len_shift k s : length (shift k s) = length s.
Proof. unfold shift. rewrite firstn_length, app_length, repeat_length. lia. Qed.
Lemma len_shift_back k s : length (shift_back k s) = length s.
Proof. unfold shift_back. rewrite firstn_length, app_length, repeat_length. lia. Qed.
Lemma len_rolling w m agg s : length (rolling w m agg s) = length s.
Proof. unfold rolling. rewrite map_length. apply seq_length. Qed.
Lemma len_ewm_from a m st n s : length (ewm_from a m st n s) = length s.
Proof.
  revert st n; induction s as [|x r IH]; intros; [reflexivity|].
  destruct x, st as [[w ow]|]; cbn [ewm_from length]; rewrite IH; reflexivity.
Qed.
Lemma len_ewm_alpha a m s : length (ewm_alpha a m s) = length s.
Proof. apply len_ewm_from. Qed.
Lemma len_ewm p m s : length (ewm p m s) = length s.
Proof. apply len_ewm_from. Qed.
Lemma len_cumsum_from a s : length (cumsum_from a s) = length s.
Proof. revert a; induction s as [|x r IH]; intros; [reflexivity|]. destruct x; cbn [cumsum_from length]; rewrite IH; reflexivity. Qed.
Lemma len_cumsum s : length (cumsum s) = length s.
Proof. apply len_cumsum_from. Qed.
Lemma len_astype_int s : length (astype_int s) = length s.
Proof. unfold astype_int. destruct (forallb isfin s); [apply len_smap|reflexivity]. Qed.
Lemma len_scan {A B} (step : B -> A -> B) a l : length (scan step a l) = length l.
Proof. revert a; induction l; intros; cbn [scan length]; auto. Qed.
Lemma len_seeded {A} k seed step (s : list A) : length (seeded k seed step s) = length s.
Proof.
  unfold seeded. rewrite firstn_length, app_length, repeat_length. cbn [length].
  rewrite len_scan, skipn_length. lia.
Qed.
Lemma len_rolling_ols p s : length (rolling_ols p s) = length s.
Proof. unfold rolling_ols. rewrite map_length. apply seq_length. Qed.
Lemma len_from_row k s : length (from_row k s) = length s.
Proof. unfold from_row. rewrite firstn_length, app_length, repeat_length, skipn_length. lia. Qed.

(** ** cells *)
Lemma nth_smap f s i : (i < length s)%nat -> nth i (smap f s) NaN = f (nth i s NaN).
Proof. intro H. unfold smap. rewrite (nth_indep _ NaN (f NaN)) by (rewrite map_length; auto). apply map_nth. Qed.
Lemma nth_map {A B} (f : A -> B) d d' l i : (i < length l)%nat -> nth i (map f l) d' = f (nth i l d).
Proof. intro H. rewrite (nth_indep _ d' (f d)) by (rewrite map_length; auto). apply map_nth. Qed.
Lemma nth_combine {A B} (a : list A) (b : list B) i da db :
  (i < length a)%nat -> (i < length b)%nat -> nth i (combine a b) (da, db) = (nth i a da, nth i b db).
Proof.
  revert b i; induction a as [|x a IH]; intros [|y b] i Ha Hb; cbn [length] in *; try lia.
  destruct i; [reflexivity|]. cbn. apply IH; lia.
Qed.
Lemma nth_szip {A B C} (f : A -> B -> C) a b i da db dc :
  (i < length a)%nat -> (i < length b)%nat -> nth i (szip f a b) dc = f (nth i a da) (nth i b db).
Proof.
  intros Ha Hb. unfold szip. rewrite (nth_map _ (da, db)) by (rewrite combine_length; lia).
  rewrite nth_combine by auto. reflexivity.
Qed.
Lemma nth_szip3 {A B C E} (f : A -> B -> C -> E) a b c i da db dc de :
  (i < length a)%nat -> (i < length b)%nat -> (i < length c)%nat ->
  nth i (szip3 f a b c) de = f (nth i a da) (nth i b db) (nth i c dc).
Proof.
  intros. unfold szip3. rewrite (nth_szip _ _ _ _ (da, db) dc) by (rewrite ?combine_length; lia).
  rewrite nth_combine by auto. reflexivity.
Qed.
Lemma nth_repeat_any {A} (x d : A) n i : (i < n)%nat -> nth i (repeat x n) d = x.
Proof. revert i; induction n; intros [|i] H; cbn; try lia; auto. apply IHn; lia. Qed.
Lemma nth_firstn {A} n (l : list A) i d : (i < n)%nat -> nth i (firstn n l) d = nth i l d.
Proof.
  revert l i; induction n; intros [|x l] [|i] H; cbn; try lia; auto. apply IHn; lia.
Qed.
Lemma nth_skipn {A} k (l : list A) i d : nth i (skipn k l) d = nth (k + i) l d.
Proof.
  revert l; induction k; intros; [reflexivity|]. destruct l; [destruct i; reflexivity|]. apply IHk.
Qed.
Lemma nth_shift k s i : (i < length s)%nat -> nth i (shift k s) NaN = if (i <? k)%nat then NaN else nth (i - k) s NaN.
Proof.
  intro H. unfold shift. rewrite nth_firstn by auto. destruct (Nat.ltb_spec i k).
  - rewrite app_nth1 by (rewrite repeat_length; auto). apply nth_repeat_any; auto.
  - rewrite app_nth2 by (rewrite repeat_length; auto). rewrite repeat_length. reflexivity.
Qed.
Lemma nth_shift1 s i : (S i < length s)%nat -> nth (S i) (shift 1 s) NaN = nth i s NaN.
Proof. intro H. rewrite nth_shift by auto. cbn. rewrite Nat.sub_0_r. reflexivity. Qed.
Lemma nth_shift1_0 s : nth 0 (shift 1 s) NaN = NaN.
Proof. destruct s; reflexivity. Qed.
Lemma nth_from_row k s i : (i < length s)%nat -> nth i (from_row k s) NaN = if (i <? k)%nat then NaN else nth i s NaN.
Proof.
  intro H. unfold from_row. rewrite nth_firstn by auto. destruct (Nat.ltb_spec i k).
  - rewrite app_nth1 by (rewrite repeat_length; auto). apply nth_repeat_any; auto.
  - rewrite app_nth2 by (rewrite repeat_length; auto). rewrite repeat_length, nth_skipn.
    f_equal. lia.
Qed.
Lemma nth_rolling w m agg s i : (i < length s)%nat ->
  nth i (rolling w m agg s) NaN =
  if (m <=? length (fins (window w i s)))%nat then agg (fins (window w i s)) else NaN.
Proof.
  intro H. unfold rolling. rewrite (nth_map _ 0%nat) by (rewrite seq_length; auto).
  rewrite seq_nth by auto. reflexivity.
Qed.

(** ** prefixes *)
Lemma smap_firstn n f s : smap f (firstn n s) = firstn n (smap f s).
Proof. unfold smap. symmetry. apply firstn_map. Qed.
Lemma map_firstn {A B} n (f : A -> B) l : map f (firstn n l) = firstn n (map f l).
Proof. symmetry. apply firstn_map. Qed.
Lemma combine_firstn_r {A B} n (a : list A) (b : list B) :
  combine (firstn n a) (firstn n b) = firstn n (combine a b).
Proof. symmetry. apply combine_firstn. Qed.
Lemma szip_firstn {A B C} n (f : A -> B -> C) a b :
  szip f (firstn n a) (firstn n b) = firstn n (szip f a b).
Proof. unfold szip. rewrite combine_firstn_r, map_firstn. reflexivity. Qed.
Lemma szip3_firstn {A B C E} n (f : A -> B -> C -> E) a b c :
  szip3 f (firstn n a) (firstn n b) (firstn n c) = firstn n (szip3 f a b c).
Proof. unfold szip3. rewrite combine_firstn_r, szip_firstn. reflexivity. Qed.
Lemma repeat_firstn {A B} n (x : A) (s : list B) : repeat x (length (firstn n s)) = firstn n (repeat x (length s)).
Proof.
  revert s; induction n; intros; [reflexivity|]. destruct s; [reflexivity|]. cbn. f_equal. apply IHn.
Qed.
Lemma seq_firstn {B} k n (s : list B) : seq k (length (firstn n s)) = firstn n (seq k (length s)).
Proof.
  revert k s; induction n; intros; [reflexivity|]. destruct s; [reflexivity|]. cbn. f_equal. apply IHn.
Qed.
Lemma firstn_min {A} a b (l : list A) : firstn a (firstn b l) = firstn (Nat.min a b) l.
Proof. apply firstn_firstn. Qed.
Lemma firstn_app_firstn {A} n (a b : list A) : firstn n (a ++ firstn n b) = firstn n (a ++ b).
Proof.
  rewrite !firstn_app, firstn_min. f_equal. f_equal. lia.
Qed.
(** the shape of shift, from_row, seeded: k cells and then the series *)
Lemma prefixed_firstn {A B} n (s : list A) (a b b' : list B) :
  firstn n b' = firstn n b ->
  firstn (length (firstn n s)) (a ++ b') = firstn n (firstn (length s) (a ++ b)).
Proof.
  intro H. rewrite firstn_min, firstn_length.
  set (k := Nat.min n (length s)).
  assert (Hk : (k <= n)%nat) by (unfold k; lia).
  assert (E : firstn k b' = firstn k b).
  { replace k with (Nat.min k n) by lia. rewrite <- !firstn_min, H. reflexivity. }
  rewrite <- (firstn_app_firstn k a b'), E. apply firstn_app_firstn.
Qed.
Lemma shift_firstn n k s : shift k (firstn n s) = firstn n (shift k s).
Proof. unfold shift. apply prefixed_firstn. rewrite firstn_min. f_equal. lia. Qed.
Lemma skipn_firstn_agree {A} n k (s : list A) : firstn n (skipn k (firstn n s)) = firstn (n - k) (skipn k s).
Proof. rewrite skipn_firstn_comm, firstn_min. f_equal. lia. Qed.
Lemma from_row_firstn n k s : from_row k (firstn n s) = firstn n (from_row k s).
Proof.
  unfold from_row. rewrite firstn_min. rewrite firstn_length.
  set (m := Nat.min n (length s)).
  rewrite !firstn_app, repeat_length. f_equal.
  rewrite skipn_firstn_comm, firstn_min. f_equal. unfold m. lia.
Qed.
Lemma window_firstn {A} n w i (s : list A) : (i < n)%nat -> window w i (firstn n s) = window w i s.
Proof. intro H. unfold window. rewrite firstn_min. f_equal. f_equal. lia. Qed.
Lemma seq_map_firstn {A B} n k (g g' : nat -> B) (s : list A) :
  (forall i, (i < n)%nat -> (i < length s)%nat -> g' (k + i)%nat = g (k + i)%nat) ->
  map g' (seq k (length (firstn n s))) = firstn n (map g (seq k (length s))).
Proof.
  intro H. rewrite <- map_firstn, <- seq_firstn. apply map_ext_in. intros i Hi.
  apply in_seq in Hi. rewrite firstn_length in Hi.
  replace i with (k + (i - k))%nat by lia. apply H; lia.
Qed.
Lemma rolling_firstn n w m agg s : rolling w m agg (firstn n s) = firstn n (rolling w m agg s).
Proof.
  unfold rolling. apply seq_map_firstn. intros i Hi _. cbn [Nat.add]. rewrite window_firstn by auto. reflexivity.
Qed.
Lemma ewm_from_firstn n a m st k s : ewm_from a m st k (firstn n s) = firstn n (ewm_from a m st k s).
Proof.
  revert st k s; induction n; intros; [reflexivity|]. destruct s as [|x r]; [reflexivity|].
  cbn [firstn]. destruct x, st as [[w ow]|]; cbn [ewm_from firstn]; f_equal; apply IHn.
Qed.
Lemma ewm_alpha_firstn n a m s : ewm_alpha a m (firstn n s) = firstn n (ewm_alpha a m s).
Proof. apply ewm_from_firstn. Qed.
Lemma ewm_firstn n p m s : ewm p m (firstn n s) = firstn n (ewm p m s).
Proof. apply ewm_from_firstn. Qed.
Lemma cumsum_from_firstn n a s : cumsum_from a (firstn n s) = firstn n (cumsum_from a s).
Proof.
  revert a s; induction n; intros; [reflexivity|]. destruct s as [|x r]; [reflexivity|].
  cbn [firstn]. destruct x; cbn [cumsum_from firstn]; f_equal; apply IHn.
Qed.
Lemma cumsum_firstn n s : cumsum (firstn n s) = firstn n (cumsum s).
Proof. apply cumsum_from_firstn. Qed.
Lemma scan_firstn {A B} n (step : B -> A -> B) a l : scan step a (firstn n l) = firstn n (scan step a l).
Proof.
  revert a l; induction n; intros; [reflexivity|]. destruct l; [reflexivity|].
  cbn [firstn scan]. f_equal. apply IHn.
Qed.
Lemma seeded_short {A} k seed step (s : list A) : (length s <= k)%nat ->
  seeded k seed step s = repeat NaN (length s).
Proof.
  intro H. unfold seeded. rewrite firstn_app, repeat_length.
  replace (length s - k)%nat with 0%nat by lia. cbn [firstn]. rewrite app_nil_r.
  replace k with (length s + (k - length s))%nat by lia. rewrite repeat_app, firstn_app, repeat_length.
  rewrite Nat.sub_diag. cbn [firstn]. rewrite app_nil_r. apply firstn_all2. rewrite repeat_length. auto.
Qed.
Lemma seeded_firstn {A} n k seed seed' step (s : list A) :
  ((k < n)%nat -> (k < length s)%nat -> seed' = seed) ->
  seeded k seed' step (firstn n s) = firstn n (seeded k seed step s).
Proof.
  intro H. destruct (Nat.lt_ge_cases k (Nat.min n (length s))) as [L|L].
  - rewrite H by lia. unfold seeded. rewrite firstn_min, firstn_length.
    set (m := Nat.min n (length s)) in *.
    rewrite !firstn_app, repeat_length. f_equal.
    replace (m - k)%nat with (S (m - S k)) by lia. cbn [firstn]. f_equal.
    rewrite <- !scan_firstn. f_equal.
    rewrite skipn_firstn_comm, firstn_min. f_equal. unfold m. lia.
  - rewrite seeded_short by (rewrite firstn_length; lia). rewrite repeat_firstn.
    destruct (Nat.le_gt_cases (length s) k) as [Q|Q].
    + rewrite seeded_short by auto. reflexivity.
    + assert (n <= k)%nat by lia. unfold seeded. rewrite firstn_min.
      rewrite Nat.min_l by lia. rewrite firstn_app, repeat_length.
      replace (n - k)%nat with 0%nat by lia. cbn [firstn]. rewrite app_nil_r.
      assert (G : forall a b, (a <= b)%nat -> firstn a (repeat NaN b) = repeat NaN a).
      { intros a b Hab. replace b with (a + (b - a))%nat by lia. rewrite repeat_app, firstn_app, repeat_length, Nat.sub_diag.
        cbn [firstn]. rewrite app_nil_r. apply firstn_all2. rewrite repeat_length. auto. }
      rewrite !G by lia. reflexivity.
Qed.
Lemma fill0_firstn n s : fill0 (firstn n s) = firstn n (fill0 s).
Proof. apply smap_firstn. Qed.
Lemma rolling_ols_firstn n p s : rolling_ols p (firstn n s) = firstn n (rolling_ols p s).
Proof.
  unfold rolling_ols. apply seq_map_firstn. intros i Hi _. cbn [Nat.add].
  rewrite fill0_firstn, window_firstn by auto. reflexivity.
Qed.
Lemma firstn_seed {A} n k (s : list A) : (k <= n)%nat -> firstn k (firstn n s) = firstn k s.
Proof. intro H. rewrite firstn_min. f_equal. lia. Qed.
Lemma slice_firstn {A} n a b (s : list A) : (b <= n)%nat -> slice a b (firstn n s) = slice a b s.
Proof. intro H. unfold slice. rewrite skipn_firstn_comm, firstn_min. f_equal. lia. Qed.

(** * Starts: the pandas operations on a column that is missing up to some row and a
    known sequence of numbers from there on. *)
From Coq Require Import ZArith QArith Qcanon Bool List String PeanoNat Lia.
From Verif Require Import Num NumFacts RoundFacts Pandas Frame Ind SeriesFacts Lengths Cells RangeSpec RangeFacts RangeMore Signal Api ApiSpec IndSpec ValueSpec ValueFacts ValueMore Recur FormulaSpec.
Import ListNotations.
Open Scope list_scope. Open Scope Qc_scope.

Definition starts (n a : nat) (s : series) (f : nat -> Qc) : Prop :=
  length s = n /\ forall j, (j < n)%nat -> nth j s NaN = from a j (Fin (f j)).
Lemma st_complete n s f : complete_as n s f -> starts n 0 s f.
Proof. intros [L H]. split; auto. Qed.
Lemma st_cell n a s f j : starts n a s f -> (j < n)%nat -> nth j s NaN = from a j (Fin (f j)).
Proof. intros [_ H]. apply H. Qed.
Lemma st_len n a s f : starts n a s f -> length s = n. Proof. intros [L _]. exact L. Qed.
Lemma st_ext n a s f g : starts n a s f -> (forall j, (a <= j)%nat -> (j < n)%nat -> f j = g j) -> starts n a s g.
Proof.
  intros [L H] E. split; auto. intros j J. rewrite H by auto. unfold from. destruct (Nat.ltb_spec j a); auto. rewrite E; auto.
Qed.
Lemma st_at n a b s f : starts n a s f -> a = b -> starts n b s f.
Proof. intros H ->. exact H. Qed.
Lemma from_lt a k v : (k < a)%nat -> from a k v = NaN.
Proof. unfold from. intro H. destruct (Nat.ltb_spec k a); [reflexivity|lia]. Qed.
Lemma from_ge a k v : (a <= k)%nat -> from a k v = v.
Proof. unfold from. intro H. destruct (Nat.ltb_spec k a); [lia|reflexivity]. Qed.
Lemma st_map n a s f (h : num -> num) g : starts n a s f -> h NaN = NaN ->
  (forall j, (a <= j)%nat -> (j < n)%nat -> h (Fin (f j)) = Fin (g j)) -> starts n a (smap h s) g.
Proof.
  intros [L H] N E. split; [lens|]. intros j J. rewrite nth_smap by lia. rewrite H by auto. unfold from.
  destruct (Nat.ltb_spec j a); auto.
Qed.
Lemma st_zip n a b s t f g (h : num -> num -> num) u : starts n a s f -> starts n b t g ->
  (forall x, h NaN x = NaN) -> (forall x, h x NaN = NaN) ->
  (forall j, (Nat.max a b <= j)%nat -> (j < n)%nat -> h (Fin (f j)) (Fin (g j)) = Fin (u j)) -> starts n (Nat.max a b) (szip h s t) u.
Proof.
  intros [L H] [L' H'] N N' E. split; [lens|]. intros j J. rewrite (c_szip h s t j n) by auto. rewrite H, H' by auto. unfold from.
  destruct (Nat.ltb_spec j (Nat.max a b)), (Nat.ltb_spec j a), (Nat.ltb_spec j b); auto; lia.
Qed.
Lemma nan_bin : (forall x, nadd NaN x = NaN) /\ (forall x, nadd x NaN = NaN) /\ (forall x, nsub NaN x = NaN) /\ (forall x, nsub x NaN = NaN) /\
  (forall x, nmul NaN x = NaN) /\ (forall x, nmul x NaN = NaN) /\ (forall x, ndiv NaN x = NaN) /\ (forall x, ndiv x NaN = NaN).
Proof. repeat split; intros [| | |]; reflexivity. Qed.
Lemma st_sub n a b s t f g : starts n a s f -> starts n b t g -> starts n (Nat.max a b) (ssub s t) (fun j => f j - g j).
Proof. intros H H'. unfold ssub. eapply st_zip; eauto; try apply nan_bin; reflexivity. Qed.
Lemma st_add n a b s t f g : starts n a s f -> starts n b t g -> starts n (Nat.max a b) (sadd s t) (fun j => f j + g j).
Proof. intros H H'. unfold sadd. eapply st_zip; eauto; try apply nan_bin; reflexivity. Qed.
Lemma st_mul n a b s t f g : starts n a s f -> starts n b t g -> starts n (Nat.max a b) (smul s t) (fun j => f j * g j).
Proof. intros H H'. unfold smul. eapply st_zip; eauto; try apply nan_bin; reflexivity. Qed.
Lemma ndiv_fin a b : b <> 0 -> ndiv (Fin a) (Fin b) = Fin (a / b).
Proof. intro H. unfold ndiv. rewrite (proj2 (qeqb_false _ _) H). reflexivity. Qed.
Lemma st_div n a b s t f g : starts n a s f -> starts n b t g -> (forall j, (Nat.max a b <= j)%nat -> (j < n)%nat -> g j <> 0) ->
  starts n (Nat.max a b) (sdiv s t) (fun j => f j / g j).
Proof. intros H H' N. unfold sdiv. eapply st_zip; eauto; try apply nan_bin. intros j A B. apply ndiv_fin. auto. Qed.
Lemma st_scale n a s f q : starts n a s f -> starts n a (scale (Fin q) s) (fun j => q * f j).
Proof. intro H. apply (st_map n a s f); auto. Qed.
Lemma st_round n a s f : starts n a s f -> starts n a (sround 4 s) (fun j => r4 (f j)).
Proof. intro H. apply (st_map n a s f); auto. Qed.
Lemma st_shift n a s f m : starts n a s f -> starts n (a + m) (shift m s) (fun j => f (j - m)%nat).
Proof.
  intros [L H]. split; [lens|]. intros j J. rewrite (c_shift m s j n) by auto. unfold from.
  destruct (Nat.ltb_spec j m), (Nat.ltb_spec j (a + m)); auto; try lia; rewrite H by lia; unfold from;
    destruct (Nat.ltb_spec (j - m) a); auto; lia.
Qed.
Lemma st_diff n s f : starts n 0 s f -> starts n 1 (sdiff s) (change 1 f).
Proof. intro H. apply (st_sub n 0 1 s (shift 1 s) f); auto. apply (st_shift n 0 s f 1). auto. Qed.

(** ** rolling *)
Section Roll.
  Variables (n a p : nat) (s : series) (f : nat -> Qc).
  Hypothesis S0 : starts n a s f.
  Hypothesis P : (0 < p)%nat.
  Lemma st_rolled agg g : (forall k, rolled (fun j => nth j s NaN) p k (nth k (rolling p p agg s) NaN) (fun x => Fin (g x))) ->
    (forall x y, (forall j, (j < p)%nat -> x j = y j) -> g x = g y) ->
    starts n (a + p - 1) (rolling p p agg s) (fun k => g (fun j => f (S k - p + j)%nat)).
  Proof.
    intros R _. destruct S0 as [L H]. split; [rewrite len_rolling; auto|]. intros k K. destruct (R k) as [A B]. unfold from.
    destruct (Nat.ltb_spec k (a + p - 1)) as [C|C].
    - apply B. intros x [W1 W2]. destruct (Nat.lt_ge_cases (S k) p); [lia|]. specialize (W2 0%nat P). cbv beta in W2.
      rewrite Nat.add_0_r in W2. rewrite H in W2 by lia. rewrite from_lt in W2 by lia. discriminate.
    - apply A. split; [lia|]. intros j J. rewrite H by lia. apply from_ge. lia.
  Qed.
  Lemma st_roll_sum : starts n (a + p - 1) (roll_sum p s) (sum_last f p).
  Proof. apply (st_rolled agg_sum (fun x => total x p)); [intro k; apply rolled_sum; auto|intros; apply total_ext; auto]. Qed.
  Lemma st_roll_mean : starts n (a + p - 1) (roll_mean p s) (mean_last f p).
  Proof. apply (st_rolled agg_mean (fun x => mean x p)); [intro k; apply rolled_mean; auto|intros; apply mean_ext; auto]. Qed.
  Lemma st_roll_std sq : starts n (a + p - 1) (roll_std sq p s) (fun k => sq (variance (fun j => f (S k - p + j)%nat) p)).
  Proof. apply (st_rolled (agg_std sq) (fun x => sq (variance x p))); [intro k; apply rolled_std; auto|intros; f_equal; apply variance_ext; auto]. Qed.
End Roll.
Lemma max_to_spec f a m : (exists j, (a <= j <= a + m)%nat /\ max_to f a m = f j) /\ forall j, (a <= j <= a + m)%nat -> f j <= max_to f a m.
Proof.
  induction m as [|m [(j & J & E) B]]; cbn [max_to].
  - split; [exists a; split; [lia|reflexivity]|]. intros j J. replace j with a by lia. apply Qcle_refl.
  - unfold larger. destruct (qltb_spec (max_to f a m) (f (a + S m)%nat)) as [X|X].
    + split; [exists (a + S m)%nat; split; [lia|reflexivity]|]. intros i I. destruct (Nat.eq_dec i (a + S m)) as [->|N]; [apply Qcle_refl|].
      apply Qclt_le_weak. eapply Qcle_lt_trans; [apply B; lia|exact X].
    + apply Qcnot_lt_le in X. split; [exists j; split; [lia|exact E]|]. intros i I. destruct (Nat.eq_dec i (a + S m)) as [->|N]; auto. apply B. lia.
Qed.
Lemma min_to_spec f a m : (exists j, (a <= j <= a + m)%nat /\ min_to f a m = f j) /\ forall j, (a <= j <= a + m)%nat -> min_to f a m <= f j.
Proof.
  induction m as [|m [(j & J & E) B]]; cbn [min_to].
  - split; [exists a; split; [lia|reflexivity]|]. intros j J. replace j with a by lia. apply Qcle_refl.
  - unfold smaller. destruct (qltb_spec (f (a + S m)%nat) (min_to f a m)) as [X|X].
    + split; [exists (a + S m)%nat; split; [lia|reflexivity]|]. intros i I. destruct (Nat.eq_dec i (a + S m)) as [->|N]; [apply Qcle_refl|].
      apply Qclt_le_weak. eapply Qclt_le_trans; [exact X|apply B; lia].
    + apply Qcnot_lt_le in X. split; [exists j; split; [lia|exact E]|]. intros i I. destruct (Nat.eq_dec i (a + S m)) as [->|N]; auto. apply B. lia.
Qed.
Lemma st_roll_max n a p s f : starts n a s f -> (0 < p)%nat -> starts n (a + p - 1) (roll_max p p s) (max_last f p).
Proof.
  intros [L H] P. split; [lens|]. intros k K. unfold from. destruct (roll_max_full p s k P ltac:(lia)) as [(M & A & B & C & E)|(A & E)]; rewrite E.
  - destruct (Nat.ltb_spec k (a + p - 1)) as [X|X].
    + exfalso. specialize (B (S k - p)%nat ltac:(lia)). cbv beta in B. rewrite H, from_lt in B by lia. discriminate.
    + f_equal. unfold max_last. destruct (max_to_spec f (S k - p) (p - 1)) as [(j & J & EJ) U]. destruct C as [(i & I & EI) U'].
      rewrite H, from_ge in EI by lia. apply Fin_inj in EI. apply Qcle_antisym.
      * rewrite <- EI. apply U. lia.
      * rewrite EJ. apply (U' j); [lia|]. rewrite H, from_ge by lia. reflexivity.
  - destruct (Nat.ltb_spec k (a + p - 1)) as [X|X]; auto. exfalso. destruct A as [A|(j & J & A)]; [lia|]. cbv beta in A. rewrite H, from_ge in A by lia. discriminate.
Qed.
Lemma st_roll_min n a p s f : starts n a s f -> (0 < p)%nat -> starts n (a + p - 1) (roll_min p p s) (min_last f p).
Proof.
  intros [L H] P. split; [lens|]. intros k K. unfold from. destruct (roll_min_full p s k P ltac:(lia)) as [(M & A & B & C & E)|(A & E)]; rewrite E.
  - destruct (Nat.ltb_spec k (a + p - 1)) as [X|X].
    + exfalso. specialize (B (S k - p)%nat ltac:(lia)). cbv beta in B. rewrite H, from_lt in B by lia. discriminate.
    + f_equal. unfold min_last. destruct (min_to_spec f (S k - p) (p - 1)) as [(j & J & EJ) U]. destruct C as [(i & I & EI) U'].
      rewrite H, from_ge in EI by lia. apply Fin_inj in EI. apply Qcle_antisym.
      * rewrite EJ. apply (U' j); [lia|]. rewrite H, from_ge by lia. reflexivity.
      * rewrite <- EI. apply U. lia.
  - destruct (Nat.ltb_spec k (a + p - 1)) as [X|X]; auto. exfalso. destruct A as [A|(j & J & A)]; [lia|]. cbv beta in A. rewrite H, from_ge in A by lia. discriminate.
Qed.

(** ** exponential averages *)
Lemma ema_ext al f g n : (forall j, (j <= n)%nat -> f j = g j) -> ema al f n = ema al g n.
Proof. induction n; intro H; cbn [ema]; [auto|]. rewrite IHn by (intros; apply H; lia). rewrite H by lia. reflexivity. Qed.
Fixpoint ema_on (al w : Qc) (f : nat -> Qc) (n : nat) : Qc :=
  match n with O => al * f O + (1 - al) * w | S m => al * f n + (1 - al) * ema_on al w f m end.
Lemma ema_on_shift al w f n : ema_on al (al * f O + (1 - al) * w) (fun j => f (S j)) n = ema_on al w f (S n).
Proof. induction n; cbn [ema_on]; [reflexivity|]. rewrite IHn. reflexivity. Qed.
Lemma ema_on_ema al f n : ema_on al (f O) (fun j => f (S j)) n = ema al f (S n).
Proof. induction n; cbn [ema_on ema]; [reflexivity|]. rewrite IHn. reflexivity. Qed.
Lemma ewm_from_on al m s : forall w o f, (forall j, (j < length s)%nat -> nth j s NaN = Fin (f j)) ->
  forall k, (k < length s)%nat -> nth k (ewm_from al m (Some (w, 1)) o s) NaN = ewm_out m (o + S k) (ema_on al w f k).
Proof.
  induction s as [|x s IH]; intros w o f H k K; cbn [length] in *; [lia|].
  assert (X : x = Fin (f O)) by exact (H 0%nat ltac:(lia)). subst x. cbn [ewm_from].
  assert (E : (1 * (1 - al) * w + al * f O) / (1 * (1 - al) + al) = al * f O + (1 - al) * w).
  { replace (1 * (1 - al) + al) with 1 by ring. field. discriminate. }
  rewrite E. destruct k as [|k]; cbn [nth].
  - replace (o + 1)%nat with (S o) by lia. reflexivity.
  - rewrite (IH _ _ (fun j => f (S j))) by (try lia; intros j J; exact (H (S j) ltac:(lia))).
    rewrite ema_on_shift. replace (S o + S k)%nat with (o + S (S k))%nat by lia. reflexivity.
Qed.
Lemma st_ewm_alpha al m : (0 < m)%nat -> forall a n s f, starts n a s f -> starts n (a + m - 1) (ewm_alpha al m s) (fun k => ema al (fun j => f (a + j)%nat) (k - a)).
Proof.
  intros M a. unfold ewm_alpha. induction a as [|a IH]; intros n s f [L H]; (split; [rewrite len_ewm_from; auto|]); intros k K.
  - destruct s as [|x s]; [cbn in L; lia|]. assert (X : x = Fin (f O)) by exact (H 0%nat ltac:(lia)). subst x. cbn [length] in L.
    cbn [ewm_from]. destruct k as [|k]; cbn [nth].
    + unfold ewm_out, from. cbn [ema Nat.sub]. destruct (Nat.leb_spec m 1), (Nat.ltb_spec 0 (0 + m - 1)); auto; lia.
    + rewrite (ewm_from_on al m s _ _ (fun j => f (S j))) by (try lia; intros j J; exact (H (S j) ltac:(lia))).
      rewrite ema_on_ema. unfold ewm_out, from. cbn [Nat.sub].
      destruct (Nat.leb_spec m (1 + S k)), (Nat.ltb_spec (S k) (0 + m - 1)); auto; try lia.
  - destruct s as [|x s]; [cbn in L; lia|]. assert (X : x = NaN) by (specialize (H 0%nat ltac:(lia)); exact H). subst x. cbn [length] in L.
    cbn [ewm_from]. destruct k as [|k]; cbn [nth].
    + symmetry. apply from_lt. lia.
    + destruct (IH (length s) s (fun j => f (S j))) as [_ IH'].
      * split; auto. intros j J. specialize (H (S j) ltac:(lia)). cbn [nth] in H. rewrite H. unfold from.
        destruct (Nat.ltb_spec (S j) (S a)), (Nat.ltb_spec j a); auto; lia.
      * rewrite IH' by lia. unfold from. destruct (Nat.ltb_spec k (a + m - 1)), (Nat.ltb_spec (S k) (S a + m - 1)); auto; try lia.
Qed.
Lemma st_ewm n a p m s f : starts n a s f -> (0 < m)%nat -> starts n (a + m - 1) (ewm p m s) (ema_from a p f).
Proof. intros H M. exact (st_ewm_alpha _ m M a n s f H). Qed.

(** ** seeded lines *)
Lemma run_ext g q f f' n : (forall j, (1 <= j <= n)%nat -> f j = f' j) -> run g q f n = run g q f' n.
Proof. induction n; intro H; cbn [run]; [auto|]. rewrite IHn by (intros; apply H; lia). rewrite H by lia. reflexivity. Qed.
Lemma st_seeded n a s f k0 seed q step g : starts n a s f -> (a <= S k0)%nat -> ((k0 < n)%nat -> seed = Fin q) ->
  (forall x y, step (Fin x) (Fin y) = Fin (g x y)) -> starts n k0 (seeded k0 seed step s) (run_from k0 g q f).
Proof.
  intros [L H] A E G. split; [rewrite len_seeded; auto|]. intros k K. unfold from. destruct (Nat.ltb_spec k k0) as [B|B].
  - apply seeded_before; auto.
  - unfold run_from. induction k as [|k IH].
    + replace k0 with 0%nat by lia. rewrite seeded_at by lia. rewrite E by lia. reflexivity.
    + destruct (Nat.eq_dec k0 (S k)) as [->|N].
      * rewrite seeded_at by lia. rewrite E by lia. rewrite Nat.sub_diag. reflexivity.
      * rewrite (seeded_next _ _ _ s NaN) by lia. rewrite IH by lia. rewrite H, from_ge by lia. rewrite G.
        replace (S k - k0)%nat with (S (k - k0)) by lia. cbn [run]. do 2 f_equal. f_equal. lia.
Qed.
Lemma nn_pos p : (0 < p)%nat -> nq p <> 0.
Proof. intro P. apply qc_pos_neq0. apply qnat_pos. auto. Qed.
Lemma wilder_fin p x y : (0 < p)%nat -> wilder p (Fin x) (Fin y) = Fin (wilders p x y).
Proof. intro P. unfold wilder, nn. cbn [nsub nneg nadd]. rewrite ndiv_fin by (apply nn_pos; auto). reflexivity. Qed.

(** ** sums and means of cells *)
Lemma nsum_from l a : fold_left nadd (map Fin l) (Fin a) = Fin (a + qsum l).
Proof. revert a. induction l as [|x l IH]; intro a; cbn; [f_equal; ring|]. rewrite IH. f_equal. unfold qsum. ring. Qed.
Lemma nsum_fin l : nsum (map Fin l) = Fin (qsum l).
Proof. unfold nsum. rewrite nsum_from. f_equal. ring. Qed.
Lemma present_fin l : present (map Fin l) = map Fin l.
Proof. induction l; cbn; [auto|]. f_equal. auto. Qed.
Lemma firstn_S_nth {A} b (s : list A) d : (b < length s)%nat -> firstn (S b) s = firstn b s ++ [nth b s d].
Proof.
  revert s. induction b as [|b IH]; intros [|x s] H; cbn [length] in H; try lia; [reflexivity|].
  change (firstn (S (S b)) (x :: s)) with (x :: firstn (S b) s). rewrite IH by lia. reflexivity.
Qed.
Lemma st_present n a s f b : starts n a s f -> (b <= n)%nat -> present (firstn b s) = map Fin (map f (seq a (b - a))).
Proof.
  intros [L H]. induction b as [|b IH]; intro B; [reflexivity|]. rewrite (firstn_S_nth b s NaN) by lia. unfold present. rewrite filter_app.
  fold (present (firstn b s)). rewrite IH by lia. rewrite H by lia. unfold from. destruct (Nat.ltb_spec b a).
  - replace (b - a)%nat with 0%nat by lia. replace (S b - a)%nat with 0%nat by lia. reflexivity.
  - replace (S b - a)%nat with (S (b - a)) by lia. rewrite seq_S, !map_app. cbn [map]. replace (a + (b - a))%nat with b by lia. reflexivity.
Qed.
Lemma st_sum_skip n a s f b : starts n a s f -> (b <= n)%nat -> sum_skip (firstn b s) = Fin (total (fun j => f (a + j)%nat) (b - a)).
Proof. intros H B. unfold sum_skip. rewrite (st_present n a s f) by auto. rewrite nsum_fin, qsum_seq. reflexivity. Qed.
Lemma st_mean_skip n a s f b : starts n a s f -> (b <= n)%nat -> (a < b)%nat -> mean_skip (firstn b s) = Fin (total (fun j => f (a + j)%nat) (b - a) / nq (b - a)).
Proof.
  intros H B AB. unfold mean_skip. rewrite (st_present n a s f) by auto. rewrite nsum_fin, qsum_seq. rewrite !map_length, seq_length.
  change (qnat (b - a)) with (nq (b - a)). apply ndiv_fin. apply nn_pos. lia.
Qed.
Lemma slice_map n a s f m b : starts n a s f -> (a <= m)%nat -> (m <= b <= n)%nat -> slice m b s = map Fin (map f (seq m (b - m))).
Proof.
  intros [L H] A B. unfold slice. apply (list_nth_eq _ _ NaN).
  - rewrite firstn_length, skipn_length, !map_length, seq_length. lia.
  - intros k K. rewrite firstn_length, skipn_length in K. rewrite nth_firstn by lia. rewrite nth_skipn. rewrite H, from_ge by lia.
    rewrite map_map. rewrite (nth_map _ 0%nat) by (rewrite seq_length; lia). rewrite seq_nth by lia. reflexivity.
Qed.
Lemma st_mean_slice n a s f m b : starts n a s f -> (a <= m)%nat -> (m < b <= n)%nat ->
  mean_skip (slice m b s) = Fin (total (fun j => f (m + j)%nat) (b - m) / nq (b - m)).
Proof.
  intros H A B. rewrite (slice_map n a s f) by (auto; lia). unfold mean_skip. rewrite present_fin, nsum_fin, qsum_seq. rewrite !map_length, seq_length.
  change (qnat (b - m)) with (nq (b - m)). apply ndiv_fin. apply nn_pos. lia.
Qed.
Lemma st_from_row n a s f m : starts n a s f -> (a <= m)%nat -> starts n m (from_row m s) f.
Proof.
  intros [L H] A. split; [lens|]. intros j J. rewrite (c_from_row m s j n) by auto. unfold from. destruct (Nat.ltb_spec j m); auto.
  rewrite H, from_ge by lia. reflexivity.
Qed.
Lemma st_drop_neg n a s f : starts n a s f -> starts n a (drop_neg s) (fun j => gain (f j)).
Proof.
  intro H. apply (st_map n a s f); auto. intros j _ _. cbn. unfold gain. change (Q2Qc (inject_Z 0)) with 0.
  destruct (qltb_spec (f j) 0) as [A|A]; destruct (qltb_spec 0 (f j)) as [B|B]; auto; [exfalso; qlra|].
  apply Qcnot_lt_le in A, B. f_equal. apply Qcle_antisym; auto.
Qed.
Lemma st_drop_pos n a s f : starts n a s f -> starts n a (drop_pos s) (fun j => - loss (f j)).
Proof.
  intro H. apply (st_map n a s f); auto. intros j _ _. cbn. unfold loss. change (Q2Qc (inject_Z 0)) with 0.
  destruct (qltb_spec 0 (f j)) as [A|A]; destruct (qltb_spec (f j) 0) as [B|B].
  - exfalso. apply (Qclt_not_le _ _ A). apply Qclt_le_weak. exact B.
  - transitivity (Fin 0); [reflexivity|f_equal; ring].
  - f_equal; ring.
  - apply Qcnot_lt_le in A, B. f_equal. transitivity 0; [apply Qcle_antisym; auto|ring].
Qed.
Lemma st_abs n a s f : starts n a s f -> starts n a (sabs s) (fun j => abs (f j)).
Proof. intro H. apply (st_map n a s f); auto. Qed.
Lemma st_divc n a s f q : starts n a s f -> q <> 0 -> starts n a (sdivc s (Fin q)) (fun j => f j / q).
Proof. intros H Q. apply (st_map n a s f); auto. intros. apply ndiv_fin; auto. Qed.
Lemma st_end n a s f k b v : starts n a s f -> (k < n)%nat -> a = b -> ((b <= k)%nat -> f k = v) -> nth k s NaN = from b k (Fin v).
Proof. intros H K <- E. rewrite (st_cell n a s f) by auto. unfold from. destruct (Nat.ltb_spec k a); auto. rewrite E; auto. Qed.

(** ** columns of which only the rows from a on matter *)
Definition later (n a : nat) (s : series) (f : nat -> Qc) : Prop :=
  length s = n /\ forall j, (a <= j < n)%nat -> nth j s NaN = Fin (f j).
Lemma later_starts n a s f b : starts n a s f -> (a <= b)%nat -> later n b s f.
Proof. intros [L H] B. split; auto. intros j J. rewrite H, from_ge by lia. reflexivity. Qed.
Lemma later_seeded n s f k0 seed q step g : later n (S k0) s f -> ((k0 < n)%nat -> seed = Fin q) ->
  (forall x j, (k0 < j < n)%nat -> step (Fin x) (Fin (f j)) = Fin (g x (f j))) -> starts n k0 (seeded k0 seed step s) (run_from k0 g q f).
Proof.
  intros [L H] E G. split; [rewrite len_seeded; auto|]. intros k K. unfold from. destruct (Nat.ltb_spec k k0) as [B|B].
  - apply seeded_before; auto.
  - unfold run_from. induction k as [|k IH].
    + replace k0 with 0%nat by lia. rewrite seeded_at by lia. rewrite E by lia. reflexivity.
    + destruct (Nat.eq_dec k0 (S k)) as [->|N].
      * rewrite seeded_at by lia. rewrite E by lia. rewrite Nat.sub_diag. reflexivity.
      * rewrite (seeded_next _ _ _ s NaN) by lia. rewrite IH by lia. rewrite H by lia. rewrite G by lia.
        replace (S k - k0)%nat with (S (k - k0)) by lia. cbn [run]. replace (k0 + S (k - k0))%nat with (S k) by lia. reflexivity.
Qed.
Lemma later_slice n a s f m b : later n a s f -> (a <= m)%nat -> (m <= b <= n)%nat -> slice m b s = map Fin (map f (seq m (b - m))).
Proof.
  intros [L H] A B. unfold slice. apply (list_nth_eq _ _ NaN).
  - rewrite firstn_length, skipn_length, !map_length, seq_length. lia.
  - intros k K. rewrite firstn_length, skipn_length in K. rewrite nth_firstn by lia. rewrite nth_skipn. rewrite H by lia.
    rewrite map_map. rewrite (nth_map _ 0%nat) by (rewrite seq_length; lia). rewrite seq_nth by lia. reflexivity.
Qed.
Lemma later_mean_slice n a s f m b : later n a s f -> (a <= m)%nat -> (m < b <= n)%nat ->
  mean_skip (slice m b s) = Fin (total (fun j => f (m + j)%nat) (b - m) / nq (b - m)).
Proof.
  intros H A B. rewrite (later_slice n a s f) by (auto; lia). unfold mean_skip. rewrite present_fin, nsum_fin, qsum_seq. rewrite !map_length, seq_length.
  change (qnat (b - m)) with (nq (b - m)). apply ndiv_fin. apply nn_pos. lia.
Qed.

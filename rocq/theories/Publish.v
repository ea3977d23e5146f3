(** * Publish: from the caller's data to the cells of getTiData. *)
From Coq Require Import ZArith QArith Qcanon Bool List String PeanoNat Lia Sorted Permutation.
From Verif Require Import Num NumFacts Pandas Sim Frame FrameSpec FrameProofs Ind Signal Api IndSpec SeriesFacts Lengths Causal IndFacts Shape ApiSpec ApiCheck ApiProofs ApiLemmas RangeSpec Cells RangeFacts RangeMore.
Import ListNotations.
Open Scope list_scope. Open Scope string_scope.

Lemma sort_drop_col req labels rs c k : rect (List.length labels) rs -> In c req -> position c labels = Some k ->
  col c (sort_index (drop_cols req labels rs)) = map (fun r => nth k (snd r) NaN) (sort_rows rs).
Proof.
  intros R I P. rewrite <- (drop_cols_col req labels (sort_rows rs) c k) by (auto using sort_rect).
  unfold sort_index, drop_cols. cbn [cols rows]. rewrite sort_rows_map by reflexivity. reflexivity.
Qed.
Lemma nth_map_row kc (l : list row) k : (k < List.length l)%nat ->
  nth k (map (fun r => nth kc (snd r) NaN) l) NaN = nth kc (snd (nth k l (0%Z, []))) NaN.
Proof. revert k; induction l as [|x l IH]; intros [|k] L; cbn in *; try lia; auto. apply IH. lia. Qed.
Lemma validated_row raw req b f : wf_raw raw -> snd (validate (RFrame raw) req b) = Ok f -> unfilled req b raw ->
  forall k, (k < List.length (rows f))%nat -> exists r, In r (r_rows raw) /\ forall c, In c req -> nth k (col c f) NaN = raw_cell raw c r.
Proof.
  intros W V U k L. pose proof (validated_len _ _ _ _ V) as LN.
  assert (A : acceptable (RFrame raw) req) by (apply (validate_accepts _ _ b); eauto).
  destruct A as [f' [E [H1 [H2 [H3 [H4 [H5 H6]]]]]]]. injection E as <-.
  destruct W as [_ HR]. assert (HR' := HR). rewrite <- (str_labels_len raw H4) in HR'.
  exists (nth k (sort_rows (r_rows raw)) (0%Z, [])).
  assert (LS : List.length (sort_rows (r_rows raw)) = List.length (r_rows raw)) by (apply Permutation_length; apply sort_rows_perm).
  assert (LK : (k < List.length (sort_rows (r_rows raw)))%nat) by (rewrite LS, <- LN; exact L).
  assert (IR : In (nth k (sort_rows (r_rows raw)) (0%Z, [])) (r_rows raw)).
  { eapply Permutation_in; [apply sort_rows_perm|]. apply nth_In. exact LK. }
  split; auto. intros c I. destruct (H5 c I) as [_ (kc & KC & _)].
  pose proof (sort_drop_col req (str_labels raw) (r_rows raw) c kc HR' I KC) as SC.
  assert (B : nth k (col c (sort_index (drop_cols req (str_labels raw) (r_rows raw)))) NaN = raw_cell raw c (nth k (sort_rows (r_rows raw)) (0%Z, []))).
  { rewrite SC. unfold raw_cell. rewrite KC.
    exact (nth_map_row kc (sort_rows (r_rows raw)) k LK). }
  pose proof (validate_out _ _ _ _ V) as O. cbv zeta in O. subst f. destruct b; [|exact B].
  destruct U as [U|U]; [discriminate|].
  set (g0 := sort_index (drop_cols req (str_labels raw) (r_rows raw))) in *.
  assert (W0 : wf g0) by (unfold wf, g0; apply sort_rect; apply (drop_cols_wf req _ _ HR')).
  rewrite (fill_col g0 c W0) by (apply index_sort_sorted).
  assert (LC : List.length (col c g0) = List.length (r_rows raw)) by (rewrite SC, map_length; auto).
  assert (LC' : (k < List.length (col c g0))%nat) by (rewrite LC, <- LN; exact L).
  rewrite nth_map_seq by exact LC'. rewrite nearest_present; [exact B| |exact LC'].
  rewrite B. specialize (U c _ I IR). destruct (raw_cell _ _ _); auto. congruence.
Qed.

(** everything known about an object a constructor returned *)
Record view (o : oracle) (i : ind) (raw : rawframe) (b : bool) (ob : obj) (f : frame) : Prop := mkView {
  v_ind : ob_ind ob = i;
  v_val : snd (validate (RFrame raw) (required i) b) = Ok f;
  v_good : good_input i f;
  v_valid : valid i;
  v_len : List.length (rows f) = List.length (r_rows raw);
  v_enough : match needs i with Some (_, _, k) => (k <= List.length (rows f))%nat | None => True end;
  v_input : ob_input ob = input_after i f;
  v_col : is_dpo i = false -> forall name s, lookup name (ti_cols o i f) = Some s -> col name (get_ti_data ob) = s
}.
Lemma construct_view o c raw b ob : wf_raw raw -> snd (construct o c (RFrame raw) (VBool b)) = Ok ob ->
  exists f, view o (asked c) raw b ob f.
Proof.
  intros W H. apply construct_inv in H as (i & raw0 & b0 & f & CK & Q & B & V & K & EI). injection Q as <-. injection B as <-.
  pose proof (check_asked _ _ CK) as EA. subst i. exists f. rewrite <- EA.
  pose proof (validated_good _ _ _ _ W V) as G. pose proof (calc_ok _ _ _ _ K) as [E EN].
  constructor; auto.
  - apply accepted_valid. exists c. congruence.
  - eapply validated_len; eauto.
  - apply (f_equal fst) in E. exact E.
  - intros D name s L. eapply ti_col; eauto. intros p E'. rewrite E' in D. discriminate D.
Qed.

Section ViewFacts.
  Context {o : oracle} {i : ind} {raw : rawframe} {b : bool} {ob : obj} {f : frame}.
  Hypothesis W : wf_raw raw.
  Hypothesis V : view o i raw b ob f.
  Lemma view_length c : In c (required i) -> List.length (col c f) = List.length (rows f).
  Proof. intro I. apply len_col. apply (v_good _ _ _ _ _ _ V). auto. Qed.
  Lemma view_ple x y : In x (required i) -> In y (required i) -> unfilled (required i) b raw -> day_le x y raw ->
    ple (col x f) (col y f).
  Proof.
    intros X Y U D k. destruct (Nat.lt_ge_cases k (List.length (rows f))) as [L|L].
    - destruct (validated_row _ _ _ _ W (v_val _ _ _ _ _ _ V) U k L) as (r & R & C). rewrite !C by auto. apply D; auto.
    - left. apply nth_overflow. rewrite view_length; auto.
  Qed.
  Lemma view_nonneg x k : In x (required i) -> unfilled (required i) b raw -> no_negative x raw -> present_le (F 0) (nth k (col x f) NaN).
  Proof.
    intros X U D. destruct (Nat.lt_ge_cases k (List.length (rows f))) as [L|L].
    - destruct (validated_row _ _ _ _ W (v_val _ _ _ _ _ _ V) U k L) as (r & R & C). rewrite !C by auto. apply D; auto.
    - right. left. apply nth_overflow. rewrite view_length; auto.
  Qed.
  Lemma complete_unfilled cs : complete cs raw -> unfilled cs b raw.
  Proof. intro C. right. intros c r I R E. specialize (C c r I R). rewrite E in C. discriminate. Qed.
  Lemma view_finite x : In x (required i) -> complete (required i) raw -> finite (col x f).
  Proof.
    intros X C k L. rewrite view_length in L by auto.
    destruct (validated_row _ _ _ _ W (v_val _ _ _ _ _ _ V) (complete_unfilled _ C) k L) as (r & R & D). rewrite D by auto. apply C; auto.
  Qed.
  Lemma view_decimals x k : In x (required i) -> unfilled (required i) b raw -> decimals 4 x raw -> four_decimals (nth k (col x f) NaN).
  Proof.
    intros X U D. destruct (Nat.lt_ge_cases k (List.length (rows f))) as [L|L].
    - destruct (validated_row _ _ _ _ W (v_val _ _ _ _ _ _ V) U k L) as (r & R & C). rewrite !C by auto.
      unfold four_decimals. destruct (raw_cell raw x r) eqn:E; auto. eapply D; eauto.
    - rewrite nth_overflow by (rewrite view_length; auto). exact I.
  Qed.
  Lemma view_filled x : In x (required i) -> complete (required i) raw -> col x (fill_missing f) = col x f.
  Proof.
    intros X C. pose proof (v_good _ _ _ _ _ _ V) as (G1 & G2 & G3). rewrite (fill_col f x G2 G3).
    pose proof (view_finite x X C) as FI.
    apply nth_ext with (d := NaN) (d' := NaN); [rewrite map_length, seq_length; reflexivity|].
    intros k L. rewrite map_length, seq_length in L. rewrite nth_map_seq by auto. apply nearest_present; auto.
    specialize (FI k L). destruct (nth k (col x f) NaN); auto; discriminate.
  Qed.
  Lemma view_cell name s : is_dpo i = false -> lookup name (ti_cols o i f) = Some s ->
    forall k, cell_at name k (get_ti_data ob) = nth k s NaN.
  Proof. intros D L k. unfold cell_at. rewrite (v_col _ _ _ _ _ _ V D name s L). reflexivity. Qed.
End ViewFacts.

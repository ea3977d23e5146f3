(** * FrameProofs: facts about sorting, filling and validation. *)
From Coq Require Import ZArith QArith Qcanon Bool List String PeanoNat Permutation Sorted Lia.
From Verif Require Import Num NumFacts Pandas Frame FrameSpec.
Import ListNotations.
Open Scope list_scope.
Notation length := List.length.

(** ** sorting *)
Definition row_le (a b : row) : Prop := (fst a <= fst b)%Z.

Lemma insert_perm r l : Permutation (insert r l) (r :: l).
Proof.
  induction l as [|x l IH]; simpl; auto. destruct (Z.leb _ _); auto.
  rewrite IH. apply perm_swap.
Qed.
Lemma sort_rows_perm l : Permutation (sort_rows l) l.
Proof. induction l as [|x l IH]; simpl; auto. rewrite insert_perm. auto. Qed.

Lemma insert_sorted r l : StronglySorted row_le l -> StronglySorted row_le (insert r l).
Proof.
  induction 1 as [|x l Hs IH Hx]; simpl.
  - constructor; auto. constructor.
  - destruct (Z.leb_spec (fst r) (fst x)) as [L|L].
    + constructor; [constructor; auto|]. constructor; [exact L|].
      eapply Forall_impl; [|exact Hx]. unfold row_le. intros; lia.
    + constructor; auto. apply Forall_forall. intros y Hy.
      apply (Permutation_in _ (insert_perm r l)) in Hy. destruct Hy as [<-|Hy].
      * unfold row_le; lia.
      * rewrite Forall_forall in Hx. apply Hx; auto.
Qed.
Lemma sort_rows_sorted l : StronglySorted row_le (sort_rows l).
Proof. induction l; simpl; [constructor|apply insert_sorted; auto]. Qed.

Lemma sort_rows_fix l : StronglySorted row_le l -> sort_rows l = l.
Proof.
  induction 1 as [|x l Hs IH Hx]; simpl; auto. rewrite IH.
  destruct l as [|y l]; simpl; auto. inversion Hx; subst.
  destruct (Z.leb_spec (fst x) (fst y)); auto. unfold row_le in *; lia.
Qed.

Lemma sorted_perm_unique l l' :
  StronglySorted row_le l -> StronglySorted row_le l' -> NoDup (map fst l) ->
  Permutation l l' -> l = l'.
Proof.
  intro H. revert l'. induction H as [|x l Hs IH Hx]; intros l' Hs' Hn P.
  - apply Permutation_nil in P. auto.
  - destruct l' as [|y l']; [symmetry in P; apply Permutation_nil in P; discriminate|].
    inversion Hs' as [|? ? Hs2 Hy]; subst.
    assert (E : x = y).
    { assert (I1 : In y (x :: l)) by (eapply Permutation_in; [symmetry; exact P|left; auto]).
      assert (I2 : In x (y :: l')) by (eapply Permutation_in; [exact P|left; auto]).
      destruct I1 as [|I1]; auto. destruct I2 as [|I2]; auto.
      rewrite Forall_forall in Hx, Hy. specialize (Hx _ I1). specialize (Hy _ I2).
      unfold row_le in *. assert (fst x = fst y) by lia.
      inversion Hn as [|? ? Hnx _]; subst. exfalso. apply Hnx. rewrite H. apply in_map. auto. }
    subst y. f_equal. apply IH; auto.
    + inversion Hn; auto.
    + eapply Permutation_cons_inv; eauto.
Qed.

Lemma sort_rows_unique l l' : NoDup (map fst l) -> Permutation l l' -> sort_rows l = sort_rows l'.
Proof.
  intros Hn P. apply sorted_perm_unique; auto using sort_rows_sorted.
  - eapply Permutation_NoDup; [|exact Hn]. apply Permutation_map. symmetry. apply sort_rows_perm.
  - rewrite !sort_rows_perm. auto.
Qed.

Lemma insert_map (g : row -> row) r l : (forall x, fst (g x) = fst x) ->
  insert (g r) (map g l) = map g (insert r l).
Proof. intro H. induction l as [|x l IH]; simpl; auto. rewrite !H. destruct (Z.leb _ _); simpl; congruence. Qed.
Lemma sort_rows_map (g : row -> row) l : (forall x, fst (g x) = fst x) ->
  sort_rows (map g l) = map g (sort_rows l).
Proof. intro H. induction l as [|x l IH]; simpl; auto. rewrite IH, insert_map; auto. Qed.

(** ** filling, one column at a time *)
Fixpoint ffs_from (prev : num) (s : series) : series :=
  match s with
  | [] => []
  | x :: r => let x' := if isnan x then prev else x in x' :: ffs_from x' r
  end.
Fixpoint bfs (s : series) : series :=
  match s with
  | [] => []
  | x :: r => match bfs r with
              | [] => [x]
              | y :: t => (if isnan x then y else x) :: y :: t
              end
  end.

Lemma ffs_from_len p s : length (ffs_from p s) = length s.
Proof. revert p; induction s; intro; simpl; auto. Qed.
Lemma bfs_len s : length (bfs s) = length s.
Proof. induction s as [|x s IH]; simpl; auto. destruct (bfs s) as [|y t]; simpl in *; lia. Qed.

Lemma ffs_present p s : isnan p = false -> Forall (fun x => isnan x = false) (ffs_from p s).
Proof.
  revert p; induction s as [|x s IH]; intros p H; simpl; constructor; destruct (isnan x) eqn:E; auto.
Qed.
Lemma bfs_present s : Forall (fun x => isnan x = false) s -> bfs s = s.
Proof.
  induction 1 as [|x s Hx Hs IH]; simpl; auto. rewrite IH. destruct s; auto. rewrite Hx. auto.
Qed.

Lemma present_cons x l : present (x :: l) = if isnan x then present l else x :: present l.
Proof. destruct x; reflexivity. Qed.
Lemma present_app a b : present (a ++ b) = present a ++ present b.
Proof. unfold present. apply filter_app. Qed.

Lemma ffs_spec p s : isnan p = false ->
  ffs_from p s = map (fun i => hd NaN (rev (p :: present (firstn (S i) s)))) (seq 0 (length s)).
Proof.
  revert p; induction s as [|x s IH]; intros p H; [reflexivity|].
  cbn [ffs_from length seq map].
  rewrite <- seq_shift, map_map.
  assert (E : isnan (if isnan x then p else x) = false) by (destruct (isnan x) eqn:E; auto).
  rewrite (IH _ E). f_equal.
  - cbn [firstn]. rewrite present_cons. destruct (isnan x); reflexivity.
  - apply map_ext. intro i. cbn [firstn]. rewrite (present_cons x). destruct (isnan x) eqn:Ex; auto.
    cbn [rev]. destruct (rev (present _)); reflexivity.
Qed.

Lemma nearest_nan_S s i : nearest (NaN :: s) (S i) = nearest s i.
Proof. reflexivity. Qed.
Lemma nearest_nan_0 s : nearest (NaN :: s) 0 = hd NaN (map (nearest s) (seq 0 (length s))).
Proof.
  destruct s as [|x s]; [reflexivity|]. unfold nearest. cbn [firstn skipn length seq map hd].
  rewrite !present_cons. destruct (isnan x) eqn:E; reflexivity.
Qed.

Lemma fill_series_spec s : bfs (ffs_from NaN s) = map (nearest s) (seq 0 (length s)).
Proof.
  induction s as [|x s IH]; simpl; auto.
  destruct (isnan x) eqn:E.
  - destruct x; try discriminate. rewrite IH. rewrite <- seq_shift, map_map.
    change (map (fun x => nearest (NaN :: s) (S x)) (seq 0 (length s))) with (map (nearest s) (seq 0 (length s))).
    rewrite nearest_nan_0. destruct s as [|y s]; reflexivity.
  - rewrite bfs_present by (apply ffs_present; auto).
    destruct (ffs_from x s) as [|y t] eqn:EF.
    + destruct s; [|discriminate]. simpl. unfold nearest. cbn [firstn skipn]. rewrite present_cons, E. reflexivity.
    + rewrite <- EF. rewrite <- seq_shift, map_map. f_equal.
      * unfold nearest. cbn [firstn skipn]. rewrite present_cons, E. reflexivity.
      * rewrite ffs_spec by auto. apply map_ext. intro i. unfold nearest.
        change (firstn (S (S i)) (x :: s)) with (x :: firstn (S i) s).
        rewrite (present_cons x), E. cbn [rev].
        destruct (rev (present (firstn (S i) s))); reflexivity.
Qed.

(** rows to columns *)
Definition nthcol (k : nat) (l : list row) : series := map (fun r => nth k (snd r) NaN) l.

Lemma fill_cells_len a b : length a = length b -> length (fill_cells a b) = length b.
Proof. intro. unfold fill_cells, szip. rewrite map_length, combine_length. lia. Qed.
Lemma fill_cells_nth a b k : length a = length b -> (k < length b)%nat ->
  nth k (fill_cells a b) NaN = if isnan (nth k b NaN) then nth k a NaN else nth k b NaN.
Proof.
  intros H Hk. unfold fill_cells, szip.
  rewrite (nth_indep _ NaN ((fun p : num * num => if isnan (snd p) then fst p else snd p) (NaN, NaN)))
    by (rewrite map_length, combine_length; lia).
  rewrite (map_nth (fun p : num * num => if isnan (snd p) then fst p else snd p)).
  rewrite combine_nth by auto. reflexivity.
Qed.

Lemma ffill_from_col n prev l k : length prev = n -> rect n l -> (k < n)%nat ->
  nthcol k (ffill_from prev l) = ffs_from (nth k prev NaN) (nthcol k l) /\ rect n (ffill_from prev l)
  /\ map fst (ffill_from prev l) = map fst l.
Proof.
  revert prev; induction l as [|[t c] l IH]; intros prev Hp Hr Hk; simpl.
  - repeat split; auto.
  - assert (Hc : length c = n) by (apply (Hr (t, c)); left; auto).
    assert (Hl : length (fill_cells prev c) = n) by (rewrite fill_cells_len; lia).
    destruct (IH (fill_cells prev c) Hl) as [A [B C]]; auto.
    { intros r Hin. apply Hr. right; auto. }
    split; [|split].
    + rewrite A, fill_cells_nth by lia. reflexivity.
    + intros r [<-|Hin]; auto.
    + f_equal; auto.
Qed.
Lemma ffill_col n l k : rect n l -> (k < n)%nat ->
  nthcol k (ffill l) = ffs_from NaN (nthcol k l) /\ rect n (ffill l) /\ map fst (ffill l) = map fst l.
Proof.
  intros Hr Hk. destruct l as [|[t c] l]; simpl; auto.
  assert (Hc : length c = n) by (apply (Hr (t, c)); left; auto).
  destruct (ffill_from_col n c l k Hc) as [A [B C]]; auto.
  { intros r Hin. apply Hr. right; auto. }
  split; [|split].
  - rewrite A. destruct (isnan (nth k c NaN)) eqn:E; auto.
    destruct (nth k c NaN); try discriminate. reflexivity.
  - intros r [<-|Hin]; auto.
  - f_equal; auto.
Qed.
Lemma bfill_col n l k : rect n l -> (k < n)%nat ->
  nthcol k (bfill l) = bfs (nthcol k l) /\ rect n (bfill l) /\ map fst (bfill l) = map fst l.
Proof.
  intros Hr Hk. induction l as [|[t c] l IH]; simpl; auto.
  assert (Hc : length c = n) by (apply (Hr (t, c)); left; auto).
  destruct IH as [A [B C]]. { intros r Hin. apply Hr. right; auto. }
  destruct (bfill l) as [|[t' c'] r'] eqn:E.
  - simpl in A. rewrite <- A. simpl in C. rewrite <- C. split; [|split]; auto.
    intros r [<-|[]]; auto.
  - assert (Hc' : length c' = n) by (apply (B (t', c')); left; auto).
    simpl in A. rewrite <- A. split; [|split].
    + simpl. rewrite fill_cells_nth by lia. reflexivity.
    + intros r [<-|Hin]; [simpl; rewrite fill_cells_len; lia|auto].
    + simpl in *. f_equal; auto.
Qed.

Lemma rect_0_dates l : rect 0 l -> forall p, map fst (ffill_from p l) = map fst l.
Proof.
  induction l as [|[t c] l IH]; intros Hr p; simpl; auto. f_equal. apply IH.
  intros r Hin; apply Hr; right; auto.
Qed.
Lemma ffill_dates l : map fst (ffill l) = map fst l.
Proof.
  destruct l as [|[t c] l]; simpl; auto. f_equal. revert c.
  induction l as [|[t' c'] l IH]; intro c; simpl; auto. f_equal. apply IH.
Qed.
Lemma bfill_dates l : map fst (bfill l) = map fst l.
Proof.
  induction l as [|[t c] l IH]; simpl; auto. destruct (bfill l) as [|[t' c'] r'] eqn:E; simpl in *.
  - rewrite <- IH. reflexivity.
  - rewrite <- IH. reflexivity.
Qed.

Lemma sort_rect n l : rect n l -> rect n (sort_rows l).
Proof. intros H r Hr. apply H. eapply Permutation_in; [apply sort_rows_perm|auto]. Qed.

Lemma fill_missing_dates f : index (fill_missing f) = index (sort_index f).
Proof. unfold index, fill_missing; simpl. rewrite bfill_dates, ffill_dates. reflexivity. Qed.

Lemma fill_missing_icol f k : wf f -> (k < length (cols f))%nat ->
  icol k (fill_missing f)
  = map (nearest (icol k (sort_index f))) (seq 0 (length (rows f))).
Proof.
  intros Hw Hk. unfold icol, fill_missing; simpl. fold (nthcol k (bfill (ffill (sort_rows (rows f))))).
  assert (Hr : rect (length (cols f)) (sort_rows (rows f))) by (apply sort_rect; exact Hw).
  destruct (ffill_col _ _ k Hr Hk) as [A [B _]].
  destruct (bfill_col _ _ k B Hk) as [C [_ _]].
  rewrite C, A, fill_series_spec. unfold nthcol. rewrite map_length.
  pose proof (Permutation_length (sort_rows_perm (rows f))) as L.
  f_equal. f_equal. exact L.
Qed.

Lemma position_lt c l k : position c l = Some k -> (k < length l)%nat.
Proof.
  revert k; induction l as [|x l IH]; intros k H; simpl in *; [discriminate|].
  destruct (String.eqb c x); [inversion H; lia|].
  destruct (position c l) eqn:E; inversion H. specialize (IH _ eq_refl). lia.
Qed.

Lemma fill_missing_col f c : wf f -> mem c (cols f) = true ->
  col c (fill_missing f) = map (nearest (col c (sort_index f))) (seq 0 (length (rows f))).
Proof.
  intros Hw Hc. unfold col. simpl.
  destruct (position c (cols f)) as [k|] eqn:E.
  - apply fill_missing_icol; auto. eapply position_lt; eauto.
  - exfalso. revert E Hc. generalize (cols f). induction l as [|x l IH]; simpl; [discriminate|].
    destruct (String.eqb c x); [discriminate|]. destruct (position c l); [discriminate|]. simpl. auto.
Qed.

Lemma fill_missing_wf f : wf f -> wf (fill_missing f).
Proof.
  unfold wf, fill_missing; simpl. intro H.
  destruct (cols f) as [|c cs] eqn:E.
  - assert (A : forall l, rect 0 l -> rect 0 (ffill l)).
    { intros l Hl. destruct l as [|[t x] l]; auto. simpl.
      assert (Hx : length x = 0%nat) by (apply (Hl (t, x)); left; auto).
      intros r [<-|Hr]; auto.
      assert (Hl' : rect 0 l) by (intros q Hq; apply Hl; right; auto). clear Hl.
      revert x Hx Hr. induction l as [|[t' y] l IH]; intros x Hx Hr; simpl in Hr; [destruct Hr|].
      assert (Hf : length (fill_cells x y) = 0%nat) by (destruct x; [reflexivity|discriminate]).
      destruct Hr as [<-|Hr]; [exact Hf|]. eapply (IH); eauto. intros q Hq; apply Hl'; right; auto. }
    assert (B : forall l, rect 0 l -> rect 0 (bfill l)).
    { induction l as [|[t x] l IH]; intros Hl; auto. simpl.
      assert (Hx : length x = 0%nat) by (apply (Hl (t, x)); left; auto).
      assert (Hl' : rect 0 (bfill l)) by (apply IH; intros q Hq; apply Hl; right; auto).
      destruct (bfill l) as [|[t' c'] r'].
      - intros r [<-|[]]; auto.
      - intros r [<-|Hr]; [|auto]. simpl. destruct x; [|discriminate]. destruct c'; reflexivity. }
    apply B, A, sort_rect; auto.
  - assert (Hk : (0 < length (c :: cs))%nat) by (simpl; lia).
    destruct (ffill_col _ _ 0 (sort_rect _ _ H) Hk) as [_ [B _]].
    destruct (bfill_col _ _ 0 B Hk) as [_ [C _]]. exact C.
Qed.

Lemma index_sort_sorted f : StronglySorted Z.le (index (sort_index f)).
Proof.
  unfold index; simpl. generalize (sort_rows_sorted (rows f)).
  induction 1 as [|x l Hs IH Hx]; simpl; constructor; auto.
  apply Forall_forall. intros z Hz. apply in_map_iff in Hz. destruct Hz as [r [<- Hr]].
  rewrite Forall_forall in Hx. apply Hx; auto.
Qed.

(** ** nearest *)
Lemma nearest_present s i : isnan (nth i s NaN) = false -> (i < length s)%nat -> nearest s i = nth i s NaN.
Proof.
  intros H Hi. unfold nearest.
  assert (E : firstn (S i) s = firstn i s ++ [nth i s NaN]).
  { clear H. revert i Hi; induction s as [|x s IH]; intros [|i] Hi; simpl in *; try lia; auto.
    f_equal. apply IH. lia. }
  rewrite E, present_app, present_cons, H. rewrite rev_app_distr. reflexivity.
Qed.
Lemma present_nil s : present s = [] <-> (forall x, In x s -> x = NaN).
Proof.
  unfold present. split.
  - intros H x Hx. destruct x; auto; exfalso;
    match goal with |- False => assert (I : In _ (filter (fun x => negb (isnan x)) s)) by (apply filter_In; split; [exact Hx|reflexivity]) end;
    rewrite H in I; destruct I.
  - intro H. induction s as [|x s IH]; simpl; auto. rewrite (H x) by (left; auto). simpl.
    apply IH. intros; apply H; right; auto.
Qed.
Lemma nearest_missing s i : nearest s i = NaN <-> (forall x, In x s -> x = NaN).
Proof.
  rewrite <- present_nil. unfold nearest.
  assert (E : present s = present (firstn (S i) s) ++ present (skipn (S i) s)).
  { unfold present. rewrite <- filter_app, firstn_skipn. reflexivity. }
  assert (N : forall l, (forall x, In x l -> x <> NaN) -> hd NaN l = NaN -> l = []).
  { intros l Hl Hh. destruct l; auto. simpl in Hh. exfalso. apply (Hl n); [left; auto|auto]. }
  assert (P : forall l x, In x (present l) -> x <> NaN).
  { intros l x Hx. apply filter_In in Hx. destruct Hx as [_ Hx]. destruct x; discriminate. }
  split; intro H.
  - apply N in H.
    + apply app_eq_nil in H. destruct H as [H1 H2].
      rewrite E, H2. apply (f_equal (@rev num)) in H1. rewrite rev_involutive in H1. change (rev (@nil num)) with (@nil num) in H1. rewrite H1. reflexivity.
    + intros x Hx. apply in_app_or in Hx. destruct Hx as [Hx|Hx]; [apply in_rev in Hx|]; eauto.
  - rewrite H in E. symmetry in E. apply app_eq_nil in E. destruct E as [E1 E2]. rewrite E1, E2. reflexivity.
Qed.

Lemma fill_sorted f : StronglySorted row_le (rows (fill_missing f)).
Proof.
  pose proof (index_sort_sorted f) as H. rewrite <- fill_missing_dates in H.
  unfold index in H. revert H. generalize (rows (fill_missing f)).
  induction l as [|x l IH]; intro H; constructor; inversion H; subst; auto.
  apply Forall_forall. intros r Hr. rewrite Forall_forall in H3. apply H3. apply in_map. auto.
Qed.

Lemma series_ext (a b : series) : length a = length b ->
  (forall i, (i < length a)%nat -> nth i a NaN = nth i b NaN) -> a = b.
Proof. intros H1 H2. apply (nth_ext _ _ NaN NaN); auto. Qed.

Lemma frame_ext f g : wf f -> wf g -> cols f = cols g -> index f = index g ->
  (forall k, (k < length (cols f))%nat -> icol k f = icol k g) -> f = g.
Proof.
  destruct f as [cf rf], g as [cg rg]; unfold wf, index, icol; simpl.
  intros Wf Wg -> HI HK. f_equal.
  revert rg Wg HI HK. induction rf as [|[t c] rf IH]; intros [|[t' c'] rg] Wg HI HK; simpl in *; try discriminate; auto.
  inversion HI; subst t'. f_equal.
  - f_equal. assert (L : length c = length cg) by (apply (Wf (t, c)); left; auto).
    assert (L' : length c' = length cg) by (apply (Wg (t, c')); left; auto).
    apply series_ext; [congruence|]. intros i Hi. specialize (HK i ltac:(lia)). inversion HK; auto.
  - apply IH; auto.
    + intros r Hr; apply Wf; right; auto.
    + intros r Hr; apply Wg; right; auto.
    + intros k Hk. specialize (HK k Hk). inversion HK; auto.
Qed.

Lemma fill_idem f : wf f -> fill_missing (fill_missing f) = fill_missing f.
Proof.
  intro Hw. pose proof (fill_missing_wf f Hw) as Hw'.
  assert (HS : sort_index (fill_missing f) = fill_missing f).
  { unfold sort_index. rewrite sort_rows_fix by apply fill_sorted. destruct (fill_missing f); reflexivity. }
  apply frame_ext; auto using fill_missing_wf.
  - rewrite fill_missing_dates, HS. reflexivity.
  - intros k Hk. rewrite fill_missing_icol by auto. rewrite HS.
    assert (L : length (icol k (fill_missing f)) = length (rows (fill_missing f))) by (apply map_length).
    apply series_ext; [rewrite map_length, seq_length; auto|].
    rewrite map_length, seq_length. intros i Hi.
    rewrite (nth_indep _ NaN (nearest (icol k (fill_missing f)) 0)) by (rewrite map_length, seq_length; auto).
    rewrite map_nth, seq_nth by auto. simpl plus.
    destruct (isnan (nth i (icol k (fill_missing f)) NaN)) eqn:E.
    + (* the filled column misses a cell only if it is entirely missing *)
      destruct (nth i (icol k (fill_missing f)) NaN) eqn:En; try discriminate.
      apply nearest_missing. simpl in Hk.
      rewrite fill_missing_icol in * by auto.
      assert (Hi' : (i < length (rows f))%nat).
      { rewrite map_length, seq_length in L. lia. }
      rewrite (nth_indep _ NaN (nearest (icol k (sort_index f)) 0)) in En by (rewrite map_length, seq_length; auto).
      rewrite map_nth, seq_nth in En by auto.
      pose proof (proj1 (nearest_missing _ _) En) as All.
      intros x Hx. apply in_map_iff in Hx. destruct Hx as [j [<- _]]. apply nearest_missing. auto.
    + apply nearest_present; auto. lia.
Qed.

(** ** validation *)
Lemma lower_labels_some l : (forall x, In x l -> exists s, x = LStr s) ->
  exists t, lower_labels l = Some t /\ length t = length l.
Proof.
  induction l as [|x l IH]; intro H; simpl; eauto.
  destruct (H x) as [s ->]; [left; auto|].
  destruct IH as [t [E L]]; [intros; apply H; right; auto|].
  rewrite E. exists (lower s :: t). simpl. auto.
Qed.
Lemma lower_labels_none l : lower_labels l = None <-> exists zz, In (LOther zz) l.
Proof.
  induction l as [|x l IH]; simpl.
  - split; [discriminate|]. intros [z []].
  - destruct x as [s|z0].
    + destruct (lower_labels l) eqn:E.
      * split; [discriminate|]. intros [z [H|H]]; [discriminate|].
        assert (C : Some l0 = None) by (apply IH; eauto). discriminate.
      * split; auto. intros _. destruct (proj1 IH eq_refl) as [z Hz]. eauto.
    + split; auto. intros _. eauto.
Qed.

Lemma mem_In c l : mem c l = true <-> In c l.
Proof.
  unfold mem. rewrite existsb_exists. split.
  - intros [x [H E]]. apply String.eqb_eq in E. subst; auto.
  - intro H. exists c. split; auto. apply String.eqb_refl.
Qed.
Lemma position_In c l : (exists k, position c l = Some k) <-> In c l.
Proof.
  induction l as [|x l IH]; simpl.
  - split; [intros [k H]; discriminate|intros []].
  - destruct (String.eqb_spec c x) as [->|N].
    + split; eauto.
    + destruct (position c l) eqn:E.
      * split; eauto. intros _. right. apply IH. eauto.
      * split; [intros [k H]; discriminate|]. intros [->|H]; [congruence|].
        apply IH in H. destruct H; discriminate.
Qed.
Lemma position_None c l : position c l = None <-> ~ In c l.
Proof.
  rewrite <- position_In. destruct (position c l); split; try congruence.
  - intro H. exfalso. apply H. eauto.
  - intros _ [k H]. discriminate.
Qed.

Lemma count_label_NoDup c l : NoDup l -> (count_label c l <= 1)%nat.
Proof.
  unfold count_label. induction 1 as [|x l Hx Hn IH]; simpl; auto.
  destruct (String.eqb_spec c x) as [->|N]; simpl; auto.
  assert (E : filter (String.eqb x) l = []).
  { clear IH Hn. induction l as [|y l IH]; simpl; auto.
    destruct (String.eqb_spec x y) as [->|N]; [exfalso; apply Hx; left; auto|]. apply IH.
    intro; apply Hx; right; auto. }
  rewrite E. simpl. lia.
Qed.

(** each required column is there once and is numeric *)

Lemma count_label_In c l : In c l <-> (1 <= count_label c l)%nat.
Proof.
  unfold count_label. induction l as [|x l IH]; simpl.
  - split; [intros []|lia].
  - destruct (String.eqb_spec c x) as [->|N]; simpl.
    + split; auto. lia.
    + rewrite <- IH. split; auto. intros [|]; [congruence|auto].
Qed.

Lemma check_required_ok req labels numeric :
  check_required req labels numeric = Ok tt <-> req_ok req labels numeric.
Proof.
  unfold req_ok. induction req as [|c req IH]; cbn [check_required].
  - split; auto. intros _ c [].
  - destruct (position c labels) as [k|] eqn:E.
    + assert (I : In c labels) by (apply position_In; eauto). apply count_label_In in I.
      destruct (Nat.leb_spec 2 (count_label c labels)) as [L|L].
      * split; [discriminate|]. intro H. destruct (H c (or_introl eq_refl)) as [H1 _]. lia.
      * destruct (nth k numeric false) eqn:En.
        -- rewrite IH. split; intros H c' Hc'.
           ++ destruct Hc' as [<-|Hc']; auto. split; [lia|eauto].
           ++ apply H; right; auto.
        -- split; [discriminate|]. intro H. destruct (H c (or_introl eq_refl)) as [_ [k' [E' En']]]. congruence.
    + split; [discriminate|]. intro H. destruct (H c (or_introl eq_refl)) as [_ [k' [E' En']]]. congruence.
Qed.

Lemma check_required_dup_free req labels numeric : NoDup labels ->
  check_required req labels numeric = Ok tt \/ check_required req labels numeric = Err ValueErr.
Proof.
  intro Hn. induction req as [|c req IH]; cbn [check_required]; auto.
  destruct (position c labels); auto. pose proof (count_label_NoDup c labels Hn).
  destruct (Nat.leb_spec 2 (count_label c labels)); [lia|]. destruct (nth n numeric false); auto.
Qed.

Lemma check_drops_ok req todo dropped :
  check_drops req todo dropped = Ok tt
  <-> NoDup (filter (fun c => negb (mem c req)) todo) /\
      (forall c, In c (filter (fun c => negb (mem c req)) todo) -> ~ In c dropped).
Proof.
  revert dropped; induction todo as [|c todo IH]; intro dropped; simpl.
  - split; auto. intros _. split; [constructor|intros c []].
  - destruct (mem c req) eqn:E; simpl; auto.
    destruct (mem c dropped) eqn:Ed.
    + apply mem_In in Ed. split; [discriminate|]. intros [_ H]. exfalso. apply (H c); auto.
    + rewrite IH. assert (Nd : ~ In c dropped) by (intro; apply mem_In in H; congruence).
      split.
      * intros [H1 H2]. split.
        -- constructor; auto. intro Hin. apply (H2 c Hin). left; auto.
        -- intros c' [<-|H']; auto. intro C. apply (H2 c' H'). right; auto.
      * intros [H1 H2]. inversion H1; subst. split; auto.
        intros c' H' [<-|C]; [contradiction|]. apply (H2 c'); auto.
Qed.
Lemma check_drops_cases req todo dropped :
  check_drops req todo dropped = Ok tt \/ check_drops req todo dropped = Err KeyErr.
Proof.
  revert dropped; induction todo as [|c todo IH]; intro; simpl; auto.
  destruct (mem c req); auto. destruct (mem c dropped); auto.
Qed.

Lemma validate_frame f req fill labels :
  r_datetime f = true -> r_rows f <> [] -> r_labels f <> [] -> lower_labels (r_labels f) = Some labels ->
  snd (validate (RFrame f) req fill)
  = (do _ <- check_required req labels (r_numeric f);
     do _ <- check_drops req labels [];
     let g := sort_index (drop_cols req labels (r_rows f)) in
     Ok (if fill then fill_missing g else g)).
Proof.
  intros H1 H2 H3 H4. unfold validate. rewrite H1. simpl negb. cbv iota.
  destruct (r_rows f); [contradiction|]. destruct (r_labels f); [contradiction|]. simpl orb. cbv iota.
  rewrite H4. reflexivity.
Qed.

Lemma validate_accepts v req fill :
  (exists g, snd (validate v req fill) = Ok g) <-> acceptable v req.
Proof.
  unfold acceptable, all_str, str_labels. split.
  - intros [g H]. destruct v as [f|]; [|discriminate].
    exists f. split; auto. unfold validate in H.
    destruct (r_datetime f) eqn:E1; [|discriminate]. simpl in H.
    destruct (r_rows f) eqn:E2; [discriminate|]. destruct (r_labels f) eqn:E3; [discriminate|].
    rewrite <- E3 in *. simpl in H.
    destruct (lower_labels (r_labels f)) as [labels|] eqn:E4; [|discriminate]. simpl in H.
    split; auto. split; [discriminate|]. split; [rewrite E3; discriminate|]. split.
    + intros x Hx. destruct x; eauto. exfalso.
      assert (C : lower_labels (r_labels f) = None) by (apply lower_labels_none; eauto). congruence.
    + destruct (check_required req labels (r_numeric f)) as [[]|] eqn:E5; [|discriminate]. simpl in H.
      destruct (check_drops req labels []) as [[]|] eqn:E6; [|discriminate].
      split; [apply check_required_ok; auto|]. apply check_drops_ok in E6. tauto.
  - intros [f [-> [H1 [H2 [H3 [H4 [H5 H6]]]]]]].
    destruct (lower_labels_some (r_labels f) H4) as [labels [E _]]. rewrite E in *.
    rewrite (validate_frame f req fill labels) by auto.
    apply check_required_ok in H5. rewrite H5. simpl.
    assert (H7 : check_drops req labels [] = Ok tt) by (apply check_drops_ok; split; auto).
    rewrite H7. simpl. eauto.
Qed.

Lemma validate_rejects v req fill :
  (v = RNotFrame -> snd (validate v req fill) = Err (WrongType "input_data")) /\
  (forall f, v = RFrame f ->
    (r_datetime f = false -> snd (validate v req fill) = Err TypeErr) /\
    (r_datetime f = true -> r_rows f = [] \/ r_labels f = [] -> snd (validate v req fill) = Err ValueErr) /\
    (r_datetime f = true -> r_rows f <> [] -> all_str f -> NoDup (str_labels f) ->
       ~ req_ok req (str_labels f) (r_numeric f) ->
       snd (validate v req fill) = Err ValueErr)).
Proof.
  split; [intros ->; reflexivity|]. intros f ->. unfold validate, all_str, str_labels. split; [|split].
  - intros ->. reflexivity.
  - intros -> H. simpl. destruct (r_rows f); [reflexivity|]. destruct (r_labels f); [reflexivity|].
    destruct H; discriminate.
  - intros -> H1 H2 H3 H4. simpl. destruct (r_rows f); [contradiction|].
    destruct (r_labels f) eqn:E; [reflexivity|]. rewrite <- E in *.
    destruct (lower_labels_some (r_labels f) H2) as [labels [El _]]. rewrite El in *. simpl.
    destruct (check_required_dup_free req labels (r_numeric f) H3) as [C|C].
    + exfalso. apply H4. apply check_required_ok; auto.
    + rewrite C. reflexivity.
Qed.

(** what comes out *)
Lemma validate_out f req fill g :
  snd (validate (RFrame f) req fill) = Ok g ->
  g = (let h := sort_index (drop_cols req (str_labels f) (r_rows f)) in if fill then fill_missing h else h).
Proof.
  intro H. assert (A : acceptable (RFrame f) req) by (apply (validate_accepts _ _ fill); eauto).
  destruct A as [f' [E [H1 [H2 [H3 [H4 [H5 H6]]]]]]]. inversion E; subst f'.
  unfold str_labels in *. destruct (lower_labels_some (r_labels f) H4) as [labels [El _]]. rewrite El in *.
  rewrite (validate_frame f req fill labels) in H by auto.
  apply check_required_ok in H5. rewrite H5 in H. simpl in H.
  assert (H7 : check_drops req labels [] = Ok tt) by (apply check_drops_ok; split; auto).
  rewrite H7 in H. simpl in H. inversion H. reflexivity.
Qed.

Lemma select_len {A} keep (l : list A) : length keep = length l ->
  length (select keep l) = length (filter (fun b => b) keep).
Proof.
  revert l; induction keep as [|b keep IH]; intros [|x l] H; simpl in *; try discriminate; auto.
  destruct b; simpl; rewrite IH; auto.
Qed.

Lemma str_labels_len f : all_str f -> length (str_labels f) = length (r_labels f).
Proof. intro H. unfold str_labels. destruct (lower_labels_some _ H) as [t [-> L]]. auto. Qed.

Lemma drop_cols_wf req labels rs : rect (length labels) rs -> wf (drop_cols req labels rs).
Proof.
  intros H r Hr. simpl in *. apply in_map_iff in Hr. destruct Hr as [x [<- Hx]]. simpl.
  rewrite !select_len; auto. - rewrite map_length; auto. - rewrite map_length. symmetry. apply H; auto.
Qed.

Lemma select_position c keep labels k :
  length keep = length labels -> position c labels = Some k -> nth k keep false = true ->
  exists k', position c (select keep labels) = Some k' /\
    forall (A : Type) (l : list A) (d : A), length l = length labels ->
      nth k' (select keep l) d = nth k l d.
Proof.
  revert labels k. induction keep as [|b keep IH]; intros [|x labels] k HL HP HK; simpl in *; try discriminate.
  destruct (String.eqb_spec c x) as [->|N].
  - inversion HP; subst k. simpl in HK. subst b. simpl. rewrite String.eqb_refl.
    exists 0%nat. split; auto. intros A [|y l] d L; [discriminate|reflexivity].
  - destruct (position c labels) as [k0|] eqn:E; [|discriminate]. inversion HP; subst k. simpl in HK.
    destruct (IH labels k0) as [k' [E' H']]; auto.
    destruct b.
    + exists (S k'). simpl. destruct (String.eqb_spec c x); [congruence|]. rewrite E'. split; auto.
      intros A [|y l] d L; [discriminate|]. simpl. apply H'. simpl in L. lia.
    + exists k'. split; auto. intros A [|y l] d L; [discriminate|]. simpl. apply H'. simpl in L. lia.
Qed.

Lemma position_nth c l k d : position c l = Some k -> nth k l d = c.
Proof.
  revert k; induction l as [|x l IH]; intros k H; simpl in *; [discriminate|].
  destruct (String.eqb_spec c x) as [->|N]; [inversion H; auto|].
  destruct (position c l); inversion H; subst. simpl; auto.
Qed.

(** the column of the kept frame is the column of the raw frame *)
Lemma drop_cols_col req labels rs c k :
  rect (length labels) rs -> In c req -> position c labels = Some k ->
  col c (drop_cols req labels rs) = map (fun r => nth k (snd r) NaN) rs.
Proof.
  intros Hr Hc Hp. unfold col, drop_cols. simpl.
  assert (Hk : nth k (map (fun c => mem c req) labels) false = true).
  { rewrite (nth_indep _ false (mem ""%string req)) by (rewrite map_length; eapply position_lt; eauto).
    rewrite (map_nth (fun c => mem c req)), (position_nth c) by auto. apply mem_In; auto. }
  destruct (select_position c (map (fun c => mem c req) labels) labels k) as [k' [E H]]; auto.
  { apply map_length. }
  rewrite E, map_map. apply map_ext_in. intros r Hin. simpl. apply H. apply Hr; auto.
Qed.

Lemma sort_col_cells c f : wf f ->
  Permutation (combine (index (sort_index f)) (col c (sort_index f))) (combine (index f) (col c f)).
Proof.
  intros _. unfold col, index. simpl. destruct (position c (cols f)) as [k|].
  - assert (E : forall l : list row, combine (map fst l) (map (fun r => nth k (snd r) NaN) l)
                = map (fun r => (fst r, nth k (snd r) NaN)) l).
    { induction l; simpl; congruence. }
    rewrite !E. apply Permutation_map. apply sort_rows_perm.
  - rewrite !combine_nil. constructor.
Qed.

(** ** consequences used by the property files *)
Lemma validate_false_cells f req g c : wf_raw f -> In c req ->
  snd (validate (RFrame f) req false) = Ok g ->
  Permutation (cells c g) (raw_cells c f).
Proof.
  intros [_ Hr] Hc H.
  assert (A : acceptable (RFrame f) req) by (apply (validate_accepts _ _ false); eauto).
  destruct A as [f' [E [H1 [H2 [H3 [H4 [H5 H6]]]]]]]. inversion E; subst f'.
  apply validate_out in H. simpl in H. subst g.
  rewrite <- (str_labels_len f H4) in Hr.
  unfold cells. rewrite sort_col_cells by (apply drop_cols_wf; auto).
  destruct (H5 c Hc) as [_ [k [Ek _]]]. unfold raw_cells. rewrite Ek.
  rewrite (drop_cols_col req (str_labels f) (r_rows f) c k) by auto.
  unfold index, drop_cols. simpl. rewrite map_map. simpl.
  assert (EE : forall l : list row, combine (map (fun r => fst r) l) (map (fun r => nth k (snd r) NaN) l)
                = map (fun r => (fst r, nth k (snd r) NaN)) l).
  { induction l; simpl; congruence. }
  rewrite EE. reflexivity.
Qed.

Lemma validate_sorted v req fill g : snd (validate v req fill) = Ok g ->
  StronglySorted Z.le (index g).
Proof.
  intro H. destruct v as [f|]; [|discriminate]. apply validate_out in H. simpl in H. subst g.
  destruct fill; [rewrite fill_missing_dates|]; apply index_sort_sorted.
Qed.

Lemma validate_wf f req fill g : wf_raw f -> snd (validate (RFrame f) req fill) = Ok g -> wf g.
Proof.
  intros [_ Hr] H.
  assert (A : acceptable (RFrame f) req) by (apply (validate_accepts _ _ fill); eauto).
  destruct A as [f' [E [H1 [H2 [H3 [H4 [H5 H6]]]]]]]. inversion E; subst f'.
  apply validate_out in H. simpl in H. subst g. rewrite <- (str_labels_len f H4) in Hr.
  assert (W : wf (sort_index (drop_cols req (str_labels f) (r_rows f)))).
  { unfold wf. simpl. apply sort_rect. apply (drop_cols_wf req _ _ Hr). }
  destruct fill; auto. apply fill_missing_wf; auto.
Qed.

Lemma sort_index_idem f : sort_index (sort_index f) = sort_index f.
Proof. unfold sort_index. simpl. rewrite (sort_rows_fix (sort_rows (rows f))) by apply sort_rows_sorted. reflexivity. Qed.

Lemma select_In {A} keep (l : list A) x : In x (select keep l) -> In x l.
Proof.
  revert l; induction keep as [|b keep IH]; intros [|y l] H; simpl in *; try contradiction.
  - destruct b; destruct H.
  - destruct b; [destruct H as [->|H]|]; auto.
Qed.
Lemma drop_cols_cols req labels rs c :
  In c (cols (drop_cols req labels rs)) <-> In c req /\ In c labels.
Proof.
  unfold drop_cols. cbn [cols]. induction labels as [|x l IH]; simpl.
  - tauto.
  - destruct (mem x req) eqn:E; simpl; rewrite IH.
    + apply mem_In in E. split; [intros [->|[]]|intros [H [->|H']]]; auto.
    + split; [tauto|]. intros [H [->|H']]; auto. exfalso. apply mem_In in H. congruence.
Qed.

Lemma validate_cols f req fill g : snd (validate (RFrame f) req fill) = Ok g ->
  forall c, In c (cols g) <-> In c req.
Proof.
  intros H c. assert (A : acceptable (RFrame f) req) by (apply (validate_accepts _ _ fill); eauto).
  destruct A as [f' [E [H1 [H2 [H3 [H4 [H5 H6]]]]]]]. inversion E; subst f'.
  apply validate_out in H. simpl in H. subst g.
  assert (EC : cols (if fill then fill_missing (sort_index (drop_cols req (str_labels f) (r_rows f)))
                     else sort_index (drop_cols req (str_labels f) (r_rows f)))
               = cols (drop_cols req (str_labels f) (r_rows f))) by (destruct fill; reflexivity).
  rewrite EC, drop_cols_cols. split; [tauto|]. intro Hc. split; auto.
  destruct (H5 c Hc) as [_ [k [Ek _]]]. apply position_In. eauto.
Qed.

Lemma validate_fill f req g g0 c : wf_raw f -> In c req ->
  snd (validate (RFrame f) req false) = Ok g0 ->
  snd (validate (RFrame f) req true) = Ok g ->
  index g = index g0 /\ col c g = map (nearest (col c g0)) (seq 0 (length (index g0))).
Proof.
  intros W Hc H0 H1. pose proof (validate_wf _ _ _ _ W H0) as W0.
  pose proof (proj2 (validate_cols _ _ _ _ H0 c) Hc) as Hin.
  apply validate_out in H0. apply validate_out in H1. simpl in H0, H1.
  rewrite <- H0 in H1. subst g.
  assert (HS : sort_index g0 = g0) by (rewrite H0; apply sort_index_idem).
  split.
  - rewrite fill_missing_dates, HS. reflexivity.
  - rewrite fill_missing_col; auto; [|apply mem_In; auto]. rewrite HS. unfold index.
    rewrite map_length. reflexivity.
Qed.

Lemma validate_fill_both f req g :
  snd (validate (RFrame f) req true) = Ok g -> exists g0, snd (validate (RFrame f) req false) = Ok g0.
Proof.
  intro H. apply validate_accepts. apply (validate_accepts _ _ true). eauto.
Qed.

(** row order *)
Lemma validate_perm dt labels numeric (rs rs' : list row) req fill :
  NoDup (map fst rs) -> Permutation rs rs' ->
  snd (validate (RFrame (mkRaw dt labels numeric rs)) req fill)
  = snd (validate (RFrame (mkRaw dt labels numeric rs')) req fill).
Proof.
  intros Hn P. unfold validate. simpl. destruct dt; simpl; auto.
  assert (E0 : (match rs with [] => true | _ => false end) = (match rs' with [] => true | _ => false end)).
  { destruct rs, rs'; auto.
    - apply Permutation_nil in P. discriminate.
    - symmetry in P. apply Permutation_nil in P. discriminate. }
  rewrite E0. destruct (_ || _); auto. destruct (lower_labels labels) as [ls|]; auto. simpl.
  destruct (check_required req ls numeric); auto. simpl. destruct (check_drops req ls []); auto. simpl.
  unfold sort_index, drop_cols. cbn [cols rows].
  rewrite (sort_rows_unique (map (fun r => (fst r, select (map (fun c => mem c req) ls) (snd r))) rs)
                            (map (fun r => (fst r, select (map (fun c => mem c req) ls) (snd r))) rs')); auto.
  - rewrite map_map. simpl. exact Hn.
  - apply Permutation_map; auto.
Qed.

(** only the required columns matter *)
Definition raw_index (f : rawframe) : list Z := map fst (r_rows f).
Lemma sort_pairs (k k' : nat) (n n' : nat) (l l' : list row) :
  map fst l = map fst l' ->
  nthcol k l = nthcol k' l' ->
  map fst (sort_rows l) = map fst (sort_rows l') /\ nthcol k (sort_rows l) = nthcol k' (sort_rows l').
Proof.
  intros HI HC.
  assert (E : forall j (l : list row), map (fun r => (fst r, [nth j (snd r) NaN])) (sort_rows l)
               = sort_rows (map (fun r => (fst r, [nth j (snd r) NaN])) l)).
  { intros j l0. symmetry. apply (sort_rows_map (fun r => (fst r, [nth j (snd r) NaN]))). auto. }
  assert (EM : map (fun r : row => (fst r, [nth k (snd r) NaN])) l = map (fun r => (fst r, [nth k' (snd r) NaN])) l').
  { revert l' HI HC. induction l as [|x l IH]; intros [|y l'] HI HC; simpl in *; try discriminate; auto.
    inversion HI. inversion HC. f_equal; auto; congruence. }
  pose proof (eq_trans (E k l) (eq_trans (f_equal sort_rows EM) (eq_sym (E k' l')))) as E1.
  split.
  - apply (f_equal (map fst)) in E1. rewrite !map_map in E1. exact E1.
  - apply (f_equal (map (fun r => hd NaN (snd r)))) in E1. rewrite !map_map in E1. exact E1.
Qed.

Lemma validate_only_required f f' req fill g g' c :
  wf_raw f -> wf_raw f' -> In c req ->
  raw_index f = raw_index f' -> raw_cells c f = raw_cells c f' ->
  snd (validate (RFrame f) req fill) = Ok g -> snd (validate (RFrame f') req fill) = Ok g' ->
  index g = index g' /\ col c g = col c g'.
Proof.
  assert (Main : forall f f' g g', wf_raw f -> wf_raw f' -> In c req ->
    raw_index f = raw_index f' -> raw_cells c f = raw_cells c f' ->
    snd (validate (RFrame f) req false) = Ok g -> snd (validate (RFrame f') req false) = Ok g' ->
    index g = index g' /\ col c g = col c g').
  { clear f f' g g' fill. intros f f' g g' [_ Hr] [_ Hr'] Hc HI HC H H'.
    assert (A : acceptable (RFrame f) req) by (apply (validate_accepts _ _ false); eauto).
    assert (A' : acceptable (RFrame f') req) by (apply (validate_accepts _ _ false); eauto).
    destruct A as [f0 [E [_ [_ [_ [H4 [H5 _]]]]]]]. inversion E; subst f0. clear E.
    destruct A' as [f0 [E [_ [_ [_ [H4' [H5' _]]]]]]]. inversion E; subst f0. clear E.
    apply validate_out in H. apply validate_out in H'. simpl in H, H'.
    rewrite <- (str_labels_len f H4) in Hr. rewrite <- (str_labels_len f' H4') in Hr'.
    destruct (H5 c Hc) as [_ [k [Ek _]]]. destruct (H5' c Hc) as [_ [k' [Ek' _]]].
    pose proof (drop_cols_col req (str_labels f) (r_rows f) c k Hr Hc Ek) as D.
    pose proof (drop_cols_col req (str_labels f') (r_rows f') c k' Hr' Hc Ek') as D'.
    unfold raw_cells in HC. rewrite Ek, Ek' in HC.
    assert (DD : col c (drop_cols req (str_labels f) (r_rows f)) = col c (drop_cols req (str_labels f') (r_rows f'))).
    { rewrite D, D'. apply (f_equal (map snd)) in HC. rewrite !map_map in HC. exact HC. }
    assert (II : index (drop_cols req (str_labels f) (r_rows f)) = index (drop_cols req (str_labels f') (r_rows f'))).
    { unfold index, drop_cols. simpl. rewrite !map_map. simpl. exact HI. }
    subst g g'. revert DD II. generalize (drop_cols req (str_labels f) (r_rows f)) (drop_cols req (str_labels f') (r_rows f'))
      (drop_cols_cols req (str_labels f) (r_rows f) c) (drop_cols_cols req (str_labels f') (r_rows f') c).
    intros d d' M M' DD II. unfold col, index in *. simpl.
    destruct (position c (cols d)) as [j|] eqn:Ej.
    - destruct (position c (cols d')) as [j'|] eqn:Ej'.
      + apply (sort_pairs j j' 0 0); auto.
      + exfalso. apply position_None in Ej'. apply Ej'. apply M'. split; auto. apply position_In. eauto.
    - exfalso. apply position_None in Ej. apply Ej. apply M. split; auto. apply position_In. eauto. }
  intros W W' Hc HI HC H H'. destruct fill; [|apply (Main f f' g g'); auto].
  destruct (validate_fill_both _ _ _ H) as [g0 H0]. destruct (validate_fill_both _ _ _ H') as [g0' H0'].
  destruct (Main f f' g0 g0') as [M1 M2]; auto.
  destruct (validate_fill f req g g0 c) as [F1 F2]; auto.
  destruct (validate_fill f' req g' g0' c) as [F1' F2']; auto.
  rewrite F1, F1', F2, F2', M1, M2. auto.
Qed.

(** the caller's object *)
Lemma validate_caller f req fill :
  exists labels, fst (validate (RFrame f) req fill) = RFrame (mkRaw (r_datetime f) labels (r_numeric f) (r_rows f))
   /\ (labels = r_labels f \/ labels = map LStr (str_labels f)).
Proof.
  unfold validate, str_labels. destruct (r_datetime f) eqn:E.
  - simpl. destruct (_ || _).
    + exists (r_labels f). rewrite <- E. destruct f; simpl; auto.
    + destruct (lower_labels (r_labels f)) eqn:El.
      * simpl. eauto.
      * exists (r_labels f). rewrite <- E. destruct f; simpl; auto.
  - exists (r_labels f). simpl. rewrite <- E. destruct f; simpl; auto.
Qed.

Lemma lower_ascii_idem a : lower_ascii (lower_ascii a) = lower_ascii a.
Proof. destruct a as [[] [] [] [] [] [] [] []]; reflexivity. Qed.
Lemma lower_idem s : lower (lower s) = lower s.
Proof. induction s; simpl; auto. rewrite lower_ascii_idem, IHs. auto. Qed.
Lemma isnan_false x : x <> NaN -> isnan x = false.
Proof. destruct x; auto. congruence. Qed.

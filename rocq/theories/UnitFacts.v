(** * UnitFacts: the formulas in other units of money and volume. *)
From Coq Require Import ZArith QArith Qcanon Bool List String PeanoNat Lia Sorted Permutation.
From Verif Require Import Num NumFacts RoundFacts Pandas Sim Frame FrameSpec FrameProofs Ind Signal Api IndSpec SeriesFacts Lengths Causal IndFacts Shape ApiSpec ApiCheck ApiProofs ApiLemmas RangeSpec Cells RangeFacts RangeMore Publish RangeApi ValueSpec ValueFacts ValueMore Recur ValueApi CumulApi.
From Verif Require Import FormulaSpec Starts Formula Formula2 Formula3 Formula4 Line Formula5 Formula6 FormulaApi FlatFacts ScaleFacts MirrorSpec MirrorApi3 SarSpec SarFacts UnitSpec.
From Verif Require Import ValueSpec FormulaSpec.
Import ListNotations.
Open Scope list_scope. Open Scope string_scope. Open Scope Qc_scope.

(** ** more formulas *)
Section Scale.
  Variable s : Qc.
  Hypothesis S0 : 0 < s.
  Lemma slope_scale f g p : unit_of s f g -> unit_of s (slope_last f p) (slope_last g p).
  Proof.
    intros U k. unfold slope_last, fit_slope. rewrite (total_scale s (last_rows f p k) (last_rows g p k)) by (intro; apply U).
    rewrite (total_scale s (fun i => nq i * last_rows f p k i) (fun i => nq i * last_rows g p k i)) by (intro; unfold last_rows; rewrite U; ring). unfold Qcdiv. ring.
  Qed.
  Lemma end_scale f g p : unit_of s f g -> unit_of s (end_last f p) (end_last g p).
  Proof.
    intros U k. unfold end_last, fit_start. fold (slope_last f p k) (slope_last g p k). rewrite (slope_scale f g p U k). rewrite (total_scale s (last_rows f p k) (last_rows g p k)) by (intro; apply U). unfold Qcdiv. ring.
  Qed.
  Lemma highest_projection_scale f g p : unit_of s f g -> unit_of s (highest_projection f p) (highest_projection g p).
  Proof. intros U k. unfold highest_projection. apply (max_to_scale s S0). intro j. rewrite (slope_scale f g p U k), U. ring. Qed.
  Lemma lowest_projection_scale f g p : unit_of s f g -> unit_of s (lowest_projection f p) (lowest_projection g p).
  Proof. intros U k. unfold lowest_projection. apply (min_to_scale s S0). intro j. rewrite (slope_scale f g p U k), U. ring. Qed.
  Lemma momentum_scale f g j : unit_of s f g -> momentum9 g j = momentum9 f j.
  Proof.
    intro U. unfold momentum9. pose proof (unit_gain s S0 _ _ (change_scale s 1 f g U)) as G. pose proof (unit_loss s S0 _ _ (change_scale s 1 f g U)) as L.
    rewrite (sum_scale s _ _ _ G j), (sum_scale s _ _ _ L j). apply (f_equal r4). apply (quotient_same s S0); ring.
  Qed.
  Lemma weighted_scale w w' f g m : unit_of s f g -> (forall j, w' j = w j) -> weighted w' g m = s * weighted w f m.
  Proof. intros U E. induction m; cbn [weighted]; [apply U|]. rewrite IHm, U, E. ring. Qed.
  Lemma variable_scale p f g : unit_of s f g -> unit_of s (variable_line p f) (variable_line p g).
  Proof. intros U k. unfold variable_line. apply weighted_scale; auto. intro j. rewrite (momentum_scale f g j U). reflexivity. Qed.
  Lemma true_low_scale l l' c c' : unit_of s l l' -> unit_of s c c' -> unit_of s (true_low l c) (true_low l' c').
  Proof. intros L C j. unfold true_low. rewrite L, C. apply (smaller_scale s S0). Qed.
  Lemma true_high_scale h h' c c' : unit_of s h h' -> unit_of s c c' -> unit_of s (true_high h c) (true_high h' c').
  Proof. intros H C j. unfold true_high. rewrite H, C. apply (larger_scale s S0). Qed.
  (** the stop and reverse *)
  Definition trend_times (t : SarSpec.trend) : SarSpec.trend := mkTrend (SarSpec.rising t) (factor t) (s * extreme t) (s * stop t) (since t).
  Lemma trend_scale h l h' l' : unit_of s h h' -> unit_of s l l' -> forall k, trend_at h' l' k = trend_times (trend_at h l k).
  Proof.
    intros H L. induction k as [|k IH].
    - cbn [trend_at]. unfold trend_first. rewrite !H, !L, (lt_scale s S0). destruct qltb; reflexivity.
    - cbn [trend_at]. rewrite IH. set (t := trend_at h l k).
      assert (HI : forall a b, SarSpec.highest h' a b = s * SarSpec.highest h a b) by (intros; apply (max_to_scale s S0), H).
      assert (LO : forall a b, SarSpec.lowest l' a b = s * SarSpec.lowest l a b) by (intros; apply (min_to_scale s S0), L).
      assert (MV : SarSpec.moved (trend_times t) = s * SarSpec.moved t) by (unfold SarSpec.moved, trend_times; cbn; ring).
      assert (ST : stop_for h' l' (trend_times t) k = s * stop_for h l t k).
      { unfold stop_for. rewrite MV, HI, LO. change (SarSpec.rising (trend_times t)) with (SarSpec.rising t). destruct (SarSpec.rising t); [apply (smaller_scale s S0)|apply (larger_scale s S0)]. }
      assert (BR : broken h' l' (trend_times t) k = broken h l t k).
      { unfold broken. rewrite ST, H, L, !(lt_scale s S0). reflexivity. }
      rewrite BR. clear BR. destruct (broken h l t k).
      + unfold turned. rewrite HI, LO, H, L. change (SarSpec.rising (trend_times t)) with (SarSpec.rising t). destruct (SarSpec.rising t); reflexivity.
      + unfold went_on. rewrite ST, HI, LO. change (SarSpec.rising (trend_times t)) with (SarSpec.rising t). change (extreme (trend_times t)) with (s * extreme t). change (factor (trend_times t)) with (factor t). change (since (trend_times t)) with (since t).
        destruct (SarSpec.rising t); rewrite (lt_scale s S0); reflexivity.
  Qed.
End Scale.

(** ** highest and lowest *)
Lemma highest_times s x x' k f a b M M' : 0 < s -> known x k f -> known x' k (fun j => s * f j) -> (b <= k)%nat -> ValueSpec.highest x a b M -> ValueSpec.highest x' a b M' -> M' = s * M.
Proof.
  intros S0 X X' B [(j & J & E) U] [(i & I & E') U']. rewrite X in E by lia. injection E as <-. rewrite X' in E' by lia. injection E' as <-.
  pose proof (U i _ I (X i ltac:(lia))). pose proof (U' j _ J (X' j ltac:(lia))). cbv beta in *. apply Qcle_antisym; qnra.
Qed.
Lemma lowest_times s x x' k f a b M M' : 0 < s -> known x k f -> known x' k (fun j => s * f j) -> (b <= k)%nat -> ValueSpec.lowest x a b M -> ValueSpec.lowest x' a b M' -> M' = s * M.
Proof.
  intros S0 X X' B [(j & J & E) U] [(i & I & E') U']. rewrite X in E by lia. injection E as <-. rewrite X' in E' by lia. injection E' as <-.
  pose proof (U i _ I (X i ltac:(lia))). pose proof (U' j _ J (X' j ltac:(lia))). cbv beta in *. apply Qcle_antisym; qnra.
Qed.
Lemma midpoint_times s x y x' y' k f g a b v v' : 0 < s -> known x k f -> known y k g -> known x' k (fun j => s * f j) -> known y' k (fun j => s * g j) ->
  (a <= b <= k)%nat -> midpoint x y a b v -> midpoint x' y' a b v' -> exists q, v = Fin q /\ v' = Fin (s * q).
Proof.
  intros S0 X Y X' Y' I [(M & n & A & B & ->)|[[N|N] _]] P; [|exfalso; exact (known_some _ _ _ _ _ X I N)|exfalso; exact (known_some _ _ _ _ _ Y I N)].
  destruct P as [(M' & n' & A' & B' & ->)|[[N|N] _]]; [|exfalso; exact (known_some _ _ _ _ _ X' I N)|exfalso; exact (known_some _ _ _ _ _ Y' I N)].
  exists ((M + n) / zq 2). split; [reflexivity|]. rewrite (highest_times s x x' k f a b M M'), (lowest_times s y y' k g a b n n') by (auto; lia). f_equal. unfold Qcdiv. ring.
Qed.

(** ** published values *)
Lemma conv_r4 c s a k q q' : (forall x, published c x = nround 4 x) -> q' = s * q -> converted c s (from a k (Fin (r4 q))) (from a k (Fin (r4 q'))).
Proof.
  intros P ->. unfold converted, from. destruct (k <? a)%nat; [exists NaN|exists (Fin q)]; rewrite !P; split; reflexivity.
Qed.
Lemma conv_r4' c s q q' : (forall x, published c x = nround 4 x) -> q' = s * q -> converted c s (Fin (r4 q)) (Fin (r4 q')).
Proof. intros P E. exact (conv_r4 c s 0 0 q q' P E). Qed.
Lemma conv_nan c s : published c NaN = NaN -> converted c s NaN NaN.
Proof. intro P. exists NaN. cbn [nmul]. rewrite P. auto. Qed.

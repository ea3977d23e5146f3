(** * FloatAccApi: the columns of a constructed indicator, exact and in binary64. *)
From Coq Require Import ZArith QArith Qcanon Qreals Reals Bool List String PeanoNat Lia Lra Psatz.
From Flocq Require Import Core Relative IEEE754.BinarySingleNaN.
From Verif Require Import FloatSim FloatFacts FloatExact FloatInd FloatOrd FloatDec FloatRange FloatRange2 FloatApi.
From Verif Require Import Num NumFacts RoundFacts Pandas Sim Frame FrameSpec FrameProofs Ind Signal Api IndSpec SeriesFacts Lengths Causal IndFacts Shape ApiSpec ApiCheck ApiProofs ApiLemmas RangeSpec Cells RangeFacts RangeMore Publish RangeApi ValueSpec ValueFacts ValueMore Recur ValueApi CumulApi.
From Verif Require Import FormulaSpec Starts FormulaApi.
From Verif Require Import FloatSpec FloatAccSpec FloatAcc FloatAcc2 FloatAcc3 FloatAcc4 FloatAcc5.
Import ListNotations.
Open Scope list_scope. Open Scope string_scope. Open Scope R_scope.

Lemma r4_units k : r4 (units k) = units k.
Proof.
  unfold r4. destruct (round_units (units k)) as (n & -> & D). rewrite real_units in D. replace (10000 * (IZR k / 10000)) with (IZR k) in D by field.
  apply Rabs_le_inv in D. f_equal. assert (L : IZR (n - k) < 1) by (rewrite minus_IZR; lra). assert (G : -1 < IZR (n - k)) by (rewrite minus_IZR; lra).
  apply lt_IZR in L. apply (lt_IZR (-1)) in G. lia.
Qed.
Section Acc.
  Variables (o : oracle) (raw : rawframe) (b : bool) (ob : obj).
  Hypothesis W : wf_raw raw.
  Notation constructed c := (snd (construct o c (RFrame raw) (VBool b)) = Ok ob).
  Lemma wr_period p : constructed (cWR p) -> (0 < nat_arg p)%nat.
  Proof. intro H. look fr V VV. cbn in VV. lia. Qed.
  Lemma so_period p q r m : constructed (cSO p q r m) -> (0 < nat_arg p)%nat.
  Proof. intro H. look fr V VV. cbn in VV. lia. Qed.
  Lemma pch_period p : constructed (cPCH p) -> (0 < nat_arg p)%nat.
  Proof. intro H. look fr V VV. cbn in VV. lia. Qed.
  Lemma given_fib_after k : constructed cFIB -> (days_given ob <= k)%nat -> given "close" ob k = NaN.
  Proof. intros H K. look fr V VV. rewrite (view_given V) by req. rewrite (view_days V) in K. apply nth_overflow. rewrite (view_length V) by req. exact K. Qed.
  Lemma known_day x k f : In x ["close"] -> constructed cFIB -> known (given x ob) k f -> (k < days_given ob)%nat.
  Proof.
    intros [<-|[]] H KN. destruct (Nat.lt_ge_cases k (days_given ob)) as [|L]; [assumption|]. specialize (KN k (le_n k)). rewrite given_fib_after in KN by auto. discriminate.
  Qed.
  Lemma rn_from a k v : rn (from a k v) = from a k (rn v).
  Proof. unfold from. destruct (k <? a)%nat; reflexivity. Qed.

  Variables (t : Z) (h l c : nat -> Z) (n k : nat).
  Hypothesis K : (k < n)%nat.
  Notation H_ := (column t h n). Notation L_ := (column t l n). Notation C_ := (column t c n).
  Lemma williams_accuracy p : constructed (cWR p) -> fits t h n -> fits t l n -> fits t c n ->
    known (given "high" ob) k (prices t h) -> known (given "low" ob) k (prices t l) -> known (given "close" ob) k (prices t c) ->
    (forall i, (i <= k)%nat -> (l i <= c i <= h i)%Z) ->
    let w := nat_arg p in let top := max_last (prices t h) w k in let bottom := min_last (prices t l) w k in
    let u := from (w - 1) k (nmul (Fin (- zq 100)) (ratio (top - prices t c k) (top - bottom)))%Qc in
    shown "wr" ob k = rn u /\ tracks (cell (fwr w H_ L_ C_) k) u.
  Proof.
    intros H F1 F2 F3 K1 K2 K3 O. cbv zeta. split.
    - rewrite rn_from. apply (williams_r_shown o raw b ob W p k _ _ _ H K1 K2 K3).
    - apply wr_tracks; auto. apply wr_period; exact H.
  Qed.
  Lemma stochastic_accuracy p q r m : constructed (cSO p q r m) -> nat_arg q = 1%nat -> fits t h n -> fits t l n -> fits t c n ->
    known (given "high" ob) k (prices t h) -> known (given "low" ob) k (prices t l) -> known (given "close" ob) k (prices t c) ->
    (forall i, (i <= k)%nat -> (l i <= c i <= h i)%Z) ->
    let w := nat_arg p in let top := max_last (prices t h) w k in let bottom := min_last (prices t l) w k in
    let u := from (w - 1) k (ratio (zq 100 * (prices t c k - bottom)) (top - bottom))%Qc in
    shown "%K" ob k = rn u /\ tracks (cell (fso_k w H_ L_ C_) k) u.
  Proof.
    intros H Q F1 F2 F3 K1 K2 K3 O. cbv zeta. split.
    - rewrite rn_from. pose proof (stochastic_shown o raw b ob W p q r m k _ _ _ H K1 K2 K3) as SH. cbv zeta in SH. rewrite Q in SH.
      replace (nat_arg p + 1 - 2)%nat with (nat_arg p - 1)%nat in SH by lia. rewrite SH. unfold sum_last, total. replace (S k - 1 + 0)%nat with k by lia.
      rewrite !Qcplus_0_l. reflexivity.
    - apply so_tracks; auto. apply (so_period p q r m H).
  Qed.
  Lemma median_accuracy p : constructed (cMP p) -> fits t h n -> fits t l n ->
    given "high" ob k = Fin (prices t h k) -> given "low" ob k = Fin (prices t l k) -> (l k <= h k)%Z ->
    let u := Fin ((prices t h k + prices t l k) / zq 2)%Qc in
    shown "mp" ob k = rn u /\ tracks (cell (fmp H_ L_) k) u.
  Proof.
    intros H F1 F2 K1 K2 O. cbv zeta. split.
    - apply (mp_shown_range o raw b ob W p k _ _ H K1 K2). apply prices_le; auto. destruct F1 as [? _]; lia.
    - apply (mp_tracks t h l h n k); auto.
  Qed.
  Lemma weighted_accuracy : constructed cWC -> fits t h n -> fits t l n -> fits t c n ->
    given "high" ob k = Fin (prices t h k) -> given "low" ob k = Fin (prices t l k) -> given "close" ob k = Fin (prices t c k) -> (l k <= c k <= h k)%Z ->
    let u := Fin ((zq 2 * prices t c k + prices t h k + prices t l k) / zq 4)%Qc in
    shown "wc" ob k = rn u /\ tracks (cell (fwc C_ H_ L_) k) u.
  Proof.
    intros H F1 F2 F3 K1 K2 K3 O. cbv zeta. assert (T : (1 <= t)%Z) by (destruct F1 as [? _]; lia). split.
    - apply (wc_shown_range o raw b ob W k _ _ _ H K1 K2 K3); apply prices_le; auto; lia.
    - apply wc_tracks; auto.
  Qed.
  Lemma typical_accuracy p : constructed (cTP p) -> fits t h n -> fits t l n -> fits t c n ->
    given "high" ob k = Fin (prices t h k) -> given "low" ob k = Fin (prices t l k) -> given "close" ob k = Fin (prices t c k) -> (l k <= c k <= h k)%Z ->
    let u := Fin ((prices t h k + prices t l k + prices t c k) / zq 3)%Qc in
    shown "tp" ob k = rn u /\ tracks (cell (ftp H_ L_ C_) k) u.
  Proof.
    intros H F1 F2 F3 K1 K2 K3 O. cbv zeta. assert (T : (1 <= t)%Z) by (destruct F1 as [? _]; lia). split.
    - apply (tp_shown_range o raw b ob W p k _ _ _ H K1 K2 K3); apply prices_le; auto; lia.
    - apply tp_tracks; auto.
  Qed.
  (** ** extremes *)
  Lemma highest_at x f a e i M : (1 <= t)%Z -> (forall j, (a <= j <= e)%nat -> x j = Fin (prices t f j)) -> (a <= i <= e)%nat -> (forall j, (a <= j <= e)%nat -> (f j <= f i)%Z) ->
    ValueSpec.highest x a e M -> M = prices t f i.
  Proof.
    intros T X I B [(j & J & E) U]. rewrite X in E by exact J. injection E as <-. apply Qcle_antisym; [apply prices_le; auto|]. apply (U i); auto.
  Qed.
  Lemma lowest_at x f a e i M : (1 <= t)%Z -> (forall j, (a <= j <= e)%nat -> x j = Fin (prices t f j)) -> (a <= i <= e)%nat -> (forall j, (a <= j <= e)%nat -> (f i <= f j)%Z) ->
    ValueSpec.lowest x a e M -> M = prices t f i.
  Proof.
    intros T X I B [(j & J & E) U]. rewrite X in E by exact J. injection E as <-. apply Qcle_antisym; [|apply prices_le; auto]. apply (U i); auto.
  Qed.
  Lemma midpoint_at x y k' w i j u : (1 <= t)%Z -> (k' <= k)%nat -> known x k (prices t h) -> known y k (prices t l) -> (0 < w)%nat ->
    (S k' - w <= i <= k')%nat -> (forall z, (S k' - w <= z <= k')%nat -> (h z <= h i)%Z) -> (S k' - w <= j <= k')%nat -> (forall z, (S k' - w <= z <= k')%nat -> (l j <= l z)%Z) ->
    midpoint x y (k' - (w - 1)) k' u -> u = Fin ((prices t h i + prices t l j) / zq 2)%Qc.
  Proof.
    intros T LE X Y P I Bi J Bj [(M & m & A & B & ->)|[[A|A] _]]; replace (k' - (w - 1))%nat with (S k' - w)%nat in * by lia.
    - rewrite (highest_at x h (S k' - w) k' i M), (lowest_at y l (S k' - w) k' j m); auto; intros z Z; [apply Y|apply X]; lia.
    - specialize (A k' ltac:(lia)). rewrite X in A by lia. discriminate.
    - specialize (A k' ltac:(lia)). rewrite Y in A by lia. discriminate.
  Qed.
  (** the middle line of the last w rows, before rounding *)
  Lemma mid_cell w k' : fits t h n -> fits t l n -> (0 < w)%nat -> (k' <= k)%nat ->
    exists i j, (S k' - w <= i <= k')%nat /\ (forall z, (S k' - w <= z <= k')%nat -> (h z <= h i)%Z) /\ (S k' - w <= j <= k')%nat /\ (forall z, (S k' - w <= z <= k')%nat -> (l j <= l z)%Z) /\
      nth k' (fich w H_ L_) fnan = fdiv (fadd (dec4 (t * h i)) (dec4 (t * l j))) (fz 2 0) /\ (Z.abs (h i) <= 2 ^ 24)%Z /\ (Z.abs (l j) <= 2 ^ 24)%Z.
  Proof.
    intros F1 F2 P LE. destruct (tick_top t h n k' w 1 F1 ltac:(lia) P ltac:(lia) ltac:(lia)) as (i & I & E & Bi). destruct (tick_bottom t l n k' w 1 F2 ltac:(lia) P ltac:(lia) ltac:(lia)) as (j & J & E' & Bj).
    exists i, j. repeat split; try lia; auto; try (apply F1; lia); try (apply F2; lia).
    unfold fich. rewrite fmap2_nth; unfold froll_max, froll_min in *; rewrite ?frolling_length, ?column_length; try lia. rewrite E, E'. reflexivity.
  Qed.
  Lemma mid_tracks i j : (1 <= t <= 2 ^ 20)%Z -> (Z.abs (h i) <= 2 ^ 24)%Z -> (Z.abs (l j) <= 2 ^ 24)%Z ->
    tracks (fround4 (fdiv (fadd (dec4 (t * h i)) (dec4 (t * l j))) (fz 2 0))) (Fin ((prices t h i + prices t l j) / zq 2)%Qc).
  Proof.
    intros T A B. destruct (mid_half t (h i) (l j) 0 T A B) as [X Y]. destruct (tick_box t T (h i) A) as (_ & _ & U).
    assert (Er : real ((prices t h i + prices t l j) / zq 2)%Qc = unit t * (IZR (h i) + IZR (l j)) / 2) by (rewrite real_div, real_add, !real_prices, real_zq by exact z2; field).
    apply tracks_round; rewrite Er; [eapply ap_weaken; [exact X|]; unfold tolerance; lra|apply Rabs_le; lra].
  Qed.
  Lemma ichimoku_accuracy : constructed cICH -> fits t h n -> fits t l n -> (k < days_given ob)%nat ->
    known (given "high" ob) k (prices t h) -> known (given "low" ob) k (prices t l) ->
    (exists u, midpoint (given "high" ob) (given "low" ob) (k - 8) k u /\ shown "tenkan_sen" ob k = rn u /\ tracks (fround4 (cell (fich 9 H_ L_) k)) u) /\
    (exists u, midpoint (given "high" ob) (given "low" ob) (k - 25) k u /\ shown "kijun_sen" ob k = rn u /\ tracks (fround4 (cell (fich 26 H_ L_) k)) u).
  Proof.
    intros H F1 F2 D K1 K2. pose proof (ich_shown_lines o raw b ob W k H D) as [(u & M & S) (u' & M' & S')]. pose proof F1 as [T _]. assert (T1 : (1 <= t)%Z) by lia. split.
    - exists u. split; [exact M|]. split; [exact S|]. destruct (mid_cell 9 k F1 F2 ltac:(lia) ltac:(lia)) as (i & j & I & Bi & J & Bj & E & Zi & Zj).
      unfold cell. rewrite E. rewrite (midpoint_at _ _ k 9 i j u T1 ltac:(lia) K1 K2 ltac:(lia) I Bi J Bj M). apply mid_tracks; auto.
    - exists u'. split; [exact M'|]. split; [exact S'|]. destruct (mid_cell 26 k F1 F2 ltac:(lia) ltac:(lia)) as (i & j & I & Bi & J & Bj & E & Zi & Zj).
      unfold cell. rewrite E. rewrite (midpoint_at _ _ k 26 i j u' T1 ltac:(lia) K1 K2 ltac:(lia) I Bi J Bj M'). apply mid_tracks; auto.
  Qed.
  Lemma cloud_accuracy : constructed cICH -> fits t h n -> fits t l n -> (k < days_given ob)%nat -> (26 <= k)%nat ->
    known (given "high" ob) k (prices t h) -> known (given "low" ob) k (prices t l) ->
    (exists u v, midpoint (given "high" ob) (given "low" ob) (k - 26 - 8) (k - 26) u /\ midpoint (given "high" ob) (given "low" ob) (k - 26 - 25) (k - 26) v /\
       shown "senkou_a" ob k = rn (ndiv (nadd u v) (Fin (zq 2))) /\ tracks (fround4 (cell (fich_a H_ L_) k)) (ndiv (nadd u v) (Fin (zq 2)))) /\
    (exists u, midpoint (given "high" ob) (given "low" ob) (k - 26 - 51) (k - 26) u /\ shown "senkou_b" ob k = rn u /\ tracks (fround4 (cell (fich_b H_ L_) k)) u).
  Proof.
    intros H F1 F2 D G K1 K2. pose proof (ich_shown_cloud o raw b ob W k H D) as [_ C]. destruct (C G) as [(u & v & M & M2 & S) (u' & M' & S')]. pose proof F1 as [T _]. assert (T1 : (1 <= t)%Z) by lia.
    assert (LN : forall w, List.length (fich w H_ L_) = n).
    { intro w. unfold fich, fmap2. rewrite map_length, combine_length. unfold froll_max, froll_min. rewrite !frolling_length, !column_length. lia. }
    split.
    - exists u, v. split; [exact M|]. split; [exact M2|]. split; [exact S|].
      destruct (mid_cell 9 (k - 26) F1 F2 ltac:(lia) ltac:(lia)) as (i & j & I & Bi & J & Bj & E & Zi & Zj).
      destruct (mid_cell 26 (k - 26) F1 F2 ltac:(lia) ltac:(lia)) as (i' & j' & I' & Bi' & J' & Bj' & E' & Zi' & Zj').
      rewrite (midpoint_at _ _ (k - 26) 9 i j u T1 ltac:(lia) K1 K2 ltac:(lia) I Bi J Bj M). rewrite (midpoint_at _ _ (k - 26) 26 i' j' v T1 ltac:(lia) K1 K2 ltac:(lia) I' Bi' J' Bj' M2).
      unfold cell, fich_a. assert (LF : List.length (fmap2 (fun a b0 => fdiv (fadd a b0) (fz 2 0)) (fich 9 H_ L_) (fich 26 H_ L_)) = n) by (unfold fmap2; rewrite map_length, combine_length, !LN; lia).
      rewrite fshift_nth by (rewrite LF; exact K). replace (k <? 26)%nat with false by (symmetry; apply Nat.ltb_ge; lia).
      rewrite fmap2_nth by (rewrite !LN; lia || reflexivity). rewrite E, E'.
      destruct (mid_half t (h i) (l j) 0 T Zi Zj) as [X Y]. destruct (mid_half t (h i') (l j') 0 T Zi' Zj') as [X' Y']. destruct (tick_box t T (h i) Zi) as (_ & _ & U).
      set (a := unit t * (IZR (h i) + IZR (l j)) / 2) in *. set (a' := unit t * (IZR (h i') + IZR (l j')) / 2) in *.
      assert (Rabs (a + a') <= unit t * 33554432) by (apply Rabs_le; lra).
      destruct (fz_val 2) as [F2' V2]; [lia|].
      assert (A1 : ap (fadd (fdiv (fadd (dec4 (t * h i)) (dec4 (t * l j))) (fz 2 0)) (fdiv (fadd (dec4 (t * h i')) (dec4 (t * l j'))) (fz 2 0))) (a + a') (unit t / 20000000)).
      { apply (ap_add _ _ _ _ _ _ (unit t * 33554434) _ X X'); lra. }
      assert (A2 : ap (fdiv (fadd (fdiv (fadd (dec4 (t * h i)) (dec4 (t * l j))) (fz 2 0)) (fdiv (fadd (dec4 (t * h i')) (dec4 (t * l j'))) (fz 2 0))) (fz 2 0)) ((a + a') / 2) tolerance).
      { apply (ap_divc _ _ _ _ _ (unit t * 16777218) _ F2' V2 ltac:(lra) A1); unfold tolerance; lra. }
      cbn [nadd]. rewrite ndiv_fin by exact z2.
      assert (Er : real (((prices t h i + prices t l j) / zq 2 + (prices t h i' + prices t l j') / zq 2) / zq 2)%Qc = (a + a') / 2).
      { rewrite real_div, real_add, !real_div, !real_add, !real_prices, !real_zq by exact z2. unfold a, a'. field. }
      apply tracks_round; rewrite Er; [exact A2|apply Rabs_le; lra].
    - exists u'. split; [exact M'|]. split; [exact S'|].
      destruct (mid_cell 52 (k - 26) F1 F2 ltac:(lia) ltac:(lia)) as (i & j & I & Bi & J & Bj & E & Zi & Zj).
      rewrite (midpoint_at _ _ (k - 26) 52 i j u' T1 ltac:(lia) K1 K2 ltac:(lia) I Bi J Bj M').
      unfold cell, fich_b. rewrite fshift_nth by (rewrite LN; exact K). replace (k <? 26)%nat with false by (symmetry; apply Nat.ltb_ge; lia). rewrite E. apply mid_tracks; auto.
  Qed.
  (** ** the channel: prices with four decimals come out unchanged *)
  Lemma round_tick j : (1 <= t <= 2 ^ 20)%Z -> (Z.abs j <= 2 ^ 24)%Z -> is_finite (fround4 (dec4 (t * j))) = true /\ val (fround4 (dec4 (t * j))) = val (dec4 (t * j)).
  Proof. intros T J. apply (fround4_decimal (t * j)). rewrite Z.abs_mul, (Z.abs_eq t) by lia. nia. Qed.
  Lemma channel_high_accuracy p : constructed (cPCH p) -> fits t h n -> (k < days_given ob)%nat -> known (given "high" ob) k (prices t h) ->
    let w := nat_arg p in let x := cell (fpch_high w H_) k in
    ((k < w)%nat -> shown "highest_high" ob k = NaN /\ missing x) /\
    ((w <= k)%nat -> exists m, ValueSpec.highest (given "high" ob) (k - w) (k - 1) (units m) /\ shown "highest_high" ob k = Fin (units m) /\ is_finite x = true /\ val x = val (dec4 m)).
  Proof.
    intros H F1 D K1. cbv zeta. pose proof (pch_period p H) as P. pose proof F1 as [T Z]. assert (T1 : (1 <= t)%Z) by lia.
    assert (EX : cell (fpch_high (nat_arg p) H_) k = fround4 (if (k <? 1)%nat then fnan else nth (k - 1) (froll_max (nat_arg p) (nat_arg p) H_) fnan)).
    { assert (LR : List.length (froll_max (nat_arg p) (nat_arg p) H_) = n) by (unfold froll_max; rewrite frolling_length, column_length; reflexivity).
      unfold cell, fpch_high. change fnan with (fround4 fnan) at 1. rewrite map_nth, fshift_nth by (rewrite LR; exact K). reflexivity. }
    split; intro E.
    - split.
      + destruct (pch_shown_high o raw b ob W p k H D) as [(M & E' & _)|[_ S]]; [lia|exact S].
      + rewrite EX. destruct (Nat.ltb_spec k 1); [reflexivity|]. unfold froll_max. rewrite roll_early by (rewrite ?column_length; lia). reflexivity.
    - replace (k <? 1)%nat with false in EX by (symmetry; apply Nat.ltb_ge; lia).
      destruct (tick_top t h n (k - 1) (nat_arg p) (nat_arg p) F1 ltac:(lia) P ltac:(lia) ltac:(lia)) as (i & I & E2 & B). rewrite E2 in EX.
      replace (S (k - 1) - nat_arg p)%nat with (k - nat_arg p)%nat in * by lia.
      destruct (pch_shown_high o raw b ob W p k H D) as [(M & _ & FU & HI & S)|[[E3|(z & G1 & G2)] _]]; [|lia|rewrite K1 in G2 by lia; discriminate].
      assert (EM : M = prices t h i) by (apply (highest_at (given "high" ob) h (k - nat_arg p) (k - 1)); auto; intros; apply K1; lia). subst M.
      destruct (round_tick (h i) T ltac:(apply Z; lia)) as [R1 R2].
      exists (t * h i)%Z. split; [exact HI|]. split; [rewrite S; f_equal; apply r4_units|]. rewrite EX. split; [exact R1|exact R2].
  Qed.
  Lemma channel_low_accuracy p : constructed (cPCH p) -> fits t l n -> (k < days_given ob)%nat -> known (given "low" ob) k (prices t l) ->
    let w := nat_arg p in let x := cell (fpch_low w L_) k in
    ((k < w)%nat -> shown "lowest_low" ob k = NaN /\ missing x) /\
    ((w <= k)%nat -> exists m, ValueSpec.lowest (given "low" ob) (k - w) (k - 1) (units m) /\ shown "lowest_low" ob k = Fin (units m) /\ is_finite x = true /\ val x = val (dec4 m)).
  Proof.
    intros H F1 D K1. cbv zeta. pose proof (pch_period p H) as P. pose proof F1 as [T Z]. assert (T1 : (1 <= t)%Z) by lia.
    assert (EX : cell (fpch_low (nat_arg p) L_) k = fround4 (if (k <? 1)%nat then fnan else nth (k - 1) (froll_min (nat_arg p) (nat_arg p) L_) fnan)).
    { assert (LR : List.length (froll_min (nat_arg p) (nat_arg p) L_) = n) by (unfold froll_min; rewrite frolling_length, column_length; reflexivity).
      unfold cell, fpch_low. change fnan with (fround4 fnan) at 1. rewrite map_nth, fshift_nth by (rewrite LR; exact K). reflexivity. }
    split; intro E.
    - split.
      + destruct (pch_shown_low o raw b ob W p k H D) as [(M & E' & _)|[_ S]]; [lia|exact S].
      + rewrite EX. destruct (Nat.ltb_spec k 1); [reflexivity|]. unfold froll_min. rewrite roll_early by (rewrite ?column_length; lia). reflexivity.
    - replace (k <? 1)%nat with false in EX by (symmetry; apply Nat.ltb_ge; lia).
      destruct (tick_bottom t l n (k - 1) (nat_arg p) (nat_arg p) F1 ltac:(lia) P ltac:(lia) ltac:(lia)) as (i & I & E2 & B). rewrite E2 in EX.
      replace (S (k - 1) - nat_arg p)%nat with (k - nat_arg p)%nat in * by lia.
      destruct (pch_shown_low o raw b ob W p k H D) as [(M & _ & FU & HI & S)|[[E3|(z & G1 & G2)] _]]; [|lia|rewrite K1 in G2 by lia; discriminate].
      assert (EM : M = prices t l i) by (apply (lowest_at (given "low" ob) l (k - nat_arg p) (k - 1)); auto; intros; apply K1; lia). subst M.
      destruct (round_tick (l i) T ltac:(apply Z; lia)) as [R1 R2].
      exists (t * l i)%Z. split; [exact HI|]. split; [rewrite S; f_equal; apply r4_units|]. rewrite EX. split; [exact R1|exact R2].
  Qed.
  (** ** the retracement levels *)
  Lemma level_of name z : In (name, z) level_names -> In (name, zq z / zq 1000)%Qc levels /\ (0 <= z <= 1000)%Z.
  Proof.
    intro I. cbn [In level_names] in I. split; [|repeat destruct I as [I|I]; try contradiction; injection I as _ <-; lia].
    repeat destruct I as [I|I]; try contradiction; injection I as <- <-; unfold levels;
      match goal with |- In (?nm, ?q) _ => let r := eval cbn in (List.find (fun z => String.eqb (fst z) nm) levels) in
        match r with Some (_, ?y) => replace q with y by (apply Qc_is_canon; vm_compute; reflexivity) end end; cbn [In]; tauto.
  Qed.
  Lemma fibonacci_each : constructed cFIB -> fits t c (days_given ob) -> known (given "close" ob) (days_given ob - 1) (prices t c) -> (0 < days_given ob)%nat ->
    exists M m, ValueSpec.highest (given "close" ob) 0 (days_given ob - 1) M /\ ValueSpec.lowest (given "close" ob) 0 (days_given ob - 1) m /\
      forall name z k, In (name, z) level_names -> (k < days_given ob)%nat ->
        let u := Fin (M - zq z / zq 1000 * (M - m))%Qc in
        shown name ob k = rn u /\ tracks (ffib (thousandth z) (column t c (days_given ob))) u.
  Proof.
    intros H F1 K1 N. set (d := days_given ob) in *. pose proof F1 as [T Z]. assert (T1 : (1 <= t)%Z) by lia.
    assert (GV : forall j, (0 <= j <= d - 1)%nat -> given "close" ob j = Fin (prices t c j)) by (intros j J; apply K1; lia).
    destruct (fib_shown_values o raw b ob W H) as [(M & m & A & B & S)|[NF _]].
    { intro j. destruct (Nat.lt_ge_cases j d) as [L|L]; [right; rewrite GV by lia; reflexivity|left; apply given_fib_after; auto]. }
    2:{ specialize (NF 0%nat ltac:(lia)). rewrite GV in NF by lia. discriminate. }
    exists M, m. split; [exact A|]. split; [exact B|]. intros name z k' I K'. cbv zeta. destruct (level_of name z I) as [I' Z0]. split; [cbn; apply S; auto|].
    destruct (fib_shape (column t c d)) as (mx & mn & I1 & I2 & O & E).
    { intro X. apply (f_equal (@List.length f64)) in X. rewrite column_length in X. cbn in X. lia. }
    { intros x X. unfold column in X. apply in_map_iff in X. destruct X as (j & <- & X). apply in_seq in X. apply decimal_price. specialize (Z j ltac:(lia)). rewrite Z.abs_mul, (Z.abs_eq t) by lia. nia. }
    unfold column in I1, I2. apply in_map_iff in I1, I2. destruct I1 as (i & <- & I1), I2 as (j & <- & I2). apply in_seq in I1, I2.
    assert (Bi : forall y, (0 <= y <= d - 1)%nat -> (c j <= c y <= c i)%Z).
    { intros y Y. specialize (O (dec4 (t * c y))). assert (IN : In (dec4 (t * c y)) (column t c d)) by (apply in_map_iff; exists y; split; [reflexivity|apply in_seq; lia]). specialize (O IN).
      assert (FF : forall y, (y < d)%nat -> is_finite (dec4 (t * c y)) = true) by (intros y' Y'; apply (tick_ap t (c y') T); apply Z; lia).
      split; apply (tick_order t); auto; try (apply Z; lia); apply fle_fin; auto; try (apply FF; lia); apply O. }
    rewrite (highest_at (given "close" ob) c 0 (d - 1) i M T1 GV ltac:(lia) (fun y Y => proj2 (Bi y Y)) A).
    rewrite (lowest_at (given "close" ob) c 0 (d - 1) j m T1 GV ltac:(lia) (fun y Y => proj1 (Bi y Y)) B).
    rewrite E. pose proof (Bi i ltac:(lia)) as [OO _].
    destruct (fib_near t (c i) (c j) 0 T ltac:(apply Z; lia) ltac:(apply Z; lia) z Z0 OO) as [X Y].
    assert (Er : real (prices t c i - zq z / zq 1000 * (prices t c i - prices t c j))%Qc = unit t * IZR (c i) - IZR z / 1000 * (unit t * (IZR (c i) - IZR (c j)))).
    { rewrite real_sub, real_mul, real_div, real_sub, !real_prices, !real_zq by (apply real_neq; rewrite real_zq; lra). field. }
    destruct (tick_ap t (c i) T ltac:(apply Z; lia)) as (_ & _ & U).
    apply tracks_round; rewrite Er; [exact X|lra].
  Qed.
  Lemma levels_in_order j name z : nth_error level_names j = Some (name, z) -> nth j flevels (thousandth 0) = thousandth z.
  Proof. intro E. do 6 (destruct j as [|j]; [cbn in E; injection E as <- <-; reflexivity|]). destruct j; discriminate E. Qed.
  Lemma fibonacci_accuracy : constructed cFIB -> fits t c (days_given ob) -> known (given "close" ob) (days_given ob - 1) (prices t c) -> (0 < days_given ob)%nat ->
    exists M m, ValueSpec.highest (given "close" ob) 0 (days_given ob - 1) M /\ ValueSpec.lowest (given "close" ob) 0 (days_given ob - 1) m /\
      forall j name z k, nth_error level_names j = Some (name, z) -> (k < days_given ob)%nat ->
        let u := Fin (M - zq z / zq 1000 * (M - m))%Qc in
        shown name ob k = rn u /\ tracks (ffib (nth j flevels (thousandth 0)) (column t c (days_given ob))) u.
  Proof.
    intros H F1 K1 N. destruct (fibonacci_each H F1 K1 N) as (M & m & A & B & S). exists M, m. split; [exact A|]. split; [exact B|].
    intros j name z k' E K'. rewrite (levels_in_order j name z E). exact (S name z k' (nth_error_In _ _ E) K').
  Qed.
End Acc.

Section AccPast.
  Variables (o : oracle) (raw : rawframe) (b : bool) (ob : obj).
  Hypothesis W : wf_raw raw.
  Notation constructed c := (snd (construct o c (RFrame raw) (VBool b)) = Ok ob).
  Variables (v : nat -> Z) (n k : nat).
  Hypothesis K : (k < n)%nat.
  Hypothesis F : forall i, (i < n)%nat -> (0 <= v i <= 2 ^ 50)%Z.
  Notation V_ := (column 1 v n).
  Lemma momentum_accuracy p : constructed (cMOM p) -> let w := nat_arg p in
    (v (k - w)%nat = 0 \/ v k <= 2 ^ 24 * v (k - w)%nat)%Z -> known (given "close" ob) k (prices 1 v) ->
    let u := from w k (ratio (zq 100 * prices 1 v k) (prices 1 v (k - w)%nat))%Qc in
    shown "mom" ob k = rn u /\ tracks (cell (fmom w V_) k) u.
  Proof.
    intros H w R K1 u. split; [|apply mom_tracks; auto]. unfold u. rewrite rn_from. destruct (mom_shown_values o raw b ob W p k H) as [A B].
    destruct (Nat.lt_ge_cases k w) as [L|L]; [rewrite from_early by lia; apply A; exact L|rewrite from_late by lia]. apply (B _ _ L); apply K1; lia.
  Qed.
  Lemma rate_accuracy p : constructed (cPRC p) -> let w := nat_arg p in
    (v (k - w)%nat = 0 \/ v k <= 2 ^ 24 * v (k - w)%nat)%Z -> known (given "close" ob) k (prices 1 v) ->
    let u := from w k (ratio (zq 100 * (prices 1 v k - prices 1 v (k - w)%nat)) (prices 1 v (k - w)%nat))%Qc in
    shown "prc" ob k = rn u /\ tracks (cell (fprc w V_) k) u.
  Proof.
    intros H w R K1 u. split; [|apply prc_tracks; auto]. unfold u. rewrite rn_from. destruct (prc_shown_values o raw b ob W p k H) as [A B].
    destruct (Nat.lt_ge_cases k w) as [L|L]; [rewrite from_early by lia; apply A; exact L|rewrite from_late by lia]. apply (B _ _ L); apply K1; lia.
  Qed.
  Lemma volume_rate_accuracy p : constructed (cVRC p) -> let w := nat_arg p in
    (v (k - w)%nat = 0 \/ v k <= 2 ^ 24 * v (k - w)%nat)%Z -> known (given "volume" ob) k (prices 1 v) ->
    let u := from w k (ratio (zq 100 * (prices 1 v k - prices 1 v (k - w)%nat)) (prices 1 v (k - w)%nat))%Qc in
    shown "vrc" ob k = rn u /\ tracks (cell (fvrc w V_) k) u.
  Proof.
    intros H w R K1 u. split; [|apply vrc_tracks; auto]. unfold u. rewrite rn_from. apply (volume_rate_of_change_shown o raw b ob W p k _ H K1).
  Qed.
  Lemma performance_accuracy p q : constructed (cPRF p q) ->
    (v 0%nat = 0 \/ v k <= 2 ^ 24 * v 0%nat)%Z -> known (given "close" ob) k (prices 1 v) ->
    let u := ratio (prices 1 v k - prices 1 v 0%nat)%Qc (prices 1 v 0%nat) in
    shown "prf" ob k = rn u /\ tracks (cell (fprf V_) k) u.
  Proof.
    intros H R K1 u. split; [|apply prf_tracks; auto]. apply (performance_shown o raw b ob W p q k _ H K1).
  Qed.
End AccPast.

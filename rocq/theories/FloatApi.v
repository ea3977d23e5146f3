(** * FloatApi: ranges of published cells in binary64. *)
From Coq Require Import ZArith Reals Bool List PeanoNat Permutation Lia Lra Psatz.
From Flocq Require Import Core Relative IEEE754.BinarySingleNaN.
From Verif Require Import Pandas Sim FloatSim FloatFacts FloatInd FloatOrd FloatDec FloatRange FloatRange2 FloatSpec.
Import ListNotations.
Open Scope list_scope.

Lemma price_modest x : price x -> modest x. Proof. exact (fun H => H). Qed.
Lemma val_fle x y : is_finite x = true -> is_finite y = true -> (val x <= val y)%R -> fle x y.
Proof. intros Fx Fy H. apply fle_fin; auto. Qed.

Section Days.
Variables (high low close : fseries) (k p : nat).
Hypothesis D : days high low close.
Hypothesis P : (0 < p)%nat.
Hypothesis K : (k < length close)%nat.
Hypothesis E : (p <= S k)%nat.
Let hh := nth k (froll_max p p high) fnan.
Let ll := nth k (froll_min p p low) fnan.
Let c := nth k close fnan.

Lemma all_of (s : fseries) (Q : f64 -> Prop) : (forall i, (i < length s)%nat -> Q (cell s i)) -> forall x, In x s -> Q x.
Proof. intros H x I. destruct (In_nth _ _ fnan I) as (i & L & <-). apply H; exact L. Qed.
Lemma high_fin : all_finite high.
Proof. destruct D as (L1 & L2 & H). intros x I. apply (all_of high (fun x => is_finite x = true)); auto. intros i L. apply H. lia. Qed.
Lemma low_fin : all_finite low.
Proof. destruct D as (L1 & L2 & H). intros x I. apply (all_of low (fun x => is_finite x = true)); auto. intros i L. apply H. lia. Qed.
Lemma hh_top : highest p k high hh.
Proof. destruct D as (L1 & L2 & H). apply roll_max_in; try lia. apply high_fin. Qed.
Lemma ll_bottom : lowest p k low ll.
Proof. destruct D as (L1 & L2 & H). apply roll_min_in; try lia. apply low_fin. Qed.
Lemma hh_price : modest hh.
Proof. destruct D as (L1 & L2 & H). destruct hh_top as [(j & J & ->) _]. apply H. lia. Qed.
Lemma ll_price : modest ll.
Proof. destruct D as (L1 & L2 & H). destruct ll_bottom as [(j & J & ->) _]. apply H. lia. Qed.
Lemma c_price : modest c.
Proof. destruct D as (L1 & L2 & H). apply H. exact K. Qed.
Lemma ll_c : fle ll c.
Proof.
  destruct D as (L1 & L2 & H). destruct ll_bottom as [_ B]. eapply fle_trans; [apply (B k); lia|].
  destruct (H k K) as (_ & [Fl _] & [Fc _] & [Q _]). apply fle_fin; auto.
Qed.
Lemma c_hh : fle c hh.
Proof.
  destruct D as (L1 & L2 & H). destruct hh_top as [_ B]. eapply fle_trans; [|apply (B k); lia].
  destruct (H k K) as ([Fh _] & _ & [Fc _] & [_ Q]). apply fle_fin; auto.
Qed.
Lemma hh_val i : recent p k i -> (val (cell high i) <= RV hh)%R.
Proof.
  intro I. destruct D as (L1 & L2 & H). destruct hh_top as [_ B]. specialize (B i I). pose proof hh_price as [F _]. apply fle_fin in B; auto.
  apply H. unfold recent in I. lia.
Qed.
Lemma ll_val i : recent p k i -> (RV ll <= val (cell low i))%R.
Proof.
  intro I. destruct D as (L1 & L2 & H). destruct ll_bottom as [_ B]. specialize (B i I). pose proof ll_price as [F _]. apply fle_fin in B; auto.
  apply H. unfold recent in I. lia.
Qed.
Lemma spread : (exists i j, recent p k i /\ recent p k j /\ (val (cell low i) < val (cell high j))%R) <-> fltb ll hh = true.
Proof.
  pose proof ll_price as [Fl _]. pose proof hh_price as [Fh _]. rewrite fltb_fin by auto. split.
  - intros (i & j & I & J & L). apply Rlt_bool_true. pose proof (ll_val i I). pose proof (hh_val j J). lra.
  - intro L. revert L. case Rlt_bool_spec; [intros L _|discriminate]. destruct ll_bottom as [(i & I & Ei) _]. destruct hh_top as [(j & J & Ej) _].
    exists i, j. split; [exact I|]. split; [exact J|]. unfold val, cell. rewrite <- Ei, <- Ej. exact L.
Qed.
Lemma at_low : (forall i, recent p k i -> (val (cell close k) <= val (cell low i))%R) -> RV c = RV ll.
Proof.
  intro H. pose proof ll_c as A. pose proof ll_price as [Fl _]. pose proof c_price as [Fc _]. apply fle_fin in A; auto.
  destruct ll_bottom as [(i & I & Ei) _]. specialize (H i I). unfold val, cell in H. rewrite <- Ei in H. fold c in H. lra.
Qed.
Lemma at_high : (forall i, recent p k i -> (val (cell high i) <= val (cell close k))%R) -> RV c = RV hh.
Proof.
  intro H. pose proof c_hh as A. pose proof hh_price as [Fh _]. pose proof c_price as [Fc _]. apply fle_fin in A; auto.
  destruct hh_top as [(i & I & Ei) _]. specialize (H i I). unfold val, cell in H. rewrite <- Ei in H. fold c in H. lra.
Qed.
Lemma flat_same : fltb ll hh <> true -> RV hh = RV ll /\ RV c = RV ll.
Proof.
  intro L. pose proof ll_c as A. pose proof c_hh as B. pose proof ll_price as [Fl _]. pose proof hh_price as [Fh _]. pose proof c_price as [Fc _].
  apply fle_fin in A; auto. apply fle_fin in B; auto. rewrite fltb_fin in L by auto. revert L. case Rlt_bool_spec; [congruence|intros; lra].
Qed.
Lemma diff_zero x y : modest x -> modest y -> RV x = RV y -> exists s, fsub x y = B754_zero s.
Proof.
  intros Mx My H. destruct (diff_fin x y Mx My) as (F & V & _). rewrite H, Rminus_diag_eq, rnd_0 in V by reflexivity.
  apply fin_sign0 in V; auto. eauto.
Qed.
Lemma wr_row : nth k (fwr p high low close) fnan = fwr_of hh ll c.
Proof.
  destruct D as (L1 & L2 & H). unfold fwr. rewrite fmap3_nth; auto; unfold froll_max, froll_min; rewrite ?frolling_length; lia.
Qed.
Lemma so_row : nth k (fso_k p high low close) fnan = fso_of hh ll c.
Proof.
  destruct D as (L1 & L2 & H). unfold fso_k. rewrite fmap3_nth; auto; unfold froll_max, froll_min; rewrite ?frolling_length; lia.
Qed.
Lemma wr_flat : fltb ll hh <> true -> fwr_of hh ll c = fnan.
Proof.
  intro N. destruct (flat_same N) as [E1 E2]. destruct (diff_zero hh c hh_price c_price) as [s1 Z1]; [lra|]. destruct (diff_zero hh ll hh_price ll_price) as [s2 Z2]; [lra|].
  unfold fwr_of. rewrite Z1, Z2. reflexivity.
Qed.
Lemma so_flat : fltb ll hh <> true -> fso_of hh ll c = fnan.
Proof.
  intro N. destruct (flat_same N) as [E1 E2]. destruct (diff_zero c ll c_price ll_price) as [s1 Z1]; [lra|]. destruct (diff_zero hh ll hh_price ll_price) as [s2 Z2]; [lra|].
  unfold fso_of. rewrite Z1, Z2. destruct s1; reflexivity.
Qed.
End Days.

Lemma early w b s k : (S k < w)%nat -> nth k (frolling w w b s) fnan = fnan.
Proof.
  intro H. destruct (Nat.lt_ge_cases k (length s)) as [L|L]; [apply roll_early; auto|]. apply nth_overflow. rewrite frolling_length. exact L.
Qed.
Lemma fnan_sub x : fsub fnan x = fnan. Proof. destruct x; auto. Qed.
Lemma williams_cell p high low close k : (0 < p)%nat -> days high low close -> (k < length close)%nat ->
  let v := cell (fwr p high low close) k in
  ((S k < p)%nat -> missing v) /\
  ((p <= S k)%nat ->
    (wide p k high low -> between (-100) 0 v) /\
    (~ wide p k high low -> missing v) /\
    (wide p k high low -> (forall i, recent p k i -> (val (cell close k) <= val (cell low i))%R) -> val v = (-100)%R) /\
    (wide p k high low -> (forall i, recent p k i -> (val (cell high i) <= val (cell close k))%R) -> val v = 0%R)).
Proof.
  intros P D K. cbv zeta. split.
  - intro E. destruct D as (L1 & L2 & H). unfold missing, cell, fwr. rewrite fmap3_nth; try (unfold froll_max, froll_min; rewrite ?frolling_length; lia).
    unfold froll_max at 1. rewrite early by auto. unfold fwr_of. rewrite !fnan_sub. reflexivity.
  - intro E. pose proof (spread high low close k p D P K E) as SP.
    pose proof (hh_price high low close k p D P K E) as Mh. pose proof (ll_price high low close k p D P K E) as Ml. pose proof (c_price high low close k D K) as Mc.
    pose proof (ll_c high low close k p D P K E) as A. pose proof (c_hh high low close k p D P K E) as B.
    pose proof (at_low high low close k p D P K E) as AL. pose proof (at_high high low close k p D P K E) as AH.
    pose proof (wr_flat high low close k p D P K E) as WF. pose proof (wr_row high low close k p D P K E) as R.
    set (v := cell (fwr p high low close) k). change (v = fwr_of (nth k (froll_max p p high) fnan) (nth k (froll_min p p low) fnan) (nth k close fnan)) in R.
    set (hh := nth k (froll_max p p high) fnan) in *. set (ll := nth k (froll_min p p low) fnan) in *. clearbody v. subst v.
    unfold wide. rewrite SP. destruct (fltb ll hh) eqn:L.
    + destruct (wr_ends hh ll (nth k close fnan) Mh Ml Mc A B L) as (F & Z1 & Z2).
      destruct (wr_ranged hh ll (nth k close fnan) (proj1 Mh) (proj1 Ml) (proj1 Mc) A B) as [N|(_ & W1 & W2)]; [rewrite N in F; discriminate|].
      destruct m100_val as [Fm Vm]. apply fle_fin in W1; auto. apply fle_fin in W2; auto. rewrite Vm in W1. change (RV f0) with 0%R in W2.
      repeat split; auto; intro N; exfalso; apply N; reflexivity.
    + assert (N : false <> true) by discriminate. rewrite (WF N). repeat split; intros; try reflexivity; discriminate.
Qed.
Lemma stochastic_cell p high low close k : (0 < p)%nat -> days high low close -> (k < length close)%nat ->
  let v := cell (fso_k p high low close) k in
  ((S k < p)%nat -> missing v) /\
  ((p <= S k)%nat ->
    (wide p k high low -> between 0 100 v) /\
    (~ wide p k high low -> missing v) /\
    (wide p k high low -> (forall i, recent p k i -> (val (cell close k) <= val (cell low i))%R) -> val v = 0%R) /\
    (wide p k high low -> (forall i, recent p k i -> (val (cell high i) <= val (cell close k))%R) -> val v = 100%R)).
Proof.
  intros P D K. cbv zeta. split.
  - intro E. destruct D as (L1 & L2 & H). unfold missing, cell, fso_k. rewrite fmap3_nth; try (unfold froll_max, froll_min; rewrite ?frolling_length; lia).
    unfold froll_max at 1. rewrite early by auto. unfold fso_of. rewrite !fnan_sub.
    match goal with |- is_nan (fround4 (fdiv ?x fnan)) = _ => destruct x; reflexivity end.
  - intro E. pose proof (spread high low close k p D P K E) as SP.
    pose proof (hh_price high low close k p D P K E) as Mh. pose proof (ll_price high low close k p D P K E) as Ml. pose proof (c_price high low close k D K) as Mc.
    pose proof (ll_c high low close k p D P K E) as A. pose proof (c_hh high low close k p D P K E) as B.
    pose proof (at_low high low close k p D P K E) as AL. pose proof (at_high high low close k p D P K E) as AH.
    pose proof (so_flat high low close k p D P K E) as WF. pose proof (so_row high low close k p D P K E) as R.
    set (v := cell (fso_k p high low close) k). change (v = fso_of (nth k (froll_max p p high) fnan) (nth k (froll_min p p low) fnan) (nth k close fnan)) in R.
    set (hh := nth k (froll_max p p high) fnan) in *. set (ll := nth k (froll_min p p low) fnan) in *. clearbody v. subst v.
    unfold wide. rewrite SP. destruct (fltb ll hh) eqn:L.
    + destruct (so_full hh ll (nth k close fnan) Mh Ml Mc A B L) as (F & W & Z1 & Z2).
      repeat split; auto; try tauto; intro N; exfalso; apply N; reflexivity.
    + assert (N : false <> true) by discriminate. rewrite (WF N). repeat split; intros; try reflexivity; discriminate.
Qed.
Lemma rsi_cell npsum p close k : (forall l, added l (npsum l)) -> (0 < p)%nat -> (Z.of_nat p < 2 ^ 53)%Z ->
  missing (frsi npsum p close k) \/ between 0 100 (frsi npsum p close k).
Proof.
  intros A P B. destruct (rsi_ranged npsum A p close k P B) as [->|(F & L & U)]; [left; reflexivity|right]. destruct p100_val as [Fp Vp].
  apply fle_fin in L; auto. apply fle_fin in U; auto. rewrite Vp in U. split; [exact F|]. split; [exact L|exact U].
Qed.
(** four decimals *)
Lemma dec4_decimal k : dec4 k = decimal k. Proof. reflexivity. Qed.
Lemma decimal_round k : (Z.abs k <= 2 ^ 50)%Z -> is_finite (dec4 k) = true /\ is_finite (fround4 (dec4 k)) = true /\ val (fround4 (dec4 k)) = val (dec4 k).
Proof. intro S. destruct (decimal_val k S). destruct (fround4_decimal k S). repeat split; auto. Qed.
Lemma decimal_price k : (Z.abs k <= 2 ^ 50)%Z -> modest (dec4 k).
Proof.
  intro S. destruct (decimal_val k S) as [F V]. split; [exact F|]. change (Rabs (RV (decimal k)) <= bpow radix2 1000)%R.
  pose proof (decimal_err k S) as E. assert (K : (IZR (- 2 ^ 50) <= IZR k <= IZR (2 ^ 50))%R) by (split; apply IZR_le; lia).
  assert (A : (Rabs (IZR k / 10000) <= IZR (2 ^ 50) / 10000)%R) by (apply Rabs_le; simpl IZR in *; lra).
  assert (T : (bpow radix2 (-1075) <= 1)%R) by (change 1%R with (bpow radix2 0); apply bpow_le; lia).
  assert (T2 : (bpow radix2 (-53) <= 1)%R) by (change 1%R with (bpow radix2 0); apply bpow_le; lia). assert (T3 : (0 < bpow radix2 (-53))%R) by apply bpow_gt_0.
  assert (T4 : (bpow radix2 60 <= bpow radix2 1000)%R) by (apply bpow_le; lia). change (bpow radix2 60) with 1152921504606846976%R in T4.
  apply Rabs_le. apply Rabs_le_inv in E. apply Rabs_le_inv in A. pose proof (Rabs_pos (IZR k / 10000)).
  assert (Q : (Rabs (IZR k / 10000) <= IZR (2 ^ 50) / 10000)%R) by (apply Rabs_le; simpl IZR in *; lra). simpl IZR in Q, A. nra.
Qed.
Lemma fround4_fin x : is_finite x = true -> (Rabs (RV x) <= bpow radix2 1003)%R -> is_finite (fround4 x) = true.
Proof.
  intros F B. apply Rabs_le_inv in B. unfold fround4. destruct ften4_val as [FT VT].
  assert (U : exists u : f64, is_finite u = true /\ RV u = bpow radix2 1018).
  { exists (fz (2 ^ 50) 968). destruct (fz_val2 (2 ^ 50) 968) as [Fu Vu]; [lia|lia|]. split; [exact Fu|]. rewrite Vu.
    change (2 ^ 50)%Z with (Zpower radix2 50). rewrite IZR_Zpower by lia. rewrite <- bpow_plus. reflexivity. }
  assert (U' : exists u : f64, is_finite u = true /\ RV u = (- bpow radix2 1018)%R).
  { destruct U as (u & Fu & Vu). exists (Bopp u). rewrite is_finite_Bopp, B2R_Bopp, Vu. auto. }
  destruct U as (u & Fu & Vu). destruct U' as (w & Fw & Vw).
  assert (W : (10000 * bpow radix2 1003 <= bpow radix2 1018)%R) by (change 1018%Z with (15 + 1003)%Z; rewrite (bpow_plus radix2 15); change (bpow radix2 15) with 32768%R; pose proof (bpow_gt_0 radix2 1003); lra).
  edestruct (fun H => comes_fin w u _ _ Fw Fu H (fmul_comes x ften4 F FT)) as (G1 & G2 & G3); [rewrite VT, Vu, Vw; lra|].
  destruct (frint_fin _ G1) as [H1 H2].
  assert (R : (RV (frint w) <= RV (frint (fmul x ften4)) <= RV (frint u))%R).
  { destruct (frint_fin _ Fw) as [_ ->]. destruct (frint_fin _ Fu) as [_ ->]. rewrite H2. split; apply round_le; auto with typeclass_instances; lra. }
  assert (Q : (RV (frint u) = bpow radix2 1018 /\ RV (frint w) = - bpow radix2 1018)%R).
  { destruct (frint_fin _ Fw) as [_ ->]. destruct (frint_fin _ Fu) as [_ ->]. rewrite Vu, Vw. rewrite round_NE_opp.
    assert (X : round radix2 (FIX_exp 0) ZnearestE (bpow radix2 1018) = bpow radix2 1018); [|rewrite X; auto].
    apply round_generic; auto with typeclass_instances. apply generic_format_bpow. unfold FIX_exp. lia. }
  destruct Q as [Q1 Q2]. rewrite Q1, Q2 in R.
  edestruct (fun H => comes_fin w u _ _ Fw Fu H (fdiv_comes _ ften4 H1 FT ltac:(lra))) as (I1 & _); [rewrite VT, Vu, Vw; pose proof (bpow_gt_0 radix2 1018); lra|exact I1].
Qed.
Lemma fround4_modest x : modest x -> is_finite (fround4 x) = true.
Proof. intros [F B]. apply fround4_fin; auto. eapply Rle_trans; [exact B|]. apply bpow_le. lia. Qed.
Lemma between_round a b x : modest a -> modest b -> fle a x -> fle x b -> between (val (fround4 a)) (val (fround4 b)) (fround4 x).
Proof.
  intros Ma Mb A B. apply fround4_mono in A. apply fround4_mono in B. apply fround4_modest in Ma. apply fround4_modest in Mb.
  pose proof (fle_finite _ _ _ Ma Mb A B) as F. split; [exact F|]. apply fle_fin in A; auto. apply fle_fin in B; auto.
Qed.
Lemma median_cell high low k : length low = length high -> (k < length high)%nat -> price (cell high k) -> price (cell low k) -> (val (cell low k) <= val (cell high k))%R ->
  between (val (fround4 (cell low k))) (val (fround4 (cell high k))) (cell (fmp high low) k).
Proof.
  intros L K Ph Pl A. unfold cell at 3, fmp. rewrite fmap2_nth by auto.
  assert (A' : fle (cell low k) (cell high k)) by (apply fle_fin; [apply Pl|apply Ph|exact A]).
  destruct (mid_mul _ _ Pl Ph A') as (F & U & V). apply between_round; auto.
Qed.
Lemma median_cell_decimal high low k a b : length low = length high -> (k < length high)%nat -> (Z.abs a <= 2 ^ 50)%Z -> (Z.abs b <= 2 ^ 50)%Z ->
  cell low k = dec4 a -> cell high k = dec4 b -> (a <= b)%Z -> between (val (dec4 a)) (val (dec4 b)) (cell (fmp high low) k).
Proof.
  intros L K A B El Eh O. destruct (decimal_round a A) as (Fa & _ & Ra). destruct (decimal_round b B) as (Fb & _ & Rb).
  assert (Q : (val (dec4 a) <= val (dec4 b))%R).
  { unfold val. destruct (decimal_val a A) as [_ Va]. destruct (decimal_val b B) as [_ Vb]. change (RV (decimal a) <= RV (decimal b))%R. rewrite Va, Vb. apply rnd_le. apply IZR_le in O. lra. }
  pose proof (median_cell high low k L K) as M. rewrite El, Eh in M. rewrite Ra, Rb in M. apply M; [exact (decimal_price b B)|exact (decimal_price a A)|exact Q].
Qed.
(** rolling lines over a window of at least one row *)
Lemma line_cell n high low k : (0 < n)%nat -> length low = length high -> (k < length high)%nat ->
  (forall i, (i < length high)%nat -> price (cell high i) /\ price (cell low i) /\ (val (cell low i) <= val (cell high i))%R) ->
  exists i j, recent n k i /\ recent n k j /\
    (forall x, recent n k x -> (val (cell low i) <= val (cell low x))%R /\ (val (cell high x) <= val (cell high j))%R) /\
    between (val (cell low i)) (val (cell high j)) (cell (fich n high low) k) /\
    between (val (fround4 (cell low i))) (val (fround4 (cell high j))) (fround4 (cell (fich n high low) k)).
Proof.
  intros N L K H.
  assert (FH : all_finite high) by (intros x I; destruct (In_nth _ _ fnan I) as (i & Li & <-); apply H; exact Li).
  assert (FL : all_finite low) by (intros x I; destruct (In_nth _ _ fnan I) as (i & Li & <-); apply (H i); lia).
  destruct (roll_max_in n 1 high k FH N ltac:(lia) ltac:(lia) K) as [(j & J & Ej) TJ]. destruct (roll_min_in n 1 low k FL N ltac:(lia) ltac:(lia) ltac:(lia)) as [(i & I & Ei) TI].
  exists i, j. split; [exact I|]. split; [exact J|].
  assert (Pj : price (cell high j)) by (apply H; lia). assert (Pi : price (cell low i)) by (apply H; lia).
  assert (T : forall x, recent n k x -> (val (cell low i) <= val (cell low x))%R /\ (val (cell high x) <= val (cell high j))%R).
  { intros x X. specialize (TJ x X). specialize (TI x X). rewrite Ej in TJ. rewrite Ei in TI. unfold recent in X. destruct (H x) as ([Fx _] & [Fy _] & _); [lia|].
    split; apply fle_fin; auto; [apply Pi|apply Pj]. }
  split; [exact T|].
  assert (A : fle (cell low i) (cell high j)).
  { apply fle_fin; [apply Pi|apply Pj|]. destruct (T k) as [T1 T2]; [unfold recent; lia|]. destruct (H k K) as (_ & _ & Q). unfold val in *. lra. }
  destruct (mid_div _ _ Pi Pj A) as (F & U & V).
  assert (E : cell (fich n high low) k = fdiv (fadd (cell high j) (cell low i)) ftwo).
  { unfold cell at 1, fich. rewrite fmap2_nth; [|unfold froll_max; rewrite frolling_length; exact K|unfold froll_max, froll_min; rewrite !frolling_length; exact L]. rewrite Ej, Ei. reflexivity. }
  rewrite E. split; [|apply between_round; auto]. split; [exact F|]. apply fle_fin in U; [|apply Pi|exact F]. apply fle_fin in V; [|exact F|apply Pj]. split; assumption.
Qed.
(** the price channel *)
Lemma fshift1_nth s k : (k < length s)%nat -> nth k (fshift 1 s) fnan = match k with O => fnan | S j => nth j s fnan end.
Proof. intro K. unfold fshift. cbn [repeat app]. rewrite firstn_nth by exact K. destruct k; reflexivity. Qed.
Lemma fshift_length n s : length (fshift n s) = length s.
Proof. unfold fshift. rewrite firstn_length, app_length, repeat_length. lia. Qed.
Lemma map_round_nth s k : nth k (map fround4 s) fnan = fround4 (nth k s fnan).
Proof. change fnan with (fround4 fnan) at 1. apply map_nth. Qed.
Lemma channel_cell p high low k : (0 < p)%nat -> length low = length high -> (k < length high)%nat ->
  (forall i, (i < length high)%nat -> price (cell high i) /\ price (cell low i) /\ (val (cell low i) <= val (cell high i))%R) ->
  let u := cell (fpch_high p high) k in let d := cell (fpch_low p low) k in
  ((k < p)%nat -> missing u /\ missing d) /\ ((p <= k)%nat -> (is_finite u = true /\ is_finite d = true /\ (val d <= val u)%R) /\
    exists i j, (k - p <= i < k)%nat /\ (k - p <= j < k)%nat /\ val u = val (fround4 (cell high i)) /\ val d = val (fround4 (cell low j)) /\
      forall x, (k - p <= x < k)%nat -> (val (cell high x) <= val (cell high i))%R /\ (val (cell low j) <= val (cell low x))%R).
Proof.
  intros N L K H. cbv zeta.
  assert (FH : all_finite high) by (intros x I; destruct (In_nth _ _ fnan I) as (i & Li & <-); apply H; exact Li).
  assert (FL : all_finite low) by (intros x I; destruct (In_nth _ _ fnan I) as (i & Li & <-); apply (H i); lia).
  assert (Eu : cell (fpch_high p high) k = fround4 (match k with O => fnan | S j => nth j (froll_max p p high) fnan end)).
  { unfold cell, fpch_high. rewrite map_round_nth, fshift1_nth by (unfold froll_max; rewrite frolling_length; lia). reflexivity. }
  assert (Ed : cell (fpch_low p low) k = fround4 (match k with O => fnan | S j => nth j (froll_min p p low) fnan end)).
  { unfold cell, fpch_low. rewrite map_round_nth, fshift1_nth by (unfold froll_min; rewrite frolling_length; lia). reflexivity. }
  rewrite Eu, Ed. clear Eu Ed.
  split.
  - intro E. destruct k as [|k']; [split; reflexivity|]. unfold froll_max, froll_min. rewrite !early by lia. split; reflexivity.
  - intro E. destruct k as [|k']; [lia|].
    destruct (roll_max_in p p high k' FH N ltac:(lia) ltac:(lia) ltac:(lia)) as [(j & J & Ej) TJ]. destruct (roll_min_in p p low k' FL N ltac:(lia) ltac:(lia) ltac:(lia)) as [(i & I & Ei) TI].
    rewrite Ej, Ei in *. assert (Pj : price (cell high j)) by (apply H; lia). assert (Pi : price (cell low i)) by (apply H; lia).
    assert (A : fle (cell low i) (cell high j)).
    { apply fle_trans with (cell low j); [apply TI; lia|]. destruct (H j) as (P1 & P2 & Q); [lia|]. apply fle_fin; [apply P2|apply P1|exact Q]. }
    pose proof (fround4_modest _ Pj) as Rj. pose proof (fround4_modest _ Pi) as Ri. pose proof (fround4_mono _ _ A) as M. apply fle_fin in M; auto.
    split; [split; [exact Rj|split; [exact Ri|exact M]]|]. exists j, i. split; [lia|]. split; [lia|]. split; [reflexivity|]. split; [reflexivity|].
    intros x X. destruct (H x) as ([Fx _] & [Fy _] & _); [lia|]. split; apply fle_fin; auto; [apply Pj|apply (TJ x); lia|apply Pi|apply (TI x); lia].
Qed.

(** Fibonacci levels *)
Lemma thousandth_val k : (0 <= k <= 1000)%Z -> is_finite (thousandth k) = true /\ RV (thousandth k) = rnd (IZR k / 1000) /\ (0 <= RV (thousandth k) <= 1)%R.
Proof.
  intro S. destruct (fz_val k) as [F V]; [lia|]. destruct (fz_val 1000) as [FT VT]; [lia|]. destruct fone_val as [F1 V1].
  assert (0 <= IZR k <= 1000)%R by (split; apply IZR_le; lia).
  edestruct (fun H => comes_fin f0 fone _ _ eq_refl F1 H (fdiv_comes (fz k 0) (fz 1000 0) F FT ltac:(lra))) as (A & B & C); [rewrite V, VT, V1; change (RV f0) with 0%R; lra|].
  rewrite V, VT in B. rewrite V1 in C. repeat split; auto; apply C.
Qed.
Lemma finite_no_nan close : all_finite close -> filter (fun x => negb (is_nan x)) close = close.
Proof.
  induction close as [|y l IH]; intro F; [reflexivity|]. cbn. rewrite (fin_nan y) by (apply F; left; reflexivity). cbn. rewrite IH; auto. intros x I. apply F. right; exact I.
Qed.
Lemma fib_shape close : close <> [] -> (forall x, In x close -> price x) ->
  exists mx mn, In mx close /\ In mn close /\ (forall x, In x close -> (val mn <= val x <= val mx)%R) /\ forall c, ffib c close = fround4 (fsub mx (fmul c (fsub mx mn))).
Proof.
  intros N P. assert (F : all_finite close) by (intros x I; apply P; exact I).
  destruct (pick_max close N F) as [A B]. destruct (pick_min close N F) as [A' B']. exists (fpick (fun y a => fltb a y) close), (fpick (fun y a => fltb y a) close).
  split; [exact A|]. split; [exact A'|]. split.
  - intros x I. split; apply fle_fin; auto; try (apply B; exact I); try (apply B'; exact I).
  - intro c. unfold ffib. rewrite finite_no_nan by auto. reflexivity.
Qed.
Lemma fib_levels close j k : close <> [] -> (forall x, In x close -> price x) -> (0 <= j <= k)%Z -> (k <= 1000)%Z ->
  is_finite (ffib (thousandth j) close) = true /\ is_finite (ffib (thousandth k) close) = true /\ (val (ffib (thousandth k) close) <= val (ffib (thousandth j) close))%R.
Proof.
  intros N P J K. destruct (fib_shape close N P) as (mx & mn & I1 & I2 & T & E). rewrite !E.
  pose proof (P mx I1) as Mx. pose proof (P mn I2) as Mn. pose proof (T mx I1) as [L _].
  destruct (thousandth_val j) as (Fj & Vj & Rj); [lia|]. destruct (thousandth_val k) as (Fk & Vk & Rk); [lia|].
  assert (O : fle (thousandth j) (thousandth k)) by (apply fle_fin; auto; rewrite Vj, Vk; apply rnd_le; assert (IZR j <= IZR k)%R by (apply IZR_le; lia); lra).
  assert (A : fle mn mx) by (apply fle_fin; [apply Mn|apply Mx|exact L]).
  assert (G : forall c, is_finite c = true -> (0 <= RV c <= 1)%R -> is_finite (fround4 (fsub mx (fmul c (fsub mx mn)))) = true).
  { intros c Fc Rc. destruct (diff_fin mx mn Mx Mn) as (Fd & Ed & Bd). set (d := fsub mx mn) in *. destruct Mx as [Fx Bx]. destruct Mn as [Fn Bn].
    assert (Pd : (0 <= RV d)%R) by (rewrite Ed, <- rnd_0; apply rnd_le; unfold val in L; lra).
    edestruct (fun H => comes_fin f0 d _ _ eq_refl Fd H (fmul_comes c d Fc Fd)) as (G1 & G2 & G3); [change (RV f0) with 0%R; nra|].
    change (RV f0) with 0%R in G3. apply Rabs_le_inv in Bd. unfold val in Bx. apply Rabs_le_inv in Bx.
    assert (B3 : bpow radix2 1003 = (8 * bpow radix2 1000)%R) by (change 1003%Z with (3 + 1000)%Z; rewrite bpow_plus; reflexivity).
    assert (B1 : bpow radix2 1001 = (2 * bpow radix2 1000)%R) by (change 1001%Z with (1 + 1000)%Z; rewrite bpow_plus; reflexivity).
    assert (B0 : (0 < bpow radix2 1000)%R) by apply bpow_gt_0.
    destruct (fz_val2 (2 ^ 40) 963) as [Fu Vu]; [lia|lia|]. destruct (fz_val2 (- 2 ^ 40) 963) as [Fw Vw]; [lia|lia|].
    assert (Eu : RV (fz (2 ^ 40) 963) = bpow radix2 1003) by (rewrite Vu; change (2 ^ 40)%Z with (Zpower radix2 40); rewrite IZR_Zpower by lia; rewrite <- bpow_plus; reflexivity).
    assert (Ew : RV (fz (- 2 ^ 40) 963) = (- bpow radix2 1003)%R) by (rewrite Vw, opp_IZR; change (2 ^ 40)%Z with (Zpower radix2 40); rewrite IZR_Zpower by lia; rewrite Ropp_mult_distr_l_reverse, <- bpow_plus; reflexivity).
    edestruct (fun H => comes_fin (fz (- 2 ^ 40) 963) (fz (2 ^ 40) 963) _ _ Fw Fu H (fsub_comes mx _ Fx G1)) as (H1 & H2 & H3); [rewrite Eu, Ew; lra|].
    apply fround4_fin; auto. apply Rabs_le. rewrite Eu, Ew in H3. exact H3. }
  pose proof (G _ Fj Rj) as Gj. pose proof (G _ Fk Rk) as Gk. split; [exact Gj|]. split; [exact Gk|].
  pose proof (fib_order _ _ _ _ Mx Mn A Fj Fk (proj1 Rj) O (proj2 Rk)) as M. apply fle_fin in M; auto.
Qed.
Lemma rnd_err_le x b : (-1000 <= b)%Z -> (Rabs x <= bpow radix2 b)%R -> (Rabs (rnd x - x) <= bpow radix2 (b - 52))%R.
Proof.
  intros B H. eapply Rle_trans; [apply rnd_err|]. replace (b - 52)%Z with (1 + (b - 53))%Z by lia. rewrite bpow_plus. change (bpow radix2 1) with 2%R.
  assert (bpow radix2 (-1075) <= bpow radix2 (b - 53))%R by (apply bpow_le; lia).
  assert (bpow radix2 (-53) * Rabs x <= bpow radix2 (b - 53))%R.
  { replace (b - 53)%Z with (-53 + b)%Z by lia. rewrite bpow_plus. apply Rmult_le_compat_l; [apply bpow_ge_0|exact H]. }
  lra.
Qed.
Lemma dec_close k : (Z.abs k <= 2 ^ 46)%Z -> (Rabs (RV (dec4 k) - IZR k / 10000) <= bpow radix2 (-19))%R /\ (Rabs (IZR k / 10000) <= bpow radix2 33)%R.
Proof.
  intro S. assert (K : (IZR (- 2 ^ 46) <= IZR k <= IZR (2 ^ 46))%R) by (split; apply IZR_le; lia). change (bpow radix2 33) with 8589934592%R.
  assert (A : (Rabs (IZR k / 10000) <= 8589934592)%R) by (apply Rabs_le; simpl IZR in K; lra).
  split; [|exact A]. destruct (decimal_val k) as [_ V]; [lia|]. change (RV (dec4 k)) with (RV (decimal k)). rewrite V. apply (rnd_err_le _ 33); [lia|exact A].
Qed.
Lemma fib_ends close : close <> [] -> decimal_cells close ->
  (exists x, In x close /\ (forall y, In y close -> (val y <= val x)%R) /\ val (ffib (thousandth 0) close) = val x) /\
  (exists x, In x close /\ (forall y, In y close -> (val x <= val y)%R) /\ val (ffib (thousandth 1000) close) = val x).
Proof.
  intros N D. assert (P : forall x, In x close -> price x) by (intros x I; destruct (D x I) as (k & S & ->); apply decimal_price; lia).
  destruct (fib_shape close N P) as (mx & mn & I1 & I2 & T & E). rewrite !E.
  destruct (D mx I1) as (a & Sa & ->). destruct (D mn I2) as (b & Sb & ->).
  pose proof (P _ I1) as Mx. pose proof (P _ I2) as Mn. destruct (diff_fin _ _ Mx Mn) as (Fd & Ed & Bd). set (d := fsub (dec4 a) (dec4 b)) in *.
  destruct (dec_close a Sa) as [Ea Ba]. destruct (dec_close b Sb) as [Eb Bb]. apply Rabs_le_inv in Ea. apply Rabs_le_inv in Eb. apply Rabs_le_inv in Ba. apply Rabs_le_inv in Bb.
  change (bpow radix2 33) with 8589934592%R in *. change (bpow radix2 (-19)) with (/ 524288)%R in *.
  split; [exists (dec4 a)|exists (dec4 b)].
  - split; [exact I1|]. split; [intros y Iy; apply T; exact Iy|].
    destruct (fround4_near (fsub (dec4 a) (fmul (thousandth 0) d)) a) as [_ R]; [| lia | | exact R].
    + edestruct (fun H => comes_fin f0 f0 _ _ eq_refl eq_refl H (fmul_comes (thousandth 0) d eq_refl Fd)) as (G1 & G2 & G3); [change (RV (thousandth 0)) with 0%R; change (RV f0) with 0%R; lra|].
      change (RV (thousandth 0)) with 0%R in G2. rewrite Rmult_0_l, rnd_0 in G2.
      edestruct (fun H => comes_fin (dec4 a) (dec4 a) _ _ (proj1 Mx) (proj1 Mx) H (fsub_comes (dec4 a) _ (proj1 Mx) G1)) as (H1 & H2 & H3); [rewrite G2; lra|exact H1].
    + edestruct (fun H => comes_fin f0 f0 _ _ eq_refl eq_refl H (fmul_comes (thousandth 0) d eq_refl Fd)) as (G1 & G2 & G3); [change (RV (thousandth 0)) with 0%R; change (RV f0) with 0%R; lra|].
      change (RV (thousandth 0)) with 0%R in G2. rewrite Rmult_0_l, rnd_0 in G2.
      edestruct (fun H => comes_fin (dec4 a) (dec4 a) _ _ (proj1 Mx) (proj1 Mx) H (fsub_comes (dec4 a) _ (proj1 Mx) G1)) as (H1 & H2 & H3); [rewrite G2; lra|].
      assert (X : RV (fsub (dec4 a) (fmul (thousandth 0) d)) = RV (dec4 a)) by lra. rewrite X. apply Rabs_le. lra.
  - split; [exact I2|]. split; [intros y Iy; apply T; exact Iy|].
    assert (V1 : is_finite (thousandth 1000) = true /\ RV (thousandth 1000) = 1%R).
    { destruct (thousandth_val 1000) as (F & V & _); [lia|]. split; [exact F|]. rewrite V. replace (1000 / 1000)%R with 1%R by lra. apply rnd_1. }
    destruct V1 as [F1 V1].
    assert (X1 : (Rabs (RV (dec4 a) - RV (dec4 b)) <= bpow radix2 35)%R) by (change (bpow radix2 35) with 34359738368%R; apply Rabs_le; lra).
    pose proof (rnd_err_le _ 35 ltac:(lia) X1) as X2. rewrite <- Ed in X2. change (bpow radix2 (35 - 52)) with (/ 131072)%R in X2. change (bpow radix2 35) with 34359738368%R in X1.
    apply Rabs_le_inv in X1. apply Rabs_le_inv in X2.
    edestruct (fun H => comes_fin d d _ _ Fd Fd H (fmul_comes (thousandth 1000) d F1 Fd)) as (G1 & G2 & G3); [rewrite V1; lra|].
    assert (X3 : (Rabs (RV (dec4 a) - RV (fmul (thousandth 1000) d)) <= bpow radix2 34)%R) by (change (bpow radix2 34) with 17179869184%R; apply Rabs_le; lra).
    pose proof (rnd_err_le _ 34 ltac:(lia) X3) as X4. change (bpow radix2 (34 - 52)) with (/ 262144)%R in X4. apply Rabs_le_inv in X4. change (bpow radix2 34) with 17179869184%R in X3. apply Rabs_le_inv in X3.
    destruct (fz_val (2 ^ 40)) as [Fu Vu]; [lia|]. destruct (fz_val (- 2 ^ 40)) as [Fw Vw]; [lia|].
    edestruct (fun H => comes_fin (fz (- 2 ^ 40) 0) (fz (2 ^ 40) 0) _ _ Fw Fu H (fsub_comes (dec4 a) _ (proj1 Mx) G1)) as (H1 & H2 & H3); [rewrite Vu, Vw; simpl IZR; lra|].
    destruct (fround4_near (fsub (dec4 a) (fmul (thousandth 1000) d)) b) as [_ R]; [exact H1 | lia | | exact R].
    rewrite H2. apply Rabs_le. lra.
Qed.

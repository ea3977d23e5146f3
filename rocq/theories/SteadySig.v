(** * SteadySig: the signals on a market that moves by the same amount every day. *)
From Coq Require Import ZArith QArith Qcanon Bool List String PeanoNat Lia Sorted.
From Verif Require Import Num NumFacts RoundFacts Pandas Sim Frame FrameSpec FrameProofs Ind Signal Api IndSpec SeriesFacts Lengths Causal IndFacts Shape ApiSpec ApiCheck ApiProofs ApiLemmas RangeSpec Cells RangeFacts RangeMore Publish RangeApi ValueSpec ValueFacts ValueMore Recur ValueApi CumulApi.
From Verif Require Import FormulaSpec Starts Formula Formula2 Formula3 Formula4 Line Formula5 Formula6 FormulaApi IdentFacts IdentApi MirrorSpec MirrorApi3 OrderFacts OrderApi SwaySpec SwayFacts BasketSpec BasketFacts SignalSpec SignalApi SteadySpec SteadyFacts SteadyApi.
From Verif Require Import PropsSignal PropsSignal2.
Import ListNotations.
Open Scope list_scope. Open Scope string_scope. Open Scope Qc_scope.

Lemma upto_cell name t f j : StronglySorted Z.le (index f) -> (j < List.length (rows (upto t f)))%nat -> cell_at name j (upto t f) = cell_at name j f.
Proof. intros S0 J. unfold cell_at. rewrite (upto_prefix t f S0) at 1. rewrite col_fprefix. apply nth_firstn. exact J. Qed.
Lemma upto_rows t f : (List.length (rows (upto t f)) <= List.length (rows f))%nat.
Proof. unfold upto. cbn [rows]. induction (rows f) as [|x r IH]; cbn [filter]; [auto|]. destruct (Z.leb _ _); cbn [List.length]; lia. Qed.
Lemma full_of o c raw b st : working o c raw b st -> is_dpo (asked c) = false -> wf_raw raw /\ exists ob, snd (construct o c (RFrame raw) (VBool b)) = Ok ob /\
  days_given st = days_shown st /\ (forall nm j, (j < days_given st)%nat -> given nm st j = given nm ob j) /\
  (forall nm j, (j < days_shown st)%nat -> shown nm st j = shown nm ob j).
Proof.
  intros W D. pose proof (working_sound _ _ _ _ _ W) as [S E]. assert (DS : days_given st = days_shown st) by (apply days_same; [exact S|rewrite E; exact D]).
  destruct W as (WR & ob & H & Q). split; [exact WR|]. exists ob. split; [exact H|]. split; [exact DS|].
  destruct Q as [->|[k ->]]; [auto|].
  pose proof (construct_sound _ _ _ _ _ WR H) as (_ & _ & _ & SS & _ & _ & SI & _).
  assert (ST : StronglySorted Z.le (index (ob_ti ob))).
  { rewrite SI; [exact SS|]. intros p Q. assert (Q' : ob_ind (limited k ob) = iDPO p) by exact Q. rewrite E in Q'. rewrite Q' in D. discriminate. }
  unfold given, shown, days_given, days_shown, limited, get_ti_data in *. cbn [ob_input ob_ti ob_ind] in *.
  split; intros nm j J; apply upto_cell; auto.
Qed.

Lemma no_two x y : less x y -> less y x -> False.
Proof. destruct x, y; cbn; auto. intros A B. exact (Qclt_not_le _ _ A (Qclt_le_weak _ _ B)). Qed.
Lemma same_no_cross (f g : nat -> num) a v w n : (forall d, (1 <= d <= n)%nat -> f d = from a (n - d) v /\ g d = from a (n - d) w) -> (2 <= n)%nat -> ~ crossed_above f g /\ ~ crossed_below f g.
Proof.
  intros H N. destruct (H 1%nat ltac:(lia)) as [F1 G1]. destruct (H 2%nat ltac:(lia)) as [F2 G2]. unfold crossed_above, crossed_below. rewrite F1, F2, G1, G2. unfold from.
  destruct (Nat.ltb_spec (n - 2) a); [split; intros [A _]; cbn in A; auto|]. destruct (Nat.ltb_spec (n - 1) a); [lia|]. split; intros [A B]; exact (no_two _ _ A B).
Qed.
Lemma same_no_level (f : nat -> num) a v n z : (forall d, (1 <= d <= n)%nat -> f d = from a (n - d) v) -> (2 <= n)%nat -> ~ rose_through f z /\ ~ fell_through f z.
Proof.
  intros H N. pose proof (H 1%nat ltac:(lia)) as F1. pose proof (H 2%nat ltac:(lia)) as F2. unfold rose_through, fell_through. rewrite F1, F2. unfold from.
  destruct (Nat.ltb_spec (n - 2) a); [split; intros [A B]; destruct z; cbn in A, B; auto|]. destruct (Nat.ltb_spec (n - 1) a); [lia|]. split; intros [A B]; exact (no_two _ _ A B).
Qed.
Lemma answers_hold st n sa A sb B : answers st n sa A sb B -> ((n <= days_shown st)%nat -> ~ A /\ ~ B) -> get_ti_signal st = Ok Hold.
Proof. intros [H1 H2] N. destruct (Nat.lt_ge_cases (days_shown st) n) as [G|G]; [exact (H1 G)|]. apply (H2 G), N, G. Qed.

Section Sig.
  Variables (o : oracle) (raw : rawframe) (b : bool) (st : obj) (d u s : Qc).

  Lemma close_line ct : working o ct raw b st -> is_dpo (asked ct) = false -> moves_by st d -> wf_raw raw /\ exists ob c, snd (construct o ct (RFrame raw) (VBool b)) = Ok ob /\
    forall j, (j < days_shown st)%nat -> known (given "close" ob) j c /\ straight c j d /\ (forall nm, shown nm st j = shown nm ob j) /\ given "close" st j = Fin (c j).
  Proof.
    intros W D [q M]. destruct (full_of _ _ _ _ _ W D) as (WR & ob & H & DS & G & SH). split; [exact WR|]. exists ob, (fun j => q + d * nq j). split; [exact H|]. intros j J.
    split; [|split; [|split]]; [| |intro nm; apply SH, J|apply M; rewrite DS; exact J].
    - intros i I. rewrite <- G by lia. apply M. lia.
    - intros i I. change (nq 0) with 0. ring.
  Qed.
  Lemma candle_line ct : working o ct raw b st -> is_dpo (asked ct) = false -> candles st d u s -> wf_raw raw /\ exists ob h l c, snd (construct o ct (RFrame raw) (VBool b)) = Ok ob /\
    forall j, (j < days_shown st)%nat -> known (given "close" ob) j c /\ straight c j d /\ (forall nm, shown nm st j = shown nm ob j) /\ known (given "high" ob) j h /\ known (given "low" ob) j l /\ parallel h l c j u s.
  Proof.
    intros W D [q M]. destruct (full_of _ _ _ _ _ W D) as (WR & ob & H & DS & G & SH). split; [exact WR|]. exists ob, (fun j => q + d * nq j + u), (fun j => q + d * nq j - s), (fun j => q + d * nq j). split; [exact H|]. intros j J.
    split; [|split; [|split; [|split; [|split]]]]; [| |intro nm; apply SH, J| | |].
    - intros i I. rewrite <- G by lia. apply M. lia.
    - intros i I. change (nq 0) with 0. ring.
    - intros i I. rewrite <- G by lia. apply M. lia.
    - intros i I. rewrite <- G by lia. apply M. lia.
    - intros i I. split; reflexivity.
  Qed.

  Lemma momentum_holds ct : working o ct raw b st -> moves_by st d -> unmoved ct d -> get_ti_signal st = Ok Hold.
  Proof.
    intros W M U. assert (L : exists name up su down sd a v, level_rule ct = Some (name, up, su, down, sd) /\ forall j, (j < days_shown st)%nat -> shown name st j = from a j v).
    { destruct ct; cbn [unmoved] in U; try contradiction; destruct (close_line _ W eq_refl M) as (WR & ob & c & H & K).
      - exists "cmo", 50%Z, Sell, (-50)%Z, Buy, (nat_arg period), (level (if qltb 0 d then 100 else -100)). split; [reflexivity|]. intros j J. destruct (K j J) as (KC & SC & SH & _). rewrite SH. exact (steady_cmo o raw b ob j d c WR KC SC _ H U).
      - exists "lrs", 0%Z, Sell, 0%Z, Buy, (nat_arg period - 1)%nat, (Fin (r4 d)). split; [reflexivity|]. intros j J. destruct (K j J) as (KC & SC & SH & _). rewrite SH. exact (steady_slope o raw b ob j d c WR KC SC _ H U).
      - eexists "rmi", 70%Z, Sell, 30%Z, Buy, _, (if qltb 0 d then NaN else level 0). split; [reflexivity|]. intros j J. destruct (K j J) as (KC & SC & SH & _). rewrite SH. exact (steady_rmi o raw b ob j d c WR KC SC _ _ H U).
      - exists "rsi", 70%Z, Sell, 30%Z, Buy, (nat_arg period), (level (if qltb 0 d then 100 else 0)). split; [reflexivity|]. intros j J. destruct (K j J) as (KC & SC & SH & _). rewrite SH. exact (steady_rsi o raw b ob j d c WR KC SC _ H U). }
    destruct L as (name & up & su & down & sd & a & v & LR & SH). apply (answers_hold _ _ _ _ _ _ (C54_crossing_a_level o raw b st ct name up su down sd LR W)). intro N.
    assert (E : forall e, (1 <= e <= days_shown st)%nat -> ago name st e = from a (days_shown st - e) v) by (intros e I; unfold ago; apply SH; lia).
    split; [exact (proj1 (same_no_level _ a v _ (level up) E N))|exact (proj2 (same_no_level _ a v _ (level down) E N))].
  Qed.

  Lemma channel_value p : (5 <= p)%nat -> zq 100 < r4 (channel_of p).
  Proof.
    intro P. assert (E : zq 111 <= channel_of p).
    { unfold channel_of. set (m := (S p / 2)%nat). assert (M : (3 <= m)%nat) by (unfold m; apply (Nat.div_le_mono 6 (S p) 2); lia). replace (nq (2 * m)) with (zq 2 * nq m) by (replace (2 * m)%nat with (m + m)%nat by lia; rewrite nq_add; replace (zq 2) with (1 + 1) by (apply Qc_is_canon; reflexivity); ring).
      assert (G : nq 3 <= nq m) by (rewrite <- (Nat.sub_add 3 m M), nq_add; pose proof (nq_nonneg (m - 3)); qlra). change (nq 3) with (zq 3) in G. set (e := nq m) in *. clearbody e. clear - G. assert (E0 : 0 < zq 3 * (zq 2 * e)) by (unfold zq in *; qnra). assert (A : zq 111 * (zq 3 * (zq 2 * e)) = zq 666 * e) by (replace (zq 666) with (zq 111 * zq 3 * zq 2) by (apply Qc_is_canon; reflexivity); ring). assert (B : zq 400 * (zq 2 * e - 1) = zq 800 * e - zq 400) by (replace (zq 800) with (zq 400 * zq 2) by (apply Qc_is_canon; reflexivity); ring). assert (X : zq 111 * (zq 3 * (zq 2 * e)) <= zq 400 * (zq 2 * e - 1)) by (rewrite A, B; unfold zq in *; qlra). pose proof (div_le _ _ _ E0 X) as Y. apply qc_pos_neq0 in E0. replace (zq 111) with (zq 111 * (zq 3 * (zq 2 * e)) / (zq 3 * (zq 2 * e))) by (unfold Qcdiv; rewrite <- Qcmult_assoc, Qcmult_inv_r by exact E0; ring). exact Y. }
    pose proof (r4_le _ _ E) as X. rewrite r4_level in X. unfold zq in *. qlra.
  Qed.
  Lemma channel_small_value p : (2 <= p <= 4)%nat -> r4 (channel_of p) <= zq 100 /\ 0 <= r4 (channel_of p).
  Proof. intro P. assert (p = 2 \/ p = 3 \/ p = 4)%nat as [-> |[-> | ->]] by lia; split; vm_compute; discriminate. Qed.
  Lemma cci_row p : working o (cCCI p) raw b st -> candles st d u s -> (2 <= nat_arg p)%nat -> d <> 0 -> (1 <= days_shown st)%nat ->
    ago "cci" st 1 = from (nat_arg p - 1) (days_shown st - 1) (Fin (r4 (if qltb 0 d then channel_of (nat_arg p) else - channel_of (nat_arg p)))).
  Proof.
    intros W M P D N. destruct (candle_line _ W eq_refl M) as (WR & ob & h & l & c & H & K). destruct (K (days_shown st - 1)%nat ltac:(lia)) as (KC & SC & SH & KH & KL & PA). unfold ago. rewrite SH.
    exact (steady_cci o raw b ob _ d u s h l c WR KC SC KH KL PA _ H P D).
  Qed.
  Lemma cci_days p : working o (cCCI p) raw b st -> days_given st = days_shown st. Proof. intro W. destruct (full_of _ _ _ _ _ W eq_refl) as (_ & ob & _ & E & _). exact E. Qed.
  Lemma cci_sells p : working o (cCCI p) raw b st -> candles st d u s -> (5 <= nat_arg p <= days_given st)%nat -> 0 < d -> get_ti_signal st = Ok Sell.
  Proof.
    intros W M P D. rewrite (cci_days p W) in P. pose proof (cci_row p W M ltac:(lia) (qc_pos_neq0 _ D) ltac:(lia)) as R. rewrite from_ge in R by lia. destruct (qltb_spec 0 d) as [_|Q]; [|contradiction].
    destruct (C66_commodity_channel o raw b st p W) as [_ A]. apply (A ltac:(lia)). rewrite R. cbn. apply channel_value. lia.
  Qed.
  Lemma cci_buys p : working o (cCCI p) raw b st -> candles st d u s -> (5 <= nat_arg p <= days_given st)%nat -> d < 0 -> get_ti_signal st = Ok Buy.
  Proof.
    intros W M P D. rewrite (cci_days p W) in P. assert (D0 : d <> 0) by (intro X; rewrite X in D; discriminate D). pose proof (cci_row p W M ltac:(lia) D0 ltac:(lia)) as R. rewrite from_ge in R by lia. destruct (qltb_spec 0 d) as [Q|_]; [exfalso; exact (Qclt_not_le _ _ Q (Qclt_le_weak _ _ D))|].
    destruct (C66_commodity_channel o raw b st p W) as [_ A]. apply (A ltac:(lia)). rewrite R. cbn. rewrite MirrorFacts.r4_opp. pose proof (channel_value (nat_arg p) ltac:(lia)). change (zq (-100)) with (- zq 100). qlra.
  Qed.
  Lemma cci_holds p : working o (cCCI p) raw b st -> candles st d u s -> (2 <= nat_arg p <= 4 \/ 2 <= nat_arg p /\ days_given st < nat_arg p)%nat -> d <> 0 -> get_ti_signal st = Ok Hold.
  Proof.
    intros W M P D. rewrite (cci_days p W) in P. apply (answers_hold _ _ _ _ _ _ (C66_commodity_channel o raw b st p W)). intro N. rewrite (cci_row p W M ltac:(lia) D N). unfold from.
    destruct (Nat.ltb_spec (days_shown st - 1) (nat_arg p - 1)) as [G|G]; [split; cbn; auto|]. destruct (channel_small_value (nat_arg p) ltac:(lia)) as [A B]. change (level (-100)) with (Fin (- zq 100)). unfold level.
    assert (Z : 0 <= zq 100) by discriminate. destruct (qltb 0 d); [|rewrite MirrorFacts.r4_opp]; split; cbn; apply Qcle_not_lt; qlra.
  Qed.

  Lemma candles_hold ct : working o ct raw b st -> candles st d u s -> 0 <= u -> 0 <= s -> 0 < u + s -> d <> 0 -> (match ct with cSMI _ _ _ | cDMI | cWR _ => True | _ => False end) -> get_ti_signal st = Ok Hold.
  Proof.
    intros W M U S0 US D I.
    assert (Z : forall n, (1 <= n)%nat -> u + loss d * (nq n - 1) + (s + gain d * (nq n - 1)) <> 0).
    { intros n N. apply qc_pos_neq0. assert (0 <= nq n - 1) by (change 1 with (nq 1); rewrite <- nq_sub by exact N; apply nq_nonneg). assert (0 <= loss d) by (unfold loss; destruct (qltb_spec d 0); qlra). assert (0 <= gain d) by (unfold gain; destruct (qltb_spec 0 d); qlra).
      set (y := nq n - 1) in *. assert (0 <= loss d * y) by (replace 0 with (loss d * 0) by ring; apply mul_le; assumption). assert (0 <= gain d * y) by (replace 0 with (gain d * 0) by ring; apply mul_le; assumption). set (e := loss d * y) in *. set (f := gain d * y) in *. clearbody e f. qlra. }
    destruct ct; try contradiction; destruct (candle_line _ W eq_refl M) as (WR & ob & h & l & c & H & K).
    - apply (answers_hold _ _ _ _ _ _ (C54_directional_movement o raw b st W)). intro N.
      destruct (same_no_cross (ago "+di" st) (ago "-di" st) 14 (Fin (r4 (zq 100 * gain d / daily_range u s d))) (Fin (r4 (zq 100 * loss d / daily_range u s d))) (days_shown st)) as [A B]; [|exact N|tauto].
      intros e E. unfold ago. destruct (K (days_shown st - e)%nat ltac:(lia)) as (KC & SC & SH & KH & KL & PA). rewrite !SH. destruct (steady_dmi o raw b ob _ d u s h l c WR KC SC KH KL PA D U S0 H) as (A & B & _). split; assumption.
    - match type of H with snd (construct _ (cSMI ?p ?q ?r) _ _) = _ => assert (P : (1 <= nat_arg p)%nat) by (look fr V VV; lia);
        apply (answers_hold _ _ _ _ _ _ (C54_crossing_a_level o raw b st (cSMI p q r) "smi" 40 Sell (-40) Buy eq_refl W)) end. intro N.
      assert (E : exists a v, forall e, (1 <= e <= days_shown st)%nat -> ago "smi" st e = from a (days_shown st - e) v).
      { eexists _, _. intros e E. unfold ago. destruct (K (days_shown st - e)%nat ltac:(lia)) as (KC & SC & SH & KH & KL & PA). rewrite !SH. exact (steady_smi o raw b ob _ d u s h l c WR KC SC KH KL PA _ _ _ H (Z _ P)). }
      destruct E as (a & v & E). split; [exact (proj1 (same_no_level _ a v _ (level 40) E N))|exact (proj2 (same_no_level _ a v _ (level (-40)) E N))].
    - match type of H with snd (construct _ (cWR ?p) _ _) = _ => assert (P : (1 <= nat_arg p)%nat) by (look fr V VV; lia); apply (answers_hold _ _ _ _ _ _ (C68_williams_r o raw b st p W)) end. intro N.
      assert (E : exists a v, forall e, (1 <= e <= days_shown st)%nat -> ago "wr" st e = from a (days_shown st - e) v).
      { eexists _, _. intros e E. unfold ago. destruct (K (days_shown st - e)%nat ltac:(lia)) as (KC & SC & SH & KH & KL & PA). rewrite !SH. exact (steady_wr o raw b ob _ d u s h l c WR KC SC KH KL PA _ H (Z _ P)). }
      destruct E as (a & v & E). split; intros [_ R]; revert R; [exact (proj1 (same_no_level _ a v _ (level (-50)) E N))|exact (proj2 (same_no_level _ a v _ (level (-50)) E N))].
  Qed.

  Lemma lag_seen c q : Q2Qc (1 # 20000) < q -> r4 (c - q) < c /\ c < r4 (c + q).
  Proof. intro H. pose proof (r4_err (c - q)) as A. pose proof (r4_err (c + q)) as B. assert (X : forall y z, qabs y <= z -> y <= z /\ - z <= y) by (intros y z; unfold qabs; destruct (qltb_spec y 0) as [G|G]; intro Y; [|apply Qcnot_lt_le in G]; split; qlra). apply X in A as [A1 A2]. apply X in B as [B1 B2]. replace (Q2Qc (5 # 100000)) with (Q2Qc (1 # 20000)) in * by (apply Qc_is_canon; reflexivity). set (e := Q2Qc (1 # 20000)) in *. clearbody e. split; qlra. Qed.
  Lemma average_follows t p : t = "simple" \/ t = "triangular" -> working o (cMA p (VStr t)) raw b st -> moves_by st d -> (2 <= nat_arg p)%nat -> ((if String.eqb t "simple" then nat_arg p else 2 * nat_arg p - 1) <= days_given st)%nat ->
    (Q2Qc (1 # 10000) < d -> get_ti_signal st = Ok Buy) /\ (d < - Q2Qc (1 # 10000) -> get_ti_signal st = Ok Hold).
  Proof.
    intros T W M P N. destruct (full_of _ _ _ _ _ W eq_refl) as (_ & ob0 & _ & DS & _). rewrite DS in N. destruct (close_line _ W eq_refl M) as (WR & ob & c & H & K).
    assert (N1 : (1 <= days_shown st)%nat) by (destruct T as [-> | ->]; cbn in N; lia). destruct (K (days_shown st - 1)%nat ltac:(lia)) as (KC & SC & SH & G).
    assert (E : exists q, Q2Qc (1 # 2) <= q /\ ago ("ma-" ++ t)%string st 1 = Fin (r4 (c (days_shown st - 1)%nat - d * q))).
    { assert (Q : 1 <= nq (nat_arg p) - 1) by (change 1 with (nq 1) at 2; rewrite <- nq_sub by lia; change 1 with (nq 1); rewrite <- (Nat.sub_add 1 (nat_arg p - 1)) by lia; rewrite nq_add; pose proof (nq_nonneg (nat_arg p - 1 - 1)); qlra).
      unfold ago. rewrite SH. destruct T as [-> | ->]; cbn [String.eqb Ascii.eqb Bool.eqb] in N; cbn [append].
      - exists ((nq (nat_arg p) - 1) / zq 2). split; [unfold Qcdiv; replace (/ zq 2) with (Q2Qc (1 # 2)) by (apply Qc_is_canon; reflexivity); qlra|]. rewrite (averages_late o raw b ob _ d c WR KC SC _ "ma-simple" _ _ H (or_introl eq_refl)). apply from_ge. lia.
      - exists (nq (nat_arg p) - 1). split; [qlra|]. rewrite (averages_late o raw b ob _ d c WR KC SC _ "ma-triangular" _ _ H (or_introl eq_refl)). apply from_ge. lia. }
    destruct E as (q & Q & E). destruct (C66_moving_average o raw b st p (VStr t) W) as [_ A]. cbn [as_str] in A. rewrite E in A. unfold SignalSpec.price in A. rewrite DS, G in A. specialize (A N1). split; intro D.
    - apply A. cbn. apply lag_seen. assert (Q2Qc (1 # 10000) * Q2Qc (1 # 2) < d * q). { clear - Q D. qnra. } replace (Q2Qc (1 # 20000)) with (Q2Qc (1 # 10000) * Q2Qc (1 # 2)) by (apply Qc_is_canon; reflexivity). exact H0.
    - apply A. cbn. replace (c (days_shown st - 1)%nat - d * q) with (c (days_shown st - 1)%nat + - d * q) by ring. intro X. apply (Qclt_not_le _ _ X). apply Qclt_le_weak. apply lag_seen.
      assert (Q2Qc (1 # 10000) * Q2Qc (1 # 2) < - d * q). { clear - Q D. set (e := - d). assert (Q2Qc (1 # 10000) < e) by (unfold e; qlra). clearbody e. qnra. } replace (Q2Qc (1 # 20000)) with (Q2Qc (1 # 10000) * Q2Qc (1 # 2)) by (apply Qc_is_canon; reflexivity). exact H0.
  Qed.
End Sig.

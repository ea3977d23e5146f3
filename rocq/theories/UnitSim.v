(** * UnitSim: signals and simulations in other units of money and volume. *)
From Coq Require Import ZArith QArith Qcanon Bool List String PeanoNat Lia Sorted Permutation.
From Verif Require Import Num NumFacts RoundFacts Pandas Sim Frame FrameSpec FrameProofs Ind Signal Api IndSpec SeriesFacts Lengths Causal IndFacts Shape ApiSpec ApiCheck ApiProofs ApiLemmas RangeSpec Cells RangeFacts RangeMore Publish RangeApi ValueSpec ValueFacts ValueMore Recur ValueApi CumulApi.
From Verif Require Import FormulaSpec FormulaApi CurrencySpec CurrencyFacts ScaleFacts MirrorSpec UnitSpec UnitFacts UnitApi.
Import ListNotations.
Open Scope list_scope. Open Scope string_scope. Open Scope Qc_scope.

(** ** frames with the same columns, dates and cells *)
Lemma position_nth l j d : NoDup l -> (j < List.length l)%nat -> position (nth j l d) l = Some j.
Proof.
  revert j. induction l as [|x l IH]; intros j N J; [cbn in J; lia|]. inversion N; subst. destruct j as [|j]; cbn [nth position]; [rewrite String.eqb_refl; reflexivity|].
  cbn in J. destruct (String.eqb (nth j l d) x) eqn:E; [apply String.eqb_eq in E; exfalso; apply H1; rewrite <- E; apply nth_In; lia|]. rewrite IH by (auto; lia). reflexivity.
Qed.
Lemma rows_ext (f g : list row) w : map fst f = map fst g -> (forall r, In r f -> List.length (snd r) = w) -> (forall r, In r g -> List.length (snd r) = w) ->
  (forall j, (j < w)%nat -> map (fun r => nth j (snd r) NaN) f = map (fun r => nth j (snd r) NaN) g) -> f = g.
Proof.
  revert g. induction f as [|[t x] f IH]; intros [|[t' y] g] I WF WG C; try discriminate; [reflexivity|]. cbn [map fst] in I. injection I as -> I. f_equal.
  - f_equal. pose proof (WF _ (or_introl eq_refl)) as A. pose proof (WG _ (or_introl eq_refl)) as B. cbn [snd] in A, B. apply nth_ext with (d := NaN) (d' := NaN); [congruence|].
    intros j J. specialize (C j ltac:(lia)). cbn [map snd] in C. injection C as C _. exact C.
  - apply IH; auto; [intros r R; apply WF; right; exact R|intros r R; apply WG; right; exact R|]. intros j J. specialize (C j J). cbn [map] in C. injection C as _ C. exact C.
Qed.
Lemma frame_ext f g : cols f = cols g -> NoDup (cols f) -> index f = index g ->
  (forall r, In r (rows f) -> List.length (snd r) = List.length (cols f)) -> (forall r, In r (rows g) -> List.length (snd r) = List.length (cols g)) ->
  (forall name, In name (cols f) -> col name f = col name g) -> f = g.
Proof.
  destruct f as [cf rf]. destruct g as [cg rg]. cbn [cols rows]. unfold index. cbn [rows]. intros <- N I WF WG C. f_equal. apply (rows_ext rf rg (List.length cf)); auto.
  intros j J. specialize (C (nth j cf "") (nth_In _ _ J)). unfold col in C. cbn [cols rows] in C. rewrite position_nth in C by auto. exact C.
Qed.
(** columns with the same cells *)
Lemma col_length name f : In name (cols f) -> List.length (col name f) = List.length (rows f).
Proof.
  intro I. unfold col. destruct (position name (cols f)) eqn:E; [apply map_length|]. exfalso. revert E. clear - I. induction (cols f) as [|x l IH]; [destruct I|]. cbn [position].
  destruct (String.eqb name x) eqn:Q; [discriminate|]. destruct I as [->|I]; [rewrite String.eqb_refl in Q; discriminate|]. destruct (position name l); [discriminate|]. intro. apply IH; auto.
Qed.

(** ** the simulation sees the dates and the signals *)
Lemma rounds_same ob ob' n : (forall i, get_ti_signal (limited i ob') = get_ti_signal (limited i ob)) ->
  forall i c c' st, snd (rounds ob' i n c' st) = snd (rounds ob i n c st).
Proof.
  intro E. induction n as [|n IH]; intros i c c' st; [reflexivity|]. cbn [rounds]. rewrite E. destruct (get_ti_signal (limited i ob)); [apply IH|reflexivity].
Qed.
Lemma simulation_same ob ob' cv m x : same_dates ob ob' -> List.length (rows (ob_ti ob')) = List.length (rows (ob_ti ob)) ->
  (forall i, get_ti_signal (limited i ob') = get_ti_signal (limited i ob)) ->
  snd (get_ti_simulation ob' cv m x) = snd (get_ti_simulation ob cv m x).
Proof.
  intros D L E. unfold get_ti_simulation. rewrite D, L. destruct (sim_init _ _ _ _) as [v' [st|]]; [|reflexivity].
  pose proof (rounds_same ob ob' (List.length (rows (ob_ti ob))) E 0 ob ob' st) as R. destruct (rounds ob' 0 _ ob' st) as [o1 r1]. destruct (rounds ob 0 _ ob st) as [o2 r2]. cbn [snd] in R. subst r1.
  destruct r2; reflexivity.
Qed.


(** ** comparisons of multiples *)
Section Multiples.
  Variable a : Qc. Hypothesis A0 : 0 < a.
  Notation sc := (nmul (Fin a)).
  Lemma iat_map s k : iat (map sc s) k = match iat s k with Ok x => Ok (sc x) | Err e => Err e end.
  Proof.
    unfold iat, ineg. rewrite map_length. destruct (_ && _); [|reflexivity]. cbn [get].
    change (nth (List.length s - k) (map sc s) NaN) with (nth (List.length s - k) (map sc s) (sc NaN)). rewrite map_nth. reflexivity.
  Qed.
  Lemma ngtb_sc' x y : ngtb (sc x) (sc y) = ngtb x y. Proof. unfold ngtb. apply nltb_sc, A0. Qed.
  Lemma pymax_sc x y : pymax (sc x) (sc y) = sc (pymax x y). Proof. unfold pymax. rewrite nltb_sc by exact A0. destruct (nltb x y); reflexivity. Qed.
  Lemma pymin_sc x y : pymin (sc x) (sc y) = sc (pymin x y). Proof. unfold pymin. rewrite nltb_sc by exact A0. destruct (nltb y x); reflexivity. Qed.
  Lemma tail_map k s : tail_k k (map sc s) = map sc (tail_k k s). Proof. unfold tail_k. rewrite map_length. apply skipn_map. Qed.
  Lemma argmin_from_sc l : forall x bi i, argmin_from (sc x) bi i (map sc l) = argmin_from x bi i l.
  Proof. induction l as [|y l IH]; intros x bi i; [reflexivity|]. cbn [map argmin_from]. rewrite nltb_sc by exact A0. destruct (nltb y x); apply IH. Qed.
  Lemma argmin_sc l : argmin (map sc l) = argmin l.
  Proof.
    unfold argmin. assert (E : forallb isnan (map sc l) = forallb isnan l) by (induction l as [|x l IH]; [reflexivity|cbn [map forallb]; rewrite IH, isnan_sc by exact A0; reflexivity]).
    rewrite E. destruct (forallb isnan l); [reflexivity|]. assert (G : map nan_to_pinf (map sc l) = map sc (map nan_to_pinf l)).
    { rewrite !map_map. apply map_ext. intro x. unfold nan_to_pinf. rewrite isnan_sc by exact A0. destruct (isnan x); [symmetry; apply sc_pinf, A0|reflexivity]. }
    rewrite G. destruct (map nan_to_pinf l) as [|x r]; [reflexivity|]. cbn [map]. rewrite argmin_from_sc. reflexivity.
  Qed.
  Lemma three_sc f r s : three f r (map sc s) = three f r s.
  Proof.
    unfold three. rewrite !iat_map. destruct (iat s 3); [|reflexivity]. cbn [bind]. destruct (iat s 2); [|reflexivity]. cbn [bind]. destruct (iat s 1); [|reflexivity]. cbn [bind].
    unfold gt3, lt3. rewrite !ngtb_sc', !nltb_sc by exact A0. reflexivity.
  Qed.
  Lemma cmf_sc p inp inp' ti : col "close" inp' = map sc (col "close" inp) -> signal_of (iCMF p) inp' ti = signal_of (iCMF p) inp ti.
  Proof.
    intro E. unfold signal_of. cbv zeta. rewrite E. rewrite !iat_map. unfold guard. destruct (Nat.ltb _ _); [reflexivity|]. destruct (iat (col "cmf" ti) 2); [|reflexivity]. cbn [bind].
    destruct (iat (col "cmf" ti) 1); [|reflexivity]. cbn [bind]. destruct (iat (col "close" inp) 1); [|reflexivity]. cbn [bind]. destruct (iat (col "close" inp) 3); [|reflexivity]. cbn [bind].
    destruct (iat (col "close" inp) 2); [|reflexivity]. cbn [bind]. rewrite pymax_sc, pymin_sc, ngtb_sc', nltb_sc by exact A0. reflexivity.
  Qed.
  Lemma uo_sc inp inp' ti : col "close" inp' = map sc (col "close" inp) -> signal_of iUO inp' ti = signal_of iUO inp ti.
  Proof. intro E. unfold signal_of. rewrite E, tail_map, argmin_sc. reflexivity. Qed.
End Multiples.

(** a column all of whose cells are known *)
Lemma known_col name ob f : (0 < days_given ob)%nat -> known (given name ob) (days_given ob - 1) f -> col name (ob_input ob) = map (fun j => Fin (f j)) (seq 0 (days_given ob)).
Proof.
  intros P K. assert (L : List.length (col name (ob_input ob)) = days_given ob).
  { unfold days_given in *. specialize (K 0%nat ltac:(lia)). unfold given, cell_at in K. unfold col in *. destruct (position name (cols (ob_input ob))); [apply map_length|discriminate]. }
  apply nth_ext with (d := NaN) (d' := NaN); [rewrite map_length, seq_length; exact L|]. rewrite L. intros k Hk. change (given name ob k = nth k (map (fun j => Fin (f j)) (seq 0 (days_given ob))) NaN).
  rewrite K by lia. rewrite (nth_indep _ NaN (Fin (f 0%nat))) by (rewrite map_length, seq_length; exact Hk). rewrite (map_nth (fun j => Fin (f j))). rewrite seq_nth by exact Hk. reflexivity.
Qed.

Section Sim.
  Variables (o : oracle) (raw raw' : rawframe) (b b' : bool) (ob ob' : obj) (a u : Qc) (op h l c v : nat -> Qc) (ct : ctor).
  Hypothesis W : wf_raw raw. Hypothesis W' : wf_raw raw'. Hypothesis A0 : 0 < a. Hypothesis U0 : 0 < u.
  Hypothesis T : twice ct o raw raw' b b' ob ob'. Hypothesis X : exchanged ct a u ob ob' op h l c v.
  Hypothesis DT : same_dates ob ob'. Hypothesis R : forall k, (k < days_given ob)%nat -> workable ct (days_given ob) k h l c v.
  Hypothesis UF : unit_free ct.
  Lemma not_dpo_free : is_dpo (ob_ind ob) = false.
  Proof. destruct T as [A _]. destruct (construct_view _ _ _ _ _ W A) as (f & V). rewrite (v_ind _ _ _ _ _ _ V). destruct ct; cbn in UF; try contradiction; reflexivity. Qed.
  Lemma inds : ob_ind ob' = ob_ind ob /\ ob_ind ob = asked ct.
  Proof. destruct T as [A B]. destruct (construct_view _ _ _ _ _ W A) as (f & V). destruct (construct_view _ _ _ _ _ W' B) as (f' & V'). rewrite (v_ind _ _ _ _ _ _ V), (v_ind _ _ _ _ _ _ V'). auto. Qed.
  Lemma ti_dates : index (ob_ti ob') = index (ob_ti ob) /\ index (ob_ti ob) = index (ob_input ob).
  Proof.
    destruct T as [A B]. pose proof (construct_sound _ _ _ _ _ W A) as (_ & _ & _ & _ & _ & _ & S1 & _). pose proof (construct_sound _ _ _ _ _ W' B) as (_ & _ & _ & _ & _ & _ & S2 & _).
    pose proof not_dpo_free as ND. destruct inds as [I _]. rewrite S1, S2; [rewrite DT; auto| |]; intros p E; rewrite ?I in E; rewrite E in ND; discriminate.
  Qed.
  Lemma ti_len : List.length (rows (ob_ti ob)) = days_given ob /\ List.length (rows (ob_ti ob')) = days_given ob.
  Proof. destruct ti_dates as [A B]. unfold days_given. rewrite <- !len_index, A, B. auto. Qed.
  Lemma data_same : ct <> cOBV -> ob_ti ob' = ob_ti ob.
  Proof.
    intro NO. destruct T as [A B]. destruct (construct_data_shape _ _ _ _ _ W A) as (C1 & L1 & _). destruct (construct_data_shape _ _ _ _ _ W' B) as (C2 & L2 & _).
    destruct inds as [I IA]. unfold get_ti_data in *. rewrite I in C2, L2. destruct ti_len as [N1 N2].
    symmetry. apply frame_ext; [congruence| |symmetry; apply ti_dates|rewrite C1; exact L1|rewrite C2; exact L2|].
    - rewrite C1, IA. clear - UF. destruct ct; cbn in UF; try contradiction; cbn [asked documented_columns]; try (repeat constructor; cbn; intuition discriminate).
      destruct (String.eqb (as_str mode) "LONG"); repeat constructor; cbn; intuition discriminate.
    - intros name IN. apply nth_ext with (d := NaN) (d' := NaN); [rewrite !col_length; congruence|]. rewrite col_length by exact IN. rewrite N1. intros k K.
      rewrite C1, IA in IN. symmetry. change (shown name ob' k = shown name ob k).
      pose proof (ratios_same o raw raw' b b' ob ob' a u k op h l c v ct W W' A0 U0 name T X K (R k K)) as RS.
      destruct ct; cbn in UF; try contradiction; try (apply RS; exact IN).
      + destruct (construct_view _ _ _ _ _ W A) as (f & V). destruct (construct_view _ _ _ _ _ W' B) as (f' & V').
        assert (E : In name ["prf"] \/ name = perf_name (if String.eqb (as_str mode) "LONG" then PLong else Ind.PShort)).
        { cbn [asked documented_columns] in IN. destruct (String.eqb (as_str mode) "LONG"); cbn in IN |- *; intuition. }
        destruct E as [E|E]; [exact (RS E)|]. subst name. unfold shown.
        assert (E : forall g, lookup (perf_name (if String.eqb (as_str mode) "LONG" then PLong else Ind.PShort)) (ti_cols o (asked (cPRF mode target)) g) = Some (sround 4 (repeat (as_number target) (List.length (col "close" g))))).
        { intro g. cbn [asked ti_cols]. destruct (String.eqb (as_str mode) "LONG"); cbn [perf_name lookup]; cbn; reflexivity. }
        rewrite (view_cell V _ _ eq_refl (E f)), (view_cell V' _ _ eq_refl (E f')).
        pose proof (v_input _ _ _ _ _ _ V) as I1. pose proof (v_input _ _ _ _ _ _ V') as I2. cbn [asked input_after] in I1, I2. rewrite <- I1, <- I2.
        destruct X as (XD & _ & _ & _ & XC & _). assert (P : (0 < days_given ob)%nat) by lia. assert (P' : (0 < days_given ob')%nat) by lia.
        destruct (XC (or_introl eq_refl)) as [K1 K2]. rewrite (known_col _ _ _ P K1). rewrite <- XD in K2. rewrite (known_col _ _ _ P' K2).
        rewrite !map_length, !seq_length, XD. reflexivity.
      + subst. apply RS. exact IN.
  Qed.
  Lemma closes_scaled : In "close" (required (asked ct)) -> col "close" (ob_input ob') = map (nmul (Fin a)) (col "close" (ob_input ob)).
  Proof.
    intro I. destruct X as (XD & _ & _ & _ & XC & _). destruct (XC I) as [K K']. destruct (Nat.eq_dec (days_given ob) 0) as [Z|Z].
    - assert (E : forall w, days_given w = 0%nat -> col "close" (ob_input w) = []).
      { intros w Hw. unfold days_given in Hw. apply length_zero_iff_nil in Hw. unfold col. rewrite Hw. destruct (position _ _); reflexivity. }
      rewrite !E by congruence. reflexivity.
    - assert (P : (0 < days_given ob)%nat) by lia. assert (P' : (0 < days_given ob')%nat) by lia. rewrite (known_col _ _ _ P K). rewrite <- XD in K'. rewrite (known_col _ _ _ P' K'), XD, map_map. reflexivity.
  Qed.
  Lemma volumes_scaled : ct = cOBV -> col "obv" (ob_ti ob') = map (nmul (Fin u)) (col "obv" (ob_ti ob)).
  Proof.
    intro E. pose proof T as [A B]. destruct (construct_data_shape _ _ _ _ _ W A) as (C1 & L1 & _). destruct (construct_data_shape _ _ _ _ _ W' B) as (C2 & L2 & _).
    destruct inds as [I IA]. unfold get_ti_data in *. rewrite I in C2. rewrite IA, E in C1, C2. cbn [asked documented_columns] in C1, C2. destruct ti_len as [N1 N2].
    assert (I1 : In "obv" (cols (ob_ti ob))) by (rewrite C1; left; reflexivity). assert (I2 : In "obv" (cols (ob_ti ob'))) by (rewrite C2; left; reflexivity).
    apply nth_ext with (d := NaN) (d' := nmul (Fin u) NaN); [rewrite map_length, !col_length by assumption; congruence|]. rewrite col_length by exact I2. rewrite N2. intros k K. rewrite map_nth.
    pose proof (dimensions_follow o raw raw' b b' ob ob' a u k op h l c v ct W W' A0 U0 "obv" Shares T X K (R k K)) as DF. rewrite E in DF. destruct (DF (or_introl eq_refl)) as (x & X1 & X2).
    cbn [published rate] in X1, X2. unfold shown, cell_at, get_ti_data in X1, X2. rewrite X1, X2. reflexivity.
  Qed.
  Lemma sorted_given : StronglySorted Z.le (index (ob_input ob)).
  Proof. destruct T as [A B]. pose proof (construct_sound _ _ _ _ _ W A) as (_ & _ & _ & S1 & _). exact S1. Qed.
  Lemma signal_free w w' : ob_ind w = asked ct -> ob_ind w' = asked ct -> (ct <> cOBV -> ob_ti w' = ob_ti w) -> List.length (rows (ob_ti w')) = List.length (rows (ob_ti w)) ->
    (In "close" (required (asked ct)) -> col "close" (ob_input w') = map (nmul (Fin a)) (col "close" (ob_input w))) ->
    (ct = cOBV -> col "obv" (ob_ti w') = map (nmul (Fin u)) (col "obv" (ob_ti w))) -> get_ti_signal w' = get_ti_signal w.
  Proof.
    intros I I' D L C V. unfold get_ti_signal. rewrite I, I'.
    assert (Q : ct = cOBV \/ ct <> cOBV) by (destruct ct; (left; reflexivity) || (right; discriminate)). destruct Q as [Q|Q].
    - specialize (V Q). rewrite Q. cbn [asked signal_of]. unfold guard. rewrite L, V, three_sc by exact U0. reflexivity.
    - rewrite (D Q). destruct ct; cbn in UF; try contradiction; try reflexivity.
      + apply (cmf_sc a A0). apply C. cbn. tauto.
      + apply (uo_sc a A0). apply C. cbn. tauto.
  Qed.
  Theorem signal_units : get_ti_signal ob' = get_ti_signal ob.
  Proof. destruct inds as [I IA]. destruct ti_len as [N1 N2]. apply signal_free; [exact IA|congruence|exact data_same|congruence|exact closes_scaled|exact volumes_scaled]. Qed.
  Theorem signal_units_limited i : get_ti_signal (limited i ob') = get_ti_signal (limited i ob).
  Proof.
    destruct inds as [I IA]. destruct ti_dates as [D1 D2]. pose proof sorted_given as SG. assert (DD : index (ob_input ob') = index (ob_input ob)) by exact DT.
    apply signal_free; unfold limited; cbn [ob_ind ob_input ob_ti]; [exact IA|congruence| | | |].
    - intro N. rewrite (data_same N). reflexivity.
    - rewrite <- !len_index, !index_upto, D1. reflexivity.
    - intro C. rewrite !col_upto by (rewrite ?DD; exact SG). rewrite DD, (closes_scaled C), firstn_map. reflexivity.
    - intro O. rewrite !col_upto by (rewrite ?D1, ?D2; exact SG). rewrite D1, (volumes_scaled O), firstn_map. reflexivity.
  Qed.
  Theorem simulation_units cv m m' x : limit_in a m m' ->
    match snd (get_ti_simulation ob (RFrame cv) m x), snd (get_ti_simulation ob' (RFrame (repriced a cv)) m' x) with
    | Ok (st, s), Ok (st', s') => Forall2 (in_currency a) (data st) (data st') /\ same_counts s s'
    | Err e, Err e' => e' = e
    | _, _ => False
    end.
  Proof.
    intro L. destruct ti_len as [N1 N2]. rewrite (simulation_same ob ob' (RFrame (repriced a cv)) m' x DT ltac:(congruence) signal_units_limited). apply (simulation_sc a A0 ob cv m m' x L).
  Qed.
End Sim.

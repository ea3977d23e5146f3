(** * MoveApi: prices that all move by one amount; by way of a mirrored market between the two. *)
From Coq Require Import ZArith QArith Qcanon Bool List String PeanoNat Lia Sorted.
From Verif Require Import Num NumFacts RoundFacts Pandas Sim Frame FrameSpec FrameProofs Ind Signal Api IndSpec SeriesFacts Lengths Causal IndFacts Shape ApiSpec ApiCheck ApiProofs ApiLemmas RangeSpec Cells RangeFacts RangeMore Publish RangeApi ValueSpec ValueFacts ValueMore Recur ValueApi CumulApi.
From Verif Require Import FormulaSpec Starts Formula FormulaApi DocSpec DocFacts SignalSpec SignalApi SignalApi2 SignalApi3 MirrorSpec MirrorFacts MirrorAll MirrorSignal MoveSpec.
Import ListNotations.
Open Scope list_scope. Open Scope string_scope. Open Scope Qc_scope.

(** a frame with given prices *)
Definition five := ["open"; "high"; "low"; "close"; "volume"].
Definition frame_of (n : nat) (op h l cl v : nat -> Qc) : rawframe :=
  mkRaw true (map LStr five) [true; true; true; true; true] (map (fun j => (Z.of_nat j, [Fin (op j); Fin (h j); Fin (l j); Fin (cl j); Fin (v j)])) (seq 0 n)).
Lemma frame_wf n op h l cl v : wf_raw (frame_of n op h l cl v).
Proof. split; [reflexivity|]. intros r R. cbn in R. apply in_map_iff in R as (j & <- & _). reflexivity. Qed.
Lemma five_lower : lower_labels (map LStr five) = Some five. Proof. reflexivity. Qed.
Lemma inputs_five c n : In n (required (asked c)) -> In n five.
Proof. destruct c; cbn; tauto. Qed.
Lemma sorted_days g : forall n a, StronglySorted row_le (map (fun j => (Z.of_nat j, g j)) (seq a n)).
Proof.
  induction n as [|n IH]; intro a; cbn; constructor; auto. apply Forall_forall. intros r R. apply in_map_iff in R as (j & <- & J). apply in_seq in J. unfold row_le. cbn. lia.
Qed.
Lemma frame_makes o c n op h l cl v : params_ok c -> (0 < n)%nat -> (min_rows (asked c) <= n)%nat ->
  exists ob, snd (construct o c (RFrame (frame_of n op h l cl v)) (VBool false)) = Ok ob.
Proof.
  intros P N M. apply construct_succeeds; [exact P|]. split; [reflexivity|]. split; [discriminate|].
  split; [intros x X; cbn in X; repeat (destruct X as [<-|X]; [eauto|]); contradiction|].
  split.
  { intros x X. apply inputs_required, inputs_five in X. unfold numeric_column, str_labels. cbn [r_labels frame_of]. rewrite five_lower.
    repeat (destruct X as [<-|X]; [split; [reflexivity|eexists; split; reflexivity]|]). contradiction. }
  split.
  { apply NoDup_filter. unfold str_labels. cbn [r_labels frame_of]. rewrite five_lower. repeat constructor; cbn; intuition discriminate. }
  cbn [r_rows frame_of]. rewrite map_length, seq_length. split; [|exact M]. destruct n; [lia|discriminate].
Qed.
Definition price_of (op h l cl v : nat -> Qc) (x : string) : nat -> Qc :=
  if String.eqb x "open" then op else if String.eqb x "high" then h else if String.eqb x "low" then l else if String.eqb x "close" then cl else v.
Lemma nth_map_seq (g : nat -> num) n j : (j < n)%nat -> nth j (map g (seq 0 n)) NaN = g j.
Proof. intro J. rewrite (nth_indep _ NaN (g 0%nat)) by (rewrite map_length, seq_length; exact J). rewrite map_nth, seq_nth by exact J. reflexivity. Qed.
Lemma frame_given o c n op h l cl v ob : snd (construct o c (RFrame (frame_of n op h l cl v)) (VBool false)) = Ok ob ->
  days_given ob = n /\ forall x, In x (required (asked c)) -> forall j, (j < n)%nat -> given x ob j = Fin (price_of op h l cl v x j).
Proof.
  intro H. destruct (construct_view _ _ _ _ _ (frame_wf _ _ _ _ _ _) H) as (f & V).
  assert (LN : List.length (rows f) = n) by (rewrite (v_len _ _ _ _ _ _ V); cbn [r_rows frame_of]; rewrite map_length, seq_length; reflexivity).
  split; [rewrite (view_days V); exact LN|]. intros x X j J.
  rewrite (view_given V x j X). pose proof (v_val _ _ _ _ _ _ V) as Q. apply validate_out in Q. cbn iota beta in Q.
  assert (SL : str_labels (frame_of n op h l cl v) = five) by reflexivity. rewrite SL in Q.
  assert (SR : sort_index (drop_cols (required (asked c)) five (r_rows (frame_of n op h l cl v))) = drop_cols (required (asked c)) five (r_rows (frame_of n op h l cl v))).
  { unfold sort_index, drop_cols. cbn [cols rows r_rows frame_of]. f_equal. apply sort_rows_fix. rewrite map_map. cbn [fst snd]. apply (sorted_days (fun j => select _ _)). }
  cbv zeta in Q. rewrite SR in Q. rewrite Q.
  assert (RC : rect (List.length five) (r_rows (frame_of n op h l cl v))) by (intros r R; cbn [r_rows frame_of] in R; apply in_map_iff in R as (i & <- & _); reflexivity).
  pose proof (inputs_five c x X) as XF.
  assert (P : exists p, position x five = Some p /\ forall i, nth p [Fin (op i); Fin (h i); Fin (l i); Fin (cl i); Fin (v i)] NaN = Fin (price_of op h l cl v x i)).
  { repeat (destruct XF as [<-|XF]; [eexists; split; [reflexivity|intro; reflexivity]|]). contradiction. }
  destruct P as (p & P & PV). rewrite (drop_cols_col _ _ _ _ _ RC X P). cbn [r_rows frame_of]. rewrite map_map. cbn [snd].
  rewrite (nth_map_seq (fun i => nth p [Fin (op i); Fin (h i); Fin (l i); Fin (cl i); Fin (v i)] NaN) n j J). apply PV.
Qed.

(** ** the condition of the mirrored days *)
Lemma le_mir a b : a <= b -> 0 - b <= 0 - a. Proof. intro. qlra. Qed.
Lemma lt_mir a b : a < b -> 0 - b < 0 - a. Proof. intro. qlra. Qed.
Lemma ordinary_mir c n k op h l cl v : ordinary c n k op h l cl v ->
  ordinary c n k (fun j => 0 - op j) (fun j => 0 - l j) (fun j => 0 - h j) (fun j => 0 - cl j) v.
Proof.
  assert (MO : mir 0 op (fun j => 0 - op j)) by (intro; reflexivity). assert (MH : mir 0 l (fun j => 0 - l j)) by (intro; reflexivity).
  assert (ML : mir 0 h (fun j => 0 - h j)) by (intro; reflexivity). assert (MC : mir 0 cl (fun j => 0 - cl j)) by (intro; reflexivity).
  destruct c; cbn [ordinary]; auto; intro R.
  - (* ADL *) intros j J. destruct (R j J). split; apply le_mir; auto.
  - (* CMF *) intros j J. destruct (R j J) as (A & B & C). split; [|split]; [apply le_mir|apply le_mir|apply lt_mir]; auto.
  - intros j J. destruct (R j J) as (A & B & C). split; [|split]; [apply le_mir|apply le_mir|apply lt_mir]; auto.
  - (* DMI *) intros j J. destruct (R j J) as (A & B).
    rewrite (running_same _ _ (true_range_mir 0 h l cl _ _ _ MH ML MC) j), (plus_di_mir 0 h l cl _ _ _ MH ML MC j), (minus_di_mir 0 h l cl _ _ _ MH ML MC j). split; [exact A|]. rewrite Qcplus_comm. exact B.
  - (* EMV *) intros j J. destruct (R j J) as (A & B). split; [|exact B]. intro Q. apply A. assert (l j = 0 - (0 - l j)) by ring. assert (h j = 0 - (0 - h j)) by ring. congruence.
  - (* KO *) intros j J.
    assert (N : forall i, (1 <= i <= n - 1)%nat -> h i + l i + cl i <> h (i - 1)%nat + l (i - 1)%nat + cl (i - 1)%nat) by (intros i I; apply R; lia).
    destruct (R j J) as (A & B). split.
    + rewrite (measure_mir 0 h l cl _ _ _ MH ML MC (n - 1) N) by lia. exact A.
    + intro Q. apply B. assert (X : forall a b c, 0 - a + (0 - b) + (0 - c) = - (b + a + c)) by (intros; ring). rewrite !X in Q. rewrite <- (Qcopp_involutive (h j + l j + cl j)), Q. apply Qcopp_involutive.
  - (* MI *) intros j J. apply lt_mir, R, J.
  - (* MA *) destruct ma_type as [| | |t| |]; auto.
    destruct (String.string_dec t "variable") as [->|N].
    + intros j J. destruct (R j J) as (i & I & D). exists i. split; [exact I|]. intro Q. apply D. rewrite <- (Qcopp_involutive (cl i)), <- (Qcopp_involutive (cl (i - 1)%nat)). f_equal.
      assert (X : forall a, 0 - a = - a) by (intro; ring). rewrite !X in Q. exact Q.
    + revert R N. repeat match goal with |- context [match ?s with _ => _ end] => is_var s; destruct s end; auto; intros R N; try (exfalso; apply N; reflexivity).
  - (* PSAR *) destruct R as [N R]. split; [exact N|]. split; intro A.
    + apply le_mir. apply Qcnot_lt_le. intro Q. apply R in Q. apply (Qcle_not_lt _ _ Q). qlra.
    + apply lt_mir. apply Qcnot_le_lt. intro Q. apply R in Q. apply (Qclt_not_le _ _ Q). qlra.
  - (* PROJ *) intros j J. rewrite (highest_mir 0 l _ _ MH j), (lowest_mir 0 h _ _ ML j). intro Q. apply (R j J).
    assert (E0 : forall a, r4 (0 - a) = - r4 a) by (intro a; rewrite <- r4_opp; f_equal; ring). rewrite !E0 in Q. rewrite <- (Qcopp_involutive (r4 (highest_projection _ _ _))), <- Q. apply Qcopp_involutive.
  - (* SO *) intros j J. rewrite (sum_same (fun i => max_last h (nat_arg k_periods) i - min_last l (nat_arg k_periods) i)); [apply R, J|].
    intro i. rewrite (max_mir 0 l _ _ MH i), (min_mir 0 h _ _ ML i). ring.
  - (* SWI *) rewrite (swing_span_mir 0 op h l cl _ _ _ _ MO MH ML MC k). exact R.
  - (* UO *) intros w I K. rewrite (sum_same _ _ w (reach_mir 0 h l cl _ _ _ MH ML MC) k). apply R; auto.
Qed.

Lemma follow_twice w d x : follow w d (follow w 0 x) = match w with Across => nadd (Fin d) x | _ => x end.
Proof. destruct w; destruct x; cbn; try reflexivity; f_equal; ring. Qed.
Lemma table_sym c a b w : In (a, b, w) (mirror_table c) -> In (b, a, w) (mirror_table c).
Proof.
  destruct c; cbn; try tauto; intro I.
  all: try (destruct ma_type; cbn in *; try tauto; destruct (_ || _)). all: try (destruct d_method; cbn in *; try tauto; destruct (String.eqb _ _)).
  all: cbn in I |- *; repeat (destruct I as [I|I]; [injection I as <- <- <-; tauto|]); contradiction.
Qed.
Lemma price_like_table c name : In name (price_like c) -> exists a, In (a, name, Across) (mirror_table c).
Proof.
  destruct c; cbn [price_like mirror_table]; try contradiction; intro I.
  all: try (destruct ma_type; try contradiction; destruct (existsb _ _)).
  all: cbn in I |- *; repeat (destruct I as [<-|I]; [eexists; tauto|]); contradiction.
Qed.
Lemma level_free_table c name : In name (level_free c) -> exists a w, w <> Across /\ In (a, name, w) (mirror_table c).
Proof.
  destruct c; cbn [level_free mirror_table]; try contradiction; intro I.
  all: try (destruct d_method; try contradiction; destruct (String.eqb _ _)).
  all: cbn in I |- *; repeat (destruct I as [<-|I]; [eexists; eexists; split; [|solve [left; reflexivity|right; left; reflexivity|right; right; left; reflexivity|right; right; right; left; reflexivity|right; right; right; right; left; reflexivity]]; discriminate|]); contradiction.
Qed.

Section Move.
  Variables (o : oracle) (raw raw' : rawframe) (b b' : bool) (ob ob' : obj) (d : Qc) (op h l cl v : nat -> Qc) (c : ctor).
  Hypothesis W : wf_raw raw. Hypothesis W' : wf_raw raw'. Hypothesis E : even_ticks d.
  Hypothesis T : twice c o raw raw' b b' ob ob'. Hypothesis M : moved c d ob ob' op h l cl v.
  Let n := days_given ob.
  Definition mo (f : nat -> Qc) (j : nat) : Qc := 0 - f j.
  Let between_frame := frame_of n (mo op) (mo l) (mo h) (mo cl) v.

  Lemma zero_even : even_ticks 0. Proof. exists 0%Z. apply Qc_is_canon. reflexivity. Qed.
  Lemma in_between : (0 < n)%nat -> exists mid, twice c o raw between_frame b false ob mid /\ twice c o between_frame raw' false b' mid ob' /\
    turned_over c 0 ob mid op h l cl v /\ turned_over c d mid ob' (mo op) (mo l) (mo h) (mo cl) v.
  Proof.
    intro N. destruct T as [A B]. destruct (construct_inv _ _ _ _ _ A) as (i & r0 & b0 & f0 & CK & _).
    assert (P : params_ok c) by (apply check_accepts; eauto).
    destruct (construct_view _ _ _ _ _ W A) as (f & V).
    assert (MR : (min_rows (asked c) <= n)%nat).
    { destruct (proj1 (construct_succeeds o c raw b P) (ex_intro _ ob A)) as (_ & _ & _ & _ & _ & _ & R). unfold n. rewrite (view_days V), (v_len _ _ _ _ _ _ V). exact R. }
    destruct (frame_makes o c n (mo op) (mo l) (mo h) (mo cl) v P N MR) as (mid & HM). exists mid.
    destruct (frame_given _ _ _ _ _ _ _ _ _ HM) as [D G]. destruct M as (D' & MO & MH & ML & MC & MV). fold n in D', MO, MH, ML, MC, MV.
    split; [split; assumption|]. split; [split; assumption|]. split.
    - split; [exact D|]. split; [|split; [|split; [|split]]]; intro I.
      + split; [apply (MO I)|]. intros j J. apply (G _ I). fold n in J; lia.
      + split; [apply (MH I)|]. intros j J. refine (G "low" _ j _); [|fold n in J; lia]. destruct c; cbn in I |- *; first [tauto|exfalso; repeat (destruct I as [I|I]; [discriminate I|]); exact I].
      + split; [apply (ML I)|]. intros j J. refine (G "high" _ j _); [|fold n in J; lia]. destruct c; cbn in I |- *; first [tauto|exfalso; repeat (destruct I as [I|I]; [discriminate I|]); exact I].
      + split; [apply (MC I)|]. intros j J. apply (G _ I). fold n in J; lia.
      + split; [apply (MV I)|]. intros j J. apply (G _ I). fold n in J; lia.
    - unfold turned_over. rewrite D. cbv zeta. split; [exact D'|].
      assert (X : forall a, d - (0 - a) = d + a) by (intro; ring).
      split; [|split; [|split; [|split]]]; intro I.
      + split; [intros j J; apply (G _ I); lia|]. intros j J. unfold mo. rewrite X. apply (MO I). exact J.
      + assert (I2 : In "low" (required (asked c))) by (destruct c; cbn in I |- *; first [tauto|exfalso; repeat (destruct I as [I|I]; [discriminate I|]); exact I]).
        split; [intros j J; apply (G _ I); lia|]. intros j J. unfold mo. rewrite X. apply (ML I2). exact J.
      + assert (I2 : In "high" (required (asked c))) by (destruct c; cbn in I |- *; first [tauto|exfalso; repeat (destruct I as [I|I]; [discriminate I|]); exact I]).
        split; [intros j J; apply (G _ I); lia|]. intros j J. unfold mo. rewrite X. apply (MH I2). exact J.
      + split; [intros j J; apply (G _ I); lia|]. intros j J. unfold mo. rewrite X. apply (MC I). exact J.
      + split; [intros j J; apply (G _ I); lia|]. intros j J. replace (v j) with (0 + v j) by ring. apply (MV I). exact J.
  Qed.

  Lemma moves k : (k < n)%nat -> ordinary c n k op h l cl v -> forall name' name w, In (name', name, w) (mirror_table c) ->
    shown name ob' k = match w with Across => nadd (Fin d) (shown name ob k) | _ => shown name ob k end.
  Proof.
    intros K R name' name w I. destruct in_between as (mid & T1 & T2 & O1 & O2); [lia|].
    rewrite (mirrored o between_frame raw' false b' mid ob' d (mo op) (mo l) (mo h) (mo cl) v (frame_wf _ _ _ _ _ _) W' E c k T2 O2) with (name := name') (w := w).
    - rewrite (mirrored o raw between_frame b false ob mid 0 op h l cl v W (frame_wf _ _ _ _ _ _) zero_even c k T1 O1 K R name' name w I). apply follow_twice.
    - destruct O1 as [D _]. rewrite D. exact K.
    - destruct O1 as [D _]. rewrite D. apply ordinary_mir. exact R.
    - apply table_sym. exact I.
  Qed.
  Lemma prices_move k name : (k < n)%nat -> ordinary c n k op h l cl v -> In name (price_like c) -> shown name ob' k = nadd (Fin d) (shown name ob k).
  Proof. intros K R I. apply price_like_table in I as (a & I). rewrite (moves k K R _ _ _ I). reflexivity. Qed.
  Lemma levels_stay k name : (k < n)%nat -> ordinary c n k op h l cl v -> In name (level_free c) -> shown name ob' k = shown name ob k.
  Proof. intros K R I. apply level_free_table in I as (a & w & N & I). rewrite (moves k K R _ _ _ I). destruct w; congruence. Qed.

  Lemma some_days : (0 < n)%nat.
  Proof.
    destruct T as [A _]. destruct (construct_inv _ _ _ _ _ A) as (i & r0 & b0 & f0 & CK & _).
    assert (P : params_ok c) by (apply check_accepts; eauto). destruct (construct_view _ _ _ _ _ W A) as (f & V).
    destruct (proj1 (construct_succeeds o c raw b P) (ex_intro _ ob A)) as (_ & _ & _ & _ & _ & R & _). unfold n. rewrite (view_days V), (v_len _ _ _ _ _ _ V).
    destruct (r_rows raw); [congruence|cbn; lia].
  Qed.
  Hypothesis ORD : forall k, (k < n)%nat -> ordinary c n k op h l cl v.
  Lemma opposite_twice s : opposite (opposite s) = s. Proof. destruct s; reflexivity. Qed.
  Lemma even_between mid : twice c o raw between_frame b false ob mid -> turned_over c 0 ob mid op h l cl v -> even_handed c ob -> even_handed c mid.
  Proof.
    intros T1 O1 EH.
    pose proof (fun name' name w d' => ago_turn o raw between_frame b false ob mid 0 op h l cl v c W (frame_wf _ _ _ _ _ _) zero_even T1 O1 ORD name' name w d') as AT.
    pose proof (rows_same o raw between_frame b false ob mid 0 op h l cl v c W (frame_wf _ _ _ _ _ _) T1 O1) as RS.
    pose proof (fun name name' f d' => price_turn ob mid 0 op h l cl v c O1 name name' f d') as PT.
    destruct c; cbn [even_handed] in EH |- *; try exact I; try contradiction.
    - (* BB *) rewrite (AT "upper_band" "lower_band" Across 1%nat), (AT "lower_band" "upper_band" Across 1%nat); [|cbn; tauto|lia|cbn; tauto|lia]. cbn [follow]. rewrite less_sub. exact EH.
    - (* MP *) rewrite RS. exact EH.
    - (* PCH *) rewrite (AT "highest_high" "lowest_low" Across 1%nat), (AT "lowest_low" "highest_high" Across 1%nat); [|cbn; tauto|lia|cbn; tauto|lia]. cbn [follow]. rewrite less_sub. exact EH.
    - (* PB *) rewrite (AT "upper_band" "lower_band" Across 1%nat), (AT "lower_band" "upper_band" Across 1%nat); [|cbn; tauto|lia|cbn; tauto|lia]. cbn [follow]. rewrite less_sub. exact EH.
    - (* SO *) destruct EH as [-> EH]. split; [reflexivity|].
      assert (XK : forall d', (1 <= d')%nat -> ago "%K" mid d' = follow Rest 0 (ago "%K" ob d')) by (intros; apply AT; [cbn; tauto|lia]).
      assert (XD : forall d', (1 <= d')%nat -> ago "%D" mid d' = follow Rest 0 (ago "%D" ob d')) by (intros; apply AT; [cbn; tauto|lia]).
      assert (RV : reversing (follow Rest 0)) by (apply follow_reversing; discriminate).
      assert (L8 : level 80 = follow Rest 0 (level 20)) by (unfold level; cbn [follow nsub nadd nneg]; apply (f_equal Fin), Qc_is_canon; reflexivity).
      assert (L2 : level 20 = follow Rest 0 (level 80)) by (unfold level; cbn [follow nsub nadd nneg]; apply (f_equal Fin), Qc_is_canon; reflexivity).
      rewrite (fell_r _ RV _ _ 20%Z 80%Z XK L8), (fell_r _ RV _ _ 20%Z 80%Z XD L8), (rose_r _ RV _ _ 80%Z 20%Z XK L2), (rose_r _ RV _ _ 80%Z 20%Z XD L2). tauto.
    - (* WAD *) assert (FC : faces 0 (days_given ob - 1) ob mid "close" "close" cl) by (apply O1; cbn; tauto).
      assert (X : forall d', (1 <= d')%nat -> price "close" mid d' = follow Across 0 (price "close" ob d')) by (intros d' D'; exact (PT _ _ _ _ FC D')).
      assert (RV : reversing (follow Across 0)) by (apply follow_reversing; discriminate).
      rewrite (lowest_r _ RV _ _ 30 X), (highest_r _ RV _ _ 30 X). tauto.
  Qed.
  Lemma signals_stay : even_handed c ob -> forall s, get_ti_signal ob = Ok s -> get_ti_signal ob' = Ok s.
  Proof.
    intros EH s G. destruct (in_between some_days) as (mid & T1 & T2 & O1 & O2).
    pose proof (reversed o raw between_frame b false ob mid 0 op h l cl v W (frame_wf _ _ _ _ _ _) zero_even c T1 O1 ORD EH s G) as G1.
    rewrite <- (opposite_twice s).
    apply (reversed o between_frame raw' false b' mid ob' d (mo op) (mo l) (mo h) (mo cl) v (frame_wf _ _ _ _ _ _) W' E c T2 O2); [|apply (even_between mid T1 O1 EH)|exact G1].
    intros k K. destruct O1 as [D _]. rewrite D in *. apply ordinary_mir, ORD, K.
  Qed.
  Lemma sizes_stay : c = cMFI \/ (exists p q, c = cVCH p q) -> forall s, get_ti_signal ob = Ok s -> get_ti_signal ob' = Ok s.
  Proof.
    intros CC s G. destruct (in_between some_days) as (mid & T1 & T2 & O1 & O2).
    pose proof (unchanged o raw between_frame b false ob mid 0 op h l cl v W (frame_wf _ _ _ _ _ _) zero_even c T1 O1 CC s G) as G1.
    exact (unchanged o between_frame raw' false b' mid ob' d (mo op) (mo l) (mo h) (mo cl) v (frame_wf _ _ _ _ _ _) W' E c T2 O2 CC s G1).
  Qed.
  (** averages that only ever buy *)
  Lemma less_add x y : less (nadd (Fin d) x) (nadd (Fin d) y) <-> less x y.
  Proof. destruct x as [| | |x]; destruct y as [| | |y]; cbn; try tauto. split; intro; qlra. Qed.
  Lemma shown_days_same : days_shown ob' = days_shown ob.
  Proof. rewrite (shown_rows o c raw' b' ob' W' (proj2 T)), (shown_rows o c raw b ob W (proj1 T)). destruct M as [-> _]. reflexivity. Qed.
  Lemma ago_moves name d' : In name (price_like c) -> (1 <= d')%nat -> ago name ob' d' = nadd (Fin d) (ago name ob d').
  Proof.
    intros I D. unfold ago. rewrite shown_days_same. set (k := (days_shown ob - d')%nat).
    assert (FEW : (days_shown ob <= n)%nat) by (unfold n; rewrite (shown_rows o c raw b ob W (proj1 T)); destruct (asked c); lia).
    destruct (Nat.lt_ge_cases k n) as [G|G]; [apply (prices_move k name G (ORD k G) I)|]. rewrite !shown_out by (rewrite ?shown_days_same; lia). reflexivity.
  Qed.
  Lemma close_moves d' : In "close" (required (asked c)) -> (1 <= d')%nat -> price "close" ob' d' = nadd (Fin d) (price "close" ob d').
  Proof.
    intros I D. pose proof some_days as N. destruct M as (DD & _ & _ & _ & MC & _). destruct (MC I) as [X Y]. unfold price. rewrite DD. fold n in X, Y |- *. rewrite X, Y by lia. reflexivity.
  Qed.
  Lemma buyers_stay : (exists p, c = cDEMA p) \/ (exists p t, c = cMA p (VStr t) /\ price_like c <> []) -> forall s, get_ti_signal ob = Ok s -> get_ti_signal ob' = Ok s.
  Proof.
    intros CC s G. assert (FW : working o c raw b ob) by (split; [exact W|]; exists ob; split; [apply T|auto]). assert (SW : working o c raw' b' ob') by (split; [exact W'|]; exists ob'; split; [apply T|auto]).
    assert (K : exists n0 P P', answers1 ob n0 Buy P /\ answers1 ob' n0 Buy P' /\ (P' <-> P)).
    { destruct CC as [(p & EC)|(p & t & EC & PL)].
      - assert (R1 : In "close" (required (asked c))) by (rewrite EC; cbn; tauto). assert (R2 : In "dema" (price_like c)) by (rewrite EC; cbn; tauto).
        pose proof (close_moves 1 R1 (le_n 1)) as C1. pose proof (ago_moves "dema" 1 R2 (le_n 1)) as C2. rewrite EC in FW, SW.
        eexists; eexists; eexists. split; [exact (dema_answers _ FW)|]. split; [exact (dema_answers _ SW)|]. rewrite C1, C2. apply less_add.
      - assert (R1 : In "close" (required (asked c))) by (rewrite EC; cbn; tauto).
        assert (R2 : In ("ma-" ++ t)%string (price_like c)) by (rewrite EC in PL |- *; cbn [price_like] in PL |- *; destruct (existsb _ _); [left; reflexivity|congruence]).
        pose proof (close_moves 1 R1 (le_n 1)) as C1. pose proof (ago_moves _ 1 R2 (le_n 1)) as C2. rewrite EC in FW, SW.
        eexists; eexists; eexists. split; [exact (ma_answers _ _ FW)|]. split; [exact (ma_answers _ _ SW)|]. cbn [as_str]. rewrite C1, C2. apply less_add. }
    destruct K as (n0 & P & P' & [A1 A2] & [B1 B2] & Q). rewrite shown_days_same in B1, B2. destruct (Nat.lt_ge_cases (days_shown ob) n0) as [L|L].
    - rewrite (A1 L) in G. injection G as <-. apply B1, L.
    - specialize (A2 L) as [A2 A3]. specialize (B2 L) as [B2 B3]. destruct s.
      + apply B2, Q, A2, G. + apply B3. rewrite Q. apply A3, G.
      + exfalso. assert (DP : P -> False) by (intro X; apply A2 in X; congruence). apply A3 in DP. congruence.
  Qed.
End Move.

(** two that have no mirror image *)
Lemma change_add d m c j : change m (fun i => d + c i) j = change m c j.
Proof. unfold change. ring. Qed.
Lemma true_range_add d h l c : same_f (true_range h l c) (true_range (fun j => d + h j) (fun j => d + l j) (fun j => d + c j)).
Proof. intro j. unfold true_range. destruct j; [ring|]. replace (d + h (S j) - (d + l (S j))) with (h (S j) - l (S j)) by ring. replace (d + h (S j) - (d + c j)) with (h (S j) - c j) by ring. replace (d + c j - (d + l (S j))) with (c j - l (S j)) by ring. reflexivity. Qed.
Lemma strain_add d h l c : same_f (strain h l c) (strain (fun j => d + h j) (fun j => d + l j) (fun j => d + c j)).
Proof.
  intro j. unfold strain. rewrite true_range_add. replace (d + c j - (d + c (j - 1)%nat)) with (c j - c (j - 1)%nat) by ring.
  replace (qltb (d + c (j - 1)%nat) (d + c j)) with (qltb (c (j - 1)%nat) (c j)); [reflexivity|].
  destruct (qltb (c (j - 1)%nat) (c j)) eqn:E; symmetry; [apply qltb_iff in E; apply qltb_iff; qlra|apply qltb_false in E; apply qltb_false; qlra].
Qed.
Lemma max_to_same f g a n : same_f f g -> max_to g a n = max_to f a n.
Proof. intro U. induction n; cbn [max_to]; rewrite ?IHn, U; reflexivity. Qed.
Lemma min_to_same f g a n : same_f f g -> min_to g a n = min_to f a n.
Proof. intro U. induction n; cbn [min_to]; rewrite ?IHn, U; reflexivity. Qed.
Lemma place_same r f g : same_f f g -> same_f (place r f) (place r g).
Proof. intros U j. unfold place, min_last, max_last. rewrite !(max_to_same f g), !(min_to_same f g), U by exact U. reflexivity. Qed.
Section Others.
  Variables (o : oracle) (raw raw' : rawframe) (b b' : bool) (ob ob' : obj) (d : Qc) (k : nat).
  Hypothesis W : wf_raw raw. Hypothesis W' : wf_raw raw'.
  Lemma move_rmi p q c : twice (cRMI p q) o raw raw' b b' ob ob' -> beside d k ob ob' "close" c -> shown "rmi" ob' k = shown "rmi" ob k.
  Proof.
    intros [A B] [K K']. rewrite (relative_momentum_shown o raw b ob W p q k c A K), (relative_momentum_shown o raw' b' ob' W' p q k _ B K'). cbv zeta.
    rewrite (wilder_from_same _ _ (fun j => gain (change (nat_arg q) c j)) (fun j => gain (change (nat_arg q) (fun i => d + c i) j))) by (intro j; rewrite change_add; reflexivity).
    rewrite (wilder_from_same _ _ (fun j => loss (change (nat_arg q) c j)) (fun j => loss (change (nat_arg q) (fun i => d + c i) j))) by (intro j; rewrite change_add; reflexivity). reflexivity.
  Qed.
  Lemma move_ri p q h l c : twice (cRI p q) o raw raw' b b' ob ob' -> beside d k ob ob' "high" h -> beside d k ob ob' "low" l -> beside d k ob ob' "close" c -> shown "ri" ob' k = shown "ri" ob k.
  Proof.
    intros [A B] [H H'] [L L'] [K K']. rewrite (range_indicator_shown o raw b ob W p q k h l c A H L K), (range_indicator_shown o raw' b' ob' W' p q k _ _ _ B H' L' K'). cbv zeta.
    rewrite (ema_same _ _ _ _ (place_same _ _ _ (strain_add d h l c))). reflexivity.
  Qed.
End Others.

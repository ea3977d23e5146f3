(** * FloatSignalApi: the signals of an indicator, exact and in binary64. *)
From Coq Require Import ZArith QArith Qcanon Qreals Reals Bool List String PeanoNat Lia Lra Psatz Sorted.
From Flocq Require Import Core IEEE754.BinarySingleNaN.
From Verif Require Import FloatSim FloatFacts FloatExact FloatInd FloatOrd FloatDec FloatRange FloatRange2.
From Verif Require Import Num NumFacts Pandas Sim Frame FrameSpec FrameProofs Ind Signal Api IndSpec SeriesFacts Lengths
  Causal IndFacts Shape ApiSpec ApiCheck ApiProofs ApiLemmas RangeSpec ValueSpec FormulaSpec SignalSpec SignalApi SignalApi2.
From Verif Require Import FloatSpec FloatAccSpec FloatAcc FloatAcc3 FloatAccApi FloatEwm FloatEwmSpec FloatEwmApi FloatRoll FloatRollSpec FloatRollApi FloatSignal FloatSignalSpec FloatSignalFacts.
Import ListNotations.
Open Scope list_scope. Open Scope string_scope.

(** ** the object of a day shows the first rows of the whole object *)
Lemma cell_upto t f c j : StronglySorted Z.le (index f) -> (j < length (rows (upto t f)))%nat -> cell_at c j (upto t f) = cell_at c j f.
Proof. intros S J. unfold cell_at. rewrite (upto_prefix t f S), col_fprefix. apply nth_firstn. exact J. Qed.
Lemma rows_upto t f : (length (rows (upto t f)) <= length (rows f))%nat.
Proof. unfold upto. cbn [rows]. induction (rows f) as [|x r IH]; cbn [filter]; [auto|]. destruct (Z.leb _ _); cbn [length]; lia. Qed.
Lemma working_full o c raw b st : working o c raw b st -> is_dpo (asked c) = false -> wf_raw raw /\ exists ob, snd (construct o c (RFrame raw) (VBool b)) = Ok ob /\
  days_given st = days_shown st /\ (days_given st <= days_given ob)%nat /\
  (forall nm j, (j < days_given st)%nat -> given nm st j = given nm ob j) /\
  (forall nm j, (j < days_shown st)%nat -> shown nm st j = shown nm ob j).
Proof.
  intros W D. pose proof (working_sound _ _ _ _ _ W) as [S E]. assert (DS : days_given st = days_shown st) by (apply days_same; [exact S|rewrite E; exact D]).
  destruct W as (WR & ob & H & Q). split; [exact WR|]. exists ob. split; [exact H|]. split; [exact DS|].
  destruct Q as [->|[k ->]]; [auto|].
  pose proof (construct_sound _ _ _ _ _ WR H) as (_ & _ & _ & SS & _ & _ & SI & _).
  assert (ST : StronglySorted Z.le (index (ob_ti ob))).
  { rewrite SI; [exact SS|]. intros p Q. assert (Q' : ob_ind (limited k ob) = iDPO p) by exact Q. rewrite E in Q'. rewrite Q' in D. discriminate. }
  unfold given, shown, days_given, days_shown, limited, get_ti_data in *. cbn [ob_input ob_ti ob_ind] in *.
  split; [apply rows_upto|]. split; intros nm j J; apply cell_upto; auto.
Qed.

Section Signals.
  Context {o : oracle} {raw : rawframe} {b : bool} {st : obj}.
  Notation n := (days_shown st).

  (** a column of input *)
  Lemma tick_apart col t c N d : holds col st t c -> (forall i, (i < N)%nat -> (Z.abs (t * c i) <= 2 ^ 48)%Z) -> days_given st = n -> (n <= N)%nat -> (1 <= d <= n)%nat ->
    apart 0 (FloatSpec.cell (column t c N) (n - d)) (SignalSpec.price col st d).
  Proof.
    intros H B E L D. unfold SignalSpec.price. rewrite E, (H (n - d)%nat) by lia. exists (t * c (n - d)%nat)%Z, (t * c (n - d)%nat)%Z.
    split; [reflexivity|]. split; [lia|]. unfold FloatSpec.cell. rewrite column_nth by lia.
    split; [apply (dec_close _ (B (n - d)%nat ltac:(lia)))|reflexivity].
  Qed.
  Lemma steady_ticks c N : steady c N -> forall i, (i < N)%nat -> (Z.abs (1 * c i) <= 2 ^ 48)%Z.
  Proof. intros S i I. specialize (S i I). nia. Qed.
  Lemma moderate_ticks p c N : moderate p c N -> forall i, (i < N)%nat -> (Z.abs (1 * c i) <= 2 ^ 48)%Z.
  Proof. intros S i I. specialize (S i I). nia. Qed.
  Lemma fits_ticks t c N : fits t c N -> forall i, (i < N)%nat -> (Z.abs (t * c i) <= 2 ^ 48)%Z.
  Proof. intros [T S] i I. specialize (S i I). nia. Qed.
  Lemma holds_known col t c ob k : holds col st t c -> (forall nm j, (j < days_given st)%nat -> given nm st j = given nm ob j) -> (k < days_given st)%nat ->
    known (given col ob) k (prices t c).
  Proof. intros H G K j J. rewrite <- G by lia. apply H. lia. Qed.
  Lemma level0 z : (Z.abs z <= 1000)%Z -> apart 0 (fz z 0) (level z). Proof. exact (level_apart z). Qed.

  (** close against one line on the last day *)
  Lemma one_line c nm x C N : working o c raw b st -> compared c = Some (1%nat, [(Given "close" 1, Shown nm 1)]) -> days_given st = n ->
    (forall k, (k < n)%nat -> agrees (FloatSpec.cell x k) (shown nm st k)) ->
    holds "close" st 1 C -> (forall i, (i < N)%nat -> (Z.abs (1 * C i) <= 2 ^ 48)%Z) -> (n <= N)%nat ->
    apart_days st 1 1 (SignalSpec.price "close" st) (ago nm st) ->
    fsignal_of (ob_ind st) (table n [("close", column 1 C N)]) (table n [(nm, x)]) = Some (get_ti_signal st).
  Proof.
    intros W Cp E A H B L Q. eapply same_signal; [symmetry; exact E|reflexivity|exact W|exact Cp|].
    intros N1 p q [I|[]]. injection I as <- <-. exists 0%Z, 1%Z. cbn [float_value exact_value table f_rows f_cell found String.eqb]. cbn [Ascii.eqb Bool.eqb].
    rewrite String.eqb_refl. split; [exact (tick_apart "close" 1 C N 1 H B E L ltac:(lia))|]. split; [exact (A (n - 1)%nat ltac:(lia))|]. apply Q; lia.
  Qed.
  (** close against one line on the last two days *)
  Lemma two_lines c nm x t C N : working o c raw b st -> compared c = Some (2%nat, [(Given "close" 2, Shown nm 2); (Given "close" 1, Shown nm 1)]) -> days_given st = n ->
    (forall k, (k < n)%nat -> agrees (x k) (shown nm st k)) ->
    holds "close" st t C -> (forall i, (i < N)%nat -> (Z.abs (t * C i) <= 2 ^ 48)%Z) -> (n <= N)%nat ->
    apart_days st 2 1 (SignalSpec.price "close" st) (ago nm st) ->
    fsignal_of (ob_ind st) (table n [("close", column t C N)]) (mkTable n (fun _ => x)) = Some (get_ti_signal st).
  Proof.
    intros W Cp E A H B L Q. eapply same_signal; [symmetry; exact E|reflexivity|exact W|exact Cp|].
    intros N1 p q [I|[I|[]]]; injection I as <- <-; exists 0%Z, 1%Z; cbn [float_value exact_value table f_rows f_cell found String.eqb]; cbn [Ascii.eqb Bool.eqb].
    - split; [exact (tick_apart "close" t C N 2 H B E L ltac:(lia))|]. split; [exact (A (n - 2)%nat ltac:(lia))|]. apply Q; lia.
    - split; [exact (tick_apart "close" t C N 1 H B E L ltac:(lia))|]. split; [exact (A (n - 1)%nat ltac:(lia))|]. apply Q; lia.
  Qed.
  (** three days in a row *)
  Lemma three_days c nm x : working o c raw b st -> compared c = Some (3%nat, [(Shown nm 3, Shown nm 2); (Shown nm 2, Shown nm 1)]) -> days_given st = n ->
    (forall k, (k < n)%nat -> agrees (FloatSpec.cell x k) (shown nm st k)) ->
    apart_days st 2 2 (fun d => ago nm st (S d)) (ago nm st) ->
    forall inp, f_rows inp = n -> fsignal_of (ob_ind st) inp (table n [(nm, x)]) = Some (get_ti_signal st).
  Proof.
    intros W Cp E A Q inp EI. eapply same_signal; [rewrite E; exact EI|reflexivity|exact W|exact Cp|].
    intros N1 p q [I|[I|[]]]; injection I as <- <-; exists 1%Z, 1%Z; cbn [float_value exact_value table f_rows f_cell found]; rewrite String.eqb_refl.
    - split; [exact (A (n - 3)%nat ltac:(lia))|]. split; [exact (A (n - 2)%nat ltac:(lia))|]. exact (Q 2%nat ltac:(lia) ltac:(lia)).
    - split; [exact (A (n - 2)%nat ltac:(lia))|]. split; [exact (A (n - 1)%nat ltac:(lia))|]. exact (Q 1%nat ltac:(lia) ltac:(lia)).
  Qed.

  Variables (c : nat -> Z) (N : nat).
  Hypothesis LN : (n <= N)%nat.
  Notation C := (column 1 c N).
  Ltac whole_object W ob H E L G SH := destruct (working_full _ _ _ _ _ W eq_refl) as (WR & ob & H & E & L & G & SH).

  Lemma simple_signal p : working o (cMA p (VStr "simple")) raw b st -> holds "close" st 1 c -> steady c N ->
    apart_days st 1 1 (SignalSpec.price "close" st) (ago "ma-simple" st) ->
    fsignal_of (ob_ind st) (table n [("close", C)]) (table n [("ma-simple", fsma (nat_arg p) C)]) = Some (get_ti_signal st).
  Proof.
    intros W H Sc Q. whole_object W ob K E L G SH. apply (one_line _ "ma-simple" _ _ _ W eq_refl E); auto; [|exact (steady_ticks _ _ Sc)].
    intros k J. rewrite SH by exact J. destruct (sma_accuracy o raw b ob WR c N k ltac:(lia) (holds_known "close" 1 c ob k H G ltac:(lia)) p K Sc) as [-> T].
    apply tracks_agrees. exact T.
  Qed.
  Lemma exponential_signal p : working o (cMA p (VStr "exponential")) raw b st -> holds "close" st 1 c -> moderate (nat_arg p) c N ->
    apart_days st 1 1 (SignalSpec.price "close" st) (ago "ma-exponential" st) ->
    fsignal_of (ob_ind st) (table n [("close", C)]) (table n [("ma-exponential", fema (nat_arg p) C)]) = Some (get_ti_signal st).
  Proof.
    intros W H Sc Q. whole_object W ob K E L G SH. apply (one_line _ "ma-exponential" _ _ _ W eq_refl E); auto; [|exact (moderate_ticks _ _ _ Sc)].
    intros k J. rewrite SH by exact J. destruct (ema_accuracy o raw b ob WR c N k ltac:(lia) (holds_known "close" 1 c ob k H G ltac:(lia)) p K Sc) as [-> T].
    apply tracks_agrees. exact T.
  Qed.
  Lemma triangular_signal p : working o (cMA p (VStr "triangular")) raw b st -> holds "close" st 1 c -> steady c N ->
    apart_days st 1 1 (SignalSpec.price "close" st) (ago "ma-triangular" st) ->
    fsignal_of (ob_ind st) (table n [("close", C)]) (table n [("ma-triangular", ftma (nat_arg p) C)]) = Some (get_ti_signal st).
  Proof.
    intros W H Sc Q. whole_object W ob K E L G SH. apply (one_line _ "ma-triangular" _ _ _ W eq_refl E); auto; [|exact (steady_ticks _ _ Sc)].
    intros k J. rewrite SH by exact J. destruct (tma_accuracy o raw b ob WR c N k ltac:(lia) (holds_known "close" 1 c ob k H G ltac:(lia)) p K Sc) as [-> T].
    apply tracks_agrees. exact T.
  Qed.
  Lemma dema_signal_same p : working o (cDEMA p) raw b st -> holds "close" st 1 c -> moderate (nat_arg p) c N ->
    apart_days st 1 1 (SignalSpec.price "close" st) (ago "dema" st) ->
    fsignal_of (ob_ind st) (table n [("close", C)]) (table n [("dema", fdema (nat_arg p) C)]) = Some (get_ti_signal st).
  Proof.
    intros W H Sc Q. whole_object W ob K E L G SH. apply (one_line _ "dema" _ _ _ W eq_refl E); auto; [|exact (moderate_ticks _ _ _ Sc)].
    intros k J. rewrite SH by exact J. destruct (dema_accuracy o raw b ob WR c N k ltac:(lia) (holds_known "close" 1 c ob k H G ltac:(lia)) p K Sc) as [-> T].
    apply tracks_agrees. exact T.
  Qed.
  Lemma tema_signal_same p : working o (cTEMA p) raw b st -> holds "close" st 1 c -> moderate (nat_arg p) c N ->
    apart_days st 1 1 (SignalSpec.price "close" st) (ago "tema" st) ->
    fsignal_of (ob_ind st) (table n [("close", C)]) (table n [("tema", ftema (nat_arg p) C)]) = Some (get_ti_signal st).
  Proof.
    intros W H Sc Q. whole_object W ob K E L G SH. apply (one_line _ "tema" _ _ _ W eq_refl E); auto; [|exact (moderate_ticks _ _ _ Sc)].
    intros k J. rewrite SH by exact J. destruct (tema_accuracy o raw b ob WR c N k ltac:(lia) (holds_known "close" 1 c ob k H G ltac:(lia)) p K Sc) as [-> T].
    apply tracks_agrees. exact T.
  Qed.
  Lemma wilders_signal npsum p : (forall l, added l (npsum l)) -> working o (cWS p) raw b st -> holds "close" st 1 c -> moderate (nat_arg p) c N ->
    apart_days st 2 1 (SignalSpec.price "close" st) (ago "ws" st) ->
    fsignal_of (ob_ind st) (table n [("close", C)]) (mkTable n (fun _ => fws npsum (nat_arg p) C)) = Some (get_ti_signal st).
  Proof.
    intros AD W H Sc Q. whole_object W ob K E L G SH. apply (two_lines _ "ws" _ _ _ _ W eq_refl E); auto; [|exact (moderate_ticks _ _ _ Sc)].
    intros k J. rewrite SH by exact J. destruct (ws_accuracy o raw b ob WR c N k ltac:(lia) (holds_known "close" 1 c ob k H G ltac:(lia)) npsum p AD K Sc) as [-> T].
    apply tracks_agrees. exact T.
  Qed.
  Lemma macd_signal_same : working o cMACD raw b st -> holds "close" st 1 c -> moderate 26 c N ->
    apart_days st 2 2 (ago "macd" st) (fun _ => level 0) -> apart_days st 2 5 (ago "macd" st) (ago "signal_line" st) ->
    forall inp, f_rows inp = n -> fsignal_of (ob_ind st) inp (table n [("macd", fmacd C); ("signal_line", fmacd_signal C)]) = Some (get_ti_signal st).
  Proof.
    intros W H Sc Q1 Q2 inp EI. whole_object W ob K E L G SH.
    assert (A : forall k, (k < n)%nat -> apart 2 (FloatSpec.cell (fmacd C) k) (shown "macd" st k) /\ apart 3 (FloatSpec.cell (fmacd_signal C) k) (shown "signal_line" st k)).
    { intros k J. rewrite !SH by exact J. destruct (macd_accuracy o raw b ob WR c N k ltac:(lia) (holds_known "close" 1 c ob k H G ltac:(lia)) K Sc) as (_ & A & _ & B). auto. }
    eapply same_signal; [rewrite E; exact EI|reflexivity|exact W|reflexivity|].
    intros N1 p q [I|[I|[I|[I|[]]]]]; injection I as <- <-.
    - exists 2%Z, 0%Z. split; [exact (proj1 (A (n - 2)%nat ltac:(lia)))|]. split; [exact (level0 0 ltac:(lia))|]. exact (Q1 2%nat ltac:(lia) ltac:(lia)).
    - exists 2%Z, 0%Z. split; [exact (proj1 (A (n - 1)%nat ltac:(lia)))|]. split; [exact (level0 0 ltac:(lia))|]. exact (Q1 1%nat ltac:(lia) ltac:(lia)).
    - exists 2%Z, 3%Z. split; [exact (proj1 (A (n - 2)%nat ltac:(lia)))|]. split; [exact (proj2 (A (n - 2)%nat ltac:(lia)))|]. exact (Q2 2%nat ltac:(lia) ltac:(lia)).
    - exists 2%Z, 3%Z. split; [exact (proj1 (A (n - 1)%nat ltac:(lia)))|]. split; [exact (proj2 (A (n - 1)%nat ltac:(lia)))|]. exact (Q2 1%nat ltac:(lia) ltac:(lia)).
  Qed.
  Lemma qstick_signal op p : working o (cQS p) raw b st -> holds "close" st 1 c -> holds "open" st 1 op -> steady c N -> steady op N ->
    let x := ago "qstick" st in clear 2 (x 4%nat) (x 3%nat) -> clear 1 (x 3%nat) (level 0) -> clear 1 (x 2%nat) (level 0) -> clear 2 (x 2%nat) (x 1%nat) ->
    forall inp, f_rows inp = n -> fsignal_of (ob_ind st) inp (table n [("qstick", fqstick (nat_arg p) (column 1 op N) C)]) = Some (get_ti_signal st).
  Proof.
    intros W H HO Sc So x Q1 Q2 Q3 Q4 inp EI. whole_object W ob K E L G SH.
    assert (A : forall k, (k < n)%nat -> apart 1 (FloatSpec.cell (fqstick (nat_arg p) (column 1 op N) C) k) (shown "qstick" st k)).
    { intros k J. rewrite !SH by exact J. destruct (qstick_accuracy o raw b ob WR c N k ltac:(lia) (holds_known "close" 1 c ob k H G ltac:(lia)) op p (holds_known "open" 1 op ob k HO G ltac:(lia)) K Sc So) as [-> T].
      exact (tracks_agrees _ _ T). }
    eapply same_signal; [rewrite E; exact EI|reflexivity|exact W|reflexivity|].
    intros N1 u v [I|[I|[I|[I|[]]]]]; injection I as <- <-.
    - exists 1%Z, 1%Z. split; [exact (A (n - 4)%nat ltac:(lia))|]. split; [exact (A (n - 3)%nat ltac:(lia))|exact Q1].
    - exists 1%Z, 0%Z. split; [exact (A (n - 3)%nat ltac:(lia))|]. split; [exact (level0 0 ltac:(lia))|exact Q2].
    - exists 1%Z, 0%Z. split; [exact (A (n - 2)%nat ltac:(lia))|]. split; [exact (level0 0 ltac:(lia))|exact Q3].
    - exists 1%Z, 1%Z. split; [exact (A (n - 2)%nat ltac:(lia))|]. split; [exact (A (n - 1)%nat ltac:(lia))|exact Q4].
  Qed.
  Lemma volume_oscillator_signal v p q : working o (cVOSC p q) raw b st -> (forall j, (j < n)%nat -> given "volume" st j = Fin (zq (v j))) ->
    (Z.of_nat (nat_arg p) <= 2 ^ 20)%Z -> (forall i, (i < N)%nat -> (0 <= v i <= 2 ^ 32)%Z) ->
    let x := ago "vosc" st in clear 1 (x 3%nat) (level 0) -> clear 1 (x 1%nat) (level 0) -> clear 2 (x 3%nat) (x 2%nat) -> clear 2 (x 2%nat) (x 1%nat) ->
    forall inp, f_rows inp = n -> fsignal_of (ob_ind st) inp (table n [("vosc", fvosc (nat_arg p) (nat_arg q) (whole v N))]) = Some (get_ti_signal st).
  Proof.
    intros W H Bp Bv x Q1 Q2 Q3 Q4 inp EI. whole_object W ob K E L G SH.
    assert (A : forall k, (k < n)%nat -> apart 1 (FloatSpec.cell (fvosc (nat_arg p) (nat_arg q) (whole v N)) k) (shown "vosc" st k)).
    { intros k J. rewrite !SH by exact J.
      assert (KV : known (given "volume" ob) k (fun i => zq (v i))) by (intros j Hj; rewrite <- G by lia; apply H; lia).
      destruct (vosc_accuracy o raw b ob WR v N k ltac:(lia) KV p q K Bp Bv) as [-> T].
      exact (tracks_agrees _ _ T). }
    eapply same_signal; [rewrite E; exact EI|reflexivity|exact W|reflexivity|].
    intros N1 u w [I|[I|[I|[I|[]]]]]; injection I as <- <-.
    - exists 1%Z, 0%Z. split; [exact (A (n - 3)%nat ltac:(lia))|]. split; [exact (level0 0 ltac:(lia))|exact Q1].
    - exists 1%Z, 0%Z. split; [exact (A (n - 1)%nat ltac:(lia))|]. split; [exact (level0 0 ltac:(lia))|exact Q2].
    - exists 1%Z, 1%Z. split; [exact (A (n - 3)%nat ltac:(lia))|]. split; [exact (A (n - 2)%nat ltac:(lia))|exact Q3].
    - exists 1%Z, 1%Z. split; [exact (A (n - 2)%nat ltac:(lia))|]. split; [exact (A (n - 1)%nat ltac:(lia))|exact Q4].
  Qed.
  Lemma price_rate_signal p : working o (cPRC p) raw b st -> holds "close" st 1 c -> (forall i, (i < N)%nat -> (0 <= c i <= 2 ^ 50)%Z) ->
    (forall k, (k < n)%nat -> (c (k - nat_arg p)%nat = 0 \/ c k <= 2 ^ 24 * c (k - nat_arg p)%nat)%Z) ->
    apart_days st 2 2 (fun d => ago "prc" st (S d)) (ago "prc" st) ->
    forall inp, f_rows inp = n -> fsignal_of (ob_ind st) inp (table n [("prc", fprc (nat_arg p) C)]) = Some (get_ti_signal st).
  Proof.
    intros W H B R Q. whole_object W ob K E L G SH. apply (three_days _ "prc" _ W eq_refl E); auto.
    intros k J. rewrite SH by exact J. destruct (rate_accuracy o raw b ob WR c N k ltac:(lia) B p K (R k J) (holds_known "close" 1 c ob k H G ltac:(lia))) as [-> T].
    apply tracks_agrees. exact T.
  Qed.
  Lemma volume_rate_signal p : working o (cVRC p) raw b st -> holds "volume" st 1 c -> (forall i, (i < N)%nat -> (0 <= c i <= 2 ^ 50)%Z) ->
    (forall k, (k < n)%nat -> (c (k - nat_arg p)%nat = 0 \/ c k <= 2 ^ 24 * c (k - nat_arg p)%nat)%Z) ->
    apart_days st 2 2 (fun d => ago "vrc" st (S d)) (ago "vrc" st) ->
    forall inp, f_rows inp = n -> fsignal_of (ob_ind st) inp (table n [("vrc", fvrc (nat_arg p) C)]) = Some (get_ti_signal st).
  Proof.
    intros W H B R Q. whole_object W ob K E L G SH. apply (three_days _ "vrc" _ W eq_refl E); auto.
    intros k J. rewrite SH by exact J. destruct (volume_rate_accuracy o raw b ob WR c N k ltac:(lia) B p K (R k J) (holds_known "volume" 1 c ob k H G ltac:(lia))) as [-> T].
    apply tracks_agrees. exact T.
  Qed.
  Lemma weighted_signal t h l : working o cWC raw b st -> holds "close" st t c -> holds "high" st t h -> holds "low" st t l ->
    fits t h N -> fits t l N -> fits t c N -> (forall i, (i < N)%nat -> (l i <= c i <= h i)%Z) ->
    apart_days st 2 1 (SignalSpec.price "close" st) (ago "wc" st) ->
    fsignal_of (ob_ind st) (table n [("close", column t c N)]) (mkTable n (fun _ => FloatSpec.cell (fwc (column t c N) (column t h N) (column t l N)))) = Some (get_ti_signal st).
  Proof.
    intros W H Hh Hl Fh Fl Fc O Q. whole_object W ob K E L G SH. apply (two_lines _ "wc" _ _ _ _ W eq_refl E); auto; [|exact (fits_ticks _ _ _ Fc)].
    intros k J. rewrite SH by exact J.
    assert (GG : forall col f, holds col st t f -> given col ob k = Fin (prices t f k)) by (intros col f Hf; rewrite <- G by lia; apply Hf; lia).
    destruct (weighted_accuracy o raw b ob WR t h l c N k ltac:(lia) K Fh Fl Fc (GG _ _ Hh) (GG _ _ Hl) (GG _ _ H) (O k ltac:(lia))) as [-> T].
    apply tracks_agrees. exact T.
  Qed.
  (** the price channel: both lines and the close are exact *)
  Lemma channel_signal t h l p : working o (cPCH p) raw b st -> holds "close" st t c -> holds "high" st t h -> holds "low" st t l ->
    fits t h N -> fits t l N -> fits t c N ->
    fsignal_of (ob_ind st) (table n [("close", column t c N)]) (table n [("highest_high", fpch_high (nat_arg p) (column t h N)); ("lowest_low", fpch_low (nat_arg p) (column t l N))])
    = Some (get_ti_signal st).
  Proof.
    intros W H Hh Hl Fh Fl Fc. whole_object W ob K E L G SH.
    assert (OT : forall f k, fits t f N -> (k < N)%nat -> ordinary (Fin (units (t * f k)%Z))).
    { intros f k F J. pose proof (fits_ticks _ _ _ F k J). unfold ordinary. destruct F as [T F]. specialize (F k J). split; apply real_le; rewrite ?real_opp, real_units;
      change (zq (2 ^ 32)) with (Q2Qc (inject_Z 4294967296)); rewrite real_z; assert (Bz : (- 42949672960000 <= t * f k <= 42949672960000)%Z) by nia;
      destruct Bz as [B1 B2]; apply IZR_le in B1; apply IZR_le in B2; lra. }
    assert (X : forall m nm f k, (k < n)%nat -> holds nm st t f -> fits t f N -> (exists j, (j <= k)%nat /\ given nm ob j = Fin (units m)) -> ordinary (Fin (units m))).
    { intros m nm f k J Hf Ff (j & J1 & J2). rewrite <- G in J2 by lia. rewrite (Hf j) in J2 by lia. assert (J3 : prices t f j = units m) by congruence. rewrite <- J3. apply OT; [exact Ff|lia]. }
    assert (A : forall k, (k < n)%nat -> let x := FloatSpec.cell (fpch_high (nat_arg p) (column t h N)) k in apart 0 x (shown "highest_high" st k) /\ ordinary (shown "highest_high" st k)).
    { intros k J x. rewrite SH by exact J.
      destruct (channel_high_accuracy o raw b ob WR t h N k ltac:(lia) p K Fh ltac:(lia) (holds_known "high" t h ob k Hh G ltac:(lia))) as [B1 B2]. subst x.
      destruct (Nat.lt_ge_cases k (nat_arg p)) as [Lw|Lw].
      - destruct (B1 Lw) as [-> M]. split; [exact M|exact I].
      - destruct (B2 Lw) as (m & HI & -> & F & V). split; [exists m, m; split; [reflexivity|]; split; [lia|auto]|]. apply (X m "high" h k J Hh Fh).
        destruct HI as [(j & J1 & J2) _]. exists j. split; [lia|exact J2]. }
    assert (B : forall k, (k < n)%nat -> let x := FloatSpec.cell (fpch_low (nat_arg p) (column t l N)) k in apart 0 x (shown "lowest_low" st k) /\ ordinary (shown "lowest_low" st k)).
    { intros k J x. rewrite SH by exact J.
      destruct (channel_low_accuracy o raw b ob WR t l N k ltac:(lia) p K Fl ltac:(lia) (holds_known "low" t l ob k Hl G ltac:(lia))) as [B1 B2]. subst x.
      destruct (Nat.lt_ge_cases k (nat_arg p)) as [Lw|Lw].
      - destruct (B1 Lw) as [-> M]. split; [exact M|exact I].
      - destruct (B2 Lw) as (m & HI & -> & F & V). split; [exists m, m; split; [reflexivity|]; split; [lia|auto]|]. apply (X m "low" l k J Hl Fl).
        destruct HI as [(j & J1 & J2) _]. exists j. split; [lia|exact J2]. }
    assert (Z0 : forall a b, ordinary a -> ordinary b -> clear (0 + 0) a b) by (intros x y Ox Oy; split; [exact Ox|split; [exact Oy|]]; destruct x, y; auto).
    assert (P : (1 <= n)%nat -> ordinary (SignalSpec.price "close" st 1)).
    { intro N1. unfold SignalSpec.price. rewrite E, (H (n - 1)%nat) by lia. apply OT; [exact Fc|lia]. }
    eapply same_signal; [symmetry; exact E|reflexivity|exact W|reflexivity|].
    intros N1 u v [I|[I|[]]]; injection I as <- <-; exists 0%Z, 0%Z; (split; [exact (tick_apart "close" t c N 1 H (fits_ticks _ _ _ Fc) E LN ltac:(lia))|]).
    - destruct (A (n - 1)%nat ltac:(lia)) as [A1 A2]. split; [exact A1|]. apply Z0; [exact (P N1)|exact A2].
    - destruct (B (n - 1)%nat ltac:(lia)) as [A1 A2]. split; [exact A1|]. apply Z0; [exact (P N1)|exact A2].
  Qed.
End Signals.

(** * CycleSim: a simulation on prices and signals that repeat themselves. *)
From Coq Require Import ZArith QArith Qcanon Bool List PeanoNat Lia.
From Verif Require Import Num NumFacts RoundFacts Pandas Sim Frame SimSpec SimProofs SimLemmas Ind Signal Api RangeSpec RangeFacts ValueSpec FormulaSpec SignalSpec MirrorSpec QuietSpec QuietSim BooksSpec Books TurnSpec TurnSim ResumeSim.
Import ListNotations.
Open Scope Qc_scope.

Lemma data_len c m f sgs : (length sgs <= length c)%nat -> length (data (simulate c m f sgs)) = length c.
Proof. intro L. rewrite simulate_general by exact L. rewrite app_length, repeat_length, days_length, combine_length, firstn_length. lia. Qed.
Section Prefix.
  Variables (d d' : list simrow) (n : nat).
  Hypothesis E : firstn n d = firstn n d'. Hypothesis L : (n <= length d)%nat. Hypothesis L' : (n <= length d')%nat.
  Lemma prefix_row i : (i < n)%nat -> row_ d i = row_ d' i.
  Proof. intro I. unfold row_. rewrite <- (firstn_nth_lt d n i simrow0 I), <- (firstn_nth_lt d' n i simrow0 I), E. reflexivity. Qed.
  Lemma prefix_longs i : (i < n)%nat -> open_longs d i = open_longs d' i.
  Proof.
    intro I. rewrite <- (firstn_skipn n d), <- (firstn_skipn n d'). rewrite !open_longs_app by (rewrite firstn_length; lia). rewrite E. reflexivity.
  Qed.
  Lemma prefix_shorts i : (i < n)%nat -> open_shorts d i = open_shorts d' i.
  Proof.
    intro I. rewrite <- (firstn_skipn n d), <- (firstn_skipn n d'). rewrite !open_shorts_app by (rewrite firstn_length; lia). rewrite E. reflexivity.
  Qed.
End Prefix.

Section Cycle.
  Variables (ps : list Qc) (m : option num) (f : Qc) (sgs : list signal) (k p : nat).
  Hypothesis F : 1 <= f. Hypothesis L : (length sgs <= length ps)%nat.
  Notation d := (data (simulate (map Fin ps) m (Fin f) sgs)).
  Hypothesis RP : forall j, (k <= j)%nat -> (j + p < length sgs)%nat -> nth (j + p) ps 0 = nth j ps 0.
  Hypothesis RS : forall j, (k <= j)%nat -> (j + p < length sgs)%nat -> nth (j + p) sgs Hold = nth j sgs Hold.
  Hypothesis OL : open_longs d k = 0%nat. Hypothesis OS : open_shorts d k = 0%nat.
  Hypothesis OL' : open_longs d (k + p) = 0%nat. Hypothesis OS' : open_shorts d (k + p) = 0%nat.
  Lemma next_cycle i : (k <= i)%nat -> (i + p < length sgs)%nat -> let r := row_ d (i + p) in let r' := row_ d i in
    act d (i + p) = act d i /\ x_exposure r = x_exposure r' /\ x_portfolio_value r = x_portfolio_value r' /\ open_longs d (i + p) = open_longs d i /\ open_shorts d (i + p) = open_shorts d i /\
    nsub (x_earnings r) (x_earnings (row_ d (k + p))) = nsub (x_earnings r') (x_earnings (row_ d k)).
  Proof.
    intros KI I. cbv zeta. set (n := length sgs) in *.
    set (ps1 := firstn n ps). set (ps2 := firstn (n - p) ps). set (s2 := firstn (n - p) sgs).
    assert (LS1 : length ps1 = n) by (unfold ps1; rewrite firstn_length; lia).
    assert (LS2 : length ps2 = (n - p)%nat) by (unfold ps2; rewrite firstn_length; lia).
    assert (LS3 : length s2 = (n - p)%nat) by (unfold s2; rewrite firstn_length; fold n; lia).
    set (d1 := data (simulate (map Fin ps1) m (Fin f) sgs)). set (d2 := data (simulate (map Fin ps2) m (Fin f) s2)).
    assert (E1 : firstn n d1 = firstn n d).
    { apply simulate_online; try (rewrite map_length; lia); try (fold n; lia); [|reflexivity]. rewrite !firstn_map. unfold ps1. rewrite firstn_firstn, Nat.min_id. reflexivity. }
    assert (E2 : firstn (n - p) d2 = firstn (n - p) d).
    { apply simulate_online; try (rewrite map_length; lia); try (fold n; lia). - rewrite !firstn_map. unfold ps2. rewrite firstn_firstn, Nat.min_id. reflexivity.
      - unfold s2. rewrite firstn_firstn, Nat.min_id. reflexivity. }
    assert (LD : (n <= length d)%nat) by (rewrite data_len; rewrite map_length; fold n; lia).
    assert (LD1 : (n <= length d1)%nat) by (unfold d1; rewrite data_len; rewrite map_length; fold n; lia).
    assert (LD2 : (n - p <= length d2)%nat) by (unfold d2; rewrite data_len; rewrite map_length; lia).
    pose proof (prefix_row d1 d n E1) as A1. pose proof (prefix_row d2 d (n - p) E2) as A2.
    pose proof (prefix_longs d1 d n E1 LD1 LD) as B1. pose proof (prefix_longs d2 d (n - p) E2 LD2 ltac:(lia)) as B2.
    pose proof (prefix_shorts d1 d n E1 LD1 LD) as C1. pose proof (prefix_shorts d2 d (n - p) E2 LD2 ltac:(lia)) as C2.
    assert (EP : skipn (k + p) ps1 = skipn k ps2).
    { apply (nth_ext _ _ 0 0); [rewrite !skipn_length; lia|]. rewrite skipn_length. intros j J. rewrite !nth_skip. unfold ps1, ps2. rewrite !firstn_nth_lt by lia.
      replace (k + p + j)%nat with (k + j + p)%nat by lia. apply RP; lia. }
    assert (EA : skipn (k + p) sgs = skipn k s2).
    { apply (nth_ext _ _ Hold Hold); [rewrite !skipn_length; fold n; lia|]. rewrite skipn_length. fold n. intros j J. rewrite !nth_skip. unfold s2. rewrite firstn_nth_lt by lia.
      replace (k + p + j)%nat with (k + j + p)%nat by lia. apply RS; fold n; lia. }
    rewrite <- B1 in OL' by lia. rewrite <- C1 in OS' by lia. rewrite <- B2 in OL by lia. rewrite <- C2 in OS by lia.
    pose proof (runs_resumed ps1 ps2 m f sgs s2 (k + p) k F ltac:(fold n; lia) ltac:(lia) OL' OS' OL OS EP EA (i - k) ltac:(fold n; lia)) as Q. cbv zeta in Q.
    replace (k + p + (i - k))%nat with (i + p)%nat in Q by lia. replace (k + (i - k))%nat with i in Q by lia. fold d1 d2 in Q.
    unfold act in *. rewrite !A1, !A2, B1, B2, C1, C2 in Q by lia. exact Q.
  Qed.
End Cycle.

Section Cycles.
  Variables (ps : list Qc) (m : option num) (f : Qc) (sgs : list signal) (k p : nat).
  Hypothesis F : 1 <= f. Hypothesis L : (length sgs <= length ps)%nat.
  Notation d := (data (simulate (map Fin ps) m (Fin f) sgs)).
  Hypothesis RP : forall j, (k <= j)%nat -> (j + p < length sgs)%nat -> nth (j + p) ps 0 = nth j ps 0.
  Hypothesis RS : forall j, (k <= j)%nat -> (j + p < length sgs)%nat -> nth (j + p) sgs Hold = nth j sgs Hold.
  Hypothesis OL : open_longs d k = 0%nat. Hypothesis OS : open_shorts d k = 0%nat.
  Hypothesis OL' : open_longs d (k + p) = 0%nat. Hypothesis OS' : open_shorts d (k + p) = 0%nat.
  Notation earned j := (qv (x_earnings (row_ d j))).
  Lemma earned_fin j : (j < length sgs)%nat -> x_earnings (row_ d j) = Fin (earned j).
  Proof. intro J. rewrite (sp_earnings ps m f) by (auto; lia). reflexivity. Qed.
  Lemma all_cycles t : forall i, (k <= i)%nat -> (i + t * p < length sgs)%nat -> let r := row_ d (i + t * p) in let r' := row_ d i in
    act d (i + t * p) = act d i /\ x_exposure r = x_exposure r' /\ x_portfolio_value r = x_portfolio_value r' /\ open_longs d (i + t * p) = open_longs d i /\ open_shorts d (i + t * p) = open_shorts d i /\
    x_earnings r = Fin (earned i + nq t * (earned (k + p) - earned k)).
  Proof.
    induction t as [|t IH]; intros i KI I; cbv zeta.
    - replace (i + 0 * p)%nat with i in * by lia. do 5 (split; [reflexivity|]). etransitivity; [apply earned_fin; exact I|]. f_equal. assert (Z0 : nq 0 = 0) by (apply Qc_is_canon; reflexivity). rewrite Z0. ring.
    - replace (i + S t * p)%nat with (i + t * p + p)%nat in * by (cbn; lia).
      destruct (IH i KI ltac:(lia)) as (A & X & V & O1 & O2 & E). destruct (next_cycle ps m f sgs k p F L RP RS OL OS OL' OS' (i + t * p) ltac:(lia) I) as (A' & X' & V' & O1' & O2' & E').
      cbv zeta in *. rewrite A', X', V', O1', O2', A, X, V, O1, O2. do 5 (split; [reflexivity|]).
      rewrite E in E'. pose proof (earned_fin (i + t * p + p) ltac:(lia)) as Y1. pose proof (earned_fin (k + p) ltac:(lia)) as Y2. pose proof (earned_fin k ltac:(lia)) as Y3. etransitivity; [exact Y1|]. rewrite Y1, Y2, Y3 in E'. cbn [nsub nadd nneg] in E'. clear Y1 Y2 Y3.
      apply (f_equal qv) in E'. cbn [qv] in E'. f_equal. change (nq (S t)) with (qnat (S t)); rewrite qnat_S; change (qnat t) with (nq t).
      revert E'. cbn [qv]. repeat match goal with |- context [qv (x_earnings ?a)] => generalize (qv (x_earnings a)); intro end. intro E'.
      match goal with |- ?a = _ => match type of E' with a + - ?b = _ => transitivity (a + - b + b); [ring|rewrite E'; ring] end end.
  Qed.
End Cycles.

(** * RecentSig: the advice after old rows have been cut off. *)
From Coq Require Import ZArith QArith Qcanon Bool List String PeanoNat Lia Sorted Permutation.
From Verif Require Import Num NumFacts RoundFacts Pandas Sim Frame FrameSpec FrameProofs SimSpec SimProofs SimLemmas SimLimit Ind Signal Api IndSpec SeriesFacts Lengths Causal IndFacts Shape ApiSpec ApiCheck ApiProofs ApiLemmas RangeSpec Cells RangeFacts RangeMore Publish RangeApi ValueSpec ValueFacts ValueMore Recur ValueApi CumulApi.
From Verif Require Import SteadySig FormulaSpec SignalSpec SignalApi SignalApi2 SignalApi3 OneWaySpec OneWay OneWayApi QuietSpec QuietSim QuietApi MirrorSims MemorySpec MemoryFacts MemoryApi RecentSpec.
Import ListNotations.
Open Scope list_scope. Open Scope string_scope.
Notation price := SignalSpec.price.

Section Two.
  Variables (o : oracle) (c : ctor) (raw raw' : rawframe) (b b' : bool) (st st' : obj) (k k' n : nat).
  Hypothesis W : working o c raw b st. Hypothesis W' : working o c raw' b' st'.
  Hypothesis DS : days_shown st = S k. Hypothesis DS' : days_shown st' = S k'. Hypothesis KK : (n <= k)%nat.
  Hypothesis RE : advice_reach (asked c) = Some n. Hypothesis NK : (n <= k')%nat.
  Hypothesis AG : forall name m e, In name (ti_names (asked c)) -> lookback (asked c) name = Some m -> (1 <= e)%nat -> (m + e <= S n)%nat -> ago name st' e = ago name st e.
  Hypothesis PR : In "close" (required (asked c)) -> forall e, (1 <= e <= S n)%nat -> price "close" st' e = price "close" st e.

  Lemma recent_ti name m e : In name (ti_names (asked c)) -> lookback (asked c) name = Some m -> (1 <= e)%nat -> (m + e <= S n)%nat -> iat (col name (ob_ti st')) e = iat (col name (ob_ti st)) e.
  Proof.
    intros I L E M. destruct (working_sound _ _ _ _ _ W) as [SD EI]. destruct (working_sound _ _ _ _ _ W') as [SD' EI'].
    rewrite (iat_ago st name e SD), (iat_ago st' name e SD') by (first [rewrite EI; exact I|rewrite EI'; exact I|lia]). rewrite (AG name m e) by auto. reflexivity.
  Qed.
  Lemma recent_close e : is_dpo (asked c) = false -> In "close" (required (asked c)) -> (1 <= e <= S n)%nat -> iat (col "close" (ob_input st')) e = iat (col "close" (ob_input st)) e.
  Proof.
    intros D I E. destruct (working_sound _ _ _ _ _ W) as [SD EI]. destruct (working_sound _ _ _ _ _ W') as [SD' EI'].
    pose proof (days_same _ SD ltac:(rewrite EI; exact D)) as X. pose proof (days_same _ SD' ltac:(rewrite EI'; exact D)) as X'.
    rewrite (iat_price st "close" e SD), (iat_price st' "close" e SD') by (first [rewrite EI; cbn; auto; fail|rewrite EI'; cbn; auto; fail|lia]). rewrite PR by auto. reflexivity.
  Qed.
  Lemma recent_enough m : (m <= S n)%nat -> Nat.ltb (List.length (rows (ob_ti st))) m = false /\ Nat.ltb (List.length (rows (ob_ti st'))) m = false.
  Proof. intro M. change (List.length (rows (ob_ti st))) with (days_shown st). change (List.length (rows (ob_ti st'))) with (days_shown st'). rewrite DS, DS'. split; apply Nat.ltb_ge; lia. Qed.
  Lemma recent_wad : c = cWAD -> get_ti_signal st' = get_ti_signal st.
  Proof.
    intro EC. rewrite EC in *. injection RE as <-.
    pose proof (wad_answers W) as [_ A]. pose proof (wad_answers W') as [_ A']. specialize (A ltac:(lia)). specialize (A' ltac:(lia)). cbv zeta in A, A'.
    assert (X : forall e, (1 <= e <= 30)%nat -> ago "wad" st' e = ago "wad" st e) by (intros e E; apply (AG "wad" 1%nat e); [cbn; tauto|reflexivity|lia|lia]).
    assert (Y : forall e, (1 <= e <= 30)%nat -> price "close" st' e = price "close" st e) by (intros e E; apply PR; [cbn; tauto|lia]).
    assert (L : forall f g : nat -> num, (forall e, (1 <= e <= 30)%nat -> f e = g e) -> (lowest_now f 30 <-> lowest_now g 30) /\ (highest_now f 30 <-> highest_now g 30)).
    { intros f g Q. unfold lowest_now, highest_now. rewrite (Q 1%nat) by lia. split; (split; intros [U V]; (split; [exact U|intros e E; specialize (V e E); rewrite Q in * by lia; exact V])). }
    destruct (L _ _ X) as [L1 L2]. destruct (L _ _ Y) as [L3 L4]. rewrite L1, L2, L3, L4 in A'. clear L1 L2 L3 L4 X Y L.
    destruct A as (A1 & A2 & A3). destruct A' as (B1 & B2 & B3).
    destruct (working_sound _ _ _ _ _ W) as [SD EI]. destruct (safe_signal st SD) as [s G]; [rewrite EI; reflexivity|]. rewrite G in *.
    destruct s; [apply B1, A1|apply B3, A3|apply B2, A2]; reflexivity.
  Qed.
  Lemma recent_signal : get_ti_signal st' = get_ti_signal st.
  Proof.
    destruct (working_sound _ _ _ _ _ W) as [SD EI]. destruct (working_sound _ _ _ _ _ W') as [SD' EI'].
    assert (WA : asked c = iWAD -> get_ti_signal st' = get_ti_signal st).
    { intro Q. apply recent_wad. destruct c; try reflexivity; cbn [asked] in Q; repeat (match type of Q with context [match ?x with _ => _ end] => destruct x end); discriminate Q. }
    pose proof recent_ti as T. pose proof recent_close as C. pose proof recent_enough as G.
    unfold get_ti_signal in WA |- *. rewrite EI, EI' in WA |- *. clear W W' EI EI' SD SD' AG PR.
    destruct (asked c) as [] eqn:EA; try discriminate RE; try (apply WA; reflexivity); clear WA.
    all: try match type of RE with advice_reach (iMA _ ?ty) = _ => destruct ty; try discriminate RE end.
    all: cbn [advice_reach] in RE; injection RE as <-.
    all: unfold signal_of, guard, level_cross, line_cross, three; cbv zeta; cbn [ma_name].
    all: repeat match goal with |- context [Nat.ltb (List.length (rows (ob_ti st))) ?m] => destruct (G m ltac:(lia)) as [-> ->] end.
    all: repeat match goal with
      | |- context [iat (col ?nm (ob_ti st')) ?e] => rewrite (T nm _ e ltac:(cbn; tauto) eq_refl ltac:(lia) ltac:(lia))
      | |- context [iat (col ?nm (ob_input st')) ?e] => rewrite (C e eq_refl ltac:(cbn; tauto) ltac:(lia)) end.
    all: reflexivity.
  Qed.
End Two.

Section Cut.
  Variables (o : oracle) (c : ctor) (raw : rawframe) (b : bool) (ob ob' : obj) (t : Z) (n : nat).
  Hypothesis W : wf_raw raw. Hypothesis N : NoDup (dates raw).
  Hypothesis H : snd (construct o c (RFrame raw) (VBool b)) = Ok ob.
  Hypothesis H' : snd (construct o c (RFrame (since t raw)) (VBool b)) = Ok ob'.
  Hypothesis G : b = true \/ nested (ob_ind ob) = true -> gapless (required (ob_ind ob)) raw.
  Hypothesis RE : advice_reach (asked c) = Some n.
  Notation d := (earlier t raw).

  Lemma cut_ind : ob_ind ob = asked c /\ ob_ind ob' = asked c.
  Proof. split; [exact (ind_asked o raw b ob W c H)|exact (ind_asked o (since t raw) b ob' (since_wf t raw W) c H')]. Qed.
  Lemma cut_dpo : is_dpo (ob_ind ob) = false /\ is_dpo (ob_ind ob') = false.
  Proof. destruct cut_ind as [-> ->]. clear - RE. destruct (asked c); try discriminate RE; split; reflexivity. Qed.
  Lemma cut_dates : NoDup (dates (since t raw)).
  Proof.
    unfold dates, since. cbn [r_rows]. clear - N. unfold dates in N. induction (r_rows raw) as [|r l IH]; [constructor|]. cbn [map filter] in *. inversion N as [|x y P Q]; subst.
    destruct (Z.leb t (fst r)); [|auto]. cbn [map]. constructor; [|auto]. intro I. apply P. apply in_map_iff in I as (z & <- & I). apply filter_In in I as [I _]. apply in_map. exact I.
  Qed.
  Lemma cut_given : days_given ob = (d + days_given ob')%nat /\
    (In "close" (required (asked c)) -> forall j, given "close" ob' j = given "close" ob (d + j)).
  Proof.
    destruct (construct_view _ _ _ _ _ W H) as (f & V). destruct (construct_view _ _ _ _ _ (since_wf t _ W) H') as (f' & V').
    split.
    - pose proof (index_sorted _ _ _ _ W (v_val _ _ _ _ _ _ V)) as X. pose proof (index_sorted _ _ _ _ (since_wf t _ W) (v_val _ _ _ _ _ _ V')) as X'.
      assert (TX : tailed (earlier t raw) 0 (index f) (index f')) by (rewrite X, X'; apply T_since).
      destruct TX as [L _]. rewrite (view_days V), (view_days V'), <- !len_index. exact L.
    - intros I j. destruct cut_ind as [E1 E2]. assert (I1 : In "close" (required (ob_ind ob))) by (rewrite E1; exact I).
      rewrite (view_given V' "close" j I), (view_given V "close" _ I).
      assert (U : unfilled (required (asked c)) b raw) by (rewrite <- E1; destruct b; [apply gapless_unfilled; apply G; auto|left; reflexivity]).
      exact (T_nth _ _ _ _ j NaN (two_col o _ raw b t ob ob' f f' W V V' "close" U I) (Nat.le_0_l j)).
  Qed.
  Lemma cut_shown name m j : In name (ti_names (asked c)) -> lookback (asked c) name = Some m -> (m <= j)%nat -> (j < days_given ob')%nat -> shown name ob' j = shown name ob (d + j).
  Proof.
    intros I L M J. destruct cut_ind as [E1 E2]. destruct cut_dpo as [_ D]. pose proof (construct_sound _ _ _ _ _ W H) as SO. pose proof (construct_sound _ _ _ _ _ (since_wf t raw W) H') as SO'.
    apply (construct_since o c raw b ob ob' t name m j W H H' G); [unfold get_ti_data; destruct SO as (X & _); rewrite X, E1; exact I|rewrite E1; exact L|exact M|].
    pose proof (days_same _ SO' D) as X. unfold days_shown in X. rewrite <- X. exact J.
  Qed.
  Lemma cut_day k : (n <= k)%nat -> (k < days_given ob')%nat -> get_ti_signal (limited k ob') = get_ti_signal (limited (d + k) ob).
  Proof.
    intros NK K. destruct cut_given as [DD GC]. destruct cut_dpo as [D1 D2]. pose proof (since_wf t raw W) as W'. pose proof cut_dates as N'.
    pose proof (limited_shown o c raw b ob (d + k) W N H D1 ltac:(lia)) as DS. pose proof (limited_shown o c _ b ob' k W' N' H' D2 K) as DS'.
    apply (recent_signal o c raw (since t raw) b b (limited (d + k) ob) (limited k ob') (d + k) k n (lim_working o raw b ob W c _ H) (lim_working o _ b ob' W' c _ H') DS DS' ltac:(lia) RE NK).
    - intros name m e I L E M. unfold ago. rewrite DS, DS'.
      rewrite (limited_cell o c _ b ob' k name (S k - e) W' N' H' D2 K ltac:(lia)), (limited_cell o c raw b ob (d + k) name (S (d + k) - e) W N H D1 ltac:(lia) ltac:(lia)).
      rewrite (cut_shown name m) by (auto; lia). f_equal. lia.
    - intros I e E. unfold SignalSpec.price. destruct (limited_days o c raw b ob (d + k) W N H ltac:(lia)) as [DG GV]. destruct (limited_days o c _ b ob' k W' N' H' K) as [DG' GV'].
      rewrite DG, DG', GV, GV' by lia. rewrite (GC I). f_equal. lia.
  Qed.
  Lemma cut_whole : (n < days_given ob')%nat -> get_ti_signal ob' = get_ti_signal ob.
  Proof.
    intros NK. destruct cut_given as [DD GC]. destruct cut_dpo as [D1 D2]. pose proof (since_wf t raw W) as W'.
    pose proof (days_same _ (construct_sound _ _ _ _ _ W H) D1) as DS. pose proof (days_same _ (construct_sound _ _ _ _ _ W' H') D2) as DS'.
    apply (recent_signal o c raw (since t raw) b b ob ob' (d + (days_given ob' - 1)) (days_given ob' - 1) n); try assumption; try lia.
    - split; [exact W|]. exists ob. auto.
    - split; [exact W'|]. exists ob'. auto.
    - intros name m e I L E M. unfold ago. rewrite <- DS, <- DS'. rewrite (cut_shown name m) by (auto; lia). f_equal. lia.
    - intros I e E. unfold SignalSpec.price. rewrite (GC I). f_equal. lia.
  Qed.
  Lemma cut_runs cv cv' me me' fa fa' s s' ss ss' k : snd (get_ti_simulation ob cv me fa) = Ok (s, ss) -> snd (get_ti_simulation ob' cv' me' fa') = Ok (s', ss') ->
    (n <= k)%nat -> (k < days_given ob')%nat -> x_signal (row_ (data s') k) = x_signal (row_ (data s) (d + k)).
  Proof.
    intros R R' NK K. destruct cut_given as [DD _]. destruct cut_dpo as [D1 D2]. pose proof (construct_sound _ _ _ _ _ W H) as SO. pose proof (construct_sound _ _ _ _ _ (since_wf t raw W) H') as SO'.
    destruct (simulation_inv _ _ _ _ _ _ SO R) as (ps & m0 & x & a & A & -> & L & _ & P). destruct (simulation_inv _ _ _ _ _ _ SO' R') as (ps' & m0' & x' & a' & A' & -> & L' & _ & P').
    assert (LT : List.length (rows (ob_ti ob)) = days_given ob) by (rewrite ti_shorter by (auto using not_dpo); unfold days_given; apply len_index).
    assert (LT' : List.length (rows (ob_ti ob')) = days_given ob') by (rewrite ti_shorter by (auto using not_dpo); unfold days_given; apply len_index).
    assert (LC : List.length ps = days_given ob) by (rewrite (start_len _ _ _ _ _ _ _ A); unfold days_given; apply len_index).
    assert (LC' : List.length ps' = days_given ob') by (rewrite (start_len _ _ _ _ _ _ _ A'); unfold days_given; apply len_index).
    destruct (simulate_rows ps m0 x a (d + k) ltac:(lia) ltac:(lia)) as (Y & _). destruct (simulate_rows ps' m0' x' a' k ltac:(lia) ltac:(lia)) as (Y' & _).
    unfold row_ in *. rewrite Y, Y'. pose proof (cut_day k NK K) as Q. rewrite (P (d + k)%nat ltac:(lia)), (P' k ltac:(lia)) in Q. congruence.
  Qed.
End Cut.

(** two histories that agree from a date on *)
Lemma rewritten o c raw1 raw2 b ob1 ob2 ob t n : wf_raw raw1 -> wf_raw raw2 ->
  snd (construct o c (RFrame raw1) (VBool b)) = Ok ob1 -> snd (construct o c (RFrame raw2) (VBool b)) = Ok ob2 ->
  since t raw1 = since t raw2 -> snd (construct o c (RFrame (since t raw1)) (VBool b)) = Ok ob ->
  (b = true \/ nested (asked c) = true -> gapless (required (asked c)) raw1 /\ gapless (required (asked c)) raw2) ->
  advice_reach (asked c) = Some n -> (n < days_given ob)%nat -> get_ti_signal ob1 = get_ti_signal ob2.
Proof.
  intros W1 W2 H1 H2 E H G RE D. pose proof H as H0. rewrite E in H0.
  rewrite <- (cut_whole o c raw1 b ob1 ob t n W1 H1 H), <- (cut_whole o c raw2 b ob2 ob t n W2 H2 H0); auto.
  - rewrite (ind_asked o raw2 b ob2 W2 c H2). intro X. apply G, X.
  - rewrite (ind_asked o raw1 b ob1 W1 c H1). intro X. apply G, X.
Qed.

(** On Balance Volume: its level is forgotten with the first rows, its rises are not *)
Lemma cut_obv o raw b ob ob' t cx vx : wf_raw raw ->
  snd (construct o cOBV (RFrame raw) (VBool b)) = Ok ob -> snd (construct o cOBV (RFrame (since t raw)) (VBool b)) = Ok ob' ->
  unfilled ["close"; "volume"] b raw ->
  known (given "close" ob) (days_given ob - 1) cx -> known (given "volume" ob) (days_given ob - 1) vx -> (3 <= days_given ob')%nat -> get_ti_signal ob' = get_ti_signal ob.
Proof.
  intros W H H' U KC KV D3. pose proof (since_wf t raw W) as W'.
  destruct (construct_view _ _ _ _ _ W H) as (f & V). destruct (construct_view _ _ _ _ _ W' H') as (f' & V').
  assert (DD : days_given ob = (earlier t raw + days_given ob')%nat).
  { pose proof (index_sorted _ _ _ _ W (v_val _ _ _ _ _ _ V)) as X. pose proof (index_sorted _ _ _ _ W' (v_val _ _ _ _ _ _ V')) as X'.
    assert (TX : tailed (earlier t raw) 0 (index f) (index f')) by (rewrite X, X'; apply T_since). destruct TX as [L _]. rewrite (view_days V), (view_days V'), <- !len_index. exact L. }
  assert (WK : working o cOBV raw b ob) by (split; [exact W|]; exists ob; auto). assert (WK' : working o cOBV (since t raw) b ob') by (split; [exact W'|]; exists ob'; auto).
  pose proof (construct_sound _ _ _ _ _ W H) as SO. pose proof (construct_sound _ _ _ _ _ W' H') as SO'.
  destruct (working_sound _ _ _ _ _ WK) as [SD EI]. destruct (working_sound _ _ _ _ _ WK') as [_ EI'].
  pose proof (days_same _ SO ltac:(rewrite EI; reflexivity)) as DS. pose proof (days_same _ SO' ltac:(rewrite EI'; reflexivity)) as DS'.
  assert (X : exists at_t, forall e, (1 <= e <= 3)%nat -> exists q, ago "obv" ob e = Fin q /\ ago "obv" ob' e = Fin (q - at_t)%Qc).
  { destruct (obv_since o raw b ob ob' t W 0 cx vx H H' U) as (a & q0 & A0 & _); [intros j J; apply KC; lia|intros j J; apply KV; lia|]. exists a. intros e E.
    destruct (obv_since o raw b ob ob' t W (days_given ob' - e) cx vx H H' U) as (a' & q & A & B & C); [intros j J; apply KC; lia|intros j J; apply KV; lia|].
    assert (a' = a) by congruence. subst a'. exists q. unfold ago. rewrite <- DS, <- DS'. split; [|exact C]. rewrite <- B. f_equal. lia. }
  destruct X as (a & X). destruct (X 1%nat ltac:(lia)) as (q1 & E1 & F1). destruct (X 2%nat ltac:(lia)) as (q2 & E2 & F2). destruct (X 3%nat ltac:(lia)) as (q3 & E3 & F3).
  pose proof (three_answers cOBV "obv" Sell Buy eq_refl WK) as [_ A]. pose proof (three_answers cOBV "obv" Sell Buy eq_refl WK') as [_ A']. specialize (A ltac:(lia)). specialize (A' ltac:(lia)).
  unfold rising3, falling3 in A, A'. rewrite E1, E2, E3 in A. rewrite F1, F2, F3 in A'.
  assert (L : forall x y, less (Fin (x - a)%Qc) (Fin (y - a)%Qc) <-> less (Fin x) (Fin y)) by (intros x y; cbn [less]; split; intro Q; qlra). rewrite !L in A'. clear L.
  destruct A as (A1 & A2 & A3). destruct A' as (B1 & B2 & B3).
  destruct (safe_signal ob SD) as [s G]; [rewrite EI; reflexivity|]. rewrite G in *.
  destruct s; [apply B2, A2|apply B3, A3|apply B1, A1]; reflexivity.
Qed.

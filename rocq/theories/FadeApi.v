(** * FadeApi: what recursive averages keep of prices before the common days. *)
From Coq Require Import ZArith QArith Qcanon Bool List String PeanoNat Lia.
From Verif Require Import Num NumFacts RoundFacts Pandas Sim Frame FrameSpec FrameProofs Ind Signal Api IndSpec SeriesFacts Lengths Causal IndFacts Shape ApiSpec ApiCheck ApiProofs ApiLemmas RangeSpec Cells RangeFacts RangeMore Publish RangeApi ValueSpec ValueFacts ValueMore Recur ValueApi CumulApi.
From Verif Require Import FormulaSpec Starts Formula Formula2 Formula3 Formula4 Line Formula5 Formula6 FormulaApi IdentFacts MirrorSpec MirrorApi3 OrderFacts OrderApi SwaySpec SwayFacts.
Import ListNotations.
Open Scope list_scope. Open Scope string_scope. Open Scope Qc_scope.

Lemma from_ge2 a k v : (a <= k)%nat -> from a k v = v. Proof. intro H. unfold from. destruct (Nat.ltb_spec k a); [lia|reflexivity]. Qed.
Lemma near_apart d x y : apart_by d x y -> near (d + units4 1) (Fin (r4 x)) (Fin (r4 y)). Proof. intros [A B]. apply nr_r4; assumption. Qed.

Section Fade.
  Variables (o : oracle) (raw raw' : rawframe) (b b' : bool) (ob ob' : obj) (k k' m : nat) (lo w : Qc) (c c' : nat -> Qc).
  Hypothesis W : wf_raw raw. Hypothesis W' : wf_raw raw'.
  Hypothesis K : known (given "close" ob) k c. Hypothesis K' : known (given "close" ob') k' c'.
  Hypothesis ME : meets m k k' c c'. Hypothesis I : inside lo w k c. Hypothesis I' : inside lo w k' c'.
  Hypothesis M : (m <= k)%nat. Hypothesis M' : (m <= k')%nat.
  Notation both c := (twice c o raw raw' b b' ob ob').
  Notation kept n q u := (near (q * w + units4 u) (shown n ob k) (shown n ob' k')).
  Ltac start := let A := fresh "A" in let B := fresh "B" in intros [A B].
  Ltac period p := assert (P : (1 <= nat_arg p)%nat) by (let fr := fresh in let V := fresh in let VV := fresh in look fr V VV; lia).
  Notation s := (k - m)%nat.
  Notation s' := (k' - m)%nat.
  Lemma common i : (1 <= i <= m)%nat -> c (s + i)%nat = c' (s' + i)%nat.
  Proof. intro J. replace (s + i)%nat with (k - (m - i))%nat by lia. replace (s' + i)%nat with (k' - (m - i))%nat by lia. apply ME. lia. Qed.
  Lemma inside_less n j f : inside lo w n f -> (j <= n)%nat -> inside lo w j f. Proof. intros H J i L. apply H. lia. Qed.
  (** the averages i common days later *)
  Lemma first_average p i : (1 <= p)%nat -> (i <= m)%nat -> apart_by ((1 - span p) ^ i * w) (ema_from 0 p c (s + i)) (ema_from 0 p c' (s' + i)).
  Proof.
    intros P L. rewrite <- left_0. apply ema_left; [exact P|lia|lia| |].
    - apply (apart_inside lo); (apply ema_inside; [exact P|lia|]); [apply (inside_less k)|apply (inside_less k')]; auto; lia.
    - intros j J. rewrite common by lia. apply apart_refl.
  Qed.
  Lemma average_inside a p n f j : (1 <= p)%nat -> (forall i, (a <= i <= n)%nat -> lo <= f i /\ f i <= lo + w) -> (a <= j <= n)%nat -> lo <= ema_from a p f j /\ ema_from a p f j <= lo + w.
  Proof.
    intros P H J. assert (C : forall v, ema_from a p (fun _ => v) j = v) by (intro v; unfold ema_from; induction (j - a)%nat as [|q IH]; cbn [ema]; [reflexivity|rewrite IH; ring]).
    split; [rewrite <- (C lo) at 1|rewrite <- (C (lo + w))]; (apply ema_from_le; [exact P|lia|]; intros i L; apply H; lia).
  Qed.
  Lemma second_average p i : (1 <= p)%nat -> (p - 1 <= s)%nat -> (p - 1 <= s')%nat -> (i <= m)%nat ->
    apart_by ((1 + nq i * span p) * (1 - span p) ^ i * w) (ema_from (p - 1) p (ema_from 0 p c) (s + i)) (ema_from (p - 1) p (ema_from 0 p c') (s' + i)).
  Proof.
    intros P S0 S1 L. rewrite <- left_1. apply ema_left; [exact P|lia|lia| |].
    - apply (apart_inside lo); [apply (average_inside _ _ k)|apply (average_inside _ _ k')]; try lia; intros j J; apply ema_inside; try lia; [apply (inside_less k)|apply (inside_less k')]; auto; lia.
    - intros j J. apply first_average; lia.
  Qed.
  Lemma third_average p i : (1 <= p)%nat -> (2 * (p - 1) <= s)%nat -> (2 * (p - 1) <= s')%nat -> (i <= m)%nat ->
    apart_by ((1 + nq i * span p + nq i * nq (S i) * span p * span p / zq 2) * (1 - span p) ^ i * w)
      (ema_from (2 * (p - 1)) p (ema_from (p - 1) p (ema_from 0 p c)) (s + i)) (ema_from (2 * (p - 1)) p (ema_from (p - 1) p (ema_from 0 p c')) (s' + i)).
  Proof.
    intros P S0 S1 L. rewrite <- left_2. apply ema_left; [exact P|lia|lia| |].
    - apply (apart_inside lo); [apply (average_inside _ _ k)|apply (average_inside _ _ k')]; try lia; intros j J.
      + apply (average_inside _ _ k); try lia; intros i0 J0; apply ema_inside; try lia; apply (inside_less k); auto; lia.
      + apply (average_inside _ _ k'); try lia; intros i0 J0; apply ema_inside; try lia; apply (inside_less k'); auto; lia.
    - intros j J. apply second_average; lia.
  Qed.
  Lemma ends : (s + m = k)%nat /\ (s' + m = k')%nat. Proof. lia. Qed.

  Lemma fade_exponential p : both (cMA p (VStr "exponential")) -> (nat_arg p - 1 + m <= k)%nat -> (nat_arg p - 1 + m <= k')%nat -> kept "ma-exponential" ((1 - span (nat_arg p)) ^ m) 1%Z.
  Proof.
    start. intros G G'. period p. rewrite (exponential_moving_average_shown o raw b ob W p k c A K), (exponential_moving_average_shown o raw' b' ob' W' p k' c' B K'). cbv zeta. rewrite !from_ge2 by lia.
    apply near_apart. pose proof (first_average (nat_arg p) m P (le_n _)) as F. destruct ends as [E E']. rewrite E, E' in F. exact F.
  Qed.
  Lemma fade_dema p : both (cDEMA p) -> (2 * (nat_arg p - 1) + m <= k)%nat -> (2 * (nat_arg p - 1) + m <= k')%nat -> kept "dema" ((zq 3 + nq m * span (nat_arg p)) * (1 - span (nat_arg p)) ^ m) 1%Z.
  Proof.
    start. intros G G'. period p. rewrite (double_exponential_shown o raw b ob W p k c A K), (double_exponential_shown o raw' b' ob' W' p k' c' B K'). cbv zeta. rewrite !from_ge2 by lia.
    apply near_apart. set (n := nat_arg p) in *. pose proof (first_average n m P (le_n _)) as [X Y]. pose proof (second_average n m P ltac:(lia) ltac:(lia) (le_n _)) as [X2 Y2].
    destruct ends as [E E']. rewrite E, E' in X, Y, X2, Y2. set (q := (1 - span n) ^ m) in *.
    replace ((zq 3 + nq m * span n) * q * w) with (zq 2 * (q * w) + (1 + nq m * span n) * q * w) by (replace (zq 3) with (1 + 1 + 1) by (apply Qc_is_canon; reflexivity); replace (zq 2) with (1 + 1) by (apply Qc_is_canon; reflexivity); ring).
    set (d := q * w) in *. set (d2 := (1 + nq m * span n) * q * w) in *. clearbody d d2. split; unfold zq; qlra.
  Qed.
  Lemma fade_tema p : both (cTEMA p) -> (3 * (nat_arg p - 1) + m <= k)%nat -> (3 * (nat_arg p - 1) + m <= k')%nat ->
    kept "tema" ((zq 7 + zq 4 * nq m * span (nat_arg p) + nq m * nq (S m) * span (nat_arg p) * span (nat_arg p) / zq 2) * (1 - span (nat_arg p)) ^ m) 1%Z.
  Proof.
    start. intros G G'. period p. rewrite (triple_exponential_shown o raw b ob W p k c A K), (triple_exponential_shown o raw' b' ob' W' p k' c' B K'). cbv zeta. rewrite !from_ge2 by lia.
    apply near_apart. set (n := nat_arg p) in *. pose proof (first_average n m P (le_n _)) as [X Y]. pose proof (second_average n m P ltac:(lia) ltac:(lia) (le_n _)) as [X2 Y2]. pose proof (third_average n m P ltac:(lia) ltac:(lia) (le_n _)) as [X3 Y3].
    destruct ends as [E E']. rewrite E, E' in X, Y, X2, Y2, X3, Y3. set (q := (1 - span n) ^ m) in *. set (t := nq m * nq (S m) * span n * span n / zq 2) in *.
    replace ((zq 7 + zq 4 * nq m * span n + t) * q * w) with (zq 3 * (q * w) + zq 3 * ((1 + nq m * span n) * q * w) + (1 + nq m * span n + t) * q * w)
      by (replace (zq 7) with (1 + 1 + 1 + 1 + 1 + 1 + 1) by (apply Qc_is_canon; reflexivity); replace (zq 4) with (1 + 1 + 1 + 1) by (apply Qc_is_canon; reflexivity); replace (zq 3) with (1 + 1 + 1) by (apply Qc_is_canon; reflexivity); ring).
    set (d := q * w) in *. set (d2 := (1 + nq m * span n) * q * w) in *. set (d3 := (1 + nq m * span n + t) * q * w) in *. clearbody d d2 d3. split; unfold zq; qlra.
  Qed.
  Lemma fade_ws p : both (cWS p) -> (nat_arg p - 1 + m <= k)%nat -> (nat_arg p - 1 + m <= k')%nat -> kept "ws" ((1 - 1 / nq (nat_arg p)) ^ m) 1%Z.
  Proof.
    start. intros G G'. period p. rewrite (wilders_smoothing_shown o raw b ob W p k c A K), (wilders_smoothing_shown o raw' b' ob' W' p k' c' B K'). cbv zeta. rewrite !from_ge2 by lia. set (n := nat_arg p) in *.
    apply near_apart. destruct ends as [E E']. rewrite <- E at 1. rewrite <- E' at 1. apply run_fades; [exact P|lia|lia| |exact common].
    apply (apart_inside lo); (apply run_inside; [exact P|apply mean_inside; [lia|lia|]| |lia]); (apply (inside_less k) + apply (inside_less k')); auto; lia.
  Qed.
  (** the MACD *)
  Lemma w_nonneg : 0 <= w. Proof. destruct (I 0%nat ltac:(lia)). qlra. Qed.
  Lemma r26 i : (1 - span 26) ^ S i = Q2Qc (25 # 27) * (1 - span 26) ^ i.
  Proof. cbn [Qcpower]. replace (1 - span 26) with (Q2Qc (25 # 27)) at 1 by (apply Qc_is_canon; reflexivity). reflexivity. Qed.
  Lemma r12_26 i : (1 - span 12) ^ i <= (1 - span 26) ^ i.
  Proof. apply pow_le; [destruct (span_01 12 ltac:(lia)); qlra|]. vm_compute. discriminate. Qed.
  Definition macd_line (f : nat -> Qc) (j : nat) : Qc := r4 (ema_from 0 12 f j) - r4 (ema_from 0 26 f j).
  Lemma macd_apart i : (i <= m)%nat -> apart_by (((1 - span 12) ^ i + (1 - span 26) ^ i) * w + units4 2) (macd_line c (s + i)) (macd_line c' (s' + i)).
  Proof.
    intro L. destruct (first_average 12 i ltac:(lia) L) as [X Y]. destruct (first_average 26 i ltac:(lia) L) as [X2 Y2]. unfold macd_line.
    apply r4_up in X. apply r4_up in Y. apply r4_up in X2. apply r4_up in Y2. replace (units4 2) with (units4 1 + units4 1) by (apply Qc_is_canon; reflexivity).
    replace (((1 - span 12) ^ i + (1 - span 26) ^ i) * w) with ((1 - span 12) ^ i * w + (1 - span 26) ^ i * w) by ring.
    set (d := (1 - span 12) ^ i * w) in *. set (d2 := (1 - span 26) ^ i * w) in *. clearbody d d2. split; qlra.
  Qed.
  Lemma signal_left i : left_over (span 9) (zq 2 * w + units4 2) (fun j => ((1 - span 12) ^ j + (1 - span 26) ^ j) * w + units4 2) i <= zq 3 * (1 - span 26) ^ i * w + units4 2.
  Proof.
    pose proof w_nonneg as WN. induction i as [|i IH]; cbn [left_over].
    - cbn [Qcpower]. rewrite Qcmult_1_r. unfold zq. qlra.
    - rewrite r26. pose proof (r12_26 (S i)) as R. rewrite r26 in R. set (q := (1 - span 26) ^ i) in *. assert (QN : 0 <= q) by (apply pow_nonneg; vm_compute; discriminate).
      set (t := (1 - span 12) ^ S i) in *. assert (QW : 0 <= q * w) by (replace 0 with (q * 0) by ring; apply mul_le; assumption).
      assert (TW : t * w <= Q2Qc (25 # 27) * (q * w)) by (replace (Q2Qc (25 # 27) * (q * w)) with (w * (Q2Qc (25 # 27) * q)) by ring; rewrite (Qcmult_comm t); apply mul_le; assumption).
      set (l := left_over _ _ _ i) in *. clearbody l t. replace (span 9) with (Q2Qc (1 # 5)) by (apply Qc_is_canon; reflexivity). 
      replace ((t + Q2Qc (25 # 27) * q) * w) with (t * w + Q2Qc (25 # 27) * (q * w)) by ring. replace (zq 3 * (Q2Qc (25 # 27) * q) * w) with (zq 3 * (Q2Qc (25 # 27) * (q * w))) by ring.
      replace (zq 3 * q * w) with (zq 3 * (q * w)) in IH by ring. set (x := q * w) in *. set (y := t * w) in *. clearbody x y. generalize dependent (units4 2). intros u IH. replace (1 - Q2Qc (1 # 5)) with (Q2Qc (4 # 5)) by (apply Qc_is_canon; reflexivity). unfold zq in *. qlra.
  Qed.
  Lemma fade_macd : both cMACD -> (25 + m <= k)%nat -> (25 + m <= k')%nat -> kept "macd" ((1 - span 12) ^ m + (1 - span 26) ^ m) 2%Z.
  Proof.
    start. intros G G'. destruct (macd_shown o raw b ob W k c A K) as [-> _]. destruct (macd_shown o raw' b' ob' W' k' c' B K') as [-> _]. rewrite !from_ge2 by lia.
    assert (R : forall x y, r4 (r4 x - r4 y) = r4 x - r4 y).
    { intros x y. replace (r4 x - r4 y) with (r4 x + r4 (- y)) by (rewrite MirrorFacts.r4_opp; ring). apply r4_sum. }
    rewrite !R. pose proof (macd_apart m (le_n _)) as [X Y]. destruct ends as [E E']. rewrite E, E' in X, Y. apply nr_fin; [exact X|exact Y].
  Qed.
  Lemma fade_signal : both cMACD -> (33 + m <= k)%nat -> (33 + m <= k')%nat -> kept "signal_line" (zq 3 * (1 - span 26) ^ m) 3%Z.
  Proof.
    start. intros G G'. destruct (macd_shown o raw b ob W k c A K) as [_ ->]. destruct (macd_shown o raw' b' ob' W' k' c' B K') as [_ ->]. rewrite !from_ge2 by lia.
    replace (units4 3) with (units4 2 + units4 1) by (apply Qc_is_canon; reflexivity). rewrite Qcplus_assoc. apply near_apart.
    change (apart_by (zq 3 * (1 - span 26) ^ m * w + units4 2) (ema_from 25 9 (macd_line c) k) (ema_from 25 9 (macd_line c') k')).
    apply (apart_weaken (left_over (span 9) (zq 2 * w + units4 2) (fun j => ((1 - span 12) ^ j + (1 - span 26) ^ j) * w + units4 2) m)); [|apply signal_left].
    destruct ends as [E E']. rewrite <- E at 1. rewrite <- E' at 1. apply ema_left; [lia|lia|lia| |intros i J; apply macd_apart; lia].
    assert (Z : forall f n j, inside lo w n f -> (j <= n)%nat -> - (w + units4 1) <= macd_line f j /\ macd_line f j <= - (w + units4 1) + (zq 2 * w + units4 2)).
    { intros f n j H J. destruct (ema_inside 0 12 f j lo w ltac:(lia) ltac:(lia) (inside_less n j f H J)) as [P1 P2]. destruct (ema_inside 0 26 f j lo w ltac:(lia) ltac:(lia) (inside_less n j f H J)) as [P3 P4].
      unfold macd_line. replace (units4 2) with (units4 1 + units4 1) by (apply Qc_is_canon; reflexivity).
      assert (Q1 : ema_from 0 26 f j <= ema_from 0 12 f j + w) by qlra. assert (Q2 : ema_from 0 12 f j <= ema_from 0 26 f j + w) by qlra. apply r4_up in Q1. apply r4_up in Q2.
      generalize dependent (units4 1). intros u Q1 Q2. split; unfold zq; qlra. }
    set (L := - (w + units4 1)) in *. set (V := zq 2 * w + units4 2) in *.
    assert (Y : forall f n j, inside lo w n f -> (25 <= j <= n)%nat -> L <= ema_from 25 9 (macd_line f) j /\ ema_from 25 9 (macd_line f) j <= L + V).
    { intros f n j H J. assert (C : forall v, ema_from 25 9 (fun _ => v) j = v) by (intro v; unfold ema_from; induction (j - 25)%nat as [|q IH]; cbn [ema]; [reflexivity|rewrite IH; ring]).
      split; [rewrite <- (C L) at 1|rewrite <- (C (L + V))]; (apply ema_from_le; [lia|lia|]; intros i0 J0; apply (Z f n); [exact H|lia]). }
    apply (apart_inside L); [apply (Y c k)|apply (Y c' k')]; auto; lia.
  Qed.
  Lemma past_fades ct name a q u : both ct -> In (name, a, q, u) (remains ct m) -> (a + m <= k)%nat -> (a + m <= k')%nat -> kept name q u.
  Proof.
    intros T N G G'. destruct ct; cbn [remains] in N; try contradiction.
    - destruct N as [N|[]]; injection N as <- <- <- <-. apply fade_dema; assumption.
    - destruct ma_type as [| | |t| |]; try contradiction. destruct (String.eqb_spec t "exponential") as [->|]; [|contradiction]. destruct N as [N|[]]; injection N as <- <- <- <-. apply fade_exponential; assumption.
    - destruct N as [N|[N|[]]]; injection N as <- <- <- <-; [apply fade_macd|apply fade_signal]; assumption.
    - destruct N as [N|[]]; injection N as <- <- <- <-. apply fade_tema; assumption.
    - destruct N as [N|[]]; injection N as <- <- <- <-. apply fade_ws; assumption.
  Qed.
  Lemma average_halves p n q : both (cMA p (VStr "exponential")) -> (S (nat_arg p) <= 2 * n)%nat -> m = (n * q)%nat -> (nat_arg p - 1 + m <= k)%nat -> (nat_arg p - 1 + m <= k')%nat ->
    near (w * Q2Qc (1 # 2) ^ q + units4 1) (shown "ma-exponential" ob k) (shown "ma-exponential" ob' k').
  Proof.
    intros T N E G G'. assert (P : (1 <= nat_arg p)%nat) by (destruct T as [A B]; period p; exact P).
    destruct (fade_exponential p T G G') as [X|(x & y & -> & -> & X & Y)]; [left; exact X|]. pose proof (halves (nat_arg p) n q P N) as H. rewrite <- E in H. pose proof (mul_le w _ _ w_nonneg H) as Z.
    rewrite (Qcmult_comm _ w) in X, Y. apply nr_fin; qlra.
  Qed.
End Fade.

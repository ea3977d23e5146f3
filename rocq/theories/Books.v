(** * Books: realised and unrealised profit of a simulation add up to what the market moved under the positions held. *)
From Coq Require Import ZArith QArith Qcanon Bool List PeanoNat Lia.
From Verif Require Import Num NumFacts RoundFacts Pandas Sim Frame SimSpec SimProofs SimLemmas Ind Signal Api RangeSpec RangeFacts QuietSim BooksSpec.
Import ListNotations.
Open Scope Qc_scope.

Definition side (a : action) : Qc := match a with ALong => 1 | AShort => - (1) | ANone => 0 end.
Lemma of_Z_plus x y : Q2Qc (inject_Z (x + y)) = Q2Qc (inject_Z x) + Q2Qc (inject_Z y).
Proof. apply Qc_is_canon. unfold Qcplus, Q2Qc, this. rewrite !Qred_correct, inject_Z_plus. reflexivity. Qed.
Lemma counts_side n (p : nat -> bool) (a : nat -> action) :
  Q2Qc (inject_Z (Z.of_nat (count_days n (fun j => p j && match a j with ALong => true | _ => false end)) - Z.of_nat (count_days n (fun j => p j && match a j with AShort => true | _ => false end)))) =
  sum_days n (fun j => if p j then side (a j) else 0).
Proof.
  induction n as [|n IH]; [reflexivity|]. rewrite sum_days_S, <- IH, !count_days_S.
  set (x := count_days n _). set (y := count_days n _). 
  replace (if p n then side (a n) else 0) with (Q2Qc (inject_Z (if p n then match a n with ALong => 1 | AShort => -1 | ANone => 0 end else 0))) by (destruct (p n); [destruct (a n)|]; apply Qc_is_canon; reflexivity).
  rewrite <- of_Z_plus. f_equal. f_equal. destruct (p n); [destruct (a n)|]; cbn [andb]; lia.
Qed.
Lemma held_side d i : held d i = sum_days (S i) (fun j => if still_open d j i then side (act d j) else 0).
Proof. unfold held, open_longs, open_shorts. apply counts_side. Qed.
Lemma sum_days_times n g c : sum_days n g * c = sum_days n (fun j => g j * c).
Proof. induction n as [|n IH]; [unfold sum_days; cbn; ring|]. rewrite !sum_days_S, <- IH. ring. Qed.
Lemma profit_move d j i : profit d j (S i) = profit d j i + side (act d j) * (price d (S i) - price d i).
Proof. unfold profit, side. destruct (act d j); ring. Qed.
Lemma profit_self d j : profit d j j = 0.
Proof. unfold profit. destruct (act d j); ring. Qed.
Lemma closed_step d j i : (j < S i)%nat -> closed_on d j (S i) = still_open d j i && profitable d j (S i).
Proof. intro J. unfold closed_on. destruct (Nat.ltb_spec j (S i)); [|lia]. replace (S i - 1)%nat with i by lia. reflexivity. Qed.

Lemma moves_step d i : moves d (S i) = moves d i + held d i * (price d (S i) - price d i).
Proof. unfold moves. apply sum_days_S. Qed.
Lemma paper_step d i : on_paper d (S i) = sum_days (S i) (fun j => if still_open d j (S i) then profit d j (S i) else 0).
Proof. unfold on_paper. rewrite sum_days_S, profit_self. destruct (still_open d (S i) (S i)); ring. Qed.
Lemma books d i : spec_earnings d i + on_paper d i = moves d i.
Proof.
  induction i as [|i IH].
  - unfold spec_earnings, on_paper, moves. rewrite !sum_days_S. unfold sum_days. cbn [seq map]. rewrite profit_self. destruct (still_open d 0 0); cbn; ring.
  - rewrite earnings_step, moves_step, <- IH, paper_step.
    rewrite held_side, sum_days_times. unfold on_paper.
    rewrite <- Qcplus_assoc.
    rewrite <- Qcplus_assoc.
    f_equal. rewrite <- !sum_days_plus. apply sum_days_ext. intros j J. rewrite closed_step, still_open_step by lia. rewrite profit_move. destruct (still_open d j i), (profitable d j (S i)); cbn; ring.
Qed.
Lemma open_profit d j i : still_open d j i = true -> profit d j i <= 0.
Proof.
  intro O. unfold still_open in O. apply andb_true_iff in O as [O1 O2]. apply andb_true_iff in O1 as [O0 O1]. apply Nat.leb_le in O1. destruct (Nat.eq_dec j i) as [->|N]; [rewrite profit_self; apply Qcle_refl|].
  rewrite forallb_forall in O2. specialize (O2 i ltac:(apply in_seq; lia)). apply negb_true_iff in O2. unfold profitable, profit in *.
  destruct (act d j); [destruct (qltb_spec (price d j) (price d i)); [discriminate|qlra]|destruct (qltb_spec (price d i) (price d j)); [discriminate|qlra]|discriminate O0].
Qed.
Lemma paper_nonpos d i : on_paper d i <= 0.
Proof.
  apply (Qcle_trans _ (sum_days (S i) (fun _ => 0))); [|rewrite sum_days_zero by reflexivity; apply Qcle_refl].
  apply sum_days_le. intros j _. destruct (still_open d j i) eqn:O; [apply open_profit, O|apply Qcle_refl].
Qed.
Lemma paper_split d i : on_paper d i = price d i * held d i - paid d i + received d i.
Proof.
  rewrite held_side. unfold on_paper, paid, received. rewrite Qcmult_comm, sum_days_times. generalize (S i). intro n.
  induction n as [|n IH]; [unfold sum_days; cbn; ring|]. rewrite !sum_days_S, IH. unfold profit, side. destruct (still_open d n i); [destruct (act d n)|]; ring.
Qed.
Lemma exposure_split f d i : spec_exposure f d i = paid d i + f * received d i.
Proof.
  unfold spec_exposure, spec_exposure_before, paid, received. rewrite Qcmult_comm, sum_days_times, <- sum_days_plus. apply sum_days_ext. intros j _.
  unfold opened_exposure. destruct (still_open d j i); [destruct (act d j)|]; ring.
Qed.
Lemma no_shorts d i : (forall j, (j <= i)%nat -> act d j <> AShort) -> received d i = 0.
Proof. intro N. apply sum_days_zero. intros j J. specialize (N j ltac:(lia)). destruct (still_open d j i); [destruct (act d j); congruence|reflexivity]. Qed.
Lemma no_longs d i : (forall j, (j <= i)%nat -> act d j <> ALong) -> paid d i = 0.
Proof. intro N. apply sum_days_zero. intros j J. specialize (N j ltac:(lia)). destruct (still_open d j i); [destruct (act d j); congruence|reflexivity]. Qed.
Lemma nothing_open d i : open_longs d i = 0%nat -> open_shorts d i = 0%nat -> on_paper d i = 0.
Proof.
  intros A B. apply sum_days_zero. intros j J. destruct (still_open d j i) eqn:O; [|reflexivity]. exfalso.
  assert (C : forall n (p : nat -> bool), count_days n p = 0%nat -> forall k, (k < n)%nat -> p k = false).
  { induction n as [|n IH]; intros p E k K; [lia|]. rewrite count_days_S in E. destruct (Nat.eq_dec k n) as [->|NE]; [destruct (p n); [lia|reflexivity]|apply IH; [destruct (p n); lia|lia]]. }
  pose proof (C _ _ A j J) as CA. pose proof (C _ _ B j J) as CB. cbn beta in CA, CB. rewrite O in CA, CB. cbn [andb] in CA, CB.
  unfold still_open in O. destruct (act d j); discriminate.
Qed.

(** what a number of trades can earn *)
Lemma trades_step d i : trades_closed d (S i) = (trades_closed d i + count_days (S i) (fun j => closed_on d j (S i)))%nat.
Proof.
  unfold trades_closed. rewrite count_days_S. rewrite still_open_self. replace (match act d (S i) with ANone => false | _ => negb match act d (S i) with ANone => false | _ => true end end) with false by (destruct (act d (S i)); reflexivity).
  rewrite Nat.add_0_r. apply count_days_plus. intros j J. rewrite closed_step, still_open_step by lia.
  destruct (act d j) eqn:A; [| |unfold still_open; rewrite A; reflexivity]; destruct (still_open d j i), (profitable d j (S i)); reflexivity.
Qed.
Lemma count_times n (p : nat -> bool) c : sum_days n (fun j => if p j then c else 0) = qnat (count_days n p) * c.
Proof. induction n as [|n IH]; [change (qnat (count_days 0 p)) with (qnat 0); rewrite qnat_0; unfold sum_days; cbn; ring|]. rewrite sum_days_S, count_days_S, IH. destruct (p n); [rewrite Nat.add_1_r, qnat_S|rewrite Nat.add_0_r]; ring. Qed.
Lemma qnat_plus a b : qnat (a + b) = qnat a + qnat b.
Proof. induction a as [|a IH]; [rewrite qnat_0; cbn [plus]; ring|]. cbn [plus]. rewrite !qnat_S, IH. ring. Qed.
Lemma earnings_at_most d i lo hi : (forall j, (j <= i)%nat -> lo <= price d j /\ price d j <= hi) -> spec_earnings d i <= qnat (trades_closed d i) * (hi - lo).
Proof.
  induction i as [|i IH]; intro B.
  - unfold spec_earnings, trades_closed. rewrite !count_days_S, sum_days_S, still_open_self. unfold sum_days. cbn [seq map count_days filter length]. replace (match act d 0 with ANone => false | _ => negb match act d 0 with ANone => false | _ => true end end) with false by (destruct (act d 0); reflexivity).
    change (qnat (0 + 0)) with (qnat 0). rewrite qnat_0. unfold qsum. cbn. qlra.
  - rewrite earnings_step, trades_step, qnat_plus. specialize (IH ltac:(intros j J; apply B; lia)).
    assert (G : sum_days (S i) (fun j => if closed_on d j (S i) then profit d j (S i) else 0) <= qnat (count_days (S i) (fun j => closed_on d j (S i))) * (hi - lo)).
    { rewrite <- count_times. apply sum_days_le. intros j J. destruct (closed_on d j (S i)); [|apply Qcle_refl]. pose proof (B j ltac:(lia)) as [B1 B2]. pose proof (B (S i) ltac:(lia)) as [B3 B4]. unfold profit. destruct (act d j); qlra. }
    rewrite Qcmult_plus_distr_l. apply Qcplus_le_compat; assumption.
Qed.
Lemma earnings_at_least d i t : (forall j k, (j <= i)%nat -> (k <= i)%nat -> price d j < price d k -> price d j + t <= price d k) -> qnat (trades_closed d i) * t <= spec_earnings d i.
Proof.
  induction i as [|i IH]; intro B.
  - unfold spec_earnings, trades_closed. rewrite !count_days_S, sum_days_S, still_open_self. unfold sum_days. cbn [seq map count_days filter length]. replace (match act d 0 with ANone => false | _ => negb match act d 0 with ANone => false | _ => true end end) with false by (destruct (act d 0); reflexivity).
    change (qnat (0 + 0)) with (qnat 0). rewrite qnat_0. unfold qsum. cbn. qlra.
  - rewrite earnings_step, trades_step, qnat_plus. specialize (IH ltac:(intros j k J K; apply B; lia)).
    assert (G : qnat (count_days (S i) (fun j => closed_on d j (S i))) * t <= sum_days (S i) (fun j => if closed_on d j (S i) then profit d j (S i) else 0)).
    { rewrite <- count_times. apply sum_days_le. intros j J. destruct (closed_on d j (S i)) eqn:C; [|apply Qcle_refl]. apply closed_profit in C.
      pose proof (B j (S i) ltac:(lia) ltac:(lia)) as B1. pose proof (B (S i) j ltac:(lia) ltac:(lia)) as B2. unfold profit in *. destruct (act d j); [specialize (B1 ltac:(qlra))|specialize (B2 ltac:(qlra))|]; qlra. }
    rewrite Qcmult_plus_distr_l. apply Qcplus_le_compat; assumption.
Qed.

(** the same for the rows of a simulation *)
Section Run.
  Variables (ps : list Qc) (m : option num) (f : Qc) (sgs : list signal) (i : nat).
  Hypothesis F : 1 <= f.
  Hypothesis L : (length sgs <= length ps)%nat.
  Hypothesis I : (i < length sgs)%nat.
  Notation d := (data (simulate (map Fin ps) m (Fin f) sgs)).
  Lemma run_books : exists e v x, x_earnings (row_ d i) = Fin e /\ x_portfolio_value (row_ d i) = Fin v /\ x_exposure (row_ d i) = Fin x /\ x_balance (row_ d i) = Fin (e + v) /\
    e + on_paper d i = moves d i /\ on_paper d i <= 0 /\ v = price d i * held d i /\ x = paid d i + f * received d i /\ on_paper d i = v - paid d i + received d i.
  Proof.
    exists (spec_earnings d i), (price d i * held d i), (spec_exposure f d i). split; [apply sp_earnings; auto|]. split; [apply sp_pv; auto|]. split; [apply sp_exposure; auto|].
    split; [rewrite sp_balance, sp_earnings, sp_pv by auto; reflexivity|]. split; [apply books|]. split; [apply paper_nonpos|]. split; [reflexivity|]. split; [apply exposure_split|]. apply paper_split.
  Qed.
  Lemma run_bounds : exists e, x_earnings (row_ d i) = Fin e /\
    (forall lo hi, (forall j, (j <= i)%nat -> lo <= nth j ps 0 /\ nth j ps 0 <= hi) -> e <= qnat (trades_closed d i) * (hi - lo)) /\
    (forall t, (forall j k, (j <= i)%nat -> (k <= i)%nat -> nth j ps 0 < nth k ps 0 -> nth j ps 0 + t <= nth k ps 0) -> qnat (trades_closed d i) * t <= e).
  Proof.
    exists (spec_earnings d i). split; [apply sp_earnings; auto|]. assert (P : forall j, (j <= i)%nat -> price d j = nth j ps 0) by (intros j J; apply sp_price; auto; lia). split.
    - intros lo hi B. apply earnings_at_most. intros j J. rewrite P by exact J. apply B, J.
    - intros t B. apply earnings_at_least. intros j k J K. rewrite !P by assumption. apply B; assumption.
  Qed.
  Lemma acted j : (j <= i)%nat -> act d j = ANone \/ (act d j = ALong /\ nth j sgs Hold = Buy) \/ (act d j = AShort /\ nth j sgs Hold = Sell).
  Proof.
    intro J. destruct j as [|j]; [left; apply sp_act0; auto; lia|]. rewrite (sp_act ps m f sgs F L) by lia. destruct (nth (S j) sgs Hold); [|left; reflexivity|].
    - destruct (fits m _); auto.
    - destruct (fits m _); auto.
  Qed.
  Lemma run_only_buys : (forall j, (j <= i)%nat -> nth j sgs Hold <> Sell) ->
    exists e v x, x_earnings (row_ d i) = Fin e /\ x_portfolio_value (row_ d i) = Fin v /\ x_exposure (row_ d i) = Fin x /\ e + v - x = moves d i /\ v <= x.
  Proof.
    intro N. destruct run_books as (e & v & x & E & V & X & _ & B & P & _ & XX & PP). exists e, v, x. split; [exact E|]. split; [exact V|]. split; [exact X|].
    assert (Z : received d i = 0) by (apply no_shorts; intros j J; destruct (acted j J) as [A|[[A _]|[A G]]]; [congruence|congruence|exfalso; apply (N j J), G]).
    rewrite Z in XX, PP. split; [rewrite <- B, PP, XX; ring|]. rewrite PP in P. rewrite XX. qlra.
  Qed.
  Lemma run_only_sells : (forall j, (j <= i)%nat -> nth j sgs Hold <> Buy) ->
    exists e v x, x_earnings (row_ d i) = Fin e /\ x_portfolio_value (row_ d i) = Fin v /\ x_exposure (row_ d i) = Fin x /\ e + v + x / f = moves d i.
  Proof.
    intro N. destruct run_books as (e & v & x & E & V & X & _ & B & P & _ & XX & PP). exists e, v, x. split; [exact E|]. split; [exact V|]. split; [exact X|].
    assert (Z : paid d i = 0) by (apply no_longs; intros j J; destruct (acted j J) as [A|[[A G]|[A _]]]; [congruence|exfalso; apply (N j J), G|congruence]).
    rewrite Z in XX, PP. rewrite <- B, PP, XX. field. intro C. rewrite C in F. apply (Qcle_not_lt _ _ F). reflexivity.
  Qed.
  Lemma run_trades :
    (trades_closed d i + open_longs d i + open_shorts d i = count_days (S i) (fun j => match act d j with ANone => false | _ => true end))%nat /\
    (trades_closed d i + open_longs d i + open_shorts d i <= count (sig_eqb Buy) (firstn (S i) sgs) + count (sig_eqb Sell) (firstn (S i) sgs))%nat.
  Proof.
    assert (E : (trades_closed d i + open_longs d i + open_shorts d i = count_days (S i) (fun j => match act d j with ANone => false | _ => true end))%nat).
    { unfold trades_closed, open_longs, open_shorts. generalize (S i). intro n. induction n as [|n IH]; [reflexivity|]. rewrite !count_days_S. rewrite <- IH.
      destruct (act d n) eqn:A; [| |rewrite (open_none _ _ _ A); cbn [andb]; lia]; destruct (still_open d n i); cbn [andb negb]; lia. }
    split; [exact E|]. rewrite E. rewrite !(count_seq _ _ Hold). rewrite !firstn_length, !Nat.min_l by lia.
    assert (G : forall n, (n <= S i)%nat -> (count_days n (fun j => match act d j with ANone => false | _ => true end) <= count_days n (fun j => sig_eqb Buy (nth j (firstn (S i) sgs) Hold)) + count_days n (fun j => sig_eqb Sell (nth j (firstn (S i) sgs) Hold)))%nat).
    { induction n as [|n IH]; intro NI; [reflexivity|]. rewrite !count_days_S. specialize (IH ltac:(lia)). revert IH. set (x := count_days n _). set (y := count_days n _). set (z := count_days n _). intro IH. rewrite firstn_nth_lt by lia. destruct (acted n ltac:(lia)) as [A|[[A B]|[A B]]]; rewrite A, ?B; [destruct (sig_eqb Buy _), (sig_eqb Sell _)| |]; cbn [sig_eqb]; lia. }
    apply G. lia.
  Qed.
End Run.

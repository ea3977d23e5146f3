(** * IdleSim: a day without signal and without earnings may be left out of a simulation. *)
From Coq Require Import ZArith QArith Qcanon Bool List PeanoNat Lia.
From Verif Require Import Num NumFacts Pandas Sim Frame SimSpec SimProofs SimLemmas IdleSpec.
Import ListNotations.
Open Scope list_scope. Open Scope Qc_scope.

Notation go m f := (fun s x => day m f (fst s) (snd s) (fst x) (snd x)).

Lemma count_gap (q : slot -> bool) A B : q slot0 = false -> count q (A ++ slot0 :: B) = count q (A ++ B).
Proof. intro Q. rewrite !count_app. unfold count. cbn [filter]. rewrite Q. reflexivity. Qed.
Lemma sum_gap (q : slot -> bool) A B : q slot0 = false -> sum_exposure q (A ++ slot0 :: B) = sum_exposure q (A ++ B).
Proof. intro Q. unfold sum_exposure. rewrite !filter_app. cbn [filter]. rewrite Q. reflexivity. Qed.
Lemma value_gap p A B : portfolio_value p (A ++ slot0 :: B) = portfolio_value p (A ++ B).
Proof. unfold portfolio_value. rewrite !count_gap by reflexivity. reflexivity. Qed.

(** the later days, with and without the idle one *)
Lemma gap_days m f : forall bs A B D r E, D <> [] -> (E = [] -> x_exposure r = x_exposure (last D simrow0) /\ x_earnings r = x_earnings (last D simrow0)) ->
  exists A' B' E', fold_left (go m f) bs (A ++ slot0 :: B, D ++ r :: E) = (A' ++ slot0 :: B', D ++ r :: E') /\
    fold_left (go m f) bs (A ++ B, D ++ E) = (A' ++ B', D ++ E') /\ List.length E' = (List.length E + List.length bs)%nat.
Proof.
  induction bs as [|[p sg] bs IH]; intros A B D r E ND HE; cbn [fold_left fst snd].
  - exists A, B, E. rewrite Nat.add_0_r. auto.
  - assert (exists A1 B1 r1, day m f (A ++ slot0 :: B) (D ++ r :: E) p sg = (A1 ++ slot0 :: B1, D ++ r :: E ++ [r1]) /\ day m f (A ++ B) (D ++ E) p sg = (A1 ++ B1, D ++ E ++ [r1])) as (A1 & B1 & r1 & E1 & E2).
    { rewrite !day_ne by (destruct D; [contradiction|discriminate]). unfold day_next.
      assert (X : x_exposure (last (D ++ r :: E) simrow0) = x_exposure (last (D ++ E) simrow0) /\ x_earnings (last (D ++ r :: E) simrow0) = x_earnings (last (D ++ E) simrow0)).
      { destruct E as [|e E _] using rev_ind; [rewrite app_nil_r, last_last; apply HE; reflexivity|].
        replace (D ++ r :: E ++ [e]) with ((D ++ r :: E) ++ [e]) by (rewrite <- app_assoc; reflexivity). rewrite app_assoc, !last_last. auto. }
      destruct X as [X1 X2]. rewrite X1, X2, !count_gap, !sum_gap by reflexivity. rewrite !map_app. cbn [map]. rewrite <- !app_assoc. cbn [app].
      replace (close_slot f p slot0) with slot0 by reflexivity. rewrite !value_gap.
      destruct sg; [destruct (over_limit _ _)| |destruct (over_limit _ _)]; (do 3 eexists; split; [reflexivity|]; rewrite <- ?app_assoc; reflexivity). }
    rewrite E1, E2. destruct (IH A1 B1 D r (E ++ [r1]) ND) as (A' & B' & E' & F1 & F2 & F3); [intro Z; destruct E; discriminate|].
    exists A', B', E'. split; [exact F1|]. split; [exact F2|]. rewrite F3, app_length. cbn [List.length]. lia.
Qed.

Lemma zero_sum n g : (forall j, (j < n)%nat -> 0 <= g j) -> sum_days n g = 0 -> forall j, (j < n)%nat -> g j = 0.
Proof.
  induction n as [|n IH]; intros G Z j J; [lia|]. rewrite sum_days_S in Z. assert (0 <= sum_days n g) by (apply sum_days_nonneg; intros; apply G; lia). assert (Gn := G n ltac:(lia)).
  assert (Z1 : sum_days n g = 0) by qlra. assert (Z2 : g n = 0) by qlra. destruct (Nat.eq_dec j n) as [->|NE]; [exact Z2|]. apply IH; [intros; apply G; lia|exact Z1|lia].
Qed.
(** without earnings nothing was closed *)
Lemma no_earnings d k : spec_earnings d (S k) = spec_earnings d k -> forall j, (j < S k)%nat -> closed_on d j (S k) = false.
Proof.
  intros E j J. rewrite earnings_step in E. destruct (closed_on d j (S k)) eqn:C; [|reflexivity]. exfalso.
  assert (Z := zero_sum (S k) (fun j => if closed_on d j (S k) then profit d j (S k) else 0)). cbv beta in Z. specialize (Z ltac:(intros i _; destruct (closed_on d i (S k)) eqn:C'; [apply closed_profit in C'; qlra|qlra])).
  specialize (Z ltac:(qlra) j J). rewrite C in Z. apply closed_profit in C. qlra.
Qed.

Lemma leave_length {A} k (l : list A) : (k < List.length l)%nat -> List.length (leave_out k l) = (List.length l - 1)%nat.
Proof. intro K. unfold leave_out. rewrite app_length, firstn_length, skipn_length. lia. Qed.
Lemma leave_nth {A} k (l : list A) i x : (k < List.length l)%nat -> nth i (leave_out k l) x = if (i <? k)%nat then nth i l x else nth (S i) l x.
Proof.
  intro K. unfold leave_out. destruct (Nat.ltb_spec i k) as [L|L].
  - rewrite app_nth1 by (rewrite firstn_length; lia). apply firstn_nth_lt. exact L.
  - rewrite app_nth2 by (rewrite firstn_length; lia). rewrite firstn_length, Nat.min_l by lia. replace (S i) with (S k + (i - k))%nat by lia. generalize (S k) as n. generalize (i - k)%nat as j. clear.
    intros j n. revert l. induction n as [|n IH]; intro l; [reflexivity|]. destruct l; [destruct j; reflexivity|]. apply IH.
Qed.
Lemma dds_leave ps sgs k : (List.length sgs <= List.length ps)%nat -> (k < List.length sgs)%nat -> dds (leave_out k ps) (leave_out k sgs) = leave_out k (dds ps sgs).
Proof.
  intros LN K. assert (L1 : List.length (leave_out k sgs) = (List.length sgs - 1)%nat) by (apply leave_length; auto). assert (L2 : List.length (leave_out k ps) = (List.length ps - 1)%nat) by (apply leave_length; lia).
  assert (L3 : List.length (dds ps sgs) = List.length sgs) by (apply dds_length; auto).
  apply (nth_ext _ _ (NaN, Hold) (NaN, Hold)); [rewrite dds_length by lia; rewrite !leave_length by lia; lia|]. intros i I. rewrite dds_length in I by lia. rewrite dds_nth by lia. rewrite !leave_nth by lia.
  destruct (i <? k)%nat; rewrite dds_nth by lia; reflexivity.
Qed.
Lemma split_at {A} k (l : list A) x : (k < List.length l)%nat -> l = firstn k l ++ nth k l x :: skipn (S k) l.
Proof. revert l. induction k as [|k IH]; intros [|y l] K; cbn [List.length] in K; try lia; [reflexivity|]. cbn [firstn skipn nth app]. f_equal. apply IH. lia. Qed.

Section Idle.
  Variables (ps : list Qc) (m : option num) (f : Qc) (sgs : list signal) (k : nat).
  Hypothesis F1 : 1 <= f.
  Hypothesis LN : (List.length sgs <= List.length ps)%nat.
  Hypothesis K : (S k < List.length sgs)%nat.
  Let st := simulate (map Fin ps) m (Fin f) sgs.
  Let d := data st.
  Hypothesis HO : nth (S k) sgs Hold = Hold.
  Hypothesis EA : x_earnings (row_ d (S k)) = x_earnings (row_ d k).

  Lemma not_closed j : (j < S k)%nat -> closed_on d j (S k) = false.
  Proof. unfold d, st in *. rewrite !sp_earnings in EA by (auto; lia). apply no_earnings. congruence. Qed.
  Lemma still_same j : (j < S k)%nat -> still_open d j (S k) = still_open d j k.
  Proof.
    intro J. assert (N := not_closed j J). rewrite still_open_step by auto. unfold closed_on in N. replace (S k - 1)%nat with k in N by lia. destruct (Nat.ltb_spec j (S k)) as [_|]; [|lia].
    destruct (still_open d j k), (profitable d j (S k)); try reflexivity; discriminate.
  Qed.
  Lemma act_idle : act d (S k) = ANone.
  Proof. unfold d, st. rewrite sp_act by (auto; lia). rewrite HO. reflexivity. Qed.
  Lemma not_there : still_open d (S k) (S k) = false.
  Proof. rewrite still_open_self, act_idle. reflexivity. Qed.
  Lemma same_exposure : x_exposure (row_ d (S k)) = x_exposure (row_ d k).
  Proof.
    unfold d, st. rewrite !sp_exposure by (auto; lia). fold st. fold d. f_equal. unfold spec_exposure, spec_exposure_before. rewrite (sum_days_S (S k)), not_there, Qcplus_0_r.
    apply sum_days_ext. intros j J. rewrite still_same by auto. reflexivity.
  Qed.
  Lemma same_longs : open_longs d (S k) = open_longs d k.
  Proof. unfold open_longs. rewrite (count_days_S (S k)), not_there, Nat.add_0_r. apply count_days_ext. intros j J. rewrite still_same by auto. reflexivity. Qed.
  Lemma same_shorts : open_shorts d (S k) = open_shorts d k.
  Proof. unfold open_shorts. rewrite (count_days_S (S k)), not_there, Nat.add_0_r. apply count_days_ext. intros j J. rewrite still_same by auto. reflexivity. Qed.

  Let st' := simulate (map Fin (leave_out (S k) ps)) m (Fin f) (leave_out (S k) sgs).
  (** what remains of the two runs *)
  Lemma two_runs : exists A B D r E n, List.length D = S k /\ List.length E = (List.length sgs - S (S k))%nat /\
    d = D ++ r :: E ++ repeat simrow0 n /\ data st' = D ++ E ++ repeat simrow0 n /\
    portfolio st = (A ++ slot0 :: B) ++ repeat slot0 n /\ portfolio st' = (A ++ B) ++ repeat slot0 n.
  Proof.
    assert (L1 : List.length (leave_out (S k) sgs) = (List.length sgs - 1)%nat) by (apply leave_length; auto). assert (L2 : List.length (leave_out (S k) ps) = (List.length ps - 1)%nat) by (apply leave_length; lia).
    assert (LD : List.length (dds ps sgs) = List.length sgs) by (apply dds_length; auto).
    assert (DE : d = snd (days m (Fin f) (dds ps sgs)) ++ repeat simrow0 (List.length ps - List.length sgs)) by (apply data_eq; auto).
    assert (PE : portfolio st = fst (days m (Fin f) (dds ps sgs)) ++ repeat slot0 (List.length ps - List.length sgs)) by (apply port_eq; auto).
    assert (DE' : data st' = snd (days m (Fin f) (leave_out (S k) (dds ps sgs))) ++ repeat simrow0 (List.length ps - List.length sgs)) by (unfold st'; rewrite data_eq by (auto; lia); rewrite dds_leave by auto; do 2 f_equal; lia).
    assert (PE' : portfolio st' = fst (days m (Fin f) (leave_out (S k) (dds ps sgs))) ++ repeat slot0 (List.length ps - List.length sgs)) by (unfold st'; rewrite port_eq by (auto; lia); rewrite dds_leave by auto; do 2 f_equal; lia).
    assert (SP := split_at (S k) (dds ps sgs) (NaN, Hold) ltac:(lia)). rewrite dds_nth, HO in SP by (auto; lia). unfold leave_out in DE', PE'. rewrite SP in DE, PE.
    set (A := firstn (S k) (dds ps sgs)) in *. set (B := skipn (S (S k)) (dds ps sgs)) in *. assert (LA : List.length A = S k) by (unfold A; rewrite firstn_length; lia). assert (LB : List.length B = (List.length sgs - S (S k))%nat) by (unfold B; rewrite skipn_length; lia).
    rewrite days_app in DE, PE, DE', PE'. assert (G := good_days m f A F1 ltac:(intros x X; apply (dds_fin ps sgs); unfold A in X; rewrite <- (firstn_skipn (S k)); apply in_or_app; left; exact X)).
    destruct (days m (Fin f) A) as [P D] eqn:EPD. cbn [fst snd] in G. assert (LDD : List.length D = S k) by (rewrite (g_len _ _ _ _ _ G); exact LA).
    assert (DN : D <> []) by (intro Z; rewrite Z in LDD; discriminate). cbn [fold_left fst snd] in DE, PE. rewrite day_ne in DE, PE by exact DN. unfold day_next in DE, PE.
    set (row := mkRow _ _ _ _ _ _ _) in *. set (q := Fin (nth (S k) ps 0)) in *.
    destruct (fold_extends m (Fin f) B (map (close_slot (Fin f) q) P ++ [slot0], D ++ [row])) as (E0 & X0 & _). cbn [snd] in X0.
    assert (DD : d = D ++ row :: E0 ++ repeat simrow0 (List.length ps - List.length sgs)) by (rewrite DE, X0, <- !app_assoc; reflexivity).
    assert (RK : row_ d (S k) = row) by (rewrite DD; unfold row_; rewrite app_nth2 by lia; rewrite LDD, Nat.sub_diag; reflexivity).
    assert (RL : row_ d k = last D simrow0) by (rewrite DD; unfold row_; rewrite app_nth1 by lia; rewrite <- last_nth by exact DN; f_equal; lia).
    assert (PS : map (close_slot (Fin f) q) P = P).
    { rewrite (g_port _ _ _ _ _ G), map_map. rewrite LDD. replace (S k - 1)%nat with k by lia. apply map_ext_in. intros j J. apply in_seq in J.
      assert (SS : slot_of f D k j = slot_of f d k j) by (unfold slot_of; rewrite DD, act_app, still_open_app, price_app by lia; reflexivity). rewrite SS.
      unfold q. rewrite close_slot_slot by (auto; try lia; unfold d, st; apply sp_price; auto; lia). unfold slot_of. rewrite still_same by lia. reflexivity. }
    rewrite PS in DE, PE.
    destruct (gap_days m (Fin f) B P [] D row [] DN) as (A' & B' & E' & G1 & G2 & G3); [intros _; rewrite <- RK, <- RL; split; [apply same_exposure|exact EA]|].
    rewrite app_nil_r in G2. rewrite app_nil_r in G2. rewrite G1 in DE, PE. rewrite G2 in DE', PE'. cbn [fst snd] in DE, PE, DE', PE'. exists A', B', D, row, E', (List.length ps - List.length sgs)%nat.
    split; [exact LDD|]. split; [rewrite G3, LB; reflexivity|]. split; [rewrite DE, <- app_assoc; reflexivity|]. split; [rewrite DE', <- app_assoc; reflexivity|]. split; assumption.
  Qed.
  Lemma idle_earlier i : (i <= k)%nat -> row_ (data st') i = row_ d i.
  Proof. intro I. destruct two_runs as (A & B & D & r & E & n & L1 & L2 & X1 & X2 & _). unfold row_. rewrite X1, X2, !app_nth1 by lia. reflexivity. Qed.
  Lemma idle_later i : (S k <= i)%nat -> row_ (data st') i = row_ d (S i).
  Proof. intro I. destruct two_runs as (A & B & D & r & E & n & L1 & L2 & X1 & X2 & _). unfold row_. rewrite X1, X2, !(app_nth2 D) by lia. replace (S i - List.length D)%nat with (S (i - List.length D)) by lia. reflexivity. Qed.
  Lemma idle_statistics : (S (S k) < List.length sgs)%nat -> let s := statistics st in
    statistics st' = mkStats (number_of_trading_days s - 1) (number_of_buy_signals s) (number_of_ignored_buy_signals s) (number_of_sell_signals s) (number_of_ignored_sell_signals s)
      (last_stock_value s) (last_exposure s) (last_open_long_positions s) (last_open_short_positions s) (last_portfolio_value s) (last_earnings s) (final_balance s).
  Proof.
    intros KK s. destruct two_runs as (A & B & D & r & E & n & L1 & L2 & X1 & X2 & X3 & X4).
    assert (RK : row_ d (S k) = r) by (rewrite X1; unfold row_; rewrite app_nth2 by lia; rewrite L1, Nat.sub_diag; reflexivity).
    assert (RS : x_signal r = Some Hold) by (rewrite <- RK; unfold d, st; rewrite sp_signal, HO by (auto; lia); reflexivity).
    assert (L3 : List.length (leave_out (S k) sgs) = (List.length sgs - 1)%nat) by (apply leave_length; auto). assert (L4 : List.length (leave_out (S k) ps) = (List.length ps - 1)%nat) by (apply leave_length; lia).
    assert (N : number_of_trading_days (statistics st) = List.length sgs) by (unfold st; apply stat_days; auto).
    assert (N' : number_of_trading_days (statistics st') = (List.length sgs - 1)%nat) by (unfold st'; rewrite stat_days by (auto; lia); exact L3).
    assert (CG : forall p : simrow -> bool, p r = false -> count p (data st') = count p d) by (intros p Z; rewrite X1, X2, !(count_app p D); f_equal; unfold count; cbn [filter]; rewrite Z; reflexivity).
    assert (CP : forall p : slot -> bool, p slot0 = false -> count p (portfolio st') = count p (portfolio st)) by (intros p Z; rewrite X3, X4, !(count_app p _ (repeat _ _)), count_gap by exact Z; reflexivity).
    unfold s. unfold statistics at 1 in N'. unfold statistics at 1 in N. cbn [number_of_trading_days] in N, N'. unfold statistics at 1. rewrite N'.
    unfold statistics. cbn [number_of_trading_days number_of_buy_signals number_of_ignored_buy_signals number_of_sell_signals number_of_ignored_sell_signals last_stock_value last_exposure last_open_long_positions last_open_short_positions last_portfolio_value last_earnings final_balance].
    assert (EN : exists n0, List.length sgs = S (S n0)) by (exists (List.length sgs - 2)%nat; lia). destruct EN as [n0 EN].
    assert (LAST : nth n0 (data st') simrow0 = nth (S n0) (data st) simrow0) by (apply (idle_later n0); lia).
    rewrite N, EN. cbn [Nat.sub]. rewrite LAST.
    assert (HS : forall sg, sg <> Hold -> has_signal sg r = false) by (intros sg Z; unfold has_signal; rewrite RS; destruct sg; [reflexivity|congruence|reflexivity]).
    rewrite !CG by (rewrite HS by discriminate; reflexivity). rewrite !CP by reflexivity. reflexivity.
  Qed.
End Idle.

(** ** a price that stays *)
Section Stays.
  Variables (ps : list Qc) (m : option num) (f : Qc) (sgs : list signal) (k : nat).
  Hypothesis F1 : 1 <= f.
  Hypothesis LN : (List.length sgs <= List.length ps)%nat.
  Hypothesis K : (S k < List.length sgs)%nat.
  Let d := data (simulate (map Fin ps) m (Fin f) sgs).
  Hypothesis PR : nth (S k) ps 0 = nth k ps 0.

  Lemma stays_earnings : x_earnings (row_ d (S k)) = x_earnings (row_ d k).
  Proof.
    unfold d. rewrite !sp_earnings by (auto; lia). fold d. f_equal. rewrite earnings_step. rewrite sum_days_zero; [ring|]. intros j J.
    assert (P1 : price d (S k) = nth (S k) ps 0) by (apply sp_price; auto). assert (P0 : price d k = nth k ps 0) by (apply sp_price; auto; lia). assert (PP : price d (S k) = price d k) by congruence. clear P1 P0.
    destruct (closed_on d j (S k)) eqn:C; [|reflexivity]. exfalso. unfold closed_on in C. apply andb_true_iff in C as [C C3]. apply andb_true_iff in C as [_ C2]. replace (S k - 1)%nat with k in C2 by lia.
    assert (PF : profitable d j k = true) by (unfold profitable in *; rewrite PP in C3; exact C3). destruct (Nat.eq_dec j k) as [->|NE].
    - unfold profitable in PF. destruct (act d k); try discriminate; apply qltb_iff in PF; qlra.
    - destruct k as [|k']; [lia|]. rewrite still_open_step in C2 by lia. rewrite PF in C2. rewrite andb_false_r in C2. discriminate.
  Qed.
  Lemma stays_row : nth (S k) sgs Hold = Hold ->
    row_ d (S k) = let r := row_ d k in mkRow (Some Hold) (Some ANone) (x_stock r) (x_exposure r) (x_portfolio_value r) (x_earnings r) (x_balance r).
  Proof.
    intro HO. assert (E := stays_earnings). assert (X := same_exposure ps m f sgs k F1 LN K HO E). assert (X1 := same_longs ps m f sgs k F1 LN K HO E). assert (X2 := same_shorts ps m f sgs k F1 LN K HO E). fold d in X, X1, X2.
    assert (V : x_portfolio_value (row_ d (S k)) = x_portfolio_value (row_ d k)).
    { unfold d. rewrite !sp_pv by (auto; lia). fold d. rewrite X1, X2. do 2 f_equal. unfold d. rewrite !sp_price by (auto; lia). exact PR. }
    assert (B : x_balance (row_ d (S k)) = x_balance (row_ d k)) by (unfold d; rewrite !sp_balance by (auto; lia); fold d; rewrite V, E; reflexivity).
    assert (SG : x_signal (row_ d (S k)) = Some Hold) by (unfold d; rewrite sp_signal, HO by (auto; lia); reflexivity).
    assert (AC : x_action (row_ d (S k)) = Some ANone) by (unfold d; rewrite sp_action by (auto; lia); f_equal; apply act_idle; auto).
    assert (ST : x_stock (row_ d (S k)) = x_stock (row_ d k)) by (unfold d; rewrite !sp_stock by (auto; lia); congruence).
    cbv zeta. rewrite <- X, <- E, <- V, <- B, <- ST, <- SG, <- AC. destruct (row_ d (S k)); reflexivity.
  Qed.
End Stays.

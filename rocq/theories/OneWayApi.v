(** * OneWayApi: what the simulations of two indicators earn on a market that moves along a straight line. *)
From Coq Require Import ZArith QArith Qcanon Bool List String PeanoNat Lia Sorted Permutation.
From Verif Require Import Num NumFacts RoundFacts Pandas Sim Frame FrameSpec FrameProofs SimSpec SimProofs SimLemmas SimLimit Ind Signal Api IndSpec SeriesFacts Lengths Causal IndFacts Shape ApiSpec ApiCheck ApiProofs ApiLemmas RangeSpec Cells RangeFacts ValueSpec ValueFacts ValueMore ValueApi FormulaSpec FormulaApi SignalSpec SignalApi Starts Line SwayFacts SteadySpec SteadyFacts SteadyApi SteadySig OneWaySpec OneWay.
From Verif Require Import PropsSignal PropsSignal2.
Import ListNotations.
Open Scope list_scope. Open Scope string_scope. Open Scope Qc_scope.

Lemma kept_rows (l : list row) : forall k, StronglySorted Z.le (map fst l) -> NoDup (map fst l) -> (k < List.length l)%nat ->
  List.length (filter (fun r : row => Z.leb (fst r) (nth k (map fst l) 0%Z)) l) = S k.
Proof.
  induction l as [|x l IH]; intros k S0 N K; [cbn in K; lia|]. cbn [map] in S0, N. inversion S0 as [|a r S1 F]; subst. inversion N as [|a r NI N1]; subst. cbn [List.length] in K.
  destruct k as [|k]; cbn [map nth filter].
  - rewrite Z.leb_refl. cbn [List.length]. f_equal. rewrite (proj2 (List.length_zero_iff_nil _)); [reflexivity|].
    assert (G : forall r, In r l -> Z.leb (fst r) (fst x) = false).
    { intros r R. apply Z.leb_gt. rewrite Forall_forall in F. assert (In (fst r) (map fst l)) by (apply in_map; exact R). specialize (F _ H). assert (fst r <> fst x) by (intro E; apply NI; rewrite <- E; exact H). lia. }
    clear - G. induction l as [|y l IH]; [reflexivity|]. cbn [filter]. rewrite (G y (or_introl eq_refl)). apply IH. intros r R. apply G. right. exact R.
  - assert (G : Z.leb (fst x) (nth k (map fst l) 0%Z) = true). { apply Z.leb_le. rewrite Forall_forall in F. apply F. apply nth_In. rewrite map_length. apply Nat.succ_lt_mono. exact K. }
    rewrite G. cbn [List.length]. f_equal. apply IH; auto. apply Nat.succ_lt_mono. exact K.
Qed.
Lemma limited_days o ct raw b ob k : wf_raw raw -> NoDup (dates raw) -> snd (construct o ct (RFrame raw) (VBool b)) = Ok ob -> (k < days_given ob)%nat ->
  days_given (limited k ob) = S k /\ forall nm j, (j <= k)%nat -> given nm (limited k ob) j = given nm ob j.
Proof.
  intros W N H K. destruct (construct_data_shape _ _ _ _ _ W H) as (_ & _ & _ & _ & E & _). pose proof (construct_sound _ _ _ _ _ W H) as (_ & _ & _ & SS & _).
  assert (NI : NoDup (index (ob_input ob))) by (apply (Permutation_NoDup (Permutation_sym E)); auto).
  assert (D : days_given (limited k ob) = S k) by (unfold days_given, limited in *; cbn [ob_input]; unfold upto; cbn [rows]; apply kept_rows; auto).
  split; [exact D|]. intros nm j J. unfold given, limited. cbn [ob_input]. apply upto_cell; [exact SS|]. unfold days_given, limited in D. cbn [ob_input] in D. rewrite D. lia.
Qed.

(** a simulation on the closes of the indicator, without limit *)
Lemma trades_on_line o ct raw b ob cv fa f st stats q d : wf_raw raw -> NoDup (dates raw) -> snd (construct o ct (RFrame raw) (VBool b)) = Ok ob -> is_dpo (ob_ind ob) = false ->
  number_of fa = Some (Fin f) -> snd (get_ti_simulation ob cv VNone fa) = Ok (st, stats) -> own_closes ob st -> on_a_line ob q d ->
  let ps := map (fun j => q + d * nq j) (seq 0 (days_given ob)) in
  exists sgs, st = simulate (map Fin ps) None (Fin f) sgs /\ stats = statistics st /\ 1 <= f /\ List.length sgs = List.length ps /\ List.length ps = days_given ob /\ (forall j, (j < days_given ob)%nat -> nth j ps 0 = q + d * nq j) /\
  forall k, (k < days_given ob)%nat -> get_ti_signal (limited k ob) = Ok (nth k sgs Hold).
Proof.
  intros W N H D FA HS OC LN ps. pose proof (construct_sound _ _ _ _ _ W H) as SO. destruct (simulation_inv _ _ _ _ _ _ SO HS) as (c & m & x & sgs & A & E & L & ST & P).
  assert (LT : List.length (rows (ob_ti ob)) = days_given ob) by (rewrite ti_shorter by (auto using not_dpo); unfold days_given; apply len_index).
  assert (LC : List.length c = days_given ob) by (rewrite (start_len _ _ _ _ _ _ _ A); unfold days_given; apply len_index).
  assert (LP : List.length ps = days_given ob) by (unfold ps; rewrite map_length, seq_length; reflexivity).
  assert (NP : forall j, (j < days_given ob)%nat -> nth j ps 0 = q + d * nq j).
  { intros j J. unfold ps. rewrite (nth_indep _ 0 (q + d * nq 0)) by (rewrite map_length, seq_length; exact J). rewrite (map_nth (fun j => q + d * nq j)), seq_nth by exact J. reflexivity. }
  assert (CE : c = map Fin ps).
  { apply (nth_ext _ _ NaN NaN); [rewrite map_length; lia|]. intros j J. rewrite LC in J. rewrite (nth_indep (map Fin ps) NaN (Fin 0)) by (rewrite map_length; lia). rewrite map_nth, NP by lia.
    destruct (simulate_rows c m x sgs j ltac:(lia) ltac:(lia)) as (_ & _ & X). rewrite <- X, <- E. fold (row_ (data st) j). rewrite OC, LN by lia. reflexivity. }
  destruct A as (fr & _ & _ & M & X & _). cbn in M. injection M as <-. unfold check_factor in X. rewrite FA in X. destruct (nltb (Fin f) (F 1)) eqn:F1; [discriminate|]. injection X as <-.
  exists sgs. rewrite <- CE. split; [exact E|]. split; [exact ST|]. split; [|split; [lia|]; split; [exact LP|]; split; [exact NP|]; intros k K; apply P; lia].
  cbn in F1. change (Q2Qc (inject_Z 1)) with 1 in F1. destruct (qltb_spec f 1) as [G|G]; [discriminate|apply Qcnot_lt_le; exact G].
Qed.

Lemma line_up ps q d i : (forall j, (j <= i)%nat -> nth j ps 0 = q + d * nq j) -> 0 < d -> only_rises ps i.
Proof. intros H D j J. rewrite !H by lia. rewrite nq_S. qnra. Qed.
Lemma line_down ps q d i : (forall j, (j <= i)%nat -> nth j ps 0 = q + d * nq j) -> d < 0 -> only_falls ps i.
Proof. intros H D j J. rewrite !H by lia. rewrite nq_S. qnra. Qed.

Lemma sum_from n a g : sum_days n (fun j => when (a <=? j)%nat (g j)) = sum_days (n - a) (fun j => g (a + j)%nat).
Proof.
  induction n as [|n IH]; [reflexivity|]. rewrite sum_days_S, IH. destruct (Nat.leb_spec a n) as [L|L]; cbn [when].
  - replace (S n - a)%nat with (S (n - a)) by lia. rewrite sum_days_S. replace (a + (n - a))%nat with n by lia. reflexivity.
  - replace (S n - a)%nat with O by lia. replace (n - a)%nat with O by lia. unfold sum_days, qsum. cbn. ring.
Qed.
Lemma count_from n a : count_days n (fun j => (a <=? j)%nat) = (n - a)%nat.
Proof. induction n as [|n IH]; [reflexivity|]. rewrite count_days_S, IH. destruct (Nat.leb_spec a n); lia. Qed.
Lemma sum_same n x : sum_days n (fun _ => x) = x * nq n.
Proof. induction n as [|n IH]; [unfold sum_days, qsum; cbn; change (nq 0) with 0; ring|]. rewrite sum_days_S, IH, nq_S. ring. Qed.
Lemma sum_line n a c d : sum_days n (fun j => c + d * nq (a + j)) = nq n * (c + d * nq a) + d * (nq n * (nq n - 1) / zq 2).
Proof.
  assert (Z2 : zq 2 = 1 + 1) by (apply Qc_is_canon; reflexivity). assert (N2 : zq 2 <> 0) by (intro E; discriminate E).
  induction n as [|n IH]; [unfold sum_days, qsum; cbn; change (nq 0) with 0; field; exact N2|]. rewrite sum_days_S, IH, nq_S, nq_add, Z2. rewrite Z2 in N2. field. exact N2.
Qed.
Lemma stacked_up a i q d : (a <= i)%nat -> sum_days (S i - a) (fun j => q + d * nq (a + j)) = stacked (S i - a) (q + d * nq i) d.
Proof.
  intro L. rewrite sum_line. unfold stacked. assert (Z2 : zq 2 = 1 + 1) by (apply Qc_is_canon; reflexivity). assert (N2 : zq 2 <> 0) by (intro E; discriminate E).
  replace (nq i) with (nq a + (nq (S i - a) - 1)) by (replace (S i - a)%nat with (S (i - a)) by lia; rewrite nq_S; replace i with (a + (i - a))%nat at 2 by lia; rewrite nq_add; ring).
  rewrite Z2 in *. field. exact N2.
Qed.

Section Sims.
  Variables (o : oracle) (raw : rawframe) (b : bool) (ob : obj) (cv : rawval) (fa : pyval) (f : Qc) (st : sim) (sts : stats) (q d : Qc) (i : nat).
  Hypothesis W : wf_raw raw.
  Hypothesis N : NoDup (dates raw).
  Hypothesis FA : number_of fa = Some (Fin f).
  Hypothesis HS : snd (get_ti_simulation ob cv VNone fa) = Ok (st, sts).
  Hypothesis OC : own_closes ob st.
  Hypothesis I : (i < days_given ob)%nat.
  Notation made ct := (snd (construct o ct (RFrame raw) (VBool b)) = Ok ob).
  Notation r := (row_ (data st) i).

  Lemma lim_working ct k : made ct -> working o ct raw b (limited k ob).
  Proof. intro H. split; [exact W|]. exists ob. split; [exact H|]. right. exists k. reflexivity. Qed.
  Lemma ind_asked ct : made ct -> ob_ind ob = asked ct.
  Proof. intro H. assert (WK : working o ct raw b ob) by (split; [exact W|]; exists ob; auto). exact (proj2 (working_sound _ _ _ _ _ WK)). Qed.
  Lemma lim_moves ct k : made ct -> (k < days_given ob)%nat -> on_a_line ob q d -> moves_by (limited k ob) d.
  Proof. intros H K LN. destruct (limited_days o ct raw b ob k W N H K) as [D G]. exists q. intros j J. rewrite D in J. rewrite G by lia. apply LN. lia. Qed.
  Lemma lim_candles ct k u s : made ct -> (k < days_given ob)%nat -> candles_on_a_line ob q d u s -> candles (limited k ob) d u s.
  Proof. intros H K LN. destruct (limited_days o ct raw b ob k W N H K) as [D G]. exists q. intros j J. rewrite D in J. rewrite !G by lia. apply LN. lia. Qed.

  (** every signal from day a on is sg, before it Hold; the day's trade is the signal's *)
  Lemma trades_of ct sg a : made ct -> is_dpo (ob_ind ob) = false -> on_a_line ob q d -> (1 <= a)%nat ->
    (forall k, (k < days_given ob)%nat -> get_ti_signal (limited k ob) = Ok (if (a <=? k)%nat then sg else Hold)) ->
    exists ps sgs, st = simulate (map Fin ps) None (Fin f) sgs /\ sts = statistics st /\ 1 <= f /\ (List.length sgs <= List.length ps)%nat /\ List.length sgs = days_given ob /\
      (forall j, (j < days_given ob)%nat -> nth j ps 0 = q + d * nq j) /\ (forall k, (k < days_given ob)%nat -> nth k sgs Hold = (if (a <=? k)%nat then sg else Hold)) /\
      forall k, (k < days_given ob)%nat -> act (data st) k = if (a <=? k)%nat then match sg with Buy => ALong | Sell => AShort | Hold => ANone end else ANone.
  Proof.
    intros H D LN A SG. destruct (trades_on_line o ct raw b ob cv fa f st sts q d W N H D FA HS OC LN) as (sgs & E & ST & F1 & L1 & L2 & NP & P).
    exists (map (fun j => q + d * nq j) (seq 0 (days_given ob))), sgs. split; [exact E|]. split; [exact ST|]. split; [exact F1|]. split; [lia|]. split; [lia|]. split; [exact NP|].
    assert (Q : forall k, (k < days_given ob)%nat -> nth k sgs Hold = (if (a <=? k)%nat then sg else Hold)) by (intros k K; specialize (P k K); rewrite (SG k K) in P; congruence).
    split; [exact Q|]. intros k K. pose proof (unlimited_acts _ f sgs k F1 (Nat.eq_le_incl _ _ L1) ltac:(lia)) as X. rewrite <- E in X. unfold act. rewrite X, Q by exact K.
    destruct k as [|k]; [destruct (Nat.leb_spec a 0); [lia|reflexivity]|]. destruct (a <=? S k)%nat; [destruct sg|]; reflexivity.
  Qed.

  Lemma buys_the_rise ct a : made ct -> is_dpo (ob_ind ob) = false -> on_a_line ob q d -> (1 <= a)%nat -> 0 < d ->
    (forall k, (k < days_given ob)%nat -> get_ti_signal (limited k ob) = Ok (if (a <=? k)%nat then Buy else Hold)) ->
    x_signal r = Some (if (a <=? i)%nat then Buy else Hold) /\ x_earnings r = Fin (d * nq (i - a)) /\ x_exposure r = Fin (when (a <=? i)%nat (q + d * nq i)) /\ x_balance r = Fin (d * nq (i - a) + when (a <=? i)%nat (q + d * nq i)) /\
    open_longs (data st) i = (if (a <=? i)%nat then 1 else 0)%nat /\ open_shorts (data st) i = 0%nat.
  Proof.
    intros H D LN A DP SG. destruct (trades_of ct Buy a H D LN A SG) as (ps & sgs & E & _ & F1 & L1 & L2 & NP & SN & AC).
    assert (IL : (i < List.length sgs)%nat) by lia. pose proof (line_up ps q d i ltac:(intros; apply NP; lia) DP) as UP.
    destruct (up_market ps None f sgs i F1 L1 IL UP) as (EA & EX & OL & OS). rewrite <- E in EA, EX, OL, OS.
    assert (BT : forall k, (k < days_given ob)%nat -> bought (data st) k = (a <=? k)%nat) by (intros k K; unfold bought; rewrite AC by exact K; destruct (a <=? k)%nat; reflexivity).
    assert (SD : forall k, (k < days_given ob)%nat -> sold (data st) k = false) by (intros k K; unfold sold; rewrite AC by exact K; destruct (a <=? k)%nat; reflexivity).
    assert (EA' : x_earnings r = Fin (d * nq (i - a))).
    { rewrite EA. f_equal. rewrite (sum_days_ext i _ (fun j => when (a <=? j)%nat d)) by (intros j J; rewrite BT, !NP, nq_S by lia; unfold when; destruct (a <=? j)%nat; ring). rewrite sum_from. apply sum_same. }
    assert (OS' : open_shorts (data st) i = 0%nat) by (rewrite OS; apply count_none; intros j J; apply SD; lia).
    split; [rewrite E, sp_signal, SN by (auto; lia); reflexivity|]. split; [exact EA'|]. split; [|split; [|split; [rewrite OL, BT by lia; reflexivity|exact OS']]].
    - rewrite EX, BT, NP by lia. rewrite sum_days_zero by (intros j J; rewrite SD by lia; reflexivity). f_equal. ring.
    - pose proof (sp_balance ps None f sgs F1 L1 i IL) as B. pose proof (sp_pv ps None f sgs F1 L1 i IL) as V. rewrite <- E in B, V. rewrite B, V, EA', OS', OL, BT by lia. rewrite E, (sp_price ps None f sgs F1 L1) by exact IL. rewrite NP by lia. cbn [nadd]. f_equal. f_equal. unfold when. destruct (a <=? i)%nat; cbn [Z.of_nat Z.sub Z.add Z.opp Pos.of_succ_nat]; [change (Q2Qc (inject_Z 1)) with 1|change (Q2Qc (inject_Z 0)) with 0]; ring.
  Qed.
  Lemma sells_the_rise ct a : made ct -> is_dpo (ob_ind ob) = false -> on_a_line ob q d -> (1 <= a)%nat -> 0 < d ->
    (forall k, (k < days_given ob)%nat -> get_ti_signal (limited k ob) = Ok (if (a <=? k)%nat then Sell else Hold)) ->
    x_signal r = Some (if (a <=? i)%nat then Sell else Hold) /\ x_earnings r = Fin 0 /\ x_exposure r = Fin (f * stacked (S i - a) (q + d * nq i) d) /\ x_balance r = Fin (- nq (S i - a) * (q + d * nq i)) /\
    open_longs (data st) i = 0%nat /\ open_shorts (data st) i = (S i - a)%nat.
  Proof.
    intros H D LN A DP SG. destruct (trades_of ct Sell a H D LN A SG) as (ps & sgs & E & _ & F1 & L1 & L2 & NP & SN & AC).
    assert (IL : (i < List.length sgs)%nat) by lia. pose proof (line_up ps q d i ltac:(intros; apply NP; lia) DP) as UP.
    destruct (up_market ps None f sgs i F1 L1 IL UP) as (EA & EX & OL & OS). rewrite <- E in EA, EX, OL, OS.
    assert (BT : forall k, (k < days_given ob)%nat -> bought (data st) k = false) by (intros k K; unfold bought; rewrite AC by exact K; destruct (a <=? k)%nat; reflexivity).
    assert (SD : forall k, (k < days_given ob)%nat -> sold (data st) k = (a <=? k)%nat) by (intros k K; unfold sold; rewrite AC by exact K; destruct (a <=? k)%nat; reflexivity).
    assert (EA' : x_earnings r = Fin 0) by (rewrite EA, sum_days_zero; [reflexivity|intros j J; rewrite BT by lia; reflexivity]).
    assert (OS' : open_shorts (data st) i = (S i - a)%nat) by (rewrite OS, <- count_from; apply count_days_ext; intros j J; apply SD; lia).
    assert (OL' : open_longs (data st) i = 0%nat) by (rewrite OL, BT by lia; reflexivity).
    split; [rewrite E, sp_signal, SN by (auto; lia); reflexivity|]. split; [exact EA'|]. split; [|split; [|split; [exact OL'|exact OS']]].
    - rewrite EX, BT by lia. rewrite (sum_days_ext (S i) _ (fun j => when (a <=? j)%nat (q + d * nq j))) by (intros j J; rewrite SD, NP by lia; reflexivity). rewrite sum_from. f_equal.
      destruct (Nat.le_gt_cases a i) as [G|G]; [rewrite stacked_up by exact G; unfold when; ring|]. replace (S i - a)%nat with O by lia. unfold stacked, when. change (nq 0) with 0. unfold sum_days, qsum, Qcdiv. cbn. ring.
    - pose proof (sp_balance ps None f sgs F1 L1 i IL) as B. pose proof (sp_pv ps None f sgs F1 L1 i IL) as V. rewrite <- E in B, V. rewrite B, V, EA', OS', OL'. rewrite E, (sp_price ps None f sgs F1 L1) by exact IL. rewrite NP by lia. cbn [nadd]. f_equal.
      replace (Q2Qc (inject_Z (Z.of_nat 0 - Z.of_nat (S i - a)))) with (- nq (S i - a)) by (unfold nq, zq; apply Qc_is_canon; cbn [this Qcopp Q2Qc]; rewrite !Qred_correct, <- inject_Z_opp; reflexivity). ring.
  Qed.
  Lemma buys_the_fall ct a : made ct -> is_dpo (ob_ind ob) = false -> on_a_line ob q d -> (1 <= a)%nat -> d < 0 ->
    (forall k, (k < days_given ob)%nat -> get_ti_signal (limited k ob) = Ok (if (a <=? k)%nat then Buy else Hold)) ->
    x_signal r = Some (if (a <=? i)%nat then Buy else Hold) /\ x_earnings r = Fin 0 /\ x_exposure r = Fin (stacked (S i - a) (q + d * nq i) d) /\ x_balance r = Fin (nq (S i - a) * (q + d * nq i)) /\
    open_longs (data st) i = (S i - a)%nat /\ open_shorts (data st) i = 0%nat.
  Proof.
    intros H D LN A DP SG. destruct (trades_of ct Buy a H D LN A SG) as (ps & sgs & E & _ & F1 & L1 & L2 & NP & SN & AC).
    assert (IL : (i < List.length sgs)%nat) by lia. pose proof (line_down ps q d i ltac:(intros; apply NP; lia) DP) as UP.
    destruct (down_market ps None f sgs i F1 L1 IL UP) as (EA & EX & OS & OL). rewrite <- E in EA, EX, OL, OS.
    assert (BT : forall k, (k < days_given ob)%nat -> bought (data st) k = (a <=? k)%nat) by (intros k K; unfold bought; rewrite AC by exact K; destruct (a <=? k)%nat; reflexivity).
    assert (SD : forall k, (k < days_given ob)%nat -> sold (data st) k = false) by (intros k K; unfold sold; rewrite AC by exact K; destruct (a <=? k)%nat; reflexivity).
    assert (EA' : x_earnings r = Fin 0) by (rewrite EA, sum_days_zero; [reflexivity|intros j J; rewrite SD by lia; reflexivity]).
    assert (OL' : open_longs (data st) i = (S i - a)%nat) by (rewrite OL, <- count_from; apply count_days_ext; intros j J; apply BT; lia).
    assert (OS' : open_shorts (data st) i = 0%nat) by (rewrite OS, SD by lia; reflexivity).
    split; [rewrite E, sp_signal, SN by (auto; lia); reflexivity|]. split; [exact EA'|]. split; [|split; [|split; [exact OL'|exact OS']]].
    - rewrite EX, SD by lia. rewrite (sum_days_ext (S i) _ (fun j => when (a <=? j)%nat (q + d * nq j))) by (intros j J; rewrite BT, NP by lia; reflexivity). rewrite sum_from. f_equal.
      destruct (Nat.le_gt_cases a i) as [G|G]; [rewrite stacked_up by exact G; unfold when; ring|]. replace (S i - a)%nat with O by lia. unfold stacked, when. change (nq 0) with 0. unfold sum_days, qsum, Qcdiv. cbn. ring.
    - pose proof (sp_balance ps None f sgs F1 L1 i IL) as B. pose proof (sp_pv ps None f sgs F1 L1 i IL) as V. rewrite <- E in B, V. rewrite B, V, EA', OS', OL'. rewrite E, (sp_price ps None f sgs F1 L1) by exact IL. rewrite NP by lia. cbn [nadd]. f_equal.
      replace (Q2Qc (inject_Z (Z.of_nat (S i - a) - Z.of_nat 0))) with (nq (S i - a)) by (unfold nq, zq; rewrite Z.sub_0_r; reflexivity). ring.
  Qed.
  Lemma holds_always ct : made ct -> is_dpo (ob_ind ob) = false -> on_a_line ob q d ->
    (forall k, (k < days_given ob)%nat -> get_ti_signal (limited k ob) = Ok Hold) ->
    x_signal r = Some Hold /\ x_earnings r = Fin 0 /\ x_exposure r = Fin 0 /\ x_balance r = Fin 0 /\ open_longs (data st) i = 0%nat /\ open_shorts (data st) i = 0%nat.
  Proof.
    intros H D LN SG. destruct (trades_of ct Hold 1 H D LN (le_n 1)) as (ps & sgs & E & _ & F1 & L1 & L2 & NP & SN & AC); [intros k K; rewrite SG by exact K; destruct (1 <=? k)%nat; reflexivity|].
    assert (IL : (i < List.length sgs)%nat) by lia. assert (NO : forall k, (k < days_given ob)%nat -> act (data st) k = ANone) by (intros k K; rewrite AC by exact K; destruct (1 <=? k)%nat; reflexivity).
    assert (SO : forall k l, (k < days_given ob)%nat -> still_open (data st) k l = false) by (intros k l K; unfold still_open; rewrite NO by exact K; reflexivity).
    assert (OL : open_longs (data st) i = 0%nat) by (apply count_none; intros j J; rewrite SO by lia; reflexivity).
    assert (OS : open_shorts (data st) i = 0%nat) by (apply count_none; intros j J; rewrite SO by lia; reflexivity).
    assert (EA : x_earnings r = Fin 0). { pose proof (sp_earnings ps None f sgs F1 L1 i IL) as X. rewrite <- E in X. rewrite X. f_equal. apply sum_days_zero. intros k K. apply sum_days_zero. intros j J. unfold closed_on. rewrite SO by lia. rewrite andb_false_r. reflexivity. }
    split; [rewrite E, sp_signal, SN by (auto; lia); destruct (1 <=? i)%nat; reflexivity|]. split; [exact EA|]. split; [|split; [|split; [exact OL|exact OS]]].
    - pose proof (sp_exposure ps None f sgs F1 L1 i IL) as X. rewrite <- E in X. rewrite X. f_equal. apply sum_days_zero. intros j J. rewrite SO by lia. reflexivity.
    - pose proof (sp_balance ps None f sgs F1 L1 i IL) as B. pose proof (sp_pv ps None f sgs F1 L1 i IL) as V. rewrite <- E in B, V. rewrite B, V, EA, OS, OL. cbn [nadd]. f_equal. change (Q2Qc (inject_Z (Z.of_nat 0 - Z.of_nat 0))) with 0. ring.
  Qed.

  Lemma candles_line u s : candles_on_a_line ob q d u s -> on_a_line ob q d. Proof. intros C j J. apply C. exact J. Qed.

  Lemma average_waits t p k : t = "simple" \/ t = "triangular" -> made (cMA p (VStr t)) -> on_a_line ob q d -> (k < days_given ob)%nat -> (k < first_average t p)%nat -> get_ti_signal (limited k ob) = Ok Hold.
  Proof.
    intros T H LN K L. destruct (limited_days o _ raw b ob k W N H K) as [DD G]. pose proof (lim_working _ k H) as WK. pose proof (lim_moves _ k H K LN) as MV.
    destruct (C66_moving_average o raw b _ p (VStr t) WK) as [_ X]. destruct (full_of _ _ _ _ _ WK eq_refl) as (_ & _ & _ & DS & _).
      destruct (close_line o raw b _ d _ WK eq_refl MV) as (_ & ob1 & c & H1 & Q). apply X; [rewrite <- DS, DD; lia|]. rewrite <- DS, DD in Q. specialize (Q k ltac:(lia)). destruct Q as (KC & SC & SH & GC).
      assert (E : ago ("ma-" ++ t)%string (limited k ob) 1 = NaN).
      { unfold ago. rewrite <- DS, DD. replace (S k - 1)%nat with k by lia. rewrite SH. destruct T as [-> | ->]; cbn [append].
        - rewrite (averages_late o raw b ob1 k d c W KC SC _ "ma-simple" _ _ H1 (or_introl eq_refl)). apply from_lt. exact L.
        - rewrite (averages_late o raw b ob1 k d c W KC SC _ "ma-triangular" _ _ H1 (or_introl eq_refl)). apply from_lt. exact L. }
      cbn [as_str]. rewrite E. intro Y. exact Y.
  Qed.
  Lemma average_on_a_rise t p : t = "simple" \/ t = "triangular" -> made (cMA p (VStr t)) -> (2 <= nat_arg p)%nat -> on_a_line ob q d -> Q2Qc (1 # 10000) < d -> let a := first_average t p in
    x_signal r = Some (if (a <=? i)%nat then Buy else Hold) /\ x_earnings r = Fin (d * nq (i - a)) /\ x_exposure r = Fin (when (a <=? i)%nat (q + d * nq i)) /\ x_balance r = Fin (d * nq (i - a) + when (a <=? i)%nat (q + d * nq i)) /\
    open_longs (data st) i = (if (a <=? i)%nat then 1 else 0)%nat /\ open_shorts (data st) i = 0%nat.
  Proof.
    intros T H P LN DP a. assert (D0 : 0 < d) by (apply (Qclt_trans _ (Q2Qc (1 # 10000))); [reflexivity|exact DP]).
    assert (A1 : (1 <= a)%nat) by (unfold a, first_average; destruct (String.eqb t "simple"); lia).
    apply (buys_the_rise (cMA p (VStr t))); auto. { rewrite (ind_asked _ H). reflexivity. }
    intros k K. destruct (limited_days o _ raw b ob k W N H K) as [DD G]. pose proof (lim_working _ k H) as WK. pose proof (lim_moves _ k H K LN) as MV.
    destruct (Nat.leb_spec a k) as [L|L].
    - apply (average_follows o raw b (limited k ob) d t p T WK MV P); [|exact DP]. rewrite DD. unfold a, first_average in L. destruct (String.eqb t "simple"); lia.
    - exact (average_waits t p k T H LN K L).
  Qed.
  Lemma average_on_a_fall t p : t = "simple" \/ t = "triangular" -> made (cMA p (VStr t)) -> (2 <= nat_arg p)%nat -> on_a_line ob q d -> d < - Q2Qc (1 # 10000) ->
    x_signal r = Some Hold /\ x_earnings r = Fin 0 /\ x_exposure r = Fin 0 /\ x_balance r = Fin 0 /\ open_longs (data st) i = 0%nat /\ open_shorts (data st) i = 0%nat.
  Proof.
    intros T H P LN DP. set (a := first_average t p).
    apply (holds_always (cMA p (VStr t))); auto. { rewrite (ind_asked _ H). reflexivity. }
    intros k K. destruct (limited_days o _ raw b ob k W N H K) as [DD G]. pose proof (lim_working _ k H) as WK. pose proof (lim_moves _ k H K LN) as MV.
    destruct (Nat.leb_spec a k) as [L|L].
    - apply (average_follows o raw b (limited k ob) d t p T WK MV P); [|exact DP]. rewrite DD. unfold a, first_average in L. destruct (String.eqb t "simple"); lia.
    - exact (average_waits t p k T H LN K L).
  Qed.

  Lemma channel_on_a_rise p u s : made (cCCI p) -> (5 <= nat_arg p)%nat -> candles_on_a_line ob q d u s -> 0 < d -> let a := (nat_arg p - 1)%nat in
    x_signal r = Some (if (a <=? i)%nat then Sell else Hold) /\ x_earnings r = Fin 0 /\ x_exposure r = Fin (f * stacked (S i - a) (q + d * nq i) d) /\ x_balance r = Fin (- nq (S i - a) * (q + d * nq i)) /\
    open_longs (data st) i = 0%nat /\ open_shorts (data st) i = (S i - a)%nat.
  Proof.
    intros H P C DP a. apply (sells_the_rise (cCCI p)); auto; [rewrite (ind_asked _ H); reflexivity|exact (candles_line _ _ C)|unfold a; lia|].
    intros k K. destruct (limited_days o _ raw b ob k W N H K) as [DD _]. pose proof (lim_working _ k H) as WK. pose proof (lim_candles _ k u s H K C) as MV.
    destruct (Nat.leb_spec a k) as [L|L]; unfold a in L.
    - apply (cci_sells o raw b _ d u s p WK MV); [rewrite DD; lia|exact DP].
    - apply (cci_holds o raw b _ d u s p WK MV); [rewrite DD; lia|intro E; rewrite E in DP; discriminate DP].
  Qed.
  Lemma channel_on_a_fall p u s : made (cCCI p) -> (5 <= nat_arg p)%nat -> candles_on_a_line ob q d u s -> d < 0 -> let a := (nat_arg p - 1)%nat in
    x_signal r = Some (if (a <=? i)%nat then Buy else Hold) /\ x_earnings r = Fin 0 /\ x_exposure r = Fin (stacked (S i - a) (q + d * nq i) d) /\ x_balance r = Fin (nq (S i - a) * (q + d * nq i)) /\
    open_longs (data st) i = (S i - a)%nat /\ open_shorts (data st) i = 0%nat.
  Proof.
    intros H P C DP a. apply (buys_the_fall (cCCI p)); auto; [rewrite (ind_asked _ H); reflexivity|exact (candles_line _ _ C)|unfold a; lia|].
    intros k K. destruct (limited_days o _ raw b ob k W N H K) as [DD _]. pose proof (lim_working _ k H) as WK. pose proof (lim_candles _ k u s H K C) as MV.
    destruct (Nat.leb_spec a k) as [L|L]; unfold a in L.
    - apply (cci_buys o raw b _ d u s p WK MV); [rewrite DD; lia|exact DP].
    - apply (cci_holds o raw b _ d u s p WK MV); [rewrite DD; lia|intro E; rewrite E in DP; discriminate DP].
  Qed.
End Sims.

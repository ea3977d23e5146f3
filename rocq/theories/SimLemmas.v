(** * SimLemmas: consequences of the simulator invariant, in the form used by the
    property theorems. *)
From Coq Require Import ZArith QArith Qcanon Bool List PeanoNat Lia Lqa.
From Verif Require Import Num NumFacts Pandas Frame Sim SimSpec SimProofs.
Import ListNotations.
Open Scope Qc_scope.

Definition dds (ps : list Qc) (sgs : list signal) : list (num * signal) :=
  combine (firstn (length sgs) (map Fin ps)) sgs.

Lemma dds_length ps sgs : (length sgs <= length ps)%nat -> length (dds ps sgs) = length sgs.
Proof. intro. unfold dds. rewrite combine_length, firstn_length, map_length. lia. Qed.

Lemma nth_combine_fst {A B} (a : list A) (b : list B) i x y :
  length a = length b -> fst (nth i (combine a b) (x, y)) = nth i a x.
Proof. intro H. rewrite combine_nth by auto. reflexivity. Qed.

Lemma firstn_nth_lt {A} (l : list A) n i d : (i < n)%nat -> nth i (firstn n l) d = nth i l d.
Proof.
  revert n i; induction l as [|x l IH]; intros [|n] [|i] H; simpl; try lia; auto. apply IH; lia.
Qed.

Lemma dds_nth ps sgs i : (length sgs <= length ps)%nat -> (i < length sgs)%nat ->
  nth i (dds ps sgs) (NaN, Hold) = (Fin (nth i ps 0), nth i sgs Hold).
Proof.
  intros H Hi. unfold dds. rewrite combine_nth by (rewrite firstn_length, map_length; lia).
  rewrite firstn_nth_lt by auto.
  rewrite (nth_indep _ NaN (Fin 0)) by (rewrite map_length; lia). rewrite map_nth. reflexivity.
Qed.

Lemma dds_fin ps sgs x : In x (dds ps sgs) -> exists p, fst x = Fin p.
Proof.
  intro H. destruct x as [x s]. apply in_combine_l in H. simpl.
  assert (H' : In x (map Fin ps)).
  { rewrite <- (firstn_skipn (length sgs)). apply in_or_app; auto. }
  apply in_map_iff in H'. destruct H' as [q [E _]]. eauto.
Qed.

Section Run.
Variables (ps : list Qc) (m : option num) (f : Qc) (sgs : list signal).
Hypothesis Hf : 1 <= f.
Hypothesis Hlen : (length sgs <= length ps)%nat.

Let st := simulate (map Fin ps) m (Fin f) sgs.
(** the rows of the executed rounds *)
Let d := firstn (length sgs) (data st).
Let run := days m (Fin f) (dds ps sgs).

Lemma run_good : good m f (dds ps sgs) (fst run) (snd run).
Proof. apply good_days; auto. apply dds_fin. Qed.

Lemma simulate_pad : st = pad (map Fin ps) m (Fin f) (fst run) (snd run) (length ps - length sgs).
Proof.
  unfold st, simulate, sim_start, run, dds.
  pose proof (run_sim0 (map Fin ps) m (Fin f) sgs) as H. unfold sim0, pad in H. cbn [app] in H.
  rewrite map_length in *. rewrite H by auto. reflexivity.
Qed.

Lemma run_len : length (snd run) = length sgs.
Proof. rewrite (g_len _ _ _ _ _ run_good). apply dds_length; auto. Qed.

Lemma data_eq : data st = snd run ++ repeat simrow0 (length ps - length sgs).
Proof. rewrite simulate_pad. reflexivity. Qed.
Lemma port_eq : portfolio st = fst run ++ repeat slot0 (length ps - length sgs).
Proof. rewrite simulate_pad. reflexivity. Qed.

Lemma data_len : length (data st) = length ps.
Proof. rewrite data_eq, app_length, repeat_length, run_len. lia. Qed.

Lemma d_eq : d = snd run.
Proof.
  unfold d. rewrite data_eq, <- run_len. rewrite firstn_app, Nat.sub_diag, firstn_all. simpl.
  apply app_nil_r.
Qed.

Lemma row_data i : (i < length sgs)%nat -> row_ (data st) i = row_ (snd run) i.
Proof. intro. rewrite data_eq. apply row_app. rewrite run_len; auto. Qed.

(** facts about the full data, day by day *)
Notation D := (data st).

Lemma sp_exposure i : (i < length sgs)%nat -> x_exposure (row_ D i) = Fin (spec_exposure f D i).
Proof.
  intro H. pose proof run_len. rewrite row_data by auto. rewrite (g_exp _ _ _ _ _ run_good) by lia.
  rewrite data_eq, spec_exposure_app by lia. reflexivity.
Qed.
Lemma sp_earnings i : (i < length sgs)%nat -> x_earnings (row_ D i) = Fin (spec_earnings D i).
Proof.
  intro H. pose proof run_len. rewrite row_data by auto. rewrite (g_earn _ _ _ _ _ run_good) by lia.
  rewrite data_eq, spec_earnings_app by lia. reflexivity.
Qed.
Lemma sp_pv i : (i < length sgs)%nat ->
  x_portfolio_value (row_ D i)
  = Fin (price D i * Q2Qc (inject_Z (Z.of_nat (open_longs D i) - Z.of_nat (open_shorts D i)))).
Proof.
  intro H. pose proof run_len. rewrite row_data by auto. rewrite (g_pv _ _ _ _ _ run_good) by lia.
  rewrite data_eq, open_longs_app, open_shorts_app, price_app by lia. reflexivity.
Qed.
Lemma sp_balance i : (i < length sgs)%nat ->
  x_balance (row_ D i) = nadd (x_earnings (row_ D i)) (x_portfolio_value (row_ D i)).
Proof.
  intro H. pose proof run_len. rewrite row_data by auto. rewrite (g_bal _ _ _ _ _ run_good) by lia.
  rewrite (g_pv _ _ _ _ _ run_good), (g_earn _ _ _ _ _ run_good) by lia. simpl. f_equal. ring.
Qed.
Lemma sp_signal i : (i < length sgs)%nat -> x_signal (row_ D i) = Some (nth i sgs Hold).
Proof.
  intro H. pose proof run_len. rewrite row_data by auto. rewrite (g_sig _ _ _ _ _ run_good) by lia.
  rewrite dds_nth by auto. reflexivity.
Qed.
Lemma sp_stock i : (i < length sgs)%nat -> x_stock (row_ D i) = Fin (nth i ps 0).
Proof.
  intro H. pose proof run_len. rewrite row_data by auto. rewrite (g_stock _ _ _ _ _ run_good) by lia.
  rewrite dds_nth by auto. reflexivity.
Qed.
Lemma sp_price i : (i < length sgs)%nat -> price D i = nth i ps 0.
Proof. intro H. unfold price. rewrite sp_stock by auto. reflexivity. Qed.
Lemma sp_act0 : act D 0 = ANone.
Proof.
  destruct (Nat.eq_dec (length sgs) 0) as [E|E].
  - unfold act. rewrite data_eq. pose proof run_len as R. rewrite E in R.
    destruct (snd run); [|discriminate]. simpl. destruct (length ps - length sgs)%nat; reflexivity.
  - pose proof run_len. rewrite data_eq, act_app by lia. apply (g_act0 _ _ _ _ _ run_good).
Qed.
Lemma sp_action i : (i < length sgs)%nat -> x_action (row_ D i) = Some (act D i).
Proof.
  intro H. pose proof run_len. rewrite row_data by auto. rewrite (g_some _ _ _ _ _ run_good) by lia.
  rewrite data_eq, act_app by lia. reflexivity.
Qed.
Lemma sp_act i : (0 < i < length sgs)%nat ->
  let e := spec_exposure_before f D i i in
  act D i = match nth i sgs Hold with
            | Hold => ANone
            | Buy => if fits m (e + price D i) then ALong else ANone
            | Sell => if fits m (e + f * price D i) then AShort else ANone
            end.
Proof.
  intros H e. pose proof run_len.
  assert (E1 : act D i = act (snd run) i) by (rewrite data_eq; apply act_app; lia).
  assert (E2 : e = spec_exposure_before f (snd run) i i)
    by (unfold e; rewrite data_eq; apply spec_exposure_before_app; lia).
  assert (E3 : price D i = price (snd run) i) by (rewrite data_eq; apply price_app; lia).
  rewrite E1, E2, E3. rewrite (g_act _ _ _ _ _ run_good) by lia.
  rewrite dds_nth by lia. reflexivity.
Qed.
Lemma sp_unrun i : (length sgs <= i)%nat -> row_ D i = simrow0.
Proof.
  intro H. unfold row_. rewrite data_eq, app_nth2 by (rewrite run_len; lia).
  apply nth_repeat.
Qed.
Lemma sp_slot j : (j < length sgs)%nat ->
  nth j (portfolio st) slot0 = slot_of f D (length sgs - 1) j.
Proof.
  intro H. pose proof run_len as R. pose proof (g_port _ _ _ _ _ run_good) as G.
  rewrite port_eq, app_nth1 by (rewrite G, map_length, seq_length; lia).
  rewrite G. rewrite R.
  rewrite (nth_indep _ slot0 (slot_of f (snd run) (length sgs - 1) 0)) by (rewrite map_length, seq_length; lia).
  rewrite map_nth, seq_nth by auto. simpl plus.
  unfold slot_of. rewrite data_eq, act_app, still_open_app, price_app by lia. reflexivity.
Qed.

(** ** derived *)
Lemma act_signal i : (i < length sgs)%nat ->
  (act D i = ALong -> nth i sgs Hold = Buy /\ (0 < i)%nat) /\
  (act D i = AShort -> nth i sgs Hold = Sell /\ (0 < i)%nat).
Proof.
  intro H. destruct (Nat.eq_dec i 0) as [->|Hi].
  - rewrite sp_act0. split; discriminate.
  - rewrite sp_act by lia. destruct (nth i sgs Hold); try destruct (fits _ _);
      split; intro; try discriminate; split; auto; lia.
Qed.

Lemma exposure_0 : spec_exposure f D 0 = 0.
Proof.
  unfold spec_exposure, spec_exposure_before. rewrite sum_days_S. unfold sum_days; simpl.
  rewrite still_open_self, sp_act0. unfold qsum; simpl. ring.
Qed.

(** exposure after today's closings *)
Lemma exposure_step k : (S k < length sgs)%nat ->
  spec_exposure f D (S k)
  = spec_exposure f D k
    - sum_days (S k) (fun j => if closed_on D j (S k) then opened_exposure f D j else 0)
    + opened_exposure f D (S k).
Proof.
  intro H. unfold spec_exposure at 1, spec_exposure_before. rewrite sum_days_S, still_open_self.
  replace (if match act D (S k) with ANone => false | _ => true end
           then opened_exposure f D (S k) else 0) with (opened_exposure f D (S k))
    by (unfold opened_exposure; destruct (act D (S k)); reflexivity).
  f_equal. unfold spec_exposure, spec_exposure_before.
  assert (G : forall n, (n <= S k)%nat ->
     sum_days n (fun j => if still_open D j (S k) then opened_exposure f D j else 0)
     = sum_days n (fun j => if still_open D j k then opened_exposure f D j else 0)
       - sum_days n (fun j => if closed_on D j (S k) then opened_exposure f D j else 0)).
  { induction n as [|n IH]; intro Hn.
    - unfold sum_days; simpl. ring.
    - rewrite !sum_days_S, IH by lia.
      rewrite still_open_step by lia. unfold closed_on.
      destruct (Nat.ltb_spec n (S k)); [|lia]. replace (S k - 1)%nat with k by lia.
      destruct (still_open D n k), (profitable D n (S k)); simpl; ring. }
  apply G. auto.
Qed.
End Run.

(** ** pure facts about the specification *)
Lemma qsum_nonneg l : (forall x, In x l -> 0 <= x) -> 0 <= qsum l.
Proof.
  induction l as [|x l IH]; intro H; [unfold qsum; simpl; qlra|].
  rewrite qsum_cons. assert (0 <= x) by (apply H; left; auto).
  assert (0 <= qsum l) by (apply IH; intros; apply H; right; auto). qlra.
Qed.
Lemma sum_days_nonneg n g : (forall j, (j < n)%nat -> 0 <= g j) -> 0 <= sum_days n g.
Proof.
  intro H. apply qsum_nonneg. intros x Hx. apply in_map_iff in Hx.
  destruct Hx as [j [<- Hj]]. apply in_seq in Hj. apply H; lia.
Qed.
Lemma sum_days_le n g h : (forall j, (j < n)%nat -> g j <= h j) -> sum_days n g <= sum_days n h.
Proof.
  induction n as [|n IH]; intro H.
  - unfold sum_days; simpl. qlra.
  - rewrite !sum_days_S. assert (sum_days n g <= sum_days n h) by (apply IH; intros; apply H; lia).
    assert (g n <= h n) by (apply H; lia). qlra.
Qed.
Lemma sum_days_zero n g : (forall j, (j < n)%nat -> g j = 0) -> sum_days n g = 0.
Proof.
  intro H. induction n as [|n IH]; [reflexivity|].
  rewrite sum_days_S, IH, H; [ring|lia|intros; apply H; lia].
Qed.

Lemma closed_profit d j k : closed_on d j k = true -> 0 < profit d j k.
Proof.
  unfold closed_on, profitable, profit. intro H.
  apply andb_true_iff in H. destruct H as [_ H]. destruct (act d j); try discriminate; qb; qlra.
Qed.

Lemma closed_on_unique d j k k' : closed_on d j k = true -> closed_on d j k' = true -> k = k'.
Proof.
  assert (G : forall k k', (k < k')%nat -> closed_on d j k = true -> closed_on d j k' = true -> False).
  { clear. intros k k' L H H'. unfold closed_on in *.
    apply andb_true_iff in H. destruct H as [H Hp]. apply andb_true_iff in H. destruct H as [Hj Ho].
    apply andb_true_iff in H'. destruct H' as [H' _]. apply andb_true_iff in H'. destruct H' as [_ H'].
    unfold still_open in H'. apply andb_true_iff in H'. destruct H' as [_ H'].
    rewrite forallb_forall in H'. apply Nat.ltb_lt in Hj.
    specialize (H' k). rewrite Hp in H'. simpl in H'. discriminate H'. apply in_seq. lia. }
  intros H H'. destruct (lt_eq_lt_dec k k') as [[L|E]|L]; auto; exfalso; eauto.
Qed.

Lemma still_open_mono d j i i' : (j <= i <= i')%nat -> still_open d j i' = true -> still_open d j i = true.
Proof.
  intros L H. unfold still_open in *. apply andb_true_iff in H. destruct H as [H1 H2].
  apply andb_true_iff in H1. destruct H1 as [H0 H1]. rewrite H0. simpl.
  apply andb_true_iff. split; [apply Nat.leb_le; lia|].
  rewrite forallb_forall in *. intros x Hx. apply H2. apply in_seq in Hx. apply in_seq. lia.
Qed.

(** a position that was opened is either still open or was closed on exactly one day *)
Lemma open_or_closed d j i : (j <= i)%nat -> act d j <> ANone ->
  still_open d j i = true \/ exists k, (j < k <= i)%nat /\ closed_on d j k = true.
Proof.
  intros L Ha. induction i as [|i IH].
  - left. replace j with 0%nat in * by lia. rewrite still_open_self. destruct (act d 0); congruence.
  - destruct (Nat.eq_dec j (S i)) as [->|N].
    + left. rewrite still_open_self. destruct (act d (S i)); congruence.
    + destruct IH as [H|[k [H1 H2]]]; [lia| |right; exists k; split; [lia|auto]].
      rewrite still_open_step by lia. rewrite H; simpl.
      destruct (profitable d j (S i)) eqn:E; simpl; auto.
      right. exists (S i). split; [lia|]. unfold closed_on.
      replace (S i - 1)%nat with i by lia. rewrite H, E.
      destruct (Nat.ltb_spec j (S i)); [reflexivity|lia].
Qed.
Lemma not_open_and_closed d j k i : (j < k <= i)%nat -> closed_on d j k = true -> still_open d j i = false.
Proof.
  intros L H. unfold closed_on in H. apply andb_true_iff in H. destruct H as [_ H].
  apply not_true_is_false. intro C. unfold still_open in C. apply andb_true_iff in C. destruct C as [_ C].
  rewrite forallb_forall in C. specialize (C k). rewrite H in C. discriminate C. apply in_seq; lia.
Qed.

Lemma earnings_step d k : spec_earnings d (S k)
  = spec_earnings d k + sum_days (S k) (fun j => if closed_on d j (S k) then profit d j (S k) else 0).
Proof. unfold spec_earnings. rewrite sum_days_S. reflexivity. Qed.
Lemma earnings_mono d k : spec_earnings d k <= spec_earnings d (S k).
Proof.
  rewrite earnings_step.
  assert (0 <= sum_days (S k) (fun j => if closed_on d j (S k) then profit d j (S k) else 0)).
  { apply sum_days_nonneg. intros j _. destruct (closed_on d j (S k)) eqn:E; [|qlra].
    apply closed_profit in E. qlra. }
  qlra.
Qed.
Lemma earnings_nonneg d k : 0 <= spec_earnings d k.
Proof.
  induction k as [|k IH].
  - unfold spec_earnings, sum_days; simpl. unfold qsum; simpl. qlra.
  - pose proof (earnings_mono d k). qlra.
Qed.

(** ** exposure bounds *)
Section Bounds.
Variables (ps : list Qc) (m : option num) (f : Qc) (sgs : list signal).
Hypothesis Hf : 1 <= f.
Hypothesis Hlen : (length sgs <= length ps)%nat.
Hypothesis Hpos : forall p, In p ps -> 0 <= p.
Notation D := (data (simulate (map Fin ps) m (Fin f) sgs)).

Lemma price_nonneg i : 0 <= price D i.
Proof.
  destruct (Nat.lt_ge_cases i (length sgs)) as [H|H].
  - rewrite sp_price by auto. apply Hpos. apply nth_In. lia.
  - unfold price. rewrite sp_unrun by auto. simpl. qlra.
Qed.
Lemma opened_nonneg j : 0 <= opened_exposure f D j.
Proof.
  unfold opened_exposure. pose proof (price_nonneg j). destruct (act D j); try qlra. qnra.
Qed.
Lemma exposure_nonneg i : 0 <= spec_exposure f D i.
Proof.
  apply sum_days_nonneg. intros j _. destruct (still_open _ _ _); [apply opened_nonneg|qlra].
Qed.

Lemma fits_le M x : m = Some (Fin M) -> fits m x = true -> x <= M.
Proof. intros ->. unfold fits. simpl. intro H. apply negb_true_iff in H. qb. auto. Qed.

Lemma exposure_bounded M i : m = Some (Fin M) -> 0 <= M -> (i < length sgs)%nat ->
  spec_exposure f D i <= M.
Proof.
  intros Hm HM. induction i as [|k IH]; intro Hi.
  - rewrite exposure_0 by auto. auto.
  - assert (HB : spec_exposure_before f D (S k) (S k) <= spec_exposure f D k).
    { apply sum_days_le. intros j Hj. rewrite still_open_step by lia.
      pose proof (opened_nonneg j).
      destruct (still_open D j k), (profitable D j (S k)); simpl; qlra. }
    assert (IH' : spec_exposure f D k <= M) by (apply IH; lia).
    unfold spec_exposure, spec_exposure_before. rewrite sum_days_S, still_open_self.
    pose proof (sp_act ps m f sgs Hf Hlen (S k) ltac:(lia)) as HA. cbn zeta in HA.
    unfold opened_exposure.
    destruct (act D (S k)) eqn:EA.
    + destruct (nth (S k) sgs Hold); try destruct (fits m _) eqn:EF; try discriminate.
      apply (fits_le M) in EF; [exact EF|exact Hm].
    + destruct (nth (S k) sgs Hold); try destruct (fits m _) eqn:EF; try discriminate.
      apply (fits_le M) in EF; [exact EF|exact Hm].
    + change (spec_exposure_before f D (S k) (S k) + 0 <= M).
      set (a := spec_exposure_before f D (S k) (S k)) in *. clearbody a. qlra.
Qed.
End Bounds.

Lemma exposure_zero f d i : open_longs d i = 0%nat -> open_shorts d i = 0%nat -> spec_exposure f d i = 0.
Proof.
  intros HL HS. apply sum_days_zero. intros j Hj.
  destruct (still_open d j i) eqn:E; auto.
  assert (Hin : In j (seq 0 (S i))) by (apply in_seq; lia).
  unfold open_longs, open_shorts, count_days in *.
  apply length_zero_iff_nil in HL. apply length_zero_iff_nil in HS.
  unfold opened_exposure. destruct (act d j) eqn:EA; auto; exfalso.
  - assert (HI : In j []) by (rewrite <- HL; apply filter_In; split; auto; rewrite E, EA; auto). inversion HI.
  - assert (HI : In j []) by (rewrite <- HS; apply filter_In; split; auto; rewrite E, EA; auto). inversion HI.
Qed.

(** ** only the past matters *)
Lemma days_app m f a b : days m f (a ++ b)
  = fold_left (fun s x => day m f (fst s) (snd s) (fst x) (snd x)) b (days m f a).
Proof. unfold days. apply fold_left_app. Qed.
Lemma day_extends m f P d p sg : exists r, snd (day m f P d p sg) = d ++ [r].
Proof.
  destruct (nil_or d) as [->|N].
  - simpl. eexists. reflexivity.
  - rewrite day_ne by auto. unfold day_next. destruct sg; try destruct (over_limit _ _); simpl; eexists; reflexivity.
Qed.
Lemma fold_extends m f b s : exists r,
  snd (fold_left (fun s x => day m f (fst s) (snd s) (fst x) (snd x)) b s) = snd s ++ r /\ length r = length b.
Proof.
  revert s; induction b as [|x b IH]; intro s; simpl.
  - exists []. rewrite app_nil_r. auto.
  - destruct (IH (day m f (fst s) (snd s) (fst x) (snd x))) as [r [E L]].
    destruct (day_extends m f (fst s) (snd s) (fst x) (snd x)) as [r0 E0].
    exists (r0 :: r). rewrite E, E0, <- app_assoc. simpl. auto.
Qed.

Lemma simulate_general c m f sgs : (length sgs <= length c)%nat ->
  data (simulate c m f sgs)
  = snd (days m f (combine (firstn (length sgs) c) sgs)) ++ repeat simrow0 (length c - length sgs).
Proof.
  intro H. unfold simulate, sim_start.
  pose proof (run_sim0 c m f sgs H) as E. unfold sim0, pad in E. cbn [app] in E. rewrite E. reflexivity.
Qed.

Lemma days_length m f ds : length (snd (days m f ds)) = length ds.
Proof.
  destruct (fold_extends m f ds ([], [])) as [r [E L]]. unfold days. rewrite E. simpl. auto.
Qed.

Lemma combine_firstn_l {A B} (a : list A) (b : list B) n :
  firstn n (combine a b) = combine (firstn n a) (firstn n b).
Proof. apply combine_firstn. Qed.

Lemma days_firstn m f ds n : firstn n (snd (days m f ds)) = snd (days m f (firstn n ds)).
Proof.
  destruct (Nat.le_ge_cases n (length ds)) as [L|L].
  - rewrite <- (firstn_skipn n ds) at 1. rewrite days_app.
    destruct (fold_extends m f (skipn n ds) (days m f (firstn n ds))) as [r [E _]].
    rewrite E, firstn_app, days_length, firstn_length, Nat.min_l by auto.
    rewrite Nat.sub_diag, app_nil_r. apply firstn_all2. rewrite days_length, firstn_length. lia.
  - rewrite (firstn_all2 ds) by auto. apply firstn_all2. rewrite days_length. auto.
Qed.

Lemma simulate_online c c' m f sgs sgs' n :
  (length sgs <= length c)%nat -> (length sgs' <= length c')%nat ->
  (n <= length sgs)%nat -> (n <= length sgs')%nat ->
  firstn n c = firstn n c' -> firstn n sgs = firstn n sgs' ->
  firstn n (data (simulate c m f sgs)) = firstn n (data (simulate c' m f sgs')).
Proof.
  intros H H' L L' Ec Es. rewrite !simulate_general by auto.
  assert (A : forall c sgs, (length sgs <= length c)%nat -> (n <= length sgs)%nat ->
     firstn n (snd (days m f (combine (firstn (length sgs) c) sgs)) ++ repeat simrow0 (length c - length sgs))
     = snd (days m f (combine (firstn n c) (firstn n sgs)))).
  { clear. intros c sgs H L. rewrite firstn_app.
    rewrite days_length, combine_length, firstn_length.
    replace (n - _)%nat with 0%nat by lia. simpl. rewrite app_nil_r, days_firstn, combine_firstn_l.
    rewrite firstn_firstn, Nat.min_l by auto. reflexivity. }
  rewrite !A by auto. rewrite Ec, Es. reflexivity.
Qed.

(** ** statistics *)
Lemma count_app {A} (p : A -> bool) a b : count p (a ++ b) = (count p a + count p b)%nat.
Proof. unfold count. rewrite filter_app, app_length. reflexivity. Qed.
Lemma count_repeat_false {A} (p : A -> bool) x n : p x = false -> count p (repeat x n) = 0%nat.
Proof. intro H. unfold count. induction n; simpl; auto. rewrite H. auto. Qed.
Lemma count_seq {A} (p : A -> bool) (l : list A) dflt :
  count p l = count_days (length l) (fun i => p (nth i l dflt)).
Proof.
  unfold count, count_days. induction l as [|x l IH] using rev_ind; [reflexivity|].
  rewrite filter_app, !app_length. simpl length at 3. rewrite Nat.add_1_r, seq_S, filter_app, app_length.
  simpl. rewrite nth_snoc. f_equal.
  - rewrite IH. f_equal. apply filter_ext_in. intros i Hi. apply in_seq in Hi.
    rewrite app_nth1 by lia. reflexivity.
  - destruct (p x); reflexivity.
Qed.

Section Stats.
Variables (ps : list Qc) (m : option num) (f : Qc) (sgs : list signal).
Hypothesis Hf : 1 <= f.
Hypothesis Hlen : (length sgs <= length ps)%nat.
Notation St := (simulate (map Fin ps) m (Fin f) sgs).
Notation D := (data St).
Notation n := (length sgs).

Lemma count_rows p : p simrow0 = false -> count p D = count_days n (fun i => p (row_ D i)).
Proof.
  intro H. rewrite data_eq at 1 by auto. rewrite count_app, count_repeat_false by auto.
  rewrite Nat.add_0_r. rewrite (count_seq p _ simrow0). rewrite run_len by auto.
  apply count_days_ext. intros j Hj. rewrite row_data by auto. reflexivity.
Qed.

Lemma count_days_all k p : (forall i, (i < k)%nat -> p i = true) -> count_days k p = k.
Proof.
  intro H. induction k as [|k IH]; [reflexivity|].
  rewrite count_days_S, IH, H; [lia|lia|intros; apply H; lia].
Qed.

Lemma stat_days : number_of_trading_days (statistics St) = n.
Proof.
  cbn [statistics number_of_trading_days]. rewrite count_rows by reflexivity.
  apply count_days_all. intros i Hi. rewrite sp_signal by auto. reflexivity.
Qed.

Lemma stat_signals sg : count (has_signal sg) D = count (sig_eqb sg) sgs.
Proof.
  rewrite count_rows by reflexivity. rewrite (count_seq (sig_eqb sg) sgs Hold).
  apply count_days_ext. intros i Hi. unfold has_signal. rewrite sp_signal by auto. reflexivity.
Qed.

Lemma stat_ignored sg : count (fun r => has_signal sg r && no_action r) D
  = count_days n (fun i => sig_eqb sg (nth i sgs Hold)
                           && match act D i with ANone => true | _ => false end).
Proof.
  rewrite count_rows by reflexivity. apply count_days_ext. intros i Hi.
  unfold has_signal, no_action. rewrite sp_signal, sp_action by auto.
  destruct (act D i); reflexivity.
Qed.

Lemma stat_last (g : simrow -> num) :
  match count (fun r => match x_signal r with Some _ => true | None => false end) D with
  | O => F 0 | S k => nround 2 (g (nth k D simrow0)) end
  = match n with O => F 0 | S k => nround 2 (g (row_ D k)) end.
Proof. pose proof stat_days as H. cbn [statistics number_of_trading_days] in H. rewrite H. reflexivity. Qed.

Lemma stat_open_gen (q : slot -> bool) b :
  q slot0 = false ->
  (forall j, (j < n)%nat -> q (slot_of f D (n - 1) j) = b j) ->
  count q (portfolio St) = count_days n b.
Proof.
  intros H0 H. rewrite port_eq by auto. rewrite count_app, count_repeat_false, Nat.add_0_r by auto.
  pose proof (run_good ps m f sgs Hf) as G. pose proof (run_len ps m f sgs Hf Hlen) as R.
  rewrite (count_seq q _ slot0).
  assert (L : length (fst (days m (Fin f) (dds ps sgs))) = n).
  { rewrite (g_port _ _ _ _ _ G), map_length, seq_length. exact R. }
  rewrite L. apply count_days_ext. intros j Hj.
  pose proof (sp_slot ps m f sgs Hf Hlen j Hj) as HS. rewrite port_eq in HS by auto.
  rewrite app_nth1 in HS by (rewrite L; auto). rewrite HS. apply H; auto.
Qed.

Lemma stat_longs : (0 < n)%nat -> last_open_long_positions (statistics St) = open_longs D (n - 1).
Proof.
  intro Hn. cbn [statistics last_open_long_positions]. unfold open_longs.
  replace (S (n - 1)) with n by lia. apply stat_open_gen; auto.
  intros j _. unfold slot_of, is_long, is_open.
  destruct (act D j); simpl; rewrite ?andb_false_r, ?andb_true_r; auto; destruct (still_open D j (n-1)); auto.
Qed.
Lemma stat_shorts : (0 < n)%nat -> last_open_short_positions (statistics St) = open_shorts D (n - 1).
Proof.
  intro Hn. cbn [statistics last_open_short_positions]. unfold open_shorts.
  replace (S (n - 1)) with n by lia. apply stat_open_gen; auto.
  intros j _. unfold slot_of, is_short, is_open.
  destruct (act D j); simpl; rewrite ?andb_false_r, ?andb_true_r; auto; destruct (still_open D j (n-1)); auto.
Qed.
End Stats.

(** ** forms used by the property files *)
Section Forms.
Variables (ps : list Qc) (m : option num) (f : Qc) (sgs : list signal).
Hypothesis Hf : 1 <= f.
Hypothesis Hlen : (length sgs <= length ps)%nat.
Notation St := (simulate (map Fin ps) m (Fin f) sgs).
Notation D := (data St).

Lemma status_open j : (j < length sgs)%nat -> act D j <> ANone ->
  (s_status (nth j (portfolio St) slot0) = SOpen
     <-> forall k, (j < k < length sgs)%nat -> profitable D j k = false).
Proof.
  intros Hj Ha. rewrite sp_slot by auto.
  assert (E : s_status (slot_of f D (length sgs - 1) j) = SOpen <-> still_open D j (length sgs - 1) = true).
  { unfold slot_of. destruct (act D j); try contradiction; destruct (still_open _ _ _); simpl; split; congruence. }
  rewrite E. unfold still_open. destruct (Nat.leb_spec j (length sgs - 1)); [|lia].
  replace (match act D j with ANone => false | _ => true end) with true by (destruct (act D j); congruence).
  simpl. rewrite forallb_forall. split; intros H' k Hk.
  - specialize (H' k). rewrite negb_true_iff in H'. apply H'. apply in_seq. lia.
  - apply in_seq in Hk. apply negb_true_iff. apply H'. lia.
Qed.
Lemma status_closed j : (j < length sgs)%nat -> act D j <> ANone ->
  (s_status (nth j (portfolio St) slot0) = SClosed
     <-> exists k, (j < k < length sgs)%nat /\ closed_on D j k = true).
Proof.
  intros Hj Ha. rewrite sp_slot by auto.
  assert (E : s_status (slot_of f D (length sgs - 1) j) = SClosed <-> still_open D j (length sgs - 1) = false).
  { unfold slot_of. destruct (act D j); try contradiction; destruct (still_open _ _ _); simpl; split; congruence. }
  rewrite E. split.
  - intro H. destruct (open_or_closed D j (length sgs - 1)) as [C|[k [Hk C]]]; [lia|auto|congruence|].
    exists k. split; [lia|auto].
  - intros [k [Hk C]]. apply (not_open_and_closed D j k); [lia|auto].
Qed.

Lemma opens_long i : (i < length sgs)%nat ->
  (x_action (row_ D i) = Some ALong
   <-> nth i sgs Hold = Buy /\ (0 < i)%nat /\ fits m (spec_exposure_before f D i i + price D i) = true).
Proof.
  intro Hi. rewrite sp_action by auto. destruct (Nat.eq_dec i 0) as [->|N].
  - rewrite sp_act0 by auto. split; [discriminate|]. intros [_ [C _]]. lia.
  - rewrite sp_act by (auto; lia). destruct (nth i sgs Hold); try destruct (fits _ _);
      split; try discriminate; intro; try reflexivity; [split; auto; split; auto; lia|..];
      destruct H as [A [B C]]; discriminate.
Qed.
Lemma opens_short i : (i < length sgs)%nat ->
  (x_action (row_ D i) = Some AShort
   <-> nth i sgs Hold = Sell /\ (0 < i)%nat /\ fits m (spec_exposure_before f D i i + f * price D i) = true).
Proof.
  intro Hi. rewrite sp_action by auto. destruct (Nat.eq_dec i 0) as [->|N].
  - rewrite sp_act0 by auto. split; [discriminate|]. intros [_ [C _]]. lia.
  - rewrite sp_act by (auto; lia). destruct (nth i sgs Hold); try destruct (fits _ _);
      split; try discriminate; intro; try reflexivity; [..|split; auto; split; auto; lia|];
      destruct H as [A [B C]]; discriminate.
Qed.
Lemma some_action i : (i < length sgs)%nat -> exists a, x_action (row_ D i) = Some a.
Proof. intro. rewrite sp_action by auto. eauto. Qed.

Lemma ignored_buys : number_of_ignored_buy_signals (statistics St)
  = count_days (length sgs) (fun i => sig_eqb Buy (nth i sgs Hold)
       && ((i =? 0)%nat || negb (fits m (spec_exposure_before f D i i + price D i)))).
Proof.
  cbn [statistics number_of_ignored_buy_signals]. rewrite stat_ignored by auto.
  apply count_days_ext. intros i Hi. destruct (Nat.eqb_spec i 0) as [->|N].
  - rewrite sp_act0 by auto. reflexivity.
  - rewrite sp_act by (auto; lia). destruct (nth i sgs Hold); simpl; auto. destruct (fits _ _); reflexivity.
Qed.
Lemma ignored_sells : number_of_ignored_sell_signals (statistics St)
  = count_days (length sgs) (fun i => sig_eqb Sell (nth i sgs Hold)
       && ((i =? 0)%nat || negb (fits m (spec_exposure_before f D i i + f * price D i)))).
Proof.
  cbn [statistics number_of_ignored_sell_signals]. rewrite stat_ignored by auto.
  apply count_days_ext. intros i Hi. destruct (Nat.eqb_spec i 0) as [->|N].
  - rewrite sp_act0 by auto. reflexivity.
  - rewrite sp_act by (auto; lia). destruct (nth i sgs Hold); simpl; auto. destruct (fits _ _); reflexivity.
Qed.

Lemma stat_values k : length sgs = S k ->
  let s := statistics St in
  last_stock_value s = nround 2 (x_stock (row_ D k)) /\
  last_exposure s = nround 2 (x_exposure (row_ D k)) /\
  last_portfolio_value s = nround 2 (x_portfolio_value (row_ D k)) /\
  last_earnings s = nround 2 (x_earnings (row_ D k)) /\
  final_balance s = nround 2 (x_balance (row_ D k)) /\
  last_open_long_positions s = open_longs D k /\
  last_open_short_positions s = open_shorts D k.
Proof.
  intros E s. assert (Ek : (length sgs - 1)%nat = k) by lia.
  pose proof (stat_last ps m f sgs Hf Hlen) as SL. rewrite E in SL.
  unfold s. repeat split; try (apply SL).
  - rewrite stat_longs by (auto; lia). rewrite Ek. reflexivity.
  - rewrite stat_shorts by (auto; lia). rewrite Ek. reflexivity.
Qed.

Lemma exposure_in_range M i : m = Some (Fin M) -> 0 <= M -> (forall p, In p ps -> 0 <= p) ->
  (i < length sgs)%nat ->
  exists e, x_exposure (row_ D i) = Fin e /\ 0 <= e /\ e <= M.
Proof.
  intros Hm HM Hpos Hi. exists (spec_exposure f D i). split; [apply sp_exposure; auto|].
  split; [apply exposure_nonneg; auto|apply exposure_bounded; auto].
Qed.
Lemma exposure_zero_iff i : (forall p, In p ps -> 0 < p) -> (i < length sgs)%nat ->
  (x_exposure (row_ D i) = Fin 0 <-> (open_longs D i = 0 /\ open_shorts D i = 0)%nat).
Proof.
  intros Hpos Hi. rewrite sp_exposure by auto. split.
  2: { intros [A B]. rewrite exposure_zero by auto. reflexivity. }
  intro E. apply Fin_inj in E.
  assert (Hnn : forall p, In p ps -> 0 <= p) by (intros p Hp; specialize (Hpos p Hp); qlra).
  assert (Z : forall n, (n <= S i)%nat ->
    sum_days n (fun j => if still_open D j i then opened_exposure f D j else 0) = 0 ->
    forall j, (j < n)%nat -> still_open D j i = false).
  { induction n as [|n IH]; intros Hn Hs j Hj; [lia|].
    rewrite sum_days_S in Hs.
    assert (G1 : 0 <= sum_days n (fun j => if still_open D j i then opened_exposure f D j else 0)).
    { apply sum_days_nonneg. intros j' _. destruct (still_open D j' i); [apply opened_nonneg; auto|qlra]. }
    assert (G2 : 0 <= if still_open D n i then opened_exposure f D n else 0).
    { destruct (still_open D n i); [apply opened_nonneg; auto|qlra]. }
    set (a := sum_days n _) in *. set (b := if still_open D n i then _ else _) in *.
    assert (a = 0) by (clearbody a b; qlra). assert (Hb : b = 0) by (clearbody a b; qlra).
    destruct (Nat.eq_dec j n) as [->|N]; [|apply IH; auto; lia].
    unfold b in Hb. destruct (still_open D n i) eqn:EO; auto. exfalso.
    assert (Hn' : (n < length sgs)%nat) by lia.
    assert (P : 0 < price D n) by (rewrite sp_price by auto; apply Hpos, nth_In; lia).
    unfold opened_exposure in Hb. unfold still_open in EO.
    destruct (act D n); [qlra|qnra|discriminate]. }
  assert (A : forall j, (j < S i)%nat -> still_open D j i = false) by (apply (Z (S i)); [auto|exact E]).
  assert (N0 : forall (p : nat -> bool), (forall j, (j < S i)%nat -> p j = false) -> count_days (S i) p = 0%nat).
  { intros p Hp. generalize (S i) Hp. clear. induction n as [|n IH]; intro Hp; [reflexivity|].
    rewrite count_days_S, IH, Hp; [reflexivity|lia|intros; apply Hp; lia]. }
  split; apply N0; intros j Hj; rewrite A by auto; reflexivity.
Qed.
End Forms.

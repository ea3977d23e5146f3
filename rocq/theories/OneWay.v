(** * OneWay: the simulation on a market that only rises or only falls. *)
From Coq Require Import ZArith QArith Qcanon Bool List PeanoNat Lia.
From Verif Require Import Num NumFacts Pandas Frame Sim SimSpec SimProofs SimLemmas SimLimit OneWaySpec.
Import ListNotations.
Open Scope Qc_scope.

(** ** rows on which one side always wins the next day and the other side never *)
Section Rows.
Variables (d : list simrow) (i : nat) (win : action -> bool).
Hypothesis NN : win ANone = false.
Hypothesis W : forall j k, (j < k <= i)%nat -> profitable d j k = win (act d j).

Definition traded (j : nat) : bool := match act d j with ANone => false | _ => true end.
Lemma open_now j k : (j <= k <= i)%nat -> still_open d j k = traded j && (negb (win (act d j)) || (j =? k)%nat).
Proof.
  intro J. unfold traded. induction k as [|k IH].
  - replace j with O by lia. rewrite still_open_self, Nat.eqb_refl, orb_true_r, andb_true_r. reflexivity.
  - destruct (Nat.eq_dec j (S k)) as [-> |N]; [rewrite still_open_self, Nat.eqb_refl, orb_true_r, andb_true_r; reflexivity|].
    rewrite still_open_step, IH, W by lia. replace (j =? S k)%nat with false by (symmetry; apply Nat.eqb_neq; exact N).
    destruct (match act d j with ANone => false | _ => true end), (win (act d j)), (j =? k)%nat; reflexivity.
Qed.
Lemma closed_next j k : (j < k <= i)%nat -> closed_on d j k = win (act d j) && (S j =? k)%nat.
Proof.
  intro J. unfold closed_on. rewrite open_now, W by lia. replace (j <? k)%nat with true by (symmetry; apply Nat.ltb_lt; lia). unfold traded.
  destruct (act d j) eqn:E; try rewrite NN; cbn [andb]; try reflexivity.
  - destruct (win ALong); cbn [negb orb andb]; [|reflexivity]. rewrite andb_true_r. destruct (Nat.eqb_spec j (k - 1)), (Nat.eqb_spec (S j) k); auto; lia.
  - destruct (win AShort); cbn [negb orb andb]; [|reflexivity]. rewrite andb_true_r. destruct (Nat.eqb_spec j (k - 1)), (Nat.eqb_spec (S j) k); auto; lia.
Qed.
Lemma earned k : (k <= i)%nat -> spec_earnings d k = sum_days k (fun j => when (win (act d j)) (profit d j (S j))).
Proof.
  induction k as [|k IH]; intro K; [reflexivity|]. rewrite earnings_step, IH, !sum_days_S by lia. f_equal.
  rewrite sum_days_zero, closed_next, Nat.eqb_refl, andb_true_r by (intros; rewrite ?closed_next by lia; lia || (destruct (Nat.eqb_spec (S j) (S k)); [lia|]; rewrite andb_false_r; reflexivity)). unfold when. ring.
Qed.
End Rows.

Lemma sum_add n g h : sum_days n (fun j => g j + h j) = sum_days n g + sum_days n h.
Proof. induction n as [|n IH]; [reflexivity|]. rewrite !sum_days_S, IH. ring. Qed.
Lemma sum_mul n x g : sum_days n (fun j => x * g j) = x * sum_days n g.
Proof. induction n as [|n IH]; [unfold sum_days, qsum; cbn; ring|]. rewrite !sum_days_S, IH. ring. Qed.
Lemma count_none n p : (forall j, (j < n)%nat -> p j = false) -> count_days n p = 0%nat.
Proof. induction n as [|n IH]; intro H; [reflexivity|]. rewrite count_days_S, IH, H by auto. reflexivity. Qed.

Lemma climbs (g : nat -> Qc) i j k : (forall j, (j < i)%nat -> g j < g (S j)) -> (j < k <= i)%nat -> g j < g k.
Proof.
  intros H J. induction k as [|k IH]; [lia|]. destruct (Nat.eq_dec j k) as [-> |N]; [apply H; lia|]. apply (Qclt_trans _ (g k)); [apply IH; lia|apply H; lia].
Qed.
Lemma lt_true a b : a < b -> qltb a b = true. Proof. apply qltb_iff. Qed.
Lemma lt_false a b : a < b -> qltb b a = false. Proof. intro H. destruct (qltb_spec b a) as [G|G]; [exfalso; qlra|reflexivity]. Qed.

Section Market.
Variables (ps : list Qc) (m : option num) (f : Qc) (sgs : list signal) (i : nat).
Hypothesis F1 : 1 <= f.
Hypothesis L : (length sgs <= length ps)%nat.
Hypothesis I : (i < length sgs)%nat.
Notation d := (data (simulate (map Fin ps) m (Fin f) sgs)).
Notation p j := (nth j ps 0).

Lemma up_wins : only_rises ps i -> forall j k, (j < k <= i)%nat -> profitable d j k = match act d j with ALong => true | _ => false end.
Proof.
  intros R j k J. unfold profitable. rewrite !(sp_price ps m f sgs F1 L) by lia. pose proof (climbs (fun j => p j) i j k R J) as C. cbv beta in C.
  rewrite (lt_true _ _ C), (lt_false _ _ C). reflexivity.
Qed.
Lemma down_wins : only_falls ps i -> forall j k, (j < k <= i)%nat -> profitable d j k = match act d j with AShort => true | _ => false end.
Proof.
  intros R j k J. unfold profitable. rewrite !(sp_price ps m f sgs F1 L) by lia. pose proof (climbs (fun j => - p j) i j k) as C. cbv beta in C.
  assert (C' : p k < p j) by (enough (- p j < - p k) by qlra; apply C; [intros a A; specialize (R a A); qlra|exact J]).
  rewrite (lt_true _ _ C'), (lt_false _ _ C'). reflexivity.
Qed.

Lemma up_market : only_rises ps i ->
  x_earnings (row_ d i) = Fin (sum_days i (fun j => when (bought d j) (p (S j) - p j))) /\
  x_exposure (row_ d i) = Fin (when (bought d i) (p i) + f * sum_days (S i) (fun j => when (sold d j) (p j))) /\
  open_longs d i = (if bought d i then 1 else 0)%nat /\ open_shorts d i = count_days (S i) (sold d).
Proof.
  intro R. set (w := fun a => match a with ALong => true | _ => false end). pose proof (up_wins R) as W. change (forall j k, (j < k <= i)%nat -> profitable d j k = w (act d j)) in W.
  split; [|split; [|split]].
  - rewrite sp_earnings by auto. f_equal. rewrite (earned d i w eq_refl W i (le_n i)). apply sum_days_ext. intros j J. unfold when, bought, w, profit.
    rewrite !(sp_price ps m f sgs F1 L) by lia. destruct (act d j); reflexivity.
  - rewrite sp_exposure by auto. f_equal. unfold spec_exposure, spec_exposure_before. rewrite <- sum_mul, !sum_days_S.
    rewrite (sum_days_ext i _ (fun j => f * when (sold d j) (p j))).
    + rewrite (open_now d i w W) by lia. rewrite Nat.eqb_refl, orb_true_r, andb_true_r. unfold traded, when, bought, sold, opened_exposure. rewrite (sp_price ps m f sgs F1 L) by lia. destruct (act d i); ring.
    + intros j J. rewrite (open_now d i w W) by lia. replace (j =? i)%nat with false by (symmetry; apply Nat.eqb_neq; lia). rewrite orb_false_r. unfold traded, when, sold, opened_exposure, w. rewrite (sp_price ps m f sgs F1 L) by lia. destruct (act d j); cbn [andb negb]; ring.
  - unfold open_longs. rewrite count_days_S, count_none.
    + rewrite (open_now d i w W) by lia. rewrite Nat.eqb_refl, orb_true_r, andb_true_r. unfold traded, bought. destruct (act d i); reflexivity.
    + intros j J. rewrite (open_now d i w W) by lia. replace (j =? i)%nat with false by (symmetry; apply Nat.eqb_neq; lia). unfold traded, w. destruct (act d j); reflexivity.
  - unfold open_shorts. apply count_days_ext. intros j J. rewrite (open_now d i w W) by lia. unfold traded, w, sold. destruct (act d j); cbn [andb negb orb]; rewrite ?andb_false_r; reflexivity.
Qed.
Lemma down_market : only_falls ps i ->
  x_earnings (row_ d i) = Fin (sum_days i (fun j => when (sold d j) (p j - p (S j)))) /\
  x_exposure (row_ d i) = Fin (when (sold d i) (f * p i) + sum_days (S i) (fun j => when (bought d j) (p j))) /\
  open_shorts d i = (if sold d i then 1 else 0)%nat /\ open_longs d i = count_days (S i) (bought d).
Proof.
  intro R. set (w := fun a => match a with AShort => true | _ => false end). pose proof (down_wins R) as W. change (forall j k, (j < k <= i)%nat -> profitable d j k = w (act d j)) in W.
  split; [|split; [|split]].
  - rewrite sp_earnings by auto. f_equal. rewrite (earned d i w eq_refl W i (le_n i)). apply sum_days_ext. intros j J. unfold when, sold, w, profit.
    rewrite !(sp_price ps m f sgs F1 L) by lia. destruct (act d j); reflexivity.
  - rewrite sp_exposure by auto. f_equal. unfold spec_exposure, spec_exposure_before. rewrite !sum_days_S.
    rewrite (sum_days_ext i _ (fun j => when (bought d j) (p j))).
    + rewrite (open_now d i w W) by lia. rewrite Nat.eqb_refl, orb_true_r, andb_true_r. unfold traded, when, bought, sold, opened_exposure. rewrite (sp_price ps m f sgs F1 L) by lia. destruct (act d i); ring.
    + intros j J. rewrite (open_now d i w W) by lia. replace (j =? i)%nat with false by (symmetry; apply Nat.eqb_neq; lia). rewrite orb_false_r. unfold traded, when, bought, opened_exposure, w. rewrite (sp_price ps m f sgs F1 L) by lia. destruct (act d j); cbn [andb negb]; ring.
  - unfold open_shorts. rewrite count_days_S, count_none.
    + rewrite (open_now d i w W) by lia. rewrite Nat.eqb_refl, orb_true_r, andb_true_r. unfold traded, sold. destruct (act d i); reflexivity.
    + intros j J. rewrite (open_now d i w W) by lia. replace (j =? i)%nat with false by (symmetry; apply Nat.eqb_neq; lia). unfold traded, w. destruct (act d j); reflexivity.
  - unfold open_longs. apply count_days_ext. intros j J. rewrite (open_now d i w W) by lia. unfold traded, w, bought. destruct (act d j); cbn [andb negb orb]; rewrite ?andb_false_r; reflexivity.
Qed.
End Market.

Lemma telescopes k b g : b 0%nat = false -> (forall j, (j < S k)%nat -> g j <= g (S j)) -> sum_days (S k) (fun j => when (b j) (g (S j) - g j)) <= g (S k) - g 1%nat.
Proof.
  intros B0 G. induction k as [|k IH]; [rewrite sum_days_S, B0; unfold sum_days, qsum, when; cbn; qlra|]. rewrite sum_days_S. pose proof (IH ltac:(intros; apply G; lia)) as J. pose proof (G (S k) ltac:(lia)) as K.
  unfold when at 2. destruct (b (S k)); qlra.
Qed.
Section Bound.
Variables (ps : list Qc) (m : option num) (f : Qc) (sgs : list signal) (i : nat).
Hypothesis F1 : 1 <= f.
Hypothesis L : (length sgs <= length ps)%nat.
Hypothesis I : (0 < i < length sgs)%nat.
Notation d := (data (simulate (map Fin ps) m (Fin f) sgs)).
Notation p j := (nth j ps 0).

Lemma up_most : only_rises ps i -> exists e, x_earnings (row_ d i) = Fin e /\ 0 <= e /\ e <= p i - p 1%nat.
Proof.
  intro R. destruct (up_market ps m f sgs i F1 L ltac:(lia) R) as (E & _). eexists. split; [exact E|]. split.
  - apply sum_days_nonneg. intros j J. specialize (R j J). unfold when. destruct (bought d j); qlra.
  - destruct i as [|k] eqn:EI; [lia|]. apply (telescopes k (bought d) (fun j => p j)); [unfold bought; rewrite (sp_act0 ps m f sgs F1 L); reflexivity|]. intros j J. apply Qclt_le_weak, R, J.
Qed.
Lemma down_most : only_falls ps i -> exists e, x_earnings (row_ d i) = Fin e /\ 0 <= e /\ e <= p 1%nat - p i.
Proof.
  intro R. destruct (down_market ps m f sgs i F1 L ltac:(lia) R) as (E & _). eexists. split; [exact E|]. split.
  - apply sum_days_nonneg. intros j J. specialize (R j J). unfold when. destruct (sold d j); qlra.
  - destruct i as [|k] eqn:EI; [lia|]. pose proof (telescopes k (sold d) (fun j => - p j)) as T. cbv beta in T. rewrite (sum_days_ext (S k) _ (fun j => when (sold d j) (- p (S j) - - p j))) by (intros j J; unfold when; destruct (sold d j); ring).
    enough (sum_days (S k) (fun j => when (sold d j) (- p (S j) - - p j)) <= - p (S k) - - p 1%nat) by qlra. apply T; [unfold sold; rewrite (sp_act0 ps m f sgs F1 L); reflexivity|]. intros j J. specialize (R j J). qlra.
Qed.
End Bound.
Lemma unlimited_bought ps f sgs j : 1 <= f -> (length sgs <= length ps)%nat -> (j < length sgs)%nat -> let d := data (simulate (map Fin ps) None (Fin f) sgs) in
  bought d j = (0 <? j)%nat && match nth j sgs Hold with Buy => true | _ => false end /\ sold d j = (0 <? j)%nat && match nth j sgs Hold with Sell => true | _ => false end.
Proof.
  intros F1 L J d. pose proof (unlimited_acts ps f sgs j F1 L J) as X. fold d in X. unfold bought, sold, act. rewrite X. destruct j as [|j]; cbn [Nat.ltb Nat.leb andb]; [auto|]. destruct (nth (S j) sgs Hold); auto.
Qed.

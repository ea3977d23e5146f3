(** * Cells: reading one cell of a calculated series. *)
From Coq Require Import ZArith QArith Qcanon Bool List String PeanoNat Lia.
From Verif Require Import Num NumFacts Pandas Frame Ind SeriesFacts Lengths.
Import ListNotations.
Open Scope list_scope. Open Scope Qc_scope.

Lemma c_smap f s i n : length s = n -> (i < n)%nat -> nth i (smap f s) NaN = f (nth i s NaN).
Proof. intros <- H. apply nth_smap; auto. Qed.
Lemma c_szip (f : num -> num -> num) a b i n : length a = n -> length b = n -> (i < n)%nat ->
  nth i (szip f a b) NaN = f (nth i a NaN) (nth i b NaN).
Proof. intros A B H. apply nth_szip; lia. Qed.
Lemma c_szip3 (f : num -> num -> num -> num) a b c i n : length a = n -> length b = n -> length c = n -> (i < n)%nat ->
  nth i (szip3 f a b c) NaN = f (nth i a NaN) (nth i b NaN) (nth i c NaN).
Proof. intros A B C H. apply nth_szip3; lia. Qed.
Lemma c_shift k s i n : length s = n -> (i < n)%nat ->
  nth i (shift k s) NaN = if (i <? k)%nat then NaN else nth (i - k) s NaN.
Proof. intros <- H. apply nth_shift; auto. Qed.
Lemma c_from_row k s i n : length s = n -> (i < n)%nat ->
  nth i (from_row k s) NaN = if (i <? k)%nat then NaN else nth i s NaN.
Proof. intros <- H. apply nth_from_row; auto. Qed.
Lemma c_assign g (t : series) new old i n : length t = n -> length new = n -> length old = n -> (i < n)%nat ->
  nth i (assign (map g t) new old) NaN = if (g (nth i t NaN) : bool) then nth i new NaN else nth i old NaN.
Proof.
  intros A B C H. unfold assign. rewrite (nth_szip3 _ _ _ _ _ (g NaN) NaN NaN) by (rewrite ?map_length; lia).
  rewrite map_nth. reflexivity.
Qed.
Lemma c_repeat (x : num) k i : (i < k)%nat -> nth i (repeat x k) NaN = x.
Proof. apply nth_repeat_any. Qed.

Ltac lens := auto 60 with len.
Ltac unser :=
  unfold sround, scale, sdivc, saddc, sabs, sadd, ssub, smul, sdiv, drop_neg, drop_pos, row2, row3, sdiff in *.
(** push [nth i] through pointwise operations, for an i known to be below n *)
Ltac cell :=
  repeat match goal with
  | H : (?i < ?n)%nat |- context [nth ?i (smap ?f ?s) NaN] => rewrite (c_smap f s i n) by lens
  | H : (?i < ?n)%nat |- context [nth ?i (szip ?f ?a ?b) NaN] => rewrite (c_szip f a b i n) by lens
  | H : (?i < ?n)%nat |- context [nth ?i (szip3 ?f ?a ?b ?c) NaN] => rewrite (c_szip3 f a b c i n) by lens
  | H : (?i < ?n)%nat |- context [nth ?i (shift ?k ?s) NaN] => rewrite (c_shift k s i n) by lens
  | H : (?i < ?n)%nat |- context [nth ?i (from_row ?k ?s) NaN] => rewrite (c_from_row k s i n) by lens
  | H : (?i < ?n)%nat |- context [nth ?i (assign (map ?g ?t) ?a ?b) NaN] => rewrite (c_assign g t a b i n) by lens
  end.
Ltac cell_in K :=
  repeat match type of K with
  | context [nth ?i (smap ?f ?s) NaN] => match goal with H : (i < ?n)%nat |- _ => rewrite (c_smap f s i n) in K by lens end
  | context [nth ?i (szip ?f ?a ?b) NaN] => match goal with H : (i < ?n)%nat |- _ => rewrite (c_szip f a b i n) in K by lens end
  | context [nth ?i (szip3 ?f ?a ?b ?c) NaN] => match goal with H : (i < ?n)%nat |- _ => rewrite (c_szip3 f a b c i n) in K by lens end
  | context [nth ?i (shift ?k ?s) NaN] => match goal with H : (i < ?n)%nat |- _ => rewrite (c_shift k s i n) in K by lens end
  | context [nth ?i (from_row ?k ?s) NaN] => match goal with H : (i < ?n)%nat |- _ => rewrite (c_from_row k s i n) in K by lens end
  | context [nth ?i (assign (map ?g ?t) ?a ?b) NaN] => match goal with H : (i < ?n)%nat |- _ => rewrite (c_assign g t a b i n) in K by lens end
  end.

(** ** windows *)
(** the value of a cell known to be finite *)
Definition fin0 (x : num) : Qc := match x with Fin q => q | _ => 0 end.
Definition val (s : series) (j : nat) : Qc := fin0 (nth j s NaN).
Definition wvals (s : series) (w i : nat) : list Qc := map (val s) (seq (S i - w) w).

Lemma fin0_fin x : isfin x = true -> x = Fin (fin0 x).
Proof. destruct x; try discriminate. reflexivity. Qed.
Lemma val_fin s j q : nth j s NaN = Fin q -> val s j = q.
Proof. unfold val. intros ->. reflexivity. Qed.
Lemma fins_len l : (length (fins l) <= length l)%nat.
Proof. induction l as [|[| | |q] l IH]; cbn; lia. Qed.
Lemma fins_full l : (length l <= length (fins l))%nat -> fins l = map fin0 l /\ forall x, In x l -> isfin x = true.
Proof.
  induction l as [|x l IH]; [split; [reflexivity|intros x []]|].
  pose proof (fins_len l). destruct x; cbn; intro L; try lia.
  destruct IH as [E A]; [lia|]. split; [rewrite E; reflexivity|]. intros x [<-|I]; auto.
Qed.
Lemma window_len {A} w i (s : list A) : (i < length s)%nat -> length (window w i s) = Nat.min w (S i).
Proof. intro H. unfold window. rewrite skipn_length, firstn_length. lia. Qed.
Lemma nth_window {A} w i (s : list A) k d : (i < length s)%nat -> (k < Nat.min w (S i))%nat ->
  nth k (window w i s) d = nth (S i - w + k) s d.
Proof. intros H K. unfold window. rewrite nth_skipn. apply nth_firstn. lia. Qed.
Lemma list_nth_eq {A} (a b : list A) d : length a = length b -> (forall k, (k < length a)%nat -> nth k a d = nth k b d) -> a = b.
Proof.
  revert b; induction a as [|x a IH]; intros [|y b] L H; try discriminate L; auto. f_equal.
  - apply (H 0%nat). cbn. lia.
  - apply IH; [cbn in L; lia|]. intros k K. apply (H (S k)). cbn. lia.
Qed.
Lemma window_full w i s : (i < length s)%nat -> (w <= length (fins (window w i s)))%nat ->
  (w <= S i)%nat /\ fins (window w i s) = wvals s w i /\
  forall j, (S i - w <= j <= i)%nat -> nth j s NaN = Fin (val s j).
Proof.
  intros H L. pose proof (fins_len (window w i s)) as FL. rewrite window_len in FL by auto.
  assert (W : (w <= S i)%nat) by lia. split; auto.
  destruct (fins_full (window w i s)) as [E A]; [rewrite window_len by auto; lia|].
  assert (WE : window w i s = map (fun j => nth j s NaN) (seq (S i - w) w)).
  { apply (list_nth_eq _ _ NaN); rewrite window_len by auto.
    - rewrite map_length, seq_length. lia.
    - intros k K. rewrite nth_window by (auto; lia). rewrite (nth_map _ 0%nat) by (rewrite seq_length; lia).
      rewrite seq_nth by lia. reflexivity. }
  split.
  - rewrite E, WE, map_map. reflexivity.
  - intros j J. apply fin0_fin. apply A. rewrite WE. apply in_map_iff. exists j. split; auto. apply in_seq. lia.
Qed.
(** a full-window aggregate is missing, or the window is complete *)
Lemma roll_view w agg s i n : length s = n -> (i < n)%nat ->
  nth i (rolling w w agg s) NaN = NaN \/
  ((w <= S i)%nat /\ nth i (rolling w w agg s) NaN = agg (wvals s w i) /\
   forall j, (S i - w <= j <= i)%nat -> nth j s NaN = Fin (val s j)).
Proof.
  intros <- H. rewrite nth_rolling by auto. destruct (Nat.leb_spec w (length (fins (window w i s)))) as [L|L]; [|auto].
  right. destruct (window_full w i s H L) as (A & B & C). rewrite B. auto.
Qed.
(** ... and it is complete whenever the window lies inside the data and has no missing cell *)
Lemma roll_defined w agg s i n : length s = n -> (i < n)%nat -> (w <= S i)%nat ->
  (forall j, (S i - w <= j <= i)%nat -> isfin (nth j s NaN) = true) ->
  nth i (rolling w w agg s) NaN = agg (wvals s w i).
Proof.
  intros <- H W A. rewrite nth_rolling by auto.
  assert (WE : window w i s = map (fun j => Fin (val s j)) (seq (S i - w) w)).
  { apply (list_nth_eq _ _ NaN); rewrite window_len by auto.
    - rewrite map_length, seq_length. lia.
    - intros k K. rewrite nth_window by (auto; lia). rewrite (nth_map _ 0%nat) by (rewrite seq_length; lia).
      rewrite seq_nth by lia. apply fin0_fin. apply A. lia. }
  assert (FE : fins (window w i s) = wvals s w i).
  { rewrite WE. unfold wvals. generalize (seq (S i - w) w). induction l as [|x l IH]; [reflexivity|]. cbn. rewrite IH. reflexivity. }
  rewrite FE. unfold wvals at 1. rewrite map_length, seq_length, Nat.leb_refl. reflexivity.
Qed.

Lemma in_wvals s w i q : (w <= S i)%nat -> In q (wvals s w i) <-> exists j, (S i - w <= j <= i)%nat /\ q = val s j.
Proof.
  intro W. unfold wvals. rewrite in_map_iff. split.
  - intros (j & <- & J). apply in_seq in J. exists j. split; auto. lia.
  - intros (j & J & ->). exists j. split; auto. apply in_seq. lia.
Qed.
Lemma len_wvals s w i : length (wvals s w i) = w.
Proof. unfold wvals. rewrite map_length. apply seq_length. Qed.

(** ** sums *)
Lemma qsum_map_le {A} (f g : A -> Qc) l : (forall x, In x l -> f x <= g x) -> qsum (map f l) <= qsum (map g l).
Proof.
  induction l as [|x l IH]; intro H; cbn; [apply Qcle_refl|].
  apply Qcplus_le_compat; [apply H; left; auto|apply IH; intros; apply H; right; auto].
Qed.
Lemma qsum_nonneg l : (forall x, In x l -> 0 <= x) -> 0 <= qsum l.
Proof.
  induction l as [|x l IH]; intro H; [apply Qcle_refl|]. change (qsum (x :: l)) with (x + qsum l).
  assert (0 <= x) by (apply H; left; auto). assert (0 <= qsum l) by (apply IH; intros; apply H; right; auto). qlra.
Qed.
Lemma qsum_nonpos l : (forall x, In x l -> x <= 0) -> qsum l <= 0.
Proof.
  induction l as [|x l IH]; intro H; [apply Qcle_refl|]. change (qsum (x :: l)) with (x + qsum l).
  assert (x <= 0) by (apply H; left; auto). assert (qsum l <= 0) by (apply IH; intros; apply H; right; auto). qlra.
Qed.
Lemma qsum_bounds l a b : (forall x, In x l -> a <= x /\ x <= b) -> qnat (length l) * a <= qsum l /\ qsum l <= qnat (length l) * b.
Proof.
  induction l as [|x l IH]; intro H; [|change (qsum (x :: l)) with (x + qsum l); cbn [length]].
  - unfold qnat. cbn. split; qlra.
  - destruct (H x) as [Ha Hb]; [left; auto|]. destruct IH as [I1 I2]; [intros; apply H; right; auto|].
    assert (E : qnat (S (length l)) = qnat (length l) + 1).
    { unfold qnat. rewrite Nat2Z.inj_succ. unfold Z.succ. apply qc_eq. rewrite this_add, !this_Q2Qc, inject_Z_plus. reflexivity. }
    rewrite E. split; qnra.
Qed.
Lemma qnat_S n : qnat (S n) = qnat n + 1.
Proof. unfold qnat. rewrite Nat2Z.inj_succ. unfold Z.succ. apply qc_eq. rewrite this_add, !this_Q2Qc, inject_Z_plus. reflexivity. Qed.
Lemma qnat_0 : qnat 0 = 0. Proof. apply qc_eq. reflexivity. Qed.
Lemma qnat_nonneg n : 0 <= qnat n.
Proof. induction n; [rewrite qnat_0; apply Qcle_refl|rewrite qnat_S; qlra]. Qed.
Lemma qnat_pos n : (0 < n)%nat -> 0 < qnat n.
Proof. destruct n; [lia|]. intros _. rewrite qnat_S. pose proof (qnat_nonneg n). qlra. Qed.
Lemma qmean_bounds l a b : l <> [] -> (forall x, In x l -> a <= x /\ x <= b) -> a <= qmean l /\ qmean l <= b.
Proof.
  intros N H. destruct (qsum_bounds l a b H) as [A B]. unfold qmean.
  assert (P : 0 < qnat (length l)) by (apply qnat_pos; destruct l; [congruence|cbn; lia]).
  split; [apply qcle_div|apply qcdiv_le]; auto.
  - rewrite Qcmult_comm. auto.
  - rewrite Qcmult_comm. auto.
Qed.

(** ** extremes *)
Lemma qmin2_le a b : qmin2 a b <= a /\ qmin2 a b <= b /\ (qmin2 a b = a \/ qmin2 a b = b).
Proof. unfold qmin2. destruct (qltb_spec b a); repeat split; auto; qlra. Qed.
Lemma qmax2_ge a b : a <= qmax2 a b /\ b <= qmax2 a b /\ (qmax2 a b = a \/ qmax2 a b = b).
Proof. unfold qmax2. destruct (qltb_spec a b); repeat split; auto; qlra. Qed.
Lemma qmin_spec x l : (forall y, In y (x :: l) -> qmin x l <= y) /\ In (qmin x l) (x :: l).
Proof.
  induction l as [|a l [IH1 IH2]]; cbn.
  - split; [intros y [<-|[]]; apply Qcle_refl|auto].
  - destruct (qmin2_le a (qmin x l)) as (A & B & C). cbn in IH1, IH2. split.
    + intros y [<-|[<-|I]]; auto; eapply Qcle_trans; eauto.
    + destruct C as [C|C]; unfold qmin in *; rewrite C; tauto.
Qed.
Lemma qmax_spec x l : (forall y, In y (x :: l) -> y <= qmax x l) /\ In (qmax x l) (x :: l).
Proof.
  induction l as [|a l [IH1 IH2]]; cbn.
  - split; [intros y [<-|[]]; apply Qcle_refl|auto].
  - destruct (qmax2_ge a (qmax x l)) as (A & B & C). cbn in IH1, IH2. split.
    + intros y [<-|[<-|I]]; auto; eapply Qcle_trans; eauto.
    + destruct C as [C|C]; unfold qmax in *; rewrite C; tauto.
Qed.
Lemma agg_max_spec l : l <> [] -> exists m, agg_max l = Fin m /\ In m l /\ forall y, In y l -> y <= m.
Proof. destruct l as [|x l]; [congruence|]. intros _. destruct (qmax_spec x l). exists (qmax x l). auto. Qed.
Lemma agg_min_spec l : l <> [] -> exists m, agg_min l = Fin m /\ In m l /\ forall y, In y l -> m <= y.
Proof. destruct l as [|x l]; [congruence|]. intros _. destruct (qmin_spec x l). exists (qmin x l). auto. Qed.
Lemma wvals_nil s w i : (0 < w)%nat -> wvals s w i <> [].
Proof. intros W E. apply (f_equal (@List.length Qc)) in E. rewrite len_wvals in E. cbn in E. lia. Qed.
Lemma roll_max_view w s i n : length s = n -> (i < n)%nat -> (0 < w)%nat ->
  nth i (roll_max w w s) NaN = NaN \/
  exists m, nth i (roll_max w w s) NaN = Fin m /\ (w <= S i)%nat /\
    (forall j, (S i - w <= j <= i)%nat -> nth j s NaN = Fin (val s j) /\ val s j <= m) /\
    exists j, (S i - w <= j <= i)%nat /\ val s j = m.
Proof.
  intros L H W. destruct (roll_view w agg_max s i n L H) as [E|(A & E & B)]; [left; exact E|right].
  destruct (agg_max_spec (wvals s w i)) as (m & M & I & U); [apply wvals_nil; auto|].
  exists m. unfold roll_max. rewrite E. split; auto. split; auto. split.
  - intros j J. split; auto. apply U. apply in_wvals; eauto.
  - apply in_wvals in I as (j & J & K); eauto.
Qed.
Lemma roll_min_view w s i n : length s = n -> (i < n)%nat -> (0 < w)%nat ->
  nth i (roll_min w w s) NaN = NaN \/
  exists m, nth i (roll_min w w s) NaN = Fin m /\ (w <= S i)%nat /\
    (forall j, (S i - w <= j <= i)%nat -> nth j s NaN = Fin (val s j) /\ m <= val s j) /\
    exists j, (S i - w <= j <= i)%nat /\ val s j = m.
Proof.
  intros L H W. destruct (roll_view w agg_min s i n L H) as [E|(A & E & B)]; [left; exact E|right].
  destruct (agg_min_spec (wvals s w i)) as (m & M & I & U); [apply wvals_nil; auto|].
  exists m. unfold roll_min. rewrite E. split; auto. split; auto. split.
  - intros j J. split; auto. apply U. apply in_wvals; eauto.
  - apply in_wvals in I as (j & J & K); eauto.
Qed.
Lemma roll_sum_view w s i n : length s = n -> (i < n)%nat ->
  nth i (roll_sum w s) NaN = NaN \/
  (nth i (roll_sum w s) NaN = Fin (qsum (wvals s w i)) /\ (w <= S i)%nat /\
    forall j, (S i - w <= j <= i)%nat -> nth j s NaN = Fin (val s j)).
Proof. intros L H. destruct (roll_view w agg_sum s i n L H) as [E|(A & E & B)]; [left; exact E|right; auto]. Qed.
Lemma roll_mean_view w s i n : length s = n -> (i < n)%nat -> (0 < w)%nat ->
  nth i (roll_mean w s) NaN = NaN \/
  (nth i (roll_mean w s) NaN = Fin (qmean (wvals s w i)) /\ (w <= S i)%nat /\
    forall j, (S i - w <= j <= i)%nat -> nth j s NaN = Fin (val s j)).
Proof.
  intros L H W. destruct (roll_view w agg_mean s i n L H) as [E|(A & E & B)]; [left; exact E|right].
  unfold roll_mean. rewrite E. split; auto. pose proof (wvals_nil s w i W). destruct (wvals s w i); [congruence|reflexivity].
Qed.
(** comparing two window sums cell by cell *)
Lemma wsum_le a b w i : (w <= S i)%nat -> (forall j, (S i - w <= j <= i)%nat -> val a j <= val b j) ->
  qsum (wvals a w i) <= qsum (wvals b w i).
Proof. intros W H. apply qsum_map_le. intros j J. apply in_seq in J. apply H. lia. Qed.
Lemma wsum_nonneg a w i : (w <= S i)%nat -> (forall j, (S i - w <= j <= i)%nat -> 0 <= val a j) -> 0 <= qsum (wvals a w i).
Proof. intros W H. apply qsum_nonneg. intros x I. apply in_wvals in I as (j & J & ->); auto. Qed.
Lemma wmean_bounds s w i a b : (0 < w)%nat -> (w <= S i)%nat -> (forall j, (S i - w <= j <= i)%nat -> a <= val s j /\ val s j <= b) ->
  a <= qmean (wvals s w i) /\ qmean (wvals s w i) <= b.
Proof.
  intros P W H. apply qmean_bounds; [apply wvals_nil; auto|]. intros x I. apply in_wvals in I as (j & J & ->); auto.
Qed.

(** ** running computations *)
Lemma scan_all {A} (P : num -> Prop) (Q : A -> Prop) step seed l : P seed ->
  (forall prev x, P prev -> Q x -> P (step prev x)) -> Forall Q l -> Forall P (scan step seed l).
Proof.
  intros S ST. revert seed S. induction l as [|x l IH]; intros seed S H; cbn; [constructor|].
  inversion H; subst. constructor; auto.
Qed.
Lemma Forall_firstn {A} (P : A -> Prop) n l : Forall P l -> Forall P (firstn n l).
Proof. intro H. revert n. induction H; intros [|n]; cbn; constructor; auto. Qed.
Lemma Forall_skipn {A} (P : A -> Prop) n l : Forall P l -> Forall P (skipn n l).
Proof. intro H. revert n. induction H; intros [|n]; cbn; auto. Qed.
Lemma seeded_all {A} (P : num -> Prop) (Q : A -> Prop) k seed step (s : list A) : P NaN -> P seed ->
  (forall prev x, P prev -> Q x -> P (step prev x)) -> Forall Q s -> Forall P (seeded k seed step s).
Proof.
  intros N S ST H. unfold seeded. apply Forall_firstn. apply Forall_app. split.
  - apply Forall_forall. intros x I. apply repeat_spec in I as ->. auto.
  - constructor; auto. eapply scan_all; eauto. apply Forall_skipn; auto.
Qed.
Lemma Forall_nth_NaN (P : num -> Prop) s i : P NaN -> Forall P s -> P (nth i s NaN).
Proof.
  intros N H. destruct (Nat.lt_ge_cases i (length s)) as [L|L]; [|rewrite nth_overflow; auto].
  rewrite Forall_forall in H. apply H. apply nth_In; auto.
Qed.
Lemma Forall_of_nth (P : num -> Prop) s : (forall i, (i < length s)%nat -> P (nth i s NaN)) -> Forall P s.
Proof. intro H. apply Forall_forall. intros x I. apply (In_nth _ _ NaN) in I as (i & L & <-). auto. Qed.

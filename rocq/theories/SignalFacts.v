(** * SignalFacts: the list computations inside the signals. *)
From Coq Require Import ZArith QArith Qcanon Bool List String PeanoNat Lia Sorted.
From Verif Require Import Num NumFacts Pandas Sim Frame FrameSpec FrameProofs Ind Signal Api IndSpec SeriesFacts Lengths
  Causal IndFacts Shape ApiSpec ApiCheck ApiProofs RangeSpec Cells RangeMore ValueSpec ValueFacts ValueMore Recur FormulaSpec Starts SimProofs Formula5 SignalSpec SignalApi.
Import ListNotations.
Open Scope list_scope.

Lemma nan_dec (x : num) : {x = NaN} + {x <> NaN}.
Proof. destruct x; [left; reflexivity|right; discriminate..]. Qed.
Lemma trichotomy x y : x <> NaN -> y <> NaN -> less x y \/ same x y \/ less y x.
Proof.
  destruct x as [| | |p], y as [| | |q]; cbn; intros; try tauto; try congruence.
  destruct (Q_dec p q) as [[L|L]|E]; [left; exact L|right; right; exact L|right; left; apply Qc_is_canon; exact E].
Qed.
Lemma same_sym x y : same x y -> same y x.
Proof. destruct x, y; cbn; auto. Qed.
Lemma less_same_l x y z : same x y -> less x z -> less y z.
Proof. destruct x, y; cbn; try tauto; intros ->; auto. Qed.
Lemma less_same_r x y z : same x y -> less z x -> less z y.
Proof. destruct x, y; cbn; try tauto; intros ->; auto. Qed.
Lemma less_present x y : less x y -> x <> NaN /\ y <> NaN.
Proof. destruct x, y; cbn; intros []; split; discriminate. Qed.
Lemma same_refl x : x <> NaN -> same x x.
Proof. destruct x; cbn; auto. Qed.

Lemma combine_app {A B} (l1 l2 : list A) : forall (m1 m2 : list B), length l1 = length m1 ->
  combine (l1 ++ l2) (m1 ++ m2) = combine l1 m1 ++ combine l2 m2.
Proof. induction l1 as [|x l IH]; intros [|y m] m2 L; cbn in *; try lia; auto. rewrite IH by lia. reflexivity. Qed.

(** ** smallest and largest of a column *)
Lemma fold_npmin r : forall x, x <> NaN -> (forall y, In y r -> y <> NaN) ->
  let m := fold_left npmin r x in (m = x \/ In m r) /\ m <> NaN /\ ~ less x m /\ forall y, In y r -> ~ less y m.
Proof.
  induction r as [|a r IH]; intros x X R; cbn [fold_left].
  - repeat split; auto. exact (less_irrefl _).
  - assert (A : a <> NaN) by (apply R; left; auto).
    assert (E : npmin x a = if nltb a x then a else x).
    { unfold npmin. destruct x, a; try congruence; reflexivity. }
    rewrite E. assert (X' : (if nltb a x then a else x) <> NaN) by (destruct (nltb a x); auto).
    specialize (IH _ X' (fun y H => R y (or_intror H))). cbv zeta in IH. destruct IH as (I & N & L & F).
    set (m := fold_left npmin r (if nltb a x then a else x)) in *.
    assert (LX : ~ less x m /\ ~ less a m).
    { destruct (nltb a x) eqn:Q.
      - apply less_iff in Q. split; auto. intro H. apply L. exact (less_trans _ _ _ Q H).
      - split; auto. intro H. destruct (trichotomy m x N X) as [U|[U|U]]; auto.
        + assert (K : less a x) by exact (less_trans _ _ _ H U). apply less_iff in K. congruence.
        + assert (K : less a x) by exact (less_same_r _ _ _ U H). apply less_iff in K. congruence. }
    repeat split; try tauto.
    + destruct I as [I|I]; [|auto with datatypes]. destruct (nltb a x); [right; left; auto|auto].
    + intros y [<-|Y]; [tauto|apply F; auto].
Qed.
Lemma fold_npmax r : forall x, x <> NaN -> (forall y, In y r -> y <> NaN) ->
  let m := fold_left npmax r x in (m = x \/ In m r) /\ m <> NaN /\ ~ less m x /\ forall y, In y r -> ~ less m y.
Proof.
  induction r as [|a r IH]; intros x X R; cbn [fold_left].
  - repeat split; auto. exact (less_irrefl _).
  - assert (A : a <> NaN) by (apply R; left; auto).
    assert (E : npmax x a = if nltb x a then a else x).
    { unfold npmax. destruct x, a; try congruence; reflexivity. }
    rewrite E. assert (X' : (if nltb x a then a else x) <> NaN) by (destruct (nltb x a); auto).
    specialize (IH _ X' (fun y H => R y (or_intror H))). cbv zeta in IH. destruct IH as (I & N & L & F).
    set (m := fold_left npmax r (if nltb x a then a else x)) in *.
    assert (LX : ~ less m x /\ ~ less m a).
    { destruct (nltb x a) eqn:Q.
      - apply less_iff in Q. split; auto. intro H. apply L. exact (less_trans _ _ _ H Q).
      - split; auto. intro H. destruct (trichotomy m x N X) as [U|[U|U]]; auto.
        + assert (K : less x a) by exact (less_same_l _ _ _ U H). apply less_iff in K. congruence.
        + assert (K : less x a) by exact (less_trans _ _ _ U H). apply less_iff in K. congruence. }
    repeat split; try tauto.
    + destruct I as [I|I]; [|auto with datatypes]. destruct (nltb x a); [right; left; auto|auto].
    + intros y [<-|Y]; [tauto|apply F; auto].
Qed.
Lemma present_ok y l : In y (present l) -> y <> NaN.
Proof. intro H. apply in_present in H as [_ H]. destruct y; discriminate. Qed.
Lemma min_skip_is l v : In v l -> (neqb (min_skip l) v = true <-> v <> NaN /\ forall x, In x l -> ~ less x v).
Proof.
  intro I. rewrite same_iff. unfold min_skip. destruct (present l) as [|x r] eqn:E.
  - split; [intros []|]. intros [N _]. assert (P : In v (present l)) by (apply in_present; split; auto; destruct v; auto; congruence).
    rewrite E in P. destruct P.
  - assert (P : forall y, In y (x :: r) -> y <> NaN) by (intros y Y; apply (present_ok y l); rewrite E; exact Y).
    destruct (fold_npmin r x) as (M & N & L & F); [apply P; left; auto|intros; apply P; right; auto|].
    set (m := fold_left npmin r x) in *.
    assert (IM : In m l).
    { assert (In m (present l)) by (rewrite E; destruct M as [->|M]; [left; auto|right; auto]). apply in_present in H. tauto. }
    assert (FA : forall y, In y l -> ~ less y m).
    { intros y Y LY. destruct (less_present _ _ LY) as [NY _]. assert (In y (present l)) by (apply in_present; split; auto; destruct y; auto; congruence).
      rewrite E in H. destruct H as [->|H]; [auto|]. exact (F y H LY). }
    split.
    + intro SM. split; [destruct m, v; cbn in SM; try tauto; discriminate|]. intros y Y LY. apply (FA y Y). eapply less_same_r; [apply same_sym; exact SM|exact LY].
    + intros [NV H]. destruct (trichotomy m v N NV) as [U|[U|U]]; auto; exfalso; [exact (H m IM U)|exact (FA v I U)].
Qed.
Lemma max_skip_is l v : In v l -> (neqb (max_skip l) v = true <-> v <> NaN /\ forall x, In x l -> ~ less v x).
Proof.
  intro I. rewrite same_iff. unfold max_skip. destruct (present l) as [|x r] eqn:E.
  - split; [intros []|]. intros [N _]. assert (P : In v (present l)) by (apply in_present; split; auto; destruct v; auto; congruence).
    rewrite E in P. destruct P.
  - assert (P : forall y, In y (x :: r) -> y <> NaN) by (intros y Y; apply (present_ok y l); rewrite E; exact Y).
    destruct (fold_npmax r x) as (M & N & L & F); [apply P; left; auto|intros; apply P; right; auto|].
    set (m := fold_left npmax r x) in *.
    assert (IM : In m l).
    { assert (In m (present l)) by (rewrite E; destruct M as [->|M]; [left; auto|right; auto]). apply in_present in H. tauto. }
    assert (FA : forall y, In y l -> ~ less m y).
    { intros y Y LY. destruct (less_present _ _ LY) as [_ NY]. assert (In y (present l)) by (apply in_present; split; auto; destruct y; auto; congruence).
      rewrite E in H. destruct H as [->|H]; [auto|]. exact (F y H LY). }
    split.
    + intro SM. split; [destruct m, v; cbn in SM; try tauto; discriminate|]. intros y Y LY. apply (FA y Y). eapply less_same_l; [apply same_sym; exact SM|exact LY].
    + intros [NV H]. destruct (trichotomy m v N NV) as [U|[U|U]]; auto; exfalso; [exact (FA v I U)|exact (H m IM U)].
Qed.

(** ** the last n cells *)
Lemma nth_tail_k n (s : series) i : (n <= length s)%nat -> (i < n)%nat -> nth i (tail_k n s) NaN = nth (length s - (n - i)) s NaN.
Proof. intros A B. unfold tail_k. rewrite nth_skipn. f_equal. lia. Qed.
Lemma len_tail_k n (s : series) : (n <= length s)%nat -> length (tail_k n s) = n.
Proof. intro A. unfold tail_k. rewrite skipn_length. lia. Qed.
Lemma in_tail_k n (s : series) x : (n <= length s)%nat ->
  (In x (tail_k n s) <-> exists d, (1 <= d <= n)%nat /\ x = nth (length s - d) s NaN).
Proof.
  intro A. split.
  - intro I. apply (In_nth _ _ NaN) in I as (i & L & <-). rewrite len_tail_k in L by auto.
    exists (n - i)%nat. split; [lia|]. rewrite nth_tail_k by auto. reflexivity.
  - intros (d & D & ->). replace d with (n - (n - d))%nat at 1 by lia. rewrite <- nth_tail_k by lia. apply nth_In. rewrite len_tail_k by auto. lia.
Qed.

(** ** last position where a test holds *)
Lemma last_true_snoc m x : last_true (m ++ [x]) = if x then Some (length m) else last_true m.
Proof.
  unfold last_true. rewrite app_length. cbn [length]. rewrite Nat.add_1_r, seq_S. cbn [Nat.add].
  rewrite combine_app by (rewrite seq_length; reflexivity). rewrite fold_left_app. cbn. reflexivity.
Qed.
Lemma last_true_some m : forall k, last_true m = Some k <->
  (k < length m)%nat /\ nth k m false = true /\ forall j, (k < j < length m)%nat -> nth j m false = false.
Proof.
  induction m as [|x m IH] using rev_ind; intro k.
  - cbn. split; [discriminate|intros [H _]; lia].
  - rewrite last_true_snoc, app_length. cbn [length]. destruct x.
    + split.
      * intro E. injection E as <-. split; [lia|]. split; [rewrite app_nth2, Nat.sub_diag by lia; reflexivity|intros; lia].
      * intros (L & T & F). destruct (Nat.eq_dec k (length m)) as [->|N]; auto. specialize (F (length m) ltac:(lia)).
        rewrite app_nth2, Nat.sub_diag in F by lia. discriminate.
    + rewrite IH. split.
      * intros (L & T & F). split; [lia|]. split; [rewrite app_nth1 by lia; auto|]. intros j J.
        destruct (Nat.eq_dec j (length m)) as [->|N]; [rewrite app_nth2, Nat.sub_diag by lia; reflexivity|rewrite app_nth1 by lia; apply F; lia].
      * intros (L & T & F). destruct (Nat.eq_dec k (length m)) as [->|N]; [rewrite app_nth2, Nat.sub_diag in T by lia; discriminate|].
        rewrite app_nth1 in T by lia. repeat split; auto; [lia|]. intros j J. specialize (F j ltac:(lia)). rewrite app_nth1 in F by lia. exact F.
Qed.
Lemma last_true_none m : last_true m = None <-> forall j, (j < length m)%nat -> nth j m false = false.
Proof.
  induction m as [|x m IH] using rev_ind.
  - cbn. split; [intros; lia|auto].
  - rewrite last_true_snoc, app_length. cbn [length]. destruct x.
    + split; [discriminate|]. intro H. specialize (H (length m) ltac:(lia)). rewrite app_nth2, Nat.sub_diag in H by lia. discriminate.
    + rewrite IH. split.
      * intros F j J. destruct (Nat.eq_dec j (length m)) as [->|N]; [rewrite app_nth2, Nat.sub_diag by lia; reflexivity|rewrite app_nth1 by lia; apply F; lia].
      * intros F j J. specialize (F j ltac:(lia)). rewrite app_nth1 in F by lia. exact F.
Qed.
(** m holds later than m' *)
Lemma last_index_lt m m' : length m' = length m -> (forall j, nth j m false = true -> nth j m' false = true -> False) ->
  ((last_index m' < last_index m)%Z <->
   exists k, (k < length m)%nat /\ nth k m false = true /\ forall j, (k < j < length m)%nat -> nth j m' false = false).
Proof.
  intros LE X. unfold last_index.
  destruct (last_true m) as [k|] eqn:E.
  - apply last_true_some in E as (L & T & F). destruct (last_true m') as [k'|] eqn:E'.
    + apply last_true_some in E' as (L' & T' & F'). split.
      * intro H. exists k. repeat split; auto. intros j J. apply F'. lia.
      * intros (i & I & TI & FI). assert (i <= k)%nat.
        { destruct (Nat.le_gt_cases i k); auto. rewrite F in TI by lia. discriminate. }
        destruct (Nat.lt_ge_cases k' k) as [Y|Y]; [lia|]. destruct (Nat.eq_dec k' k) as [->|N]; [exfalso; eauto|].
        rewrite FI in T' by lia. discriminate.
    + rewrite last_true_none in E'. split; [|lia]. intros _. exists k. repeat split; auto. intros; apply E'; lia.
  - rewrite last_true_none in E. split.
    + destruct (last_true m'); lia.
    + intros (i & I & TI & _). rewrite E in TI by auto. discriminate.
Qed.
Lemma last_index_none m : last_index m = (-1)%Z <-> forall j, (j < length m)%nat -> nth j m false = false.
Proof.
  unfold last_index. rewrite <- last_true_none. destruct (last_true m); split; intros; try congruence; try lia.
Qed.

(** ** the reversal bulge *)
Lemma bulge_iff l : bulge l = true <->
  exists i, (i < length l)%nat /\ less (level 27) (nth i l NaN) /\ forall j, (j < i)%nat -> ~ less (nth j l NaN) (Fin (Q2Qc (265 # 10))).
Proof.
  induction l as [|x l IH]; cbn [bulge].
  - split; [discriminate|intros (i & L & _); cbn in L; lia].
  - destruct (nltb x (D 265 10)) eqn:A.
    + split; [discriminate|]. intros (i & L & G & F). exfalso. apply less_iff in A. destruct i as [|i].
      * cbn [nth] in G. assert (B : less (D 265 10) (level 27)) by reflexivity. exact (less_irrefl _ (less_trans _ _ _ B (less_trans _ _ _ G A))).
      * apply (F 0%nat ltac:(lia)). exact A.
    + assert (NA : ~ less x (D 265 10)) by (intro H; apply less_iff in H; congruence).
      unfold ngtb. destruct (nltb (F 27) x) eqn:B.
      * split; auto. intros _. exists 0%nat. cbn [nth length]. split; [lia|]. split; [apply less_iff; exact B|intros; lia].
      * rewrite IH. split.
        -- intros (i & L & G & F). exists (S i). cbn [nth length]. split; [lia|]. split; auto. intros [|j] J; cbn [nth]; [exact NA|apply F; lia].
        -- intros (i & L & G & F). destruct i as [|i]; [cbn [nth] in G; apply less_iff in G; change (level 27) with (Num.F 27) in G; congruence|].
           exists i. cbn [nth length] in *. split; [lia|]. split; auto. intros j J. apply (F (S j)). lia.
Qed.

(** ** the last row where a test holds *)
Lemma masked_snoc m s b x : length m = length s -> masked (m ++ [b]) (s ++ [x]) = masked m s ++ (if b then [x] else []).
Proof.
  intro L. unfold masked. rewrite combine_app by auto. rewrite filter_app, map_app. f_equal. destruct b; reflexivity.
Qed.
Lemma iat_snoc l x : iat (l ++ [x]) 1 = Ok x.
Proof. rewrite iat_at by (rewrite app_length; cbn; lia). rewrite app_length. cbn [length]. rewrite Nat.add_sub, app_nth2, Nat.sub_diag by lia. reflexivity. Qed.
Lemma masked_last m : forall s, length m = length s ->
  (forall k, (k < length m)%nat -> nth k m false = true -> (forall j, (k < j < length m)%nat -> nth j m false = false) ->
     iat (masked m s) 1 = Ok (nth k s NaN)) /\
  ((forall k, (k < length m)%nat -> nth k m false = false) -> iat (masked m s) 1 = Err IndexErr).
Proof.
  induction m as [|b m IH] using rev_ind; intros s L.
  - split; [intros k K; cbn in K; lia|]. intros _. destruct s; reflexivity.
  - destruct s as [|x s _] using rev_ind; [rewrite app_length in L; cbn in L; lia|].
    rewrite !app_length in *. cbn [length] in *. rewrite masked_snoc by lia. destruct (IH s ltac:(lia)) as [I1 I2]. split.
    + intros k K T F. destruct (Nat.eq_dec k (length m)) as [->|N].
      * rewrite app_nth2, Nat.sub_diag in T by lia. cbn in T. subst b. rewrite iat_snoc. f_equal.
        replace (length m) with (length s) by lia. rewrite app_nth2, Nat.sub_diag by lia. reflexivity.
      * assert (B : b = false). { specialize (F (length m) ltac:(lia)). rewrite app_nth2, Nat.sub_diag in F by lia. exact F. }
        subst b. rewrite app_nil_r, app_nth1 by lia. apply I1; [lia|rewrite app_nth1 in T by lia; exact T|].
        intros j J. specialize (F j ltac:(lia)). rewrite app_nth1 in F by lia. exact F.
    + intro F. assert (B : b = false). { specialize (F (length m) ltac:(lia)). rewrite app_nth2, Nat.sub_diag in F by lia. exact F. }
      subst b. rewrite app_nil_r. apply I2. intros k K. specialize (F k ltac:(lia)). rewrite app_nth1 in F by lia. exact F.
Qed.

(** ** position of the first smallest cell *)
Definition smallest_at (l : series) (r : nat) (m : Qc) : Prop :=
  (r < length l)%nat /\ nth r l NaN = Fin m /\
  forall j q, (j < length l)%nat -> nth j l NaN = Fin q -> (m <= q)%Qc /\ ((j < r)%nat -> (m < q)%Qc).
Lemma argmin_from_spec l : forall pre best bi, (bi < length pre)%nat -> nth bi pre NaN = best -> best <> NaN ->
  (forall j, (j < length pre)%nat -> nth j pre NaN <> NaN /\ ~ less (nth j pre NaN) best /\ ((j < bi)%nat -> less best (nth j pre NaN))) ->
  (forall x, In x l -> x <> NaN) ->
  let r := argmin_from best bi (length pre) l in let all := pre ++ l in
  (r < length all)%nat /\ nth r all NaN <> NaN /\
  forall j, (j < length all)%nat -> ~ less (nth j all NaN) (nth r all NaN) /\ ((j < r)%nat -> less (nth r all NaN) (nth j all NaN)).
Proof.
  induction l as [|x l IH]; intros pre best bi B E N H P; cbn [argmin_from].
  - rewrite app_nil_r. cbn zeta. rewrite E. split; [auto|]. split; [auto|]. intros j J. apply H. auto.
  - assert (X : x <> NaN) by (apply P; left; auto).
    assert (EA : pre ++ x :: l = (pre ++ [x]) ++ l) by (rewrite <- app_assoc; reflexivity).
    assert (LP : length (pre ++ [x]) = S (length pre)) by (rewrite app_length; cbn; lia).
    cbv zeta. rewrite EA, <- LP. destruct (nltb x best) eqn:Q.
    + apply less_iff in Q. apply IH; auto.
      * rewrite LP. lia.
      * rewrite app_nth2, Nat.sub_diag by lia. reflexivity.
      * intros j J. rewrite LP in J. destruct (Nat.eq_dec j (length pre)) as [->|NE].
        -- rewrite app_nth2, Nat.sub_diag by lia. cbn. split; [exact X|]. split; [exact (less_irrefl _)|lia].
        -- rewrite app_nth1 by lia. destruct (H j ltac:(lia)) as (Z & H1 & H2). split; [exact Z|].
           assert (K : less x (nth j pre NaN)).
           { destruct (trichotomy (nth j pre NaN) best Z N) as [U|[U|U]]; [tauto|exact (less_same_r _ _ _ (same_sym _ _ U) Q)|exact (less_trans _ _ _ Q U)]. }
           split; [intro W; exact (less_asym _ _ W K)|auto].
      * intros y Y. apply P. right. exact Y.
    + apply IH; auto.
      * rewrite LP. lia.
      * rewrite app_nth1 by lia. auto.
      * intros j J. rewrite LP in J. destruct (Nat.eq_dec j (length pre)) as [->|NE].
        -- rewrite app_nth2, Nat.sub_diag by lia. cbn. split; [exact X|]. split; [intro W; apply less_iff in W; congruence|lia].
        -- rewrite app_nth1 by lia. apply H. lia.
      * intros y Y. apply P. right. exact Y.
Qed.
Lemma argmin_spec l r m : (forall x, In x l -> x = NaN \/ isfin x = true) -> smallest_at l r m -> argmin l = Z.of_nat r.
Proof.
  intros FN (R & E & S). unfold argmin.
  assert (NA : forallb isnan l = false).
  { apply not_true_iff_false. intro A. rewrite forallb_forall in A. specialize (A (Fin m)). rewrite <- E in A.
    specialize (A (nth_In _ _ R)). rewrite E in A. discriminate. }
  rewrite NA. clear NA. set (g := map nan_to_pinf l).
  assert (LG : length g = length l) by apply map_length.
  assert (CG : forall j, (j < length l)%nat -> nth j g NaN = nan_to_pinf (nth j l NaN)).
  { intros j J. unfold g. rewrite (nth_map _ NaN) by lia. reflexivity. }
  destruct g as [|x rest] eqn:EG; [cbn in LG; lia|].
  assert (PG : forall y, In y (x :: rest) -> y <> NaN).
  { intros y Y. rewrite <- EG in Y. apply in_map_iff in Y as (z & <- & _). destruct z; discriminate. }
  destruct (argmin_from_spec rest [x] x 0%nat) as (A & B & C); auto.
  - apply PG. left. auto.
  - intros [|j] J; cbn in J; [|lia]. cbn. split; [apply PG; left; auto|]. split; [exact (less_irrefl _)|lia].
  - intros y Y. apply PG. right. auto.
  - change ([x] ++ rest) with (x :: rest) in *. change (length [x]) with 1%nat in *. set (k := argmin_from x 0 1 rest) in *.
    f_equal. rewrite LG in *. assert (ER : nth r (x :: rest) NaN = Fin m) by (rewrite CG by auto; rewrite E; reflexivity).
    destruct (Nat.lt_trichotomy k r) as [K|[K|K]]; auto; exfalso.
    + destruct (C r R) as [C1 _]. rewrite ER in C1. rewrite CG in B, C1 by auto.
      destruct (FN (nth k l NaN) (nth_In _ _ A)) as [Z|Z].
      * rewrite Z in C1. apply C1. exact I.
      * destruct (nth k l NaN) as [| | |q] eqn:EK; try discriminate. destruct (S k q A EK) as [_ S2]. apply C1. exact (S2 K).
    + destruct (C r R) as [_ C2]. specialize (C2 K). rewrite ER in C2. rewrite CG in B, C2 by auto.
      destruct (FN (nth k l NaN) (nth_In _ _ A)) as [Z|Z]; [rewrite Z in C2; exact C2|].
      destruct (nth k l NaN) as [| | |q] eqn:EK; try discriminate. destruct (S k q A EK) as [S1 _]. cbn in C2.
      exact (Qclt_not_le _ _ C2 S1).
Qed.

Lemma sall_iff l : sall l = true <-> forall x, In x l -> ~ same x (level 0).
Proof.
  unfold sall. rewrite forallb_forall. split.
  - intros H x I SX. specialize (H x I). rewrite negb_true_iff in H. apply same_iff in SX. change (level 0) with (Fin 0) in SX. congruence.
  - intros H x I. rewrite negb_true_iff. apply not_true_iff_false. intro E. apply same_iff in E. exact (H x I E).
Qed.

(** ** means of the last values *)
Lemma total_first f n : total f (S n) = (f O + total (fun j => f (S j)) n)%Qc.
Proof. induction n as [|n IH]; [cbn; ring|]. cbn [total] in *. rewrite IH. ring. Qed.
Lemma total_rev f n : total (fun j => f (n - j)%nat) n = total (fun j => f (S j)) n.
Proof.
  revert f. induction n as [|n IH]; intro f; [reflexivity|]. rewrite total_first. cbn [Nat.sub]. rewrite IH. cbn [total]. ring.
Qed.
Lemma latest_win x n p k f : latest (fun d => x (n - d)%nat) p f -> (0 < p <= n)%nat -> k = (n - 1)%nat -> win x p k (fun j => f (p - j)%nat).
Proof.
  intros H P ->. split; [lia|]. intros j J. specialize (H (p - j)%nat ltac:(lia)). cbn beta in H. rewrite <- H. f_equal. lia.
Qed.
Lemma mean_rev f p : mean (fun j => f (p - j)%nat) p = mean_of f p.
Proof. unfold mean_of, mean. rewrite total_rev. reflexivity. Qed.
Lemma roll_mean_latest p (s : series) f : latest (fun d => nth (length s - d) s NaN) p f -> (0 < p <= length s)%nat ->
  nth (length s - 1) (roll_mean p s) NaN = Fin (mean_of f p).
Proof.
  intros H P. rewrite <- mean_rev. destruct (rolled_mean p s (length s - 1) ltac:(lia)) as [R _]. apply R.
  eapply latest_win; eauto.
Qed.
Lemma rolling_more p m (s : series) agg k f : win (fun j => nth j s NaN) p k f -> (m <= p)%nat -> (k < length s)%nat ->
  nth k (rolling p m agg s) NaN = nth k (rolling p p agg s) NaN.
Proof.
  intros [A B] M K. rewrite !nth_rolling by auto.
  assert (L : length (fins (window p k s)) = p).
  { assert (E : window p k s = map Fin (map f (seq 0 p))).
    { apply (list_nth_eq _ _ NaN).
      - unfold window. rewrite skipn_length, firstn_length, !map_length, seq_length. lia.
      - intros j J. unfold window in *. rewrite skipn_length, firstn_length in J. rewrite nth_skipn, nth_firstn by lia. rewrite B by lia.
        rewrite map_map, (nth_map _ 0%nat) by (rewrite seq_length; lia). rewrite seq_nth by lia. reflexivity. }
    rewrite E. rewrite fins_fin, !map_length, seq_length. reflexivity. }
  cbv zeta. rewrite L, Nat.leb_refl. destruct (Nat.leb_spec m p); [reflexivity|lia].
Qed.
Lemma mean_skip_latest n (s : series) f : latest (fun d => nth (length s - d) s NaN) n f -> (0 < n <= length s)%nat ->
  mean_skip (tail_k n s) = Fin (mean_of f n).
Proof.
  intros H N. assert (E : tail_k n s = map Fin (map (fun j => f (n - j)%nat) (seq 0 n))).
  { apply (list_nth_eq _ _ NaN).
    - rewrite len_tail_k, !map_length, seq_length by lia. reflexivity.
    - intros j J. rewrite len_tail_k in J by lia. rewrite nth_tail_k by lia. rewrite H by lia.
      rewrite map_map, (nth_map _ 0%nat) by (rewrite seq_length; lia). rewrite seq_nth by lia. reflexivity. }
  rewrite E. unfold mean_skip. rewrite present_fin, nsum_fin, qsum_seq, !map_length, seq_length.
  cbn [Nat.add]. rewrite total_rev. change (qnat n) with (nq n). apply ndiv_fin. apply nn_pos. lia.
Qed.

(** ** where in the cloud *)
Definition ordered3 (x y : num) (lt gt eq : bool) : Prop := nltb x y = lt /\ nltb y x = gt /\ neqb x y = eq /\ neqb y x = eq.
Lemma three_ways x y : x <> NaN -> y <> NaN ->
  (less x y /\ ordered3 x y true false false) \/ (same x y /\ ordered3 x y false false true) \/ (less y x /\ ordered3 x y false true false).
Proof.
  intros X Y. unfold ordered3.
  assert (Q : forall a c, same a c -> less a c -> False).
  { intros a c S L. apply (less_irrefl c). exact (less_same_l _ _ _ S L). }
  destruct (trichotomy x y X Y) as [U|[U|U]]; [left|right; left|right; right]; (split; [exact U|]);
    repeat split; try (apply less_iff; assumption); try (apply same_iff; auto using same_sym; fail);
    apply not_true_iff_false; intro H; try apply less_iff in H; try apply same_iff in H;
    try exact (less_asym _ _ U H); try exact (Q _ _ U H); try exact (Q _ _ H U);
    try exact (Q _ _ (same_sym _ _ U) H); try exact (Q _ _ (same_sym _ _ H) U).
Qed.
Lemma at_most_less x y : x <> NaN -> y <> NaN -> (at_most x y <-> ~ less y x).
Proof.
  intros X Y. split; [intros A B; exact (less_at_most _ _ B A)|].
  intro N. destruct (trichotomy x y X Y) as [U|[U|U]]; [left|right|]; tauto.
Qed.
Lemma cloud v a b' : v <> NaN -> a <> NaN -> b' <> NaN ->
  (where_in_cloud v a b' = 1%Z <-> less a v /\ less b' v) /\
  (where_in_cloud v a b' = (-1)%Z <-> at_most v a /\ at_most v b') /\ (-1 <= where_in_cloud v a b' <= 1)%Z.
Proof.
  intros V A B. rewrite !at_most_less by auto.
  destruct (three_ways v a V A) as [[U O]|[[U O]|[U O]]]; destruct O as (O1 & O2 & O3 & O4);
  destruct (three_ways v b' V B) as [[U' P]|[[U' P]|[U' P]]]; destruct P as (P1 & P2 & P3 & P4);
  destruct (three_ways a b' A B) as [[U2 R]|[[U2 R]|[U2 R]]]; destruct R as (R1 & R2 & R3 & R4).
  all: unfold where_in_cloud, sort3, insert3, clt; cbn [fst snd].
  all: repeat (cbn [fst snd cell_index orb]; rewrite ?O1, ?O2, ?O3, ?O4, ?P1, ?P2, ?P3, ?P4, ?R1, ?R2, ?R3, ?R4).
  all: cbn [cell_index fst snd orb]; rewrite ?O1, ?O2, ?O3, ?O4, ?P1, ?P2, ?P3, ?P4, ?R1, ?R2, ?R3, ?R4.
  all: rewrite <- !less_iff, ?O1, ?O2, ?P1, ?P2.
  all: try (split; [split; [intro; try discriminate; split; congruence|intros [? ?]; try congruence; try reflexivity]|split; [split; [intro; try discriminate; split; congruence|intros [? ?]; try congruence; try reflexivity]|lia]]; fail).
  all: exfalso; clear - U U' U2;
    try (apply (less_irrefl v); eauto 5 using less_trans, less_same_l, less_same_r, same_sym; fail);
    try (apply (less_irrefl a); eauto 5 using less_trans, less_same_l, less_same_r, same_sym; fail);
    try (apply (less_irrefl b'); eauto 5 using less_trans, less_same_l, less_same_r, same_sym; fail).
Qed.

(** * RangeMore: the ranges of SMI, RI, VHF, DMI, RVI and the projection oscillator. *)
From Coq Require Import ZArith QArith Qcanon Bool List String PeanoNat Lia.
From Verif Require Import Num NumFacts Pandas Frame Ind SeriesFacts Lengths IndSpec ApiSpec RangeSpec Cells RangeFacts.
Import ListNotations.
Open Scope list_scope. Open Scope Qc_scope.

(** ** exponential smoothing keeps values between the bounds of its input *)
Definition fin_between (lo hi : Qc) (x : num) : Prop := forall q, x = Fin q -> lo <= q /\ q <= hi.
Lemma ewm_mix lo hi w q ow al : 0 < al -> 0 <= ow -> lo <= w -> w <= hi -> lo <= q -> q <= hi ->
  lo <= (ow * w + al * q) / (ow + al) /\ (ow * w + al * q) / (ow + al) <= hi.
Proof. intros. assert (0 < ow + al) by qlra. split; [apply qcle_div|apply qcdiv_le]; auto; qnra. Qed.
Lemma ewm_from_between al m lo hi s : 0 < al -> al <= 1 -> Forall (fin_between lo hi) s -> forall st nobs,
  match st with None => True | Some (w, ow) => lo <= w /\ w <= hi /\ 0 <= ow end ->
  Forall (between lo hi) (ewm_from al m st nobs s).
Proof.
  intros A1 A2 H.
  assert (OUT : forall k w, lo <= w -> w <= hi -> between lo hi (ewm_out m k w)).
  { intros. unfold ewm_out. destruct (m <=? k)%nat; [apply between_fin|]; auto. }
  assert (DEC : forall ow, 0 <= ow -> 0 <= ow * (1 - al)) by (intros; qnra).
  induction H as [|x s HX H IH]; intros st nobs ST; [constructor|].
  destruct x as [| | |q].
  1-3: cbn; destruct st as [[w ow]|]; [destruct ST as (B1 & B2 & B3); constructor; [auto|apply IH; repeat split; auto]|
                                       constructor; [auto|apply IH; auto]].
  destruct (HX q eq_refl) as [Q1 Q2]. cbn. destruct st as [[w ow]|].
  - destruct ST as (B1 & B2 & B3). destruct (ewm_mix lo hi w q (ow * (1 - al)) al) as [M1 M2]; auto.
    constructor; [apply OUT; auto|apply IH]. repeat split; auto. qlra.
  - constructor; [apply OUT; auto|apply IH]. repeat split; auto. qlra.
Qed.
Lemma span_alpha_range p : (0 < p)%nat -> 0 < span_alpha p /\ span_alpha p <= 1.
Proof.
  intro P. unfold span_alpha. assert (Q : 0 < qnat (S p)) by (apply qnat_pos; lia).
  split; [apply qclt_div|apply qcdiv_le]; auto; [qlra|]. 
  destruct p as [|p]; [lia|]. rewrite !qnat_S. pose proof (qnat_nonneg p). qlra.
Qed.
Lemma ewm_between p m lo hi s : (0 < p)%nat -> Forall (fin_between lo hi) s -> Forall (between lo hi) (ewm p m s).
Proof.
  intros P H. destruct (span_alpha_range p P). unfold ewm, ewm_alpha. apply ewm_from_between; auto.
Qed.
Lemma within_fin_between lo hi x : within lo hi x -> fin_between (zq lo) (zq hi) x.
Proof. intros [->|(q & -> & A & B)] r E; [discriminate|]. apply Fin_inj in E as <-. auto. Qed.

(** ** Range indicator *)
Lemma ri_range_within r st i n : (0 < r)%nat -> length st = n -> (i < n)%nat -> within 0 100 (nth i (ri_range r st) NaN).
Proof.
  intros R E L. unfold ri_range. cbv zeta. unfold sdiv, scale, ssub. cell.
  destruct (roll_min_view r st i n) as [->|(m & -> & _ & MB & _)]; lens; try (left; destruct (nth i (roll_max r r st) NaN); reflexivity).
  destruct (roll_max_view r st i n) as [->|(M & -> & _ & XB & _)]; lens; try (left; reflexivity).
  destruct (MB i) as [V1 V2]; [lia|]. destruct (XB i) as [_ V3]; [lia|]. rewrite V1. generalize dependent (val st i). intros x V1 V2 V3.
  unfold nsub, F. cbn [nneg nadd nmul].
  assert (NL : forall a b, nltb (Fin a) (Fin b) = qltb a b) by reflexivity. unfold ngtb. rewrite NL.
  destruct (qltb_spec (Q2Qc (inject_Z 0)) (M + - m)) as [P|P].
  - assert (W : within 0 100 (ndiv (Fin (Q2Qc (inject_Z 100) * (x + - m))) (Fin (M + - m)))) by (apply ratio_within; unfold zq; qlra).
    destruct W as [->|(z & W & Z1 & Z2)]; [left; reflexivity|]. rewrite W.
    destruct (nleb (Fin z) (Fin (Q2Qc (inject_Z 0)))) eqn:B; [|right; eauto].
    apply nleb_fin in B. assert (z = 0) by (apply qc_le_antisym; unfold zq in *; qlra). subst z.
    cbn in W. destruct (qeqb_spec (M + - m) 0); [qlra|]. apply Fin_inj in W.
    assert (Q : Q2Qc (inject_Z 100) * (x + - m) = 0).
    { rewrite <- (qcdiv_mul (Q2Qc (inject_Z 100) * (x + - m)) (M + - m)) by auto. rewrite W. ring. }
    rewrite Q. right. exists 0. split; [reflexivity|unfold zq; split; qlra].
  - assert (Q1 : M = m) by (apply qc_le_antisym; qlra). assert (Q2 : x = m) by (apply qc_le_antisym; qlra). subst.
    replace (m + - m) with 0 by ring. rewrite (proj2 (nleb_fin _ _)) by qlra.
    right. eexists. split; [reflexivity|]. unfold zq. split; qlra.
Qed.
Lemma ri_within r s h l c i : (0 < r)%nat -> (0 < s)%nat -> length h = length c -> length l = length c -> within 0 100 (nth i (ri r s h l c) NaN).
Proof.
  intros R S0 H1 H2.
  destruct (Nat.lt_ge_cases i (length c)) as [L|L]; [|rewrite nth_overflow; auto; rewrite (ln_ri r s h l c (length c)); auto].
  remember (length c) as n eqn:E. symmetry in E. unfold ri, sround. cell. apply within_round.
  apply (Forall_nth_NaN (between (zq 0) (zq 100))); auto. apply ewm_between; auto.
  assert (LT : length (ri_text h l c) = n) by lens.
  apply Forall_of_nth. intros j J. apply within_fin_between.
  assert (LR : length (ri_range r (ri_text h l c)) = n) by lens. rewrite LR in J.
  eapply ri_range_within; eauto.
Qed.

(** ** Stochastic momentum index *)
Definition half_of (x y : num) : Prop := x = NaN /\ y = NaN \/
  exists a b, x = Fin a /\ y = Fin b /\ - b <= a * Q2Qc (inject_Z 2) /\ a * Q2Qc (inject_Z 2) <= b.
Lemma ewm_from_half al m a b : 0 < al -> al <= 1 -> Forall2 half_of a b -> forall sa sb nobs,
  match sa, sb with
  | None, None => True
  | Some (w, ow), Some (w', ow') => ow = ow' /\ 0 <= ow /\ - w' <= w * Q2Qc (inject_Z 2) /\ w * Q2Qc (inject_Z 2) <= w'
  | _, _ => False end ->
  Forall2 half_of (ewm_from al m sa nobs a) (ewm_from al m sb nobs b).
Proof.
  intros A1 A2 H.
  assert (OUT : forall k w w', - w' <= w * Q2Qc (inject_Z 2) -> w * Q2Qc (inject_Z 2) <= w' -> half_of (ewm_out m k w) (ewm_out m k w')).
  { intros. unfold ewm_out. destruct (m <=? k)%nat; [right; eauto 8|left; auto]. }
  assert (NN : half_of NaN NaN) by (left; auto).
  induction H as [|x y a b HX H IH]; intros sa sb nobs ST; [constructor|].
  destruct HX as [[-> ->]|(q & r & -> & -> & B1 & B2)]; cbn.
  - destruct sa as [[w ow]|], sb as [[w' ow']|]; try contradiction; [|constructor; [auto|apply IH; auto]].
    destruct ST as (<- & O & S1 & S2). constructor; [auto|]. apply IH. repeat split; auto. qnra.
  - destruct sa as [[w ow]|], sb as [[w' ow']|]; try contradiction.
    + destruct ST as (<- & O & S1 & S2).
      assert (G : 0 <= ow * (1 - al)) by qnra. set (g := ow * (1 - al)) in *. clearbody g.
      assert (P : 0 < g + al) by qlra.
      assert (X1 : - ((g * w' + al * r) / (g + al)) <= (g * w + al * q) / (g + al) * Q2Qc (inject_Z 2)).
      { apply Qcle_minus_iff. 
        replace ((g * w + al * q) / (g + al) * Q2Qc (inject_Z 2) + - - ((g * w' + al * r) / (g + al)))
          with ((g * (w * Q2Qc (inject_Z 2) + w') + al * (q * Q2Qc (inject_Z 2) + r)) / (g + al)) by (unfold Qcdiv; ring).
        apply qcdiv_nonneg; auto. assert (0 <= w * Q2Qc (inject_Z 2) + w') by qlra. assert (0 <= q * Q2Qc (inject_Z 2) + r) by qlra. qnra. }
      assert (X2 : (g * w + al * q) / (g + al) * Q2Qc (inject_Z 2) <= (g * w' + al * r) / (g + al)).
      { apply Qcle_minus_iff. 
        replace ((g * w' + al * r) / (g + al) + - ((g * w + al * q) / (g + al) * Q2Qc (inject_Z 2)))
          with ((g * (w' - w * Q2Qc (inject_Z 2)) + al * (r - q * Q2Qc (inject_Z 2))) / (g + al)) by (unfold Qcdiv; ring).
        apply qcdiv_nonneg; auto. assert (0 <= w' - w * Q2Qc (inject_Z 2)) by qlra. assert (0 <= r - q * Q2Qc (inject_Z 2)) by qlra. qnra. }
      constructor; [auto|]. apply IH. repeat split; auto. qlra.
    + constructor; [auto|]. apply IH. repeat split; auto. qlra.
Qed.
Lemma ewm_half p m a b : (0 < p)%nat -> Forall2 half_of a b -> Forall2 half_of (ewm p m a) (ewm p m b).
Proof. intros P H. destruct (span_alpha_range p P). unfold ewm, ewm_alpha. apply ewm_from_half; auto. Qed.
Lemma Forall2_of_nth (R : num -> num -> Prop) a b n : length a = n -> length b = n ->
  (forall i, (i < n)%nat -> R (nth i a NaN) (nth i b NaN)) -> Forall2 R a b.
Proof.
  revert b n; induction a as [|x a IH]; intros [|y b] n LA LB H; cbn in *; subst n; try discriminate; [constructor|].
  constructor; [apply (H 0%nat); lia|]. apply (IH b (length a)); auto. intros i I. apply (H (S i)). lia.
Qed.
Lemma Forall2_nth_NaN (R : num -> num -> Prop) a b i : R NaN NaN -> Forall2 R a b -> R (nth i a NaN) (nth i b NaN).
Proof. intros N H. revert i. induction H; intros [|i]; cbn; auto. Qed.
Definition finite (s : series) : Prop := forall j, (j < length s)%nat -> isfin (nth j s NaN) = true.
Lemma finite_val s j n : finite s -> length s = n -> (j < n)%nat -> nth j s NaN = Fin (val s j).
Proof. intros H <- J. specialize (H j J). unfold val. destruct (nth j s NaN); try discriminate; reflexivity. Qed.
Lemma smi_range p s d h l c i : (0 < p)%nat -> (0 < s)%nat -> (0 < d)%nat -> length h = length c -> length l = length c ->
  finite c -> ple l c -> ple c h -> within (-100) 100 (nth i (smi p s d h l c) NaN).
Proof.
  intros P0 S0 D0 H1 H2 FC PL PH.
  destruct (Nat.lt_ge_cases i (length c)) as [L|L]; [|rewrite nth_overflow; auto; rewrite (ln_smi p s d h l c (length c)); auto].
  remember (length c) as n eqn:E. symmetry in E. unfold smi. cbv zeta. unfold sround, sdiv, scale. cell. apply within_round.
  match goal with |- context [ewm d d (ewm s s ?a)] => set (dist := a) end.
  match goal with |- context [nmul (D 1 2) (nth i (ewm d d (ewm s s ?a)) NaN)] => set (diff := a) end.
  assert (LD : length dist = n) by (subst dist; unfold ssub, sdivc, sadd; lens).
  assert (LF : length diff = n) by (subst diff; lens).
  assert (HF : Forall2 half_of dist diff).
  { apply (Forall2_of_nth _ _ _ n); auto. intros j J. unfold dist, diff. rewrite (c_ssub _ _ j n) by (unfold sdivc, sadd; lens).
    rewrite (c_ssub _ _ j n) by lens. unfold sdivc, sadd. cell.
    destruct (roll_max_view p h j n) as [->|(M & -> & _ & MB & _)]; lens.
    { left. split; [|destruct (nth j (roll_min p p l) NaN); reflexivity]. destruct (nth j c NaN); reflexivity. }
    destruct (roll_min_view p l j n) as [->|(m & -> & _ & mB & _)]; lens.
    { left. split; [|reflexivity]. destruct (nth j c NaN); reflexivity. }
    destruct (MB j) as [HI HB]; [lia|]. destruct (mB j) as [LI LB]; [lia|].
    rewrite (finite_val c j n) by auto. pose proof (finite_val c j n FC E J) as C.
    pose proof (ple_val _ _ _ _ _ PL LI C). pose proof (ple_val _ _ _ _ _ PH C HI).
    right. unfold nsub, F. cbn [nneg nadd]. 
    assert (DV : ndiv (Fin (M + m)) (Fin (Q2Qc (inject_Z 2))) = Fin ((M + m) / Q2Qc (inject_Z 2))) by reflexivity.
    rewrite DV. cbn [nneg nadd]. eexists. eexists. split; [reflexivity|]. split; [reflexivity|].
    assert (Q : (M + m) / Q2Qc (inject_Z 2) * Q2Qc (inject_Z 2) = M + m) by (apply qcdiv_mul; discriminate).
    revert Q. generalize ((M + m) / Q2Qc (inject_Z 2)). intros z Q. split; qlra. }
  pose proof (Forall2_nth_NaN half_of _ _ i (or_introl (conj eq_refl eq_refl)) (ewm_half d d _ _ D0 (ewm_half s s _ _ S0 HF))) as K.
  destruct K as [[-> ->]|(x & y & -> & -> & B1 & B2)]; [left; reflexivity|].
  unfold D, F. cbn [nmul].
  match goal with |- context [ndiv (Fin x) (Fin (?h * y))] => assert (W : within (-1) 1 (ndiv (Fin x) (Fin (h * y)))) end.
  { apply ratio_within; unfold zq; qlra. }
  destruct W as [->|(z & -> & Z1 & Z2)]; auto. right. exists (Q2Qc (inject_Z 100) * z). split; [reflexivity|]. unfold zq in *. split; qlra.
Qed.

(** ** Vertical horizontal filter: the range of a window is at most the distance walked *)
Lemma nabs_fin x q : nabs x = Fin q -> exists a, x = Fin a /\ q = qabs a.
Proof. destruct x as [| | |a]; try discriminate. intro H. apply Fin_inj in H as <-. eauto. Qed.
Lemma walk (v w : nat -> Qc) k : forall b, (forall t, (b < t <= b + k)%nat -> w t = qabs (v t - v (t - 1)%nat)) ->
  forall i j, (b <= i <= b + k)%nat -> (b <= j <= b + k)%nat -> v i - v j <= qsum (map w (seq (S b) k)).
Proof.
  induction k as [|k IH]; intros b H i j I J.
  - replace i with b by lia. replace j with b by lia. cbn. qlra.
  - cbn [seq map]. change (qsum (w (S b) :: map w (seq (S (S b)) k))) with (w (S b) + qsum (map w (seq (S (S b)) k))).
    assert (IH' := IH (S b)). specialize (IH' ltac:(intros; apply H; lia)).
    rewrite (H (S b)) by lia. replace (S b - 1)%nat with b by lia.
    pose proof (qabs_ge (v (S b) - v b)). pose proof (qabs_ge_neg (v (S b) - v b)). pose proof (qabs_nonneg (v (S b) - v b)).
    destruct (Nat.eq_dec i b) as [->|NI]; destruct (Nat.eq_dec j b) as [->|NJ].
    + pose proof (IH' (S b) (S b) ltac:(lia) ltac:(lia)). qlra.
    + pose proof (IH' (S b) j ltac:(lia) ltac:(lia)). qlra.
    + pose proof (IH' i (S b) ltac:(lia) ltac:(lia)). qlra.
    + pose proof (IH' i j ltac:(lia) ltac:(lia)). qlra.
Qed.
Lemma vhf_range p c i : (0 < p)%nat -> within 0 1 (nth i (vhf p c) NaN).
Proof.
  intro P.
  destruct (Nat.lt_ge_cases i (length c)) as [L|L]; [|rewrite nth_overflow; auto; rewrite (ln_vhf p c (length c)); auto].
  remember (length c) as n eqn:E. symmetry in E. unfold vhf, sround, sdiv. cell. apply within_round.
  unfold sabs at 1. rewrite (c_smap _ _ i n) by lens. rewrite (c_ssub _ _ i n) by lens.
  destruct (roll_max_view p c i n) as [->|(M & -> & W & MB & (jM & JM & <-))]; lens.
  destruct (roll_min_view p c i n) as [->|(m & -> & _ & mB & (jm & Jm & <-))]; lens.
  destruct (roll_sum_view p (sabs (ssub c (shift 1 c))) i n) as [->|(-> & _ & SB)]; lens.
  unfold nsub. cbn [nneg nadd nabs].
  destruct (MB jm) as [_ UP]; [lia|].
  assert (ST : forall j, (S i - p <= j <= i)%nat -> (0 < j)%nat /\ val (sabs (ssub c (shift 1 c))) j = qabs (val c j - val c (j - 1)%nat)).
  { intros j J. specialize (SB j J). revert SB. generalize (val (sabs (ssub c (shift 1 c))) j). intros q SB.
    assert (JN : (j < n)%nat) by lia. unfold sabs in SB. rewrite (c_smap _ _ j n) in SB by lens. rewrite (c_ssub _ _ j n) in SB by lens.
    rewrite (c_shift 1 c j n) in SB by lens. destruct (Nat.ltb_spec j 1).
    - destruct (nth j c NaN); discriminate.
    - split; [lia|]. apply nabs_fin in SB as (a & SB & ->). apply nsub_fin in SB as (x & y & X & Y & ->).
      unfold val. rewrite X, Y. reflexivity. }
  assert (GE : val c jM + - val c jm <= qsum (wvals (sabs (ssub c (shift 1 c))) p i)).
  { unfold wvals. destruct (ST (S i - p)%nat) as [POS _]; [lia|].
    replace (S i - p)%nat with (S (i - p))%nat by lia.
    apply (walk (val c) (val (sabs (ssub c (shift 1 c)))) p (i - p)%nat); try lia.
    intros t T. apply ST. lia. }
  rewrite qabs_pos_eq by qlra. revert GE. generalize (qsum (wvals (sabs (ssub c (shift 1 c))) p i)). intros y GE.
  apply ratio_within; unfold zq; qlra.
Qed.

(** ** Directional movement index *)
Definition below (x y : num) : Prop := x = NaN /\ y = NaN \/ exists a b, x = Fin a /\ y = Fin b /\ 0 <= a /\ a <= b.
Lemma Forall2_firstn (R : num -> num -> Prop) k a b : Forall2 R a b -> Forall2 R (firstn k a) (firstn k b).
Proof. intro H. revert k. induction H; intros [|k]; cbn; constructor; auto. Qed.
Lemma Forall2_skipn (R : num -> num -> Prop) k a b : Forall2 R a b -> Forall2 R (skipn k a) (skipn k b).
Proof. intro H. revert k. induction H; intros [|k]; cbn; auto. Qed.
Lemma scan_rel (R : num -> num -> Prop) step a b : (forall p q x y, R p q -> R x y -> R (step p x) (step q y)) ->
  Forall2 R a b -> forall p q, R p q -> Forall2 R (scan step p a) (scan step q b).
Proof. intros ST H. induction H; intros p q PQ; cbn; constructor; auto. Qed.
Lemma Forall2_len (R : num -> num -> Prop) a b : Forall2 R a b -> length a = length b.
Proof. intro H. induction H; cbn; auto. Qed.
Lemma seeded_rel (R : num -> num -> Prop) k s t step a b : R NaN NaN -> R s t ->
  (forall p q x y, R p q -> R x y -> R (step p x) (step q y)) ->
  Forall2 R a b -> Forall2 R (seeded k s step a) (seeded k t step b).
Proof.
  intros N ST STEP H. unfold seeded. pose proof H as LEN. apply Forall2_len in LEN. rewrite LEN. apply Forall2_firstn.
  apply Forall2_app; [clear -N; induction k; cbn; constructor; auto|]. constructor; auto.
  apply scan_rel; auto. apply Forall2_skipn; auto.
Qed.
Lemma below_sum a b : Forall2 below a b -> forall x y, below (Fin x) (Fin y) -> below (fold_left nadd (present a) (Fin x)) (fold_left nadd (present b) (Fin y)).
Proof.
  intro H. induction H as [|u v a b UV H IH]; intros x y XY; cbn; auto.
  destruct UV as [[-> ->]|(p & q & -> & -> & P & Q)]; cbn; auto.
  apply IH. right. exists (x + p), (y + q). destruct XY as [[X _]|(x' & y' & X & Y & P' & Q')]; [discriminate|].
  apply Fin_inj in X as <-. apply Fin_inj in Y as <-. repeat split; auto; qlra.
Qed.
Lemma dmi_smooth_below a b : Forall2 below a b -> Forall2 below (dmi_smooth a) (dmi_smooth b).
Proof.
  intro H. unfold dmi_smooth. apply seeded_rel; auto.
  - left; auto.
  - unfold sum_skip, nsum. apply below_sum; [apply Forall2_firstn; auto|]. right. exists 0, 0. repeat split; qlra.
  - intros p q x y PQ XY. destruct PQ as [[-> ->]|(u & v & -> & -> & U & V)]; [left; auto|].
    destruct XY as [[-> ->]|(z & w & -> & -> & Z & W)]; [left; split; reflexivity|].
    right. exists (u - u / Q2Qc (inject_Z 14) + z), (v - v / Q2Qc (inject_Z 14) + w).
    split; [reflexivity|]. split; [reflexivity|].
    assert (E : forall t, t / Q2Qc (inject_Z 14) * Q2Qc (inject_Z 14) = t) by (intro; apply qcdiv_mul; discriminate).
    pose proof (E u). pose proof (E v). revert H0 H1. generalize (u / Q2Qc (inject_Z 14)) (v / Q2Qc (inject_Z 14)). intros. split; qlra.
Qed.
Lemma dmi_di_within dm tr i n : length dm = n -> length tr = n -> Forall2 below dm tr -> within 0 100 (nth i (dmi_di dm tr) NaN).
Proof.
  intros L1 L2 H. assert (LD : length (dmi_di dm tr) = n) by lens.
  destruct (Nat.lt_ge_cases i n) as [L|L]; [|rewrite nth_overflow; auto; lia].
  unfold dmi_di, sdiv, scale. cell. destruct (i <? 14)%nat; auto. 
  pose proof (Forall2_nth_NaN below _ _ i (or_introl (conj eq_refl eq_refl)) (dmi_smooth_below _ _ H)) as [[-> ->]|(a & b & -> & -> & A & B)]; [left; reflexivity|].
  unfold F. cbn [nmul]. apply ratio_within; unfold zq; qlra.
Qed.
Lemma dmi_di_missing dm tr i n : length dm = n -> length tr = n -> (i < 14)%nat -> nth i (dmi_di dm tr) NaN = NaN.
Proof.
  intros L1 L2 H. assert (LD : length (dmi_di dm tr) = n) by lens.
  destruct (Nat.lt_ge_cases i n) as [L|L]; [|rewrite nth_overflow; auto; lia].
  unfold dmi_di, sdiv, scale. cell. destruct (Nat.ltb_spec i 14); auto. lia.
Qed.
Lemma dmi_dx_within a b i n : length a = n -> length b = n -> (forall j, within 0 100 (nth j a NaN)) -> (forall j, within 0 100 (nth j b NaN)) ->
  within 0 100 (nth i (dmi_dx a b) NaN).
Proof.
  intros L1 L2 A B. assert (LD : length (dmi_dx a b) = n) by lens.
  destruct (Nat.lt_ge_cases i n) as [L|L]; [|rewrite nth_overflow; auto; lia].
  unfold dmi_dx, sdiv, scale, sabs, ssub, sadd. cell.
  destruct (A i) as [->|(x & -> & X1 & X2)]; [left; reflexivity|]. destruct (B i) as [->|(y & -> & Y1 & Y2)]; [left; reflexivity|].
  unfold nsub, F. cbn [nneg nadd nabs nmul]. unfold zq in *.
  rewrite (qabs_pos_eq (x + y)) by qlra.
  assert (Q : qabs (x + - y) <= x + y) by (apply qabs_le; qlra). pose proof (qabs_nonneg (x + - y)).
  revert Q H. generalize (qabs (x + - y)). intros. apply ratio_within; unfold zq; qlra.
Qed.
Lemma nsum_bounds hi l : Forall (between 0 hi) l -> Forall (fun x => isnan x = false) l ->
  exists q, nsum l = Fin q /\ 0 <= q /\ q <= hi * qnat (length l).
Proof.
  intros A B. unfold nsum. assert (G : forall a, exists q, fold_left nadd l (Fin a) = Fin q /\ a <= q /\ q <= a + hi * qnat (length l)).
  { induction l as [|x l IH]; intro a; cbn [fold_left].
    - exists a. cbn. split; [reflexivity|]. rewrite qnat_0. split; qlra.
    - inversion A; inversion B; subst. destruct H1 as [->|(q & -> & Q1 & Q2)]; [discriminate|]. cbn [nadd].
      destruct (IH H2 H6 (a + q)) as (r & R & R1 & R2). exists r. split; auto. cbn [length]. rewrite qnat_S. split; [qlra|]. revert R2. generalize (qnat (length l)). intros z R2. qnra. }
  destruct (G 0) as (q & Q & Q1 & Q2). exists q. split; auto. split; [auto|qlra].
Qed.
Lemma present_not_nan l : Forall (fun x => isnan x = false) (present l).
Proof. apply Forall_forall. intros x I. apply filter_In in I as [_ I]. destruct (isnan x); auto; discriminate. Qed.
Lemma filter_len {A} (g : A -> bool) l : (length (filter g l) <= length l)%nat.
Proof. induction l as [|x l IH]; cbn; auto. destruct (g x); cbn; lia. Qed.
Lemma present_nan_prefix k l : (forall i, (i < k)%nat -> nth i l NaN = NaN) -> (length (present l) <= length l - k)%nat.
Proof.
  revert l; induction k as [|k IH]; intros l H.
  - unfold present. rewrite Nat.sub_0_r. apply filter_len.
  - destruct l as [|x l]; [cbn; lia|]. specialize (IH l ltac:(intros i I; apply (H (S i)); lia)).
    pose proof (H 0%nat ltac:(lia)) as X. cbn in X. subst x. cbn. exact IH.
Qed.
Lemma qnat_mono a b : (a <= b)%nat -> qnat a <= qnat b.
Proof. intro H. unfold qnat, Qcle. rewrite !this_Q2Qc. rewrite <- Zle_Qle. lia. Qed.
Lemma dmi_adx_within dx : (forall j, within 0 100 (nth j dx NaN)) -> (forall j, (j < 14)%nat -> nth j dx NaN = NaN) ->
  Forall (within 0 100) (dmi_adx dx).
Proof.
  intros A B. assert (FA : Forall (within 0 100) dx) by (apply Forall_of_nth; auto).
  unfold dmi_adx. apply seeded_all with (Q := within 0 100); auto.
  - destruct (nsum_bounds (zq 100) (present (firstn 28 dx))) as (q & Q & Q1 & Q2).
    + apply Forall_filter. apply Forall_firstn. rewrite Forall_forall in *. intros x I. specialize (FA x I). unfold within in FA. rewrite zq_0 in FA. exact FA.
    + apply present_not_nan.
    + unfold sum_skip. rewrite Q. assert (LE : (length (present (firstn 28 dx)) <= 14)%nat).
      { pose proof (present_nan_prefix 14 (firstn 28 dx)) as K. pose proof (firstn_le_length 28 dx).
        assert (length (present (firstn 28 dx)) <= length (firstn 28 dx) - 14)%nat; [apply K|lia].
        intros i I. rewrite nth_firstn by lia. auto. }
      assert (QN : qnat (length (present (firstn 28 dx))) <= Q2Qc (inject_Z 14)).
      { change (Q2Qc (inject_Z 14)) with (qnat 14). apply qnat_mono. auto. }
      pose proof (qnat_nonneg (length (present (firstn 28 dx)))). unfold F. apply ratio_within; unfold zq in *; qlra.
  - intros prev x [->|(p & -> & P1 & P2)] [->|(y & -> & Y1 & Y2)]; try (left; reflexivity).
    unfold F. cbn [nmul nadd]. apply ratio_within; unfold zq in *; qlra.
Qed.
Lemma dmi_adxr_within adx i n : length adx = n -> (forall j, within 0 100 (nth j adx NaN)) -> within 0 100 (nth i (dmi_adxr adx) NaN).
Proof.
  intros L1 A. assert (LD : length (dmi_adxr adx) = n) by lens.
  destruct (Nat.lt_ge_cases i n) as [L|L]; [|rewrite nth_overflow; auto; lia].
  unfold dmi_adxr, sdivc, sadd. cell. destruct (i <? 40)%nat; auto.
  destruct (A i) as [->|(x & -> & X1 & X2)]; [left; reflexivity|].
  assert (W : within 0 100 (if (i <? 13)%nat then NaN else nth (i - 13) adx NaN)) by (destruct (i <? 13)%nat; auto).
  destruct W as [->|(y & -> & Y1 & Y2)]; [left; reflexivity|].
  unfold F. cbn [nadd]. apply ratio_within; unfold zq in *; qlra.
Qed.
Lemma max_nan3 a b c : max_nan [Fin a; Fin b; Fin c] = Fin (qmax2 (qmax2 a b) c).
Proof.
  unfold max_nan. cbn. unfold npmax, qmax2. cbn.
  destruct (qltb a b); cbn; [destruct (qltb b c)|destruct (qltb a c)]; reflexivity.
Qed.
Lemma qmax2_ge a b : a <= qmax2 a b /\ b <= qmax2 a b.
Proof. unfold qmax2. destruct (qltb_spec a b); split; qlra. Qed.
Lemma dm_below h l c n : length h = n -> length l = n -> length c = n -> finite h -> finite l -> finite c -> ple l c -> ple c h ->
  Forall2 below (plus_dm h l) (true_range_nan h l c) /\ Forall2 below (minus_dm h l) (true_range_nan h l c).
Proof.
  intros H1 H2 H3 FH FL FC PL PH.
  assert (K : forall i, (i < n)%nat -> below (nth i (plus_dm h l) NaN) (nth i (true_range_nan h l c) NaN) /\
                                       below (nth i (minus_dm h l) NaN) (nth i (true_range_nan h l c) NaN)).
  { intros i L. unfold plus_dm, minus_dm, true_range_nan, dm_first, row3. cbv zeta.
    cell. rewrite !(c_ssub _ _ i n) by lens. unfold sdiff. rewrite !(c_ssub _ _ i n) by lens. cell.
    destruct (Nat.ltb_spec i 1) as [Z|Z].
    - split; left; (split; [reflexivity|]); destruct (nth i h NaN), (nth i l NaN); reflexivity.
    - rewrite (finite_val h i n), (finite_val l i n), (finite_val h (i - 1) n), (finite_val l (i - 1) n), (finite_val c (i - 1) n) by (auto; lia).
      pose proof (ple_val l c (i - 1) _ _ PL (finite_val l (i - 1) n FL H2 ltac:(lia)) (finite_val c (i - 1) n FC H3 ltac:(lia))) as P1.
      pose proof (ple_val c h (i - 1) _ _ PH (finite_val c (i - 1) n FC H3 ltac:(lia)) (finite_val h (i - 1) n FH H1 ltac:(lia))) as P2.
      pose proof (ple_val l c i _ _ PL (finite_val l i n FL H2 ltac:(lia)) (finite_val c i n FC H3 ltac:(lia))) as P3.
      pose proof (ple_val c h i _ _ PH (finite_val c i n FC H3 ltac:(lia)) (finite_val h i n FH H1 ltac:(lia))) as P4.
      revert P1 P2 P3 P4. generalize (val c i) (val h i) (val l i) (val h (i - 1)) (val l (i - 1)) (val c (i - 1)).
      intros c1 h1 l1 h0 l0 c0 P1 P2 P3 P4. unfold nsub. cbn [nneg nadd].
      rewrite max_nan3. destruct (qmax2_ge (h1 + - l1) (h1 + - c0)) as [M1 M2].
      destruct (qmax2_ge (qmax2 (h1 + - l1) (h1 + - c0)) (c0 + - l1)) as [M3 M4].
      revert M1 M2 M3 M4. generalize (qmax2 (qmax2 (h1 + - l1) (h1 + - c0)) (c0 + - l1)). generalize (qmax2 (h1 + - l1) (h1 + - c0)).
      intros m M M1 M2 M3 M4.
      assert (NL : forall a b, nltb (Fin a) (Fin b) = qltb a b) by reflexivity. unfold F. rewrite !NL.
      split; right.
      + destruct (qltb_spec (l0 + - l1) (h1 + - h0)); destruct (qltb_spec (Q2Qc (inject_Z 0)) (h1 + - h0)); cbn [andb];
          eexists; exists M; (split; [reflexivity|split; [reflexivity|split; qlra]]).
      + destruct (qltb_spec (h1 + - h0) (l0 + - l1)); destruct (qltb_spec (Q2Qc (inject_Z 0)) (l0 + - l1)); cbn [andb];
          eexists; exists M; (split; [reflexivity|split; [reflexivity|split; qlra]]). }
  split; apply (Forall2_of_nth _ _ _ n); lens; intros i I; apply (K i I).
Qed.

(** ** Relative volatility index *)
Lemma qvar_nonneg l : 0 <= qvar l.
Proof.
  unfold qvar, qmean at 1. rewrite map_length. destruct l as [|x l]; [cbn; apply Qcle_refl|].
  apply qcdiv_nonneg; [|apply qnat_pos; cbn; lia]. apply qsum_nonneg. intros y I. apply in_map_iff in I as (z & <- & _).
  generalize (z - qmean (x :: l)). intro t. qnra.
Qed.
Lemma roll_std_nn sq w s i n : (forall q, 0 <= q -> 0 <= sq q) -> length s = n -> (i < n)%nat -> nnI (nth i (roll_std sq w s) NaN).
Proof.
  intros G L H. unfold roll_std. destruct (roll_view w (agg_std sq) s i n L H) as [->|(A & -> & B)]; [exact I|].
  unfold agg_std. destruct (wvals s w i); [exact I|]. cbn. apply G. apply qvar_nonneg.
Qed.
Lemma rvi_up_nn o s : good_sqrt o -> Forall nnI (rvi_up o s) /\ Forall nnI (rvi_dn o s).
Proof.
  intro G. remember (length s) as n eqn:E. symmetry in E. unfold rvi_up, rvi_dn. rewrite E.
  split; apply Forall_of_nth; intros i L; unfold assign in L;
  (assert (L' : (i < n)%nat) by (revert L; rewrite len_szip3, map_length, repeat_length; lia); clear L; rename L' into L);
  rewrite (c_assign _ _ _ _ i n) by (rewrite ?repeat_length; lens); rewrite c_repeat by auto; 
  match goal with |- nnI (if ?b then _ else _) => destruct b end; try (apply (roll_std_nn _ _ _ _ n); auto); cbn; qlra.
Qed.
Lemma rvi_smooth_nn p s : (0 < p)%nat -> Forall nnI s -> Forall nnI (rvi_smooth p s).
Proof.
  intros P H. unfold rvi_smooth. apply seeded_all with (Q := nnI); auto.
  - exact I.
  - apply nnI_mean. unfold slice. apply Forall_firstn, Forall_skipn. auto.
  - intros. apply nnI_wilder; auto.
Qed.
Lemma rvi_half_within o p s i : good_sqrt o -> (0 < p)%nat -> within 0 100 (nth i (rvi_half o p s) NaN).
Proof.
  intros G P. destruct (rvi_up_nn o s G) as [U D0].
  destruct (Nat.lt_ge_cases i (length s)) as [L|L]; [|rewrite nth_overflow; auto; rewrite (ln_rvi_half o p s (length s)); auto].
  remember (length s) as n eqn:E. symmetry in E. unfold rvi_half. cbv zeta. unfold sdiv, scale, sadd. cell.
  apply imi_value_within; apply Forall_nth_NaN; try exact I; apply rvi_smooth_nn; auto.
Qed.
Lemma rvi_within o p h l i : good_sqrt o -> (0 < p)%nat -> length h = length l -> within 0 100 (nth i (rvi o p h l) NaN).
Proof.
  intros G P E0.
  destruct (Nat.lt_ge_cases i (length l)) as [L|L]; [|rewrite nth_overflow; auto; rewrite (ln_rvi o p h l (length l)); auto].
  remember (length l) as n eqn:E. symmetry in E. unfold rvi, sround, sdivc, sadd. cell. apply within_round.
  destruct (rvi_half_within o p h i G P) as [->|(x & -> & X1 & X2)]; [left; reflexivity|].
  destruct (rvi_half_within o p l i G P) as [->|(y & -> & Y1 & Y2)]; [left; reflexivity|].
  unfold F. cbn [nadd]. apply ratio_within; unfold zq in *; qlra.
Qed.

(** ** Projection oscillator *)
Lemma nle_trans_fin x y z : isnan y = false -> nleb x y = true -> nltb y z = true -> nleb x z = true.
Proof.
  destruct x as [| | |x], y as [| | |y], z as [| | |z]; try discriminate; try reflexivity. intros _ A B.
  apply nleb_fin in A. cbn in B. qb. apply nleb_fin. qlra.
Qed.
Lemma nle_trans_fin' x y z : nleb y x = true -> nltb z y = true -> nleb z x = true.
Proof.
  destruct x as [| | |x], y as [| | |y], z as [| | |z]; try discriminate; try reflexivity. intros A B.
  apply nleb_fin in A. cbn in B. qb. apply nleb_fin. qlra.
Qed.
Lemma nleb_refl x : isnan x = false -> nleb x x = true.
Proof. destruct x; try discriminate; try reflexivity. intros _. apply nleb_fin. apply Qcle_refl. Qed.
Lemma pymax_ge x l : isnan x = false -> nleb x (pymax_list x l) = true.
Proof.
  intro X. unfold pymax_list. assert (G : forall y, isnan y = false -> nleb x y = true -> nleb x (fold_left pymax l y) = true).
  { induction l as [|z l IH]; intros y Y H; cbn; auto. unfold pymax. destruct (nltb y z) eqn:E; [|auto].
    apply IH; [destruct y, z; try discriminate; reflexivity|]. eapply nle_trans_fin; eauto. }
  apply G; auto. apply nleb_refl; auto.
Qed.
Lemma pymin_le x l : isnan x = false -> nleb (pymin_list x l) x = true.
Proof.
  intro X. unfold pymin_list. assert (G : forall y, isnan y = false -> nleb y x = true -> nleb (fold_left pymin l y) x = true).
  { induction l as [|z l IH]; intros y Y H; cbn; auto. unfold pymin. destruct (nltb z y) eqn:E; [|auto].
    apply IH; [destruct y, z; try discriminate; reflexivity|]. eapply nle_trans_fin'; eauto. }
  apply G; auto. apply nleb_refl; auto.
Qed.
Lemma pymax_nan l : pymax_list NaN l = NaN.
Proof. unfold pymax_list. induction l as [|z l IH]; cbn; auto. Qed.
Lemma pymin_nan l : pymin_list NaN l = NaN.
Proof.
  unfold pymin_list. induction l as [|z l IH]; cbn; auto. unfold pymin. 
  assert (E : nltb z NaN = false) by (destruct z; reflexivity). rewrite E. auto.
Qed.
Lemma nleb_round k x y : nleb x y = true -> nleb (nround k x) (nround k y) = true.
Proof.
  destruct x as [| | |x], y as [| | |y]; try discriminate; try reflexivity. intro A. apply nleb_fin in A.
  apply nleb_fin. apply qround_mono. auto.
Qed.
Lemma nleb_trans_r a b c : nleb a b = true -> nleb b c = true -> nleb a c = true.
Proof.
  destruct a as [| | |x], b as [| | |y], c as [| | |z]; try discriminate; try reflexivity. intros A B.
  apply nleb_fin in A. apply nleb_fin in B. apply nleb_fin. qlra.
Qed.
Lemma nth_map_seq (g : nat -> num) n i : (i < n)%nat -> nth i (map g (seq 0 n)) NaN = g i.
Proof.
  intro L. rewrite (nth_indep _ NaN (g 0%nat)) by (rewrite map_length, seq_length; auto). rewrite map_nth, seq_nth by auto. reflexivity.
Qed.
Lemma pb_upper_ge p h i : nth i (pb_upper p h) NaN = NaN \/ nleb (nround 4 (nth i h NaN)) (nth i (pb_upper p h) NaN) = true.
Proof.
  assert (LD : length (pb_upper p h) = length h) by (apply (ln_pb_upper p h (length h)); auto).
  destruct (Nat.lt_ge_cases i (length h)) as [L|L]; [|left; rewrite nth_overflow; auto; lia].
  unfold pb_upper, pb_band in *. cbv zeta in *. unfold sround. rewrite (c_smap _ _ i (length h)) by (auto; rewrite map_length, seq_length; auto).
  rewrite nth_map_seq by auto.
  destruct (p <=? S i)%nat; [|left; reflexivity].
  destruct (nth i h NaN) eqn:E; [left; rewrite pymax_nan; reflexivity| | |]; right; apply nleb_round; apply pymax_ge; reflexivity.
Qed.
Lemma pb_lower_le p h i : nth i (pb_lower p h) NaN = NaN \/ nleb (nth i (pb_lower p h) NaN) (nround 4 (nth i h NaN)) = true.
Proof.
  assert (LD : length (pb_lower p h) = length h) by (apply (ln_pb_lower p h (length h)); auto).
  destruct (Nat.lt_ge_cases i (length h)) as [L|L]; [|left; rewrite nth_overflow; auto; lia].
  unfold pb_lower, pb_band in *. cbv zeta in *. unfold sround. rewrite (c_smap _ _ i (length h)) by (auto; rewrite map_length, seq_length; auto).
  rewrite nth_map_seq by auto.
  destruct (p <=? S i)%nat; [|left; reflexivity].
  destruct (nth i h NaN) eqn:E; [left; rewrite pymin_nan; reflexivity| | |]; right; apply nleb_round; apply pymin_le; reflexivity.
Qed.
(** a cell with at most four decimals *)
Definition four_decimals (x : num) : Prop := match x with Fin q => has_decimals 4 q | _ => True end.
Lemma proj_raw_within p h l c i : length h = length c -> length l = length c -> ple l c -> ple c h ->
  (forall j, four_decimals (nth j c NaN)) ->
  within 0 100 (nth i (proj_raw c (pb_upper p h) (pb_lower p l)) NaN).
Proof.
  intros H1 H2 PL PH D4.
  assert (LD : length (proj_raw c (pb_upper p h) (pb_lower p l)) = length c) by (apply ln_proj_raw; lens).
  destruct (Nat.lt_ge_cases i (length c)) as [L|L]; [|rewrite nth_overflow; auto; lia].
  remember (length c) as n eqn:E. symmetry in E. unfold proj_raw, sdiv, scale, ssub. cell.
  destruct (pb_upper_ge p h i) as [->|U]; [left; destruct (nth i c NaN), (nth i (pb_lower p l) NaN); reflexivity|].
  destruct (pb_lower_le p l i) as [->|W]; [left; destruct (nth i c NaN), (nth i (pb_upper p h) NaN); reflexivity|].
  specialize (PL i). specialize (PH i). specialize (D4 i).
  destruct (nth i c NaN) as [| | |x] eqn:C; [left; reflexivity| | |].
  - destruct PH as [?|[PH|PH]]; try discriminate; [rewrite PH in U; discriminate|].
    destruct (nth i h NaN); try discriminate. destruct (nth i (pb_upper p h) NaN); try discriminate. 
    destruct (nth i (pb_lower p l) NaN); try (left; reflexivity); discriminate.
  - destruct PL as [PL|[?|PL]]; try discriminate; [rewrite PL in W; destruct (nth i (pb_lower p l) NaN); discriminate|].
    destruct (nth i l NaN); try discriminate. destruct (nth i (pb_lower p l) NaN); try discriminate. left; reflexivity.
  - destruct PL as [PL|[?|PL]]; try discriminate; [rewrite PL in W; destruct (nth i (pb_lower p l) NaN); discriminate|].
    destruct PH as [?|[PH|PH]]; try discriminate; [rewrite PH in U; discriminate|].
    apply (nleb_round 4) in PL. apply (nleb_round 4) in PH.
    cbn [nround] in PL, PH. rewrite (qround_fix 4 x D4) in PL, PH.
    pose proof (nleb_trans_r _ _ _ W PL) as Lo. pose proof (nleb_trans_r _ _ _ PH U) as Up.
    destruct (nth i (pb_lower p l) NaN) as [| | |a]; try discriminate.
    + destruct (nth i (pb_upper p h) NaN) as [| | |b]; try discriminate; left; reflexivity.
    + apply nleb_fin in Lo. destruct (nth i (pb_upper p h) NaN) as [| | |b]; try discriminate.
      * right. exists 0. split; [reflexivity|unfold zq; split; qlra].
      * apply nleb_fin in Up. unfold nsub, F. cbn [nneg nadd nmul]. apply ratio_within; unfold zq; qlra.
Qed.
Lemma proj_within p h l c i : length h = length c -> length l = length c -> ple l c -> ple c h ->
  (forall j, four_decimals (nth j c NaN)) ->
  within 0 100 (nth i (proj c (pb_upper p h) (pb_lower p l)) NaN) /\
  within 0 100 (nth i (proj_trigger c (pb_upper p h) (pb_lower p l)) NaN).
Proof.
  intros H1 H2 PL PH D4. unfold proj, proj_trigger, sround, smap. 
  rewrite <- (eq_refl : nround 4 NaN = NaN) at 1 2. rewrite !map_nth. split; apply within_round.
  - apply proj_raw_within; auto.
  - apply (Forall_nth_NaN (between (zq 0) (zq 100))); auto. apply ewm_between; [lia|].
    apply Forall_of_nth. intros j J. apply within_fin_between. apply proj_raw_within; auto.
Qed.

(** * FloatSignalFacts: comparing floats that are known up to a few units of the fourth decimal. *)
From Coq Require Import ZArith QArith Qcanon Qreals Reals Bool List String PeanoNat Lia Lra Psatz Sorted.
From Flocq Require Import Core IEEE754.BinarySingleNaN.
From Verif Require Import FloatSim FloatFacts FloatExact FloatInd FloatOrd FloatDec FloatRange FloatRange2.
From Verif Require Import Num NumFacts Pandas Sim Frame FrameSpec FrameProofs Ind Signal Api IndSpec SeriesFacts Lengths
  Causal IndFacts Shape ApiSpec ApiCheck ApiProofs RangeSpec ValueSpec SignalSpec SignalApi SignalApi2.
From Verif Require Import FloatSpec FloatAccSpec FloatAcc FloatAcc3 FloatEwmSpec FloatSignal FloatSignalSpec.
Import ListNotations.
Open Scope list_scope. Open Scope string_scope. Open Scope R_scope.

(** ** four-decimal floats keep their order *)
Lemma dec_close m : (Z.abs m <= 2 ^ 48)%Z -> is_finite (dec4 m) = true /\ Rabs (val (dec4 m) - IZR m / 10000) <= / 100000.
Proof.
  intro S. destruct (dec_ap m) as [F A]; [lia|]. split; [exact F|]. eapply Rle_trans; [exact A|].
  assert (B : Rabs (IZR m / 10000) <= 281474976710656 / 10000).
  { unfold Rdiv. rewrite Rabs_mult, (Rabs_pos_eq (/ 10000)) by lra. apply Rmult_le_compat_r; [lra|].
    rewrite <- abs_IZR. apply IZR_le. lia. }
  lra.
Qed.
Lemma dec_order m n : (Z.abs m <= 2 ^ 48)%Z -> (Z.abs n <= 2 ^ 48)%Z -> (m < n)%Z -> val (dec4 m) < val (dec4 n).
Proof.
  intros M N L. destruct (dec_close m M) as [_ A]. destruct (dec_close n N) as [_ B].
  assert (IZR m + 1 <= IZR n) by (rewrite <- plus_IZR; apply IZR_le; lia).
  apply Rabs_le_inv in A. apply Rabs_le_inv in B. lra.
Qed.
Definition settled (x y : f64) (a b : num) : Prop :=
  fltb x y = nltb a b /\ fltb y x = nltb b a /\ fleb x y = nleb a b /\ fleb y x = nleb b a.
Lemma fleb_fin (x y : f64) : is_finite x = true -> is_finite y = true -> fleb x y = Rle_bool (RV x) (RV y).
Proof. apply Bleb_correct. Qed.
Lemma lt_units a b : (a < b)%Qc <-> real a < real b.
Proof. apply real_lt. Qed.
Lemma nleb_fin p q : nleb (Fin p) (Fin q) = negb (nltb (Fin q) (Fin p)).
Proof.
  unfold nleb. cbn. apply eq_true_iff_eq. rewrite orb_true_iff, negb_true_iff, <- not_true_iff_false, !qltb_iff, qeqb_iff.
  destruct (Q_dec p q) as [[L|L]|E].
  - split; [|left; exact L]. intros _ K. exact (Qlt_irrefl _ (Qlt_trans _ _ _ L K)).
  - split; [|intro K; exfalso; exact (K L)]. intros [K|K]; [exfalso; exact (Qlt_irrefl _ (Qlt_trans _ _ _ L K))|].
    subst. exfalso. exact (Qlt_irrefl _ L).
  - apply Qc_is_canon in E. subst. split; [intros _ K; exact (Qlt_irrefl _ K)|auto].
Qed.
Lemma settle_fin x y m n p q : is_finite x = true -> is_finite y = true ->
  (val x < val y <-> (m < n)%Z) -> (val y < val x <-> (n < m)%Z) -> ((p < q)%Qc <-> (m < n)%Z) -> ((q < p)%Qc <-> (n < m)%Z) ->
  settled x y (Fin p) (Fin q).
Proof.
  intros Fx Fy A B C D.
  assert (L : fltb x y = nltb (Fin p) (Fin q)).
  { rewrite fltb_fin by auto. cbn. apply eq_true_iff_eq. rewrite qltb_iff, C, <- A. split; [case Rlt_bool_spec; auto; discriminate|apply Rlt_bool_true]. }
  assert (G : fltb y x = nltb (Fin q) (Fin p)).
  { rewrite fltb_fin by auto. cbn. apply eq_true_iff_eq. rewrite qltb_iff, D, <- B. split; [case Rlt_bool_spec; auto; discriminate|apply Rlt_bool_true]. }
  assert (N : forall u v, is_finite u = true -> is_finite v = true -> fleb u v = negb (fltb v u)).
  { intros u v U V. rewrite fleb_fin, fltb_fin by auto. case Rle_bool_spec; case Rlt_bool_spec; intros; try reflexivity; exfalso; lra. }
  repeat split; auto; rewrite N, nleb_fin by auto; congruence.
Qed.
Lemma real_modest q : (- zq (2 ^ 32) <= q <= zq (2 ^ 32))%Qc -> - 4294967296 <= real q <= 4294967296.
Proof.
  intros [A B]. apply real_le in A. apply real_le in B. rewrite real_opp in A.
  change (zq (2 ^ 32)) with (Q2Qc (inject_Z 4294967296)) in *. rewrite real_z in *. lra.
Qed.
Lemma settle_units x y dx dy p q : apart dx x (Fin p) -> apart dy y (Fin q) -> clear (dx + dy) (Fin p) (Fin q) -> settled x y (Fin p) (Fin q).
Proof.
  intros (m & i & Ep & Mi & Fx & Vx) (n & j & Eq & Nj & Fy & Vy) (Mp & Mq & Cl). cbn in Mp, Mq.
  apply real_modest in Mp. apply real_modest in Mq. subst p q.
  assert (K : forall k, - 4294967296 <= real (units k) <= 4294967296 -> (Z.abs k <= 42949672960000)%Z).
  { intros k H. rewrite real_units in H. assert (- 42949672960000 <= IZR k <= 42949672960000) by lra.
    assert (-42949672960000 <= k)%Z by (apply le_IZR; lra). assert (k <= 42949672960000)%Z by (apply le_IZR; lra). lia. }
  pose proof (K i Mp) as Ki. pose proof (K j Mq) as Kj.
  assert (S : (dx + dy = 0 \/ dx + dy < i - j \/ dx + dy < j - i)%Z).
  { assert (E : forall a b, (units (dx + dy) < units a - units b)%Qc -> (dx + dy < a - b)%Z).
    { intros a b H. apply real_lt in H. unfold Qcminus in H. rewrite real_add, real_opp, !real_units in H.
      apply lt_IZR. rewrite minus_IZR. lra. }
    destruct Cl as [Cl|[Cl|Cl]]; [left; exact Cl|right; left; exact (E _ _ Cl)|right; right; exact (E _ _ Cl)]. }
  clear Cl K. assert (Bm : (Z.abs m <= 2 ^ 48)%Z) by lia. assert (Bn : (Z.abs n <= 2 ^ 48)%Z) by lia.
  assert (V : forall a b, (Z.abs a <= 2 ^ 48)%Z -> (Z.abs b <= 2 ^ 48)%Z -> (val (dec4 a) < val (dec4 b) <-> (a < b)%Z)).
  { intros a b A B. split; [|apply dec_order; auto]. intro L. destruct (Z.lt_trichotomy a b) as [T|[T|T]]; [exact T|subst; exfalso; lra|].
    pose proof (dec_order b a B A T). exfalso. lra. }
  assert (U : forall a b, ((units a < units b)%Qc <-> (a < b)%Z)).
  { intros a b. rewrite real_lt, !real_units. split; intro L.
    - apply lt_IZR. lra.
    - apply IZR_lt in L. lra. }
  apply (settle_fin x y m n); auto.
  - rewrite Vx, Vy. apply V; auto.
  - rewrite Vx, Vy. apply V; auto.
  - rewrite U. lia.
  - rewrite U. lia.
Qed.
Lemma missing_nan x : missing x -> x = fnan.
Proof. unfold missing. destruct x; simpl; try discriminate. reflexivity. Qed.
Lemma settles x y dx dy a b : apart dx x a -> apart dy y b -> clear (dx + dy) a b -> settled x y a b.
Proof.
  destruct a as [| | |p], b as [| | |q]; try (apply settle_units); cbn [apart]; intros A B _;
    try (apply missing_nan in A; subst x); try (apply missing_nan in B; subst y); try subst x; try subst y;
    try (repeat split; reflexivity);
    repeat match goal with H : exists _ _, _ |- _ => destruct H as (? & ? & ? & ? & ? & ?) end;
    match goal with H : is_finite ?z = true |- _ => destruct z as [[]|[]| |[]]; try discriminate H; repeat split; reflexivity end.
Qed.
(** the whole numbers of the rules *)
Lemma whole_dec z : (Z.abs z <= 1000)%Z -> is_finite (fz z 0) = true /\ val (fz z 0) = val (dec4 (10000 * z)).
Proof.
  intro B. destruct (fz_val z) as [F V]; [lia|]. split; [exact F|]. unfold val. rewrite dec4_decimal. destruct (decimal_val (10000 * z)) as [_ D]; [lia|].
  rewrite D, mult_IZR. replace (10000 * IZR z / 10000) with (RV (fz z 0)) by (rewrite V; field). symmetry. apply rnd_id.
Qed.
Lemma level_apart z : (Z.abs z <= 1000)%Z -> apart 0 (fint z) (level z).
Proof.
  intro B. destruct (whole_dec z B) as [F V]. exists (10000 * z)%Z, (10000 * z)%Z. split; [|split; [lia|split; [exact F|exact V]]].
  apply Qc_is_canon. unfold zq, units. cbn [this Q2Qc]. rewrite !Qred_correct. unfold Qeq, inject_Z. cbn [Qnum Qden]. lia.
Qed.

(** ** the rules *)
Lemma fiat_ok t c k : (1 <= k <= f_rows t)%nat -> fiat t c k = Ok (f_cell t c (f_rows t - k)).
Proof. intro H. unfold fiat. destruct (Nat.leb_spec 1 k); [|lia]. destruct (Nat.leb_spec k (f_rows t)); [|lia]. reflexivity. Qed.
Definition pair_settled (st : obj) (inp ti : ftable) (p : operand * operand) : Prop :=
  settled (float_value inp ti (fst p)) (float_value inp ti (snd p)) (exact_value st (fst p)) (exact_value st (snd p)).
Ltac float_reads :=
  repeat match goal with |- context [fiat ?t ?c ?k] => rewrite (fiat_ok t c k) by lia; cbn [bind] end.
Ltac settle_all H :=
  cbn [flat_map map app fst snd] in H; unfold pair_settled in H;
  repeat (let X := fresh "X" in apply Forall_cons_iff in H as [X H]; cbn [fst snd float_value exact_value] in X;
          destruct X as (X & ? & ? & ?));
  unfold fgtb, fgeb, ngtb, ngeb, fint in *;
  repeat match goal with E : fltb _ _ = _ |- _ => rewrite E; clear E | E : fleb _ _ = _ |- _ => rewrite E; clear E end.

Section Same.
  Context {o : oracle} {raw : rawframe} {b : bool} {st : obj} {inp ti : ftable}.
  Hypothesis (LI : f_rows inp = days_given st) (LT : f_rows ti = days_shown st).

  Lemma same_signal c n l : working o c raw b st -> compared c = Some (n, l) ->
    ((n <= days_shown st)%nat -> forall p q, In (p, q) l -> decided st inp ti p q) ->
    fsignal_of (ob_ind st) inp ti = Some (get_ti_signal st).
  Proof.
    intros W Cp H.
    assert (H' : (n <= days_shown st)%nat -> Forall (pair_settled st inp ti) l).
    { intro N. apply Forall_forall. intros [p q] I. destruct (H N p q I) as (dx & dy & A & B & C). exact (settles _ _ _ _ _ _ A B C). }
    clear H. rename H' into H.
    assert (NM : forall p t, c = cMA p t -> exists ty, asked (cMA p t) = iMA (nat_arg p) ty /\ ma_name ty = ("ma-" ++ as_str t)%string).
    { intros p t ->. destruct (working_check _ _ _ _ _ W) as [i CK]. cbn [check] in CK. destruct (check_ma_period p t); [|discriminate]. cbn [bind] in CK. cbn [asked].
      destruct t as [| | |s| |]; try discriminate. cbn [check_ma_type as_str] in *.
      destruct (String.eqb_spec s "simple") as [->|]; [eexists; split; reflexivity|].
      destruct (String.eqb_spec s "exponential") as [->|]; [eexists; split; reflexivity|].
      destruct (String.eqb_spec s "time_series") as [->|]; [eexists; split; reflexivity|].
      destruct (String.eqb_spec s "triangular") as [->|]; [eexists; split; reflexivity|].
      destruct (String.eqb_spec s "variable") as [->|]; [eexists; split; reflexivity|]. discriminate. }
    destruct (working_sound _ _ _ _ _ W) as [SD EI].
    assert (DS : is_dpo (ob_ind st) = false -> days_given st = days_shown st) by (apply days_same; exact SD).
    unfold get_ti_signal.
    destruct c; cbn in Cp; try discriminate Cp; injection Cp as <- <-; cbn [asked] in EI.
    all: try (destruct (NM _ _ eq_refl) as (ty & NA & NE); cbn [asked] in NA; rewrite NA in EI).
    all: rewrite EI in *; try specialize (DS eq_refl).
    all: unfold fsignal_of, signal_of, fguard, guard, flevel_cross, fline_cross, fthree, fband, level_cross, line_cross, three, case2, dema_signal, fint; cbv zeta.
    all: fold (days_given st); change (length (rows (ob_ti st))) with (days_shown st); rewrite LT.
    all: match goal with |- context [Nat.ltb (days_shown st) ?k] => destruct (Nat.ltb_spec (days_shown st) k) as [NN|NN]; [reflexivity|specialize (H NN)] end.
    all: f_equal; float_reads; see.
    all: try (rewrite NE; cbn [append]).
    all: unfold flt3, fgt3, lt3, gt3; settle_all H; reflexivity.
  Qed.
End Same.

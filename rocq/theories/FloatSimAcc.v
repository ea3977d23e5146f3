(** * FloatSimAcc: the simulation on four-decimal prices, in binary64 and exactly. *)
From Coq Require Import ZArith QArith Qcanon Qreals Reals Bool List PeanoNat Permutation Lia Lra Psatz.
From Flocq Require Import Core IEEE754.BinarySingleNaN.
From Verif Require Import Num NumFacts Pandas Frame Sim SimSpec SimProofs FloatSim FloatFacts FloatExact FloatSame.
From Verif Require Import FloatInd FloatOrd FloatDec FloatSpec FloatAccSpec FloatAcc FloatAcc3 FloatEwmAcc FloatEwmAcc5 FloatSignalFacts FloatSimSpec.
Import ListNotations.
Open Scope list_scope. Open Scope R_scope.
Notation uu := (/ 9007199254740992).
Notation tt := (/ 1267650600228229401496703205376).

Section Near.
Variable npsum : list f64 -> f64.
Hypothesis np : forall l, added l (npsum l).
Variables (K A : Z) (n : nat).
Hypothesis K_range : (1 <= K <= 2 ^ 36)%Z.
Hypothesis A_range : (10000 <= A <= 1000000)%Z.
Hypothesis n_range : (1 <= Z.of_nat n <= 2 ^ 20)%Z.
Notation ff := (dec4 A).
Notation f := (units A).
Definition rf : R := IZR A / 10000.
Definition b : R := IZR K / 10000 * rf.
Definition w : R := b * uu.
Definition Y : R := INR n * b.
Definition y : R := INR n * w.

Lemma rf_range : 1 <= rf <= 100.
Proof. unfold rf. assert (10000 <= IZR A <= 1000000) by (split; apply IZR_le; lia). lra. Qed.
Lemma k_range : 1 <= IZR K <= 68719476736.
Proof. split; [apply (IZR_le 1)|apply (IZR_le _ (2 ^ 36))]; lia. Qed.
Lemma b_range : / 10000 <= b <= 687194768.
Proof. unfold b. pose proof rf_range. pose proof k_range. nra. Qed.
Lemma n_1 : 1 <= INR n <= 1048576.
Proof. rewrite INR_IZR_INZ. split; [apply (IZR_le 1)|apply (IZR_le _ (2 ^ 20))]; lia. Qed.
Lemma sizes : 0 < w /\ w <= y /\ tt <= w / 1000000 /\ y = Y * uu /\ b <= Y <= 800000000000000 /\ 0 <= INR n * y <= Y / 1000000000.
Proof.
  pose proof b_range. pose proof n_1. unfold y, Y, w. repeat split; try lra; try nra.
  replace (INR n * (INR n * (b * uu))) with (INR n * b * (INR n * uu)) by ring. assert (INR n * uu <= / 1000000000) by lra.
  assert (0 <= INR n * b) by nra. nra.
Qed.

(** ** prices *)
Definition cents (k : Z) : Prop := (0 <= k <= K)%Z.
Lemma price_facts k : cents k -> let p := IZR k / 10000 in
  real (units k) = p /\ 0 <= p /\ rf * p <= b /\ p <= b /\ p <= 6871948 /\ ap (dec4 k) p (p * uu + tt).
Proof.
  intros [K0 K1] p. pose proof rf_range. pose proof k_range. assert (0 <= IZR k <= IZR K) by (split; [apply (IZR_le 0)|apply IZR_le]; lia).
  assert (P : 0 <= p <= IZR K / 10000) by (unfold p; lra). split; [apply real_units|]. split; [lra|].
  assert (rf * p <= b) by (unfold b; nra). split; [assumption|]. split; [nra|]. split; [lra|].
  destruct (dec_ap k) as [F E]; [lia|]. split; [exact F|]. fold p in E. rewrite (Rabs_pos_eq p) in E by lra. exact E.
Qed.
Lemma factor_facts : real f = rf /\ ap ff rf (rf * uu + tt) /\ f <> 0%Qc /\ is_finite ff = true /\ 99 / 100 <= RV ff.
Proof.
  pose proof rf_range. split; [apply real_units|]. destruct (dec_ap A) as [F E]; [lia|]. fold rf in E. rewrite (Rabs_pos_eq rf) in E by lra.
  split; [split; auto|]. split; [|split; [exact F|]].
  - intro Z. apply (f_equal real) in Z. rewrite real_units, real_0 in Z. fold rf in Z. lra.
  - apply Rabs_le_inv in E. lra.
Qed.
Lemma price_ap k : cents k -> ap (dec4 k) (IZR k / 10000) (2 * w).
Proof. intro C. destruct (price_facts k C) as (_ & P0 & _ & PB & _ & E). apply (ap_weaken _ _ _ _ E). pose proof sizes as (? & ? & ? & ? & _). unfold w in *. lra. Qed.
Lemma short_ap k : cents k -> ap (fmul ff (dec4 k)) (rf * (IZR k / 10000)) (4 * w).
Proof.
  intro C. destruct (price_facts k C) as (_ & P0 & FP & PB & PM & E). destruct factor_facts as (_ & FE & _). pose proof rf_range as RF.
  set (p := IZR k / 10000) in *. pose proof b_range as BR. pose proof sizes as (W & _ & TT & _).
  apply (mul_ap _ _ _ _ _ _ (p + (p * uu + tt)) ((rf + (rf * uu + tt)) * (p + (p * uu + tt))) _ FE E).
  - rewrite Rabs_pos_eq by lra. lra.
  - rewrite Rabs_pos_eq by lra. lra.
  - assert (rf * p <= 687194768) by lra. assert (0 <= rf * p) by nra. lra.
  - rewrite Rabs_pos_eq by lra. assert (0 <= rf * p) by nra. unfold w in *. lra.
Qed.

(** ** slots *)
Inductive alike : fslot -> slot -> Prop :=
| alike_none : alike fslot0 slot0
| alike_long k st : cents k -> alike (mkFslot PLong st (dec4 k)) (mkSlot PLong st (Fin (units k)))
| alike_short k st : cents k -> alike (mkFslot PShort st (fmul ff (dec4 k))) (mkSlot PShort st (Fin (f * units k))).
Lemma alike_exp s t : alike s t -> t = mkSlot (s_pos t) (s_status t) (Fin (qv (s_exposure t))) /\
  0 <= real (qv (s_exposure t)) <= b /\ ap (fs_exposure s) (real (qv (s_exposure t))) (4 * w).
Proof.
  pose proof sizes as (W & _). pose proof b_range. destruct 1 as [|k st C|k st C]; cbn [s_pos s_status s_exposure qv fs_exposure].
  - split; [reflexivity|]. change (qv (s_exposure slot0)) with 0%Qc. rewrite real_0. split; [lra|]. split; [reflexivity|]. change (RV (fs_exposure fslot0)) with 0. rewrite Rminus_eq_0, Rabs_R0. lra.
  - split; [reflexivity|]. destruct (price_facts k C) as (-> & P0 & FP & PB & _). split; [lra|]. apply (ap_weaken _ _ _ _ (price_ap k C)). lra.
  - split; [reflexivity|]. rewrite real_mul. destruct (price_facts k C) as (-> & P0 & FP & PB & _). destruct factor_facts as (-> & _). pose proof rf_range.
    split; [nra|]. apply short_ap, C.
Qed.
Lemma units_ltb j k : nltb (Fin (units j)) (Fin (units k)) = (j <? k)%Z.
Proof.
  cbn. apply eq_true_iff_eq. rewrite qltb_iff, Z.ltb_lt. change (units j < units k)%Qc with (units j < units k)%Qc. rewrite real_lt, !real_units.
  split; [intro H; apply lt_IZR; lra|intro H; apply IZR_lt in H; lra].
Qed.
Lemma cents_ltb j k : cents j -> cents k -> fltb (dec4 j) (dec4 k) = (j <? k)%Z.
Proof.
  intros J C. destruct (dec_close j) as [Fj _]; [unfold cents in J; lia|]. destruct (dec_close k) as [Fk _]; [unfold cents in C; lia|].
  rewrite fltb_fin by auto. destruct (Z.ltb_spec j k) as [L|L].
  - apply Rlt_bool_true. apply dec_order; unfold cents in *; lia.
  - apply Rlt_bool_false. destruct (Z.eq_dec j k) as [->|N]; [lra|]. left. apply dec_order; unfold cents in *; lia.
Qed.
Lemma shorts_less j k : cents j -> cents k -> (j < k)%Z -> RV (fmul ff (dec4 j)) < RV (fmul ff (dec4 k)).
Proof.
  intros J C L. pose proof factor_facts as (_ & [FF FE] & _). pose proof rf_range as RF.
  destruct (price_facts j J) as (_ & P0 & _ & _ & PM & [Fj Ej]). destruct (price_facts k C) as (_ & Q0 & _ & _ & QM & [Fk Ek]).
  assert (G : IZR j / 10000 + / 10000 <= IZR k / 10000). { assert (IZR j + 1 <= IZR k) by (rewrite <- plus_IZR; apply IZR_le; lia). lra. }
  set (p := IZR j / 10000) in *. set (q := IZR k / 10000) in *.
  pose proof (fmul_comes _ _ FF Fj) as Cj. pose proof (fmul_comes _ _ FF Fk) as Ck.
  apply Rabs_le_inv in FE. apply Rabs_le_inv in Ej. apply Rabs_le_inv in Ek.
  set (v := RV ff) in *. set (x := RV (dec4 j)) in *. set (z := RV (dec4 k)) in *.
  assert (V : 99 / 100 <= v <= 101) by lra. assert (X : - / 1000000 <= x <= 6871949) by lra. assert (Z0 : - / 1000000 <= z <= 6871949) by lra.
  assert (D : x + / 20000 <= z) by lra.
  assert (S : forall r, - / 1000000 <= r <= 6871949 -> Rabs (v * r) <= v * 6871949).
  { intros r R. rewrite Rabs_mult, (Rabs_pos_eq v) by lra. apply Rmult_le_compat_l; [lra|]. apply Rabs_le. lra. }
  pose proof (S x X) as Sx. pose proof (S z Z0) as Sz.
  assert (Ax : ap (fmul ff (dec4 j)) (v * x) (v / 1000000)) by (apply (comes_ap _ _ _ 0 (v * 6871949) _ Cj); [rewrite Rminus_eq_0, Rabs_R0; lra|exact Sx|lra|lra]).
  assert (Az : ap (fmul ff (dec4 k)) (v * z) (v / 1000000)) by (apply (comes_ap _ _ _ 0 (v * 6871949) _ Ck); [rewrite Rminus_eq_0, Rabs_R0; lra|exact Sz|lra|lra]).
  destruct Ax as [_ Ax]. destruct Az as [_ Az]. apply Rabs_le_inv in Ax. apply Rabs_le_inv in Az. assert (v * x + v * / 20000 <= v * z) by nra. lra.
Qed.
Lemma shorts_ltb j k : cents j -> cents k -> fltb (fmul ff (dec4 j)) (fmul ff (dec4 k)) = (j <? k)%Z.
Proof.
  intros J C. destruct (short_ap j J) as [Fj _]. destruct (short_ap k C) as [Fk _]. rewrite fltb_fin by auto. destruct (Z.ltb_spec j k) as [L|L].
  - apply Rlt_bool_true. apply shorts_less; auto.
  - apply Rlt_bool_false. destruct (Z.eq_dec j k) as [->|N]; [lra|]. left. apply shorts_less; auto. lia.
Qed.
Lemma short_units j k : nltb (Fin (f * units j)) (Fin (f * units k)) = (j <? k)%Z.
Proof.
  cbn. apply eq_true_iff_eq. rewrite qltb_iff, Z.ltb_lt, real_lt, !real_mul, !real_units. fold rf. pose proof rf_range as RF.
  split; [intro H; apply lt_IZR; nra|intro H; apply IZR_lt in H; nra].
Qed.

Section Masks.
Variable k : Z.
Hypothesis C : cents k.
Lemma long_alike s t : alike s t -> flong_to_close (dec4 k) s = long_to_close (Fin (units k)) t.
Proof.
  unfold flong_to_close, long_to_close. destruct 1 as [|j st J|j st J]; [reflexivity| |]; cbn; unfold fis_open, is_open, fis_long, is_long; cbn; destruct st; cbn; auto.
  rewrite cents_ltb by auto. symmetry. apply (units_ltb j k).
Qed.
Lemma short_alike s t : alike s t -> fshort_to_close ff (dec4 k) s = short_to_close (Fin f) (Fin (units k)) t.
Proof.
  unfold fshort_to_close, short_to_close. destruct 1 as [|j st J|j st J]; [reflexivity| |]; unfold fis_open, is_open, fis_short, is_short; cbn [s_status s_pos fs_status fs_pos]; destruct st; cbn [andb]; auto.
  cbn [fs_exposure s_exposure]. rewrite shorts_ltb by auto. cbn [nmul]. unfold ngtb. symmetry. apply short_units.
Qed.
Lemma close_alike s t : alike s t -> alike (fclose_slot ff (dec4 k) s) (close_slot (Fin f) (Fin (units k)) t).
Proof.
  intro H. unfold fclose_slot, close_slot. rewrite (long_alike _ _ H), (short_alike _ _ H). destruct (_ || _) eqn:E; auto.
  destruct H; cbn [s_pos s_exposure fs_pos fs_exposure]; try (constructor; auto). discriminate E.
Qed.
End Masks.
Lemma open_alike s t : alike s t -> fis_open s = is_open t. Proof. destruct 1; reflexivity. Qed.
Lemma count_alike fb g FP P : (forall s t, alike s t -> fb s = g t) -> Forall2 alike FP P -> count fb FP = count g P.
Proof. intros H R. unfold count. induction R as [|s t FP P ST R IH]; [reflexivity|]. cbn [filter]. rewrite (H _ _ ST). destruct (g t); cbn [length]; congruence. Qed.
Lemma sum_exact g FP P : Forall2 alike FP P -> sum_exposure g P = Fin (msum g P).
Proof.
  intro R. unfold sum_exposure, msum. rewrite <- nsum_fin, map_map. f_equal. induction R as [|s t FP P ST R IH]; [reflexivity|].
  cbn [filter]. destruct (g t); auto. cbn [map]. rewrite IH. f_equal. destruct (alike_exp _ _ ST) as [E _]. rewrite E at 1. reflexivity.
Qed.
Lemma msum_range g FP P : Forall2 alike FP P -> 0 <= real (msum g P) <= INR (count g P) * b.
Proof.
  induction 1 as [|s t FP P ST R IH]; [unfold msum, count; cbn [filter map length INR]; change (qsum []) with 0%Qc; rewrite real_0; lra|].
  rewrite msum_cons, count_one, plus_INR, real_add. unfold sel, one. destruct (alike_exp _ _ ST) as (_ & E & _).
  destruct (g t); cbn [INR]; rewrite ?real_0; lra.
Qed.
Lemma rsum_alike fb g FP P : (forall s t, alike s t -> fb s = g t) -> Forall2 alike FP P ->
  Rabs (rsum (map fs_exposure (filter fb FP)) - real (msum g P)) <= INR (count g P) * (4 * w) /\
  length (map fs_exposure (filter fb FP)) = count g P /\
  (forall v, In v (map fs_exposure (filter fb FP)) -> is_finite v = true /\ Rabs (RV v) <= b * (101 / 100)).
Proof.
  intros H R. induction R as [|s t FP P ST R [I1 [I2 I3]]].
  - cbn [filter map length]. unfold msum, count. cbn [filter map length INR]. change (qsum []) with 0%Qc. rewrite real_0. cbn [rsum fold_right]. rewrite Rminus_eq_0, Rabs_R0. split; [lra|]. split; [reflexivity|intros v []].
  - cbn [filter]. rewrite (H _ _ ST), msum_cons, count_one, plus_INR, real_add. unfold sel, one. destruct (alike_exp _ _ ST) as (_ & E & [Fs As]).
    destruct (g t); cbn [INR map length].
    + cbn [rsum fold_right]. fold (rsum (map fs_exposure (filter fb FP))). split; [|split; [rewrite I2; reflexivity|]].
      * replace (RV (fs_exposure s) + rsum (map fs_exposure (filter fb FP)) - (real (qv (s_exposure t)) + real (msum g P)))
          with ((RV (fs_exposure s) - real (qv (s_exposure t))) + (rsum (map fs_exposure (filter fb FP)) - real (msum g P))) by ring.
        eapply Rle_trans; [apply Rabs_triang|]. lra.
      * intros v [<-|V]; [|apply I3, V]. split; [exact Fs|]. apply Rabs_le_inv in As. pose proof sizes as (W & _). pose proof b_range. apply Rabs_le. unfold w in *. lra.
    + rewrite real_0, !Rplus_0_l. auto.
Qed.
Lemma fsum_near fb g FP P : (forall s t, alike s t -> fb s = g t) -> Forall2 alike FP P -> (count g P <= n)%nat ->
  ap (fsum_exposure npsum fb FP) (real (msum g P)) (6 * (INR (count g P) * y)).
Proof.
  intros H R L. destruct (rsum_alike fb g FP P H R) as (D & E & F). unfold fsum_exposure.
  pose proof n_1. pose proof sizes as (W & WY & _). pose proof b_range. apply le_INR in L.
  pose proof (added_ap (b * (101 / 100)) _ _ ltac:(lra) (np (map fs_exposure (filter fb FP))) ltac:(rewrite E; lra) F) as [Fx Ax]. rewrite E in Ax.
  split; [exact Fx|]. set (x := npsum (map fs_exposure (filter fb FP))) in *. set (c := INR (count g P)) in *. assert (0 <= c) by apply pos_INR.
  replace (RV x - real (msum g P)) with ((RV x - rsum (map fs_exposure (filter fb FP))) + (rsum (map fs_exposure (filter fb FP)) - real (msum g P))) by ring.
  eapply Rle_trans; [apply Rabs_triang|].
  assert (c * w <= c * y) by (apply Rmult_le_compat_l; auto). assert (c * (c * w) <= c * y) by (apply Rmult_le_compat_l; [auto|unfold y; apply Rmult_le_compat_r; lra]).
  replace (11 / 10 * (c * c) * (b * (101 / 100) * uu)) with (1111 / 1000 * (c * (c * w))) in Ax by (unfold w; field). assert (0 <= c * w) by (apply Rmult_le_pos; lra). lra.
Qed.
(** ** rows *)
Definition ex (i c : nat) : R := (7 * INR i + 8 * INR c) * y.
Definition ea (i c : nat) : R := (2 * INR i + 20 * INR c) * y.
Definition all : R := 30 * (INR n * y).
Lemma all_slack : all = slack n K A.
Proof. unfold all, slack, y, w, b, rf. field. Qed.
Lemma ex_le i c : (i <= n)%nat -> (c <= n)%nat -> 0 <= ex i c <= 15 * (INR n * y).
Proof.
  intros I C. apply le_INR in I. apply le_INR in C. pose proof (pos_INR i). pose proof (pos_INR c). pose proof sizes as (W & WY & _). unfold ex.
  assert (INR i * y <= INR n * y) by (apply Rmult_le_compat_r; lra). assert (INR c * y <= INR n * y) by (apply Rmult_le_compat_r; lra).
  assert (0 <= INR i * y) by (apply Rmult_le_pos; lra). assert (0 <= INR c * y) by (apply Rmult_le_pos; lra). lra.
Qed.
Lemma ea_le i c : (i <= n)%nat -> (c <= n)%nat -> 0 <= ea i c <= 22 * (INR n * y).
Proof.
  intros I C. apply le_INR in I. apply le_INR in C. pose proof (pos_INR i). pose proof (pos_INR c). pose proof sizes as (W & WY & _). unfold ea.
  assert (INR i * y <= INR n * y) by (apply Rmult_le_compat_r; lra). assert (INR c * y <= INR n * y) by (apply Rmult_le_compat_r; lra).
  assert (0 <= INR i * y) by (apply Rmult_le_pos; lra). assert (0 <= INR c * y) by (apply Rmult_le_pos; lra). lra.
Qed.
Definition sized (a : num) : Prop := match a with Fin q => Rabs (real q) <= Y | _ => False end.
Record tracked (r : frow) (x : simrow) : Prop := {
  t_signal : y_signal r = x_signal x;
  t_action : y_action r = x_action x;
  t_stock : near all (y_stock r) (x_stock x);
  t_exposure : near all (y_exposure r) (x_exposure x);
  t_value : near all (y_portfolio_value r) (x_portfolio_value x);
  t_earnings : near all (y_earnings r) (x_earnings x);
  t_balance : near all (y_balance r) (x_balance x);
  t_size : sized (x_stock x) /\ sized (x_exposure x) /\ sized (x_portfolio_value x) /\ sized (x_earnings x) /\ sized (x_balance x) }.
Record kept (FP : list fslot) (FD : list frow) (P : list slot) (D : list simrow) : Prop := {
  k_port : Forall2 alike FP P;
  k_data : Forall2 tracked FD D;
  k_len : length P = length D;
  k_exp : D <> [] -> x_exposure (last D simrow0) = Fin (msum is_open P) /\
    ap (y_exposure (last FD frow0)) (real (msum is_open P)) (ex (length D) (count is_closed P));
  k_earn : D <> [] -> exists v, x_earnings (last D simrow0) = Fin v /\ Rabs (real v) <= INR (count is_closed P) * b /\
    ap (y_earnings (last FD frow0)) (real v) (ea (length D) (count is_closed P)) }.
Lemma near_ap x q e : ap x (real q) e -> e <= all -> near all x (Fin q).
Proof. intros [F H] L. split; [exact F|]. unfold val. fold (real q). lra. Qed.

Lemma value_near k FP P : cents k -> (length P <= n)%nat -> Forall2 alike FP P ->
  exists v, portfolio_value (Fin (units k)) P = Fin v /\ ap (fportfolio_value (dec4 k) FP) (real v) (4 * y) /\ Rabs (real v) <= INR (count is_open P) * b.
Proof.
  intros C L R. unfold fportfolio_value, portfolio_value.
  rewrite (count_alike _ (fun s => is_long s && is_open s) FP P), (count_alike _ (fun s => is_short s && is_open s) FP P); auto; try (intros s t H; destruct H; reflexivity).
  set (l := count (fun s => is_long s && is_open s) P). set (h := count (fun s => is_short s && is_open s) P).
  assert (LH : (l + h <= count is_open P)%nat).
  { unfold l, h. clear. induction P as [|s P IH]; [auto|]. rewrite !count_one.
    assert (one (fun s => is_long s && is_open s) s + one (fun s => is_short s && is_open s) s <= one is_open s)%nat
      by (unfold one, is_long, is_short; destruct (s_pos s), (is_open s); cbn [andb]; lia).
    lia. }
  pose proof (FloatSame.count_le 0 0 is_open P) as CO. set (z := (Z.of_nat l - Z.of_nat h)%Z). cbn [nmul]. eexists. split; [reflexivity|].
  destruct (price_facts k C) as (PU & P0 & _ & PB & _). rewrite real_mul, real_z, PU. set (p := IZR k / 10000) in *.
  assert (ZB : Rabs (IZR z) <= INR (count is_open P)). { rewrite <- abs_IZR, INR_IZR_INZ. apply IZR_le. unfold z. lia. }
  assert (ON : INR (count is_open P) <= INR n) by (apply le_INR; lia). pose proof (Rabs_pos (IZR z)) as Z0.
  assert (V : Rabs (p * IZR z) <= INR (count is_open P) * b).
  { rewrite Rabs_mult, (Rabs_pos_eq p) by lra. rewrite Rmult_comm. apply Rmult_le_compat; lra. }
  split; [|exact V]. pose proof sizes as (W & WY & TT & YE & YB & _). pose proof n_1 as N1.
  assert (ZN : Rabs (IZR z) * w <= y) by (unfold y; apply Rmult_le_compat_r; lra). assert (OB : INR (count is_open P) * b <= Y) by (unfold Y; apply Rmult_le_compat_r; lra).
  assert (ZW : 0 <= Rabs (IZR z) * w) by (apply Rmult_le_pos; lra).
  rewrite Rabs_mult, (Rabs_pos_eq p) in V by lra.
  apply (mul_ap _ _ _ _ _ _ (Rabs (IZR z)) (Y + 2 * y) _ (price_ap k C) (ap_const z ltac:(unfold z; lia))).
  - lra.
  - change (IZR k / 10000) with p; rewrite (Rabs_pos_eq p) by lra. rewrite Rmult_plus_distr_r. lra.
  - lra.
  - change (IZR k / 10000) with p; lra.
Qed.

(** ** the limit *)
Definition limits (L : option Z) : Prop := match L with Some l => (Z.abs l <= 2 ^ 46)%Z | None => True end.
Lemma over_near L g q e : limits L -> ap g (real q) e -> e <= 15 * (INR n * y) ->
  match L with Some l => off_limit all l (Fin q) | None => True end ->
  fover_limit (option_map dec4 L) g = over_limit (option_map (fun l => Fin (units l)) L) (Fin q).
Proof.
  intros LR [Fg Eg] E15 OFF. destruct L as [l|]; [|reflexivity]. cbn [option_map fover_limit over_limit limits off_limit] in *.
  destruct (dec_ap l) as [Fl El]; [lia|]. rewrite fltb_fin by auto. cbn [nltb]. pose proof sizes as (W & WY & TT & _ & _ & NY & _). pose proof n_1.
  assert (y <= INR n * y) by (replace y with (1 * y) at 1 by ring; apply Rmult_le_compat_r; lra).
  fold (real q) in OFF. unfold all in OFF. set (t := IZR l / 10000) in *. assert (T0 : 0 <= Rabs t) by apply Rabs_pos. apply Rabs_le_inv in Eg. apply Rabs_le_inv in El.
  apply eq_true_iff_eq. rewrite qltb_iff, real_lt, real_units. fold t. split.
  - case Rlt_bool_spec; [|discriminate]. intros LT _. destruct (Rlt_or_le t (real q)) as [G|G]; [exact G|]. rewrite (Rabs_left1 (real q - t)) in OFF by lra. lra.
  - intro G. apply Rlt_bool_true. rewrite (Rabs_pos_eq (real q - t)) in OFF by lra. lra.
Qed.
Definition allowed (L : option Z) (r : simrow) : Prop := match L, x_signal r with None, _ | _, Some Hold => True | Some l, _ => off_limit all l (asked (Fin f) r) end.

(** ** one day *)
Lemma last_tracked FD D : Forall2 tracked FD D -> D <> [] -> tracked (last FD frow0) (last D simrow0).
Proof.
  induction 1 as [|r x FD D H R IH]; [contradiction|]. intros _.
  inversion R; subst; auto. change (tracked (last (x0 :: l) frow0) (last (y0 :: l') simrow0)). apply IH. discriminate.
Qed.
Lemma all_pos : 0 <= 2 * w <= all /\ y <= INR n * y /\ 0 <= y.
Proof.
  pose proof sizes as (W & WY & _ & _ & _ & NY & _). pose proof n_1. unfold all.
  assert (y <= INR n * y) by (replace y with (1 * y) at 1 by ring; apply Rmult_le_compat_r; lra). lra.
Qed.
Lemma Y_b : 0 <= b <= Y.
Proof. pose proof b_range. pose proof n_1. unfold Y. nra. Qed.
Lemma zero_near : near all f0 (F 0).
Proof. split; [reflexivity|]. change (Q2R (Q2Qc (inject_Z 0))) with (real 0). rewrite real_0. change (val f0) with 0. rewrite Rminus_eq_0, Rabs_R0. pose proof all_pos. lra. Qed.
Lemma kept_first L k sg : cents k ->
  let a := fday npsum (option_map dec4 L) ff [] [] (dec4 k) sg in let c := day (option_map (fun l => Fin (units l)) L) (Fin f) [] [] (Fin (units k)) sg in
  kept (fst a) (snd a) (fst c) (snd c).
Proof.
  intros C. destruct (price_facts k C) as (PU & P0 & FPB & PB & _). pose proof all_pos as (AP & NY & Y0). pose proof (price_ap k C) as PA. rewrite <- PU in PA. pose proof sizes as (W & _). pose proof b_range.
  cbn [fday day fst snd]. constructor.
  - constructor; [apply alike_none|constructor].
  - constructor; [|constructor]. pose proof zero_near. constructor; cbn [y_signal y_action y_stock y_exposure y_portfolio_value y_earnings y_balance x_signal x_action x_stock x_exposure x_portfolio_value x_earnings x_balance]; auto; [apply (near_ap _ _ _ PA); lra|].
    assert (SZ : sized (F 0)) by (unfold sized, F; change (real (Q2Qc (inject_Z 0))) with (real 0); rewrite real_0, Rabs_R0; pose proof Y_b; lra).
    split; [|auto]. unfold sized. rewrite PU, Rabs_pos_eq by lra. pose proof Y_b. lra.
  - reflexivity.
  - intros _. split; [reflexivity|]. cbn [last y_exposure]. change (msum is_open [slot0]) with 0%Qc. rewrite real_0. split; [reflexivity|]. change (RV f0) with 0. rewrite Rminus_eq_0, Rabs_R0.
    apply (ex_le 1 0); pose proof n_1; lia.
  - intros _. exists 0%Qc. split; [reflexivity|]. rewrite real_0, Rabs_R0. split; [unfold count; cbn; lra|]. split; [reflexivity|]. cbn [last y_earnings]. change (RV f0) with 0. rewrite Rminus_eq_0, Rabs_R0.
    apply (ea_le 1 0); pose proof n_1; lia.
Qed.

Lemma kept_day L FP FD P D k sg : limits L -> cents k -> (length D < n)%nat -> kept FP FD P D -> D <> [] ->
  let a := fday npsum (option_map dec4 L) ff FP FD (dec4 k) sg in let c := day (option_map (fun l => Fin (units l)) L) (Fin f) P D (Fin (units k)) sg in
  allowed L (last (snd c) simrow0) -> kept (fst a) (snd a) (fst c) (snd c).
Proof.
  intros LR C LN I NE a c AL. subst a c.
  pose proof (k_port _ _ _ _ I) as RP. pose proof (k_data _ _ _ _ I) as RD. pose proof (k_len _ _ _ _ I) as LE.
  assert (FNE : FD <> []) by (intro E; subst; inversion RD; subst; auto).
  destruct (k_exp _ _ _ _ I NE) as [EX FEX]. destruct (k_earn _ _ _ _ I NE) as (v & EW & VB & FEA).
  rewrite day_ne in AL by auto. rewrite fday_ne, day_ne by auto. unfold day_next in AL. unfold fday_next, day_next.
  rewrite (count_alike _ _ _ _ (long_alike k C) RP), (count_alike _ _ _ _ (short_alike k C) RP).
  rewrite EX, EW, !(sum_exact _ _ _ RP) in *.
  destruct (close_sums 0 0 f (units k) P) as [CS CC].
  pose proof (fsum_near _ _ _ _ (long_alike k C) RP) as FL. pose proof (fsum_near _ _ _ _ (short_alike k C) RP) as FS.
  set (bl := long_to_close (Fin (units k))) in *. set (bs := short_to_close (Fin f) (Fin (units k))) in *.
  assert (RP1 : Forall2 alike (map (fclose_slot ff (dec4 k)) FP) (map (close_slot (Fin f) (Fin (units k))) P)).
  { pose proof (close_alike k C) as CA. clear -RP CA. induction RP; cbn [map]; constructor; auto. }
  set (FP1 := map (fclose_slot ff (dec4 k)) FP) in *. set (P1 := map (close_slot (Fin f) (Fin (units k))) P) in *.
  assert (L1 : length P1 = length D) by (unfold P1; rewrite map_length; auto).
  pose proof (FloatSame.count_open_closed 0 0 P1) as OC1. pose proof (FloatSame.count_open_closed 0 0 P) as OC.
  specialize (FL ltac:(lia)). specialize (FS ltac:(lia)).
  pose proof (msum_range bl _ _ RP) as [L0 LB]. pose proof (msum_range bs _ _ RP) as [S0 SB]. pose proof (msum_range is_open _ _ RP1) as [E10 E1B]. pose proof (msum_range is_open _ _ RP) as [EP0 EPB].
  destruct (price_facts k C) as (PU & P0 & FPB & PB & _). pose proof (price_ap k C) as PA. destruct factor_facts as (FU & FA & NZ & FF & FG). pose proof rf_range as RF.
  pose proof sizes as (W & WY & TT & YE & YB & NY & NYB). pose proof n_1 as N1. pose proof all_pos as (AP & YN & Y0). pose proof b_range as BR.
  set (p := IZR k / 10000) in *. set (x := dec4 k) in *.
  set (cl := count bl P) in *. set (cs := count bs P) in *. set (le := msum bl P) in *. set (se := msum bs P) in *.
  set (fl := fsum_exposure npsum (flong_to_close x) FP) in *. set (fs := fsum_exposure npsum (fshort_to_close ff x) FP) in *.
  pose proof (pos_INR cl) as IL. pose proof (pos_INR cs) as IS. pose proof (pos_INR (count is_closed P)) as IC.
  assert (MN : INR cl + INR cs <= INR n) by (rewrite <- plus_INR; apply le_INR; lia).
  (* the quantities of the estimates *)
  set (Lc := INR cl * y) in *. set (Sc := INR cs * y) in *. set (lb := INR cl * b) in *. set (sb := INR cs * b) in *.
  assert (Q1 : 0 <= lb * uu <= Lc /\ 0 <= sb * uu <= Sc).
  { unfold lb, sb, Lc, Sc. rewrite !Rmult_assoc. fold w. assert (INR cl * w <= INR cl * y) by (apply Rmult_le_compat_l; lra). assert (INR cs * w <= INR cs * y) by (apply Rmult_le_compat_l; lra).
    assert (0 <= INR cl * w) by (apply Rmult_le_pos; lra). assert (0 <= INR cs * w) by (apply Rmult_le_pos; lra). lra. }
  assert (Q2 : lb + sb <= Y) by (unfold lb, sb, Y; rewrite <- Rmult_plus_distr_r; apply Rmult_le_compat_r; lra).
  assert (Q3 : 0 <= Lc <= lb / 1000000000 /\ 0 <= Sc <= sb / 1000000000).
  { assert (YW : 0 <= y <= b / 1000000000). { unfold y, w. replace (INR n * (b * uu)) with (b * (INR n * uu)) by ring. split; [nra|]. apply Rmult_le_compat_l; lra. }
    unfold Lc, Sc, lb, sb. replace (INR cl * b / 1000000000) with (INR cl * (b / 1000000000)) by field. replace (INR cs * b / 1000000000) with (INR cs * (b / 1000000000)) by field.
    split; (split; [apply Rmult_le_pos; lra|apply Rmult_le_compat_l; lra]). }
  destruct Q1 as [Q1 Q1']. destruct Q3 as [Q3 Q3'].
  assert (CLO : ap (fadd fl fs) (real le + real se) (8 * (Lc + Sc) + y / 100)).
  { apply (ap_add _ _ _ _ _ _ (lb + sb + 6 * Lc + 6 * Sc) _ FL FS); [rewrite Rabs_pos_eq by lra; lra|lra|lra]. }
  destruct (ex_le (length D) (count is_closed P)) as [X0 X1]; [lia|lia|]. destruct (ea_le (length D) (count is_closed P)) as [Z0 Z1]; [lia|lia|].
  assert (O1 : real (msum is_open P1) <= Y).
  { apply Rle_trans with (INR (count is_open P1) * b); [exact E1B|]. unfold Y. apply Rmult_le_compat_r; [lra|]. apply le_INR. lia. }
  assert (CSR : real (msum is_open P) - (real le + real se) = real (msum is_open P1)) by (rewrite CS, real_sub, real_add; reflexivity).
  assert (E1 : ap (fsub (y_exposure (last FD frow0)) (fadd fl fs)) (real (msum is_open P1)) (ex (length D) (count is_closed P) + 8 * (Lc + Sc) + 12 / 10 * y)).
  { rewrite <- CSR. apply (ap_sub _ _ _ _ _ _ (Y * (101 / 100)) _ FEX CLO); [rewrite CSR, Rabs_pos_eq by lra; lra|lra|lra]. }
  replace (nsub (Fin (msum is_open P)) (nadd (Fin le) (Fin se))) with (Fin (msum is_open P1)) in * by (cbn [nsub nneg nadd]; rewrite CS; f_equal; ring).
  (* earnings *)
  assert (NL : is_finite (fnat cl) = true /\ RV (fnat cl) = INR cl) by (unfold fnat; rewrite INR_IZR_INZ; apply fz_val; lia).
  assert (NS : is_finite (fnat cs) = true /\ RV (fnat cs) = INR cs) by (unfold fnat; rewrite INR_IZR_INZ; apply fz_val; lia).
  assert (PL : 0 <= INR cl * p <= lb) by (unfold lb; split; [apply Rmult_le_pos; lra|apply Rmult_le_compat_l; lra]).
  assert (PS : 0 <= INR cs * p <= sb) by (unfold sb; split; [apply Rmult_le_pos; lra|apply Rmult_le_compat_l; lra]).
  assert (WL : 0 <= INR cl * w <= Lc) by (replace (INR cl * w) with (lb * uu) by (unfold lb, w; ring); lra).
  assert (WS : 0 <= INR cs * w <= Sc) by (replace (INR cs * w) with (sb * uu) by (unfold sb, w; ring); lra).
  assert (A1 : ap (fmul (fnat cl) x) (INR cl * p) (4 * Lc + y / 1000)).
  { apply (ap_mul _ _ _ _ _ (lb + 2 * Lc) _ (proj1 NL) (proj2 NL) PA); rewrite ?(Rabs_pos_eq (INR cl)), ?(Rabs_pos_eq p) by lra; [rewrite Rmult_plus_distr_l; lra|lra|lra]. }
  assert (A2 : ap (fmul (fnat cs) x) (INR cs * p) (4 * Sc + y / 1000)).
  { apply (ap_mul _ _ _ _ _ (sb + 2 * Sc) _ (proj1 NS) (proj2 NS) PA); rewrite ?(Rabs_pos_eq (INR cs)), ?(Rabs_pos_eq p) by lra; [rewrite Rmult_plus_distr_l; lra|lra|lra]. }
  assert (A3 : ap (fsub (fmul (fnat cl) x) fl) (INR cl * p - real le) (12 * Lc + y / 100)).
  { apply (ap_sub _ _ _ _ _ _ (lb + 10 * Lc + y / 1000) _ A1 FL); [assert (Rabs (INR cl * p - real le) <= lb) by (apply Rabs_le; lra); lra|lra|lra]. }
  set (q := real se / rf). assert (QF : q * rf = real se) by (unfold q; field; lra).
  assert (QB : 0 <= q <= sb) by (split; [unfold q; apply Rmult_le_pos; [lra|left; apply Rinv_0_lt_compat; lra]|nra]).
  assert (A4 : ap (fdiv fs ff) q (11 * Sc + y / 1000)).
  { destruct FS as [FSF FSE]. destruct FA as [_ FAE]. apply (ap_div _ _ _ (9 * Sc) (99 / 100) (sb + 9 * Sc)); auto; [lra| |rewrite Rabs_pos_eq by lra; lra|lra|lra].
    replace (RV fs - q * RV ff) with ((RV fs - real se) + q * (rf - RV ff)) by (rewrite <- QF; ring). eapply Rle_trans; [apply Rabs_triang|].
    rewrite Rabs_mult, (Rabs_pos_eq q), (Rabs_minus_sym rf) by lra. assert (q * Rabs (RV ff - rf) <= q * (rf * uu + tt)) by (apply Rmult_le_compat_l; lra).
    assert (q * (rf * uu + tt) = real se * uu + q * tt) by (rewrite <- QF; ring). lra. }
  assert (A5 : ap (fsub (fdiv fs ff) (fmul (fnat cs) x)) (q - INR cs * p) (18 * Sc + y / 100)).
  { apply (ap_sub _ _ _ _ _ _ (sb + 15 * Sc + y / 100) _ A4 A2); [assert (Rabs (q - INR cs * p) <= sb) by (apply Rabs_le; lra); lra|lra|lra]. }
  set (g := (INR cl * p - real le) + (q - INR cs * p)) in *.
  assert (GB : Rabs g <= lb + sb) by (unfold g; apply Rabs_le; lra).
  assert (A6 : ap (fadd (fsub (fmul (fnat cl) x) fl) (fsub (fdiv fs ff) (fmul (fnat cs) x))) g (20 * (Lc + Sc) + y / 10)).
  { apply (ap_add _ _ _ _ _ _ (lb + sb + 12 * Lc + 18 * Sc + y / 50) _ A3 A5); [fold g; lra|lra|lra]. }
  assert (TB : Rabs (real v + g) <= INR (count is_closed P1) * b).
  { rewrite CC, !plus_INR, !Rmult_plus_distr_r. fold lb sb. eapply Rle_trans; [apply Rabs_triang|]. fold cl cs. lra. }
  assert (T1 : INR (count is_closed P1) * b <= Y) by (unfold Y; apply Rmult_le_compat_r; [lra|apply le_INR; lia]).
  set (fearn := fadd (y_earnings (last FD frow0)) _) in *.
  assert (A7 : ap fearn (real v + g) (ea (length D) (count is_closed P) + 20 * (Lc + Sc) + 12 / 10 * y)).
  { apply (ap_add _ _ _ _ _ _ (Y * (101 / 100)) _ FEA A6); [lra|lra|lra]. }
  set (ge := (qnat cl * units k - le + (se / f - qnat cs * units k))%Qc).
  assert (GE : real ge = g) by (unfold ge, g, q; rewrite real_add, !real_sub, real_div, !real_mul, !real_nat, FU, PU by auto; reflexivity).
  set (earn := nadd (Fin v) _) in *.
  assert (EE : earn = Fin (v + ge)).
  { unfold earn, ge. cbn [nadd nsub nneg nmul nnat ndiv]. destruct (qeqb f 0) eqn:EF; [apply qeqb_iff in EF; contradiction|]. cbn [nadd nsub nneg]. reflexivity. }
  clearbody earn. subst earn.
  assert (EA2 : ea (length D) (count is_closed P) + 20 * (Lc + Sc) + 2 * y = ea (S (length D)) (count is_closed P1)).
  { unfold ea, Lc, Sc. rewrite CC, !plus_INR, S_INR. fold cl cs. ring. }
  assert (EX2 : ex (length D) (count is_closed P) + 8 * (Lc + Sc) + 7 * y = ex (S (length D)) (count is_closed P1)).
  { unfold ex, Lc, Sc. rewrite CC, !plus_INR, S_INR. fold cl cs. ring. }
  set (fe := fsub (y_exposure (last FD frow0)) _) in *.
  (* one outcome *)
  assert (OUT : forall a fsl sl fe' e', alike fsl sl -> is_closed sl = false -> e' = (msum is_open P1 + sel is_open sl)%Qc -> ap fe' (real e') (ex (S (length D)) (count is_closed P1)) ->
    kept (FP1 ++ [fsl]) (FD ++ [mkFrow (Some sg) (Some a) x fe' (fportfolio_value x (FP1 ++ [fsl])) fearn (fadd (fportfolio_value x (FP1 ++ [fsl])) fearn)])
        (P1 ++ [sl]) (D ++ [mkRow (Some sg) (Some a) (Fin (units k)) (Fin e') (portfolio_value (Fin (units k)) (P1 ++ [sl])) (Fin (v + ge))
                               (nadd (portfolio_value (Fin (units k)) (P1 ++ [sl])) (Fin (v + ge)))])).
  { intros a fsl sl fe' e' SR NC -> FE.
    assert (RP2 : Forall2 alike (FP1 ++ [fsl]) (P1 ++ [sl])) by (apply Forall2_app; auto).
    assert (L2 : length (P1 ++ [sl]) = S (length D)) by (rewrite app_length; cbn [length]; lia).
    destruct (value_near k (FP1 ++ [fsl]) (P1 ++ [sl]) C ltac:(lia) RP2) as (pv & -> & VS & PVB). fold x in VS.
    pose proof (FloatSame.count_open_closed 0 0 (P1 ++ [sl])) as OC2.
    assert (CC2 : count is_closed (P1 ++ [sl]) = count is_closed P1) by (rewrite (count_snoc 0 0); unfold one; rewrite NC; lia).
    destruct (ex_le (S (length D)) (count is_closed P1)) as [_ X2]; [lia|lia|]. destruct (ea_le (S (length D)) (count is_closed P1)) as [_ Z2]; [lia|lia|].
    assert (EAR : ap fearn (real (v + ge)) (ea (S (length D)) (count is_closed P1))) by (rewrite real_add, GE; apply (ap_weaken _ _ _ _ A7); lra).
    assert (SUM : Rabs (real pv + real (v + ge)) <= Y).
    { eapply Rle_trans; [apply Rabs_triang|]. rewrite (real_add v ge), GE. apply Rle_trans with (INR (count is_open (P1 ++ [sl])) * b + INR (count is_closed P1) * b); [lra|].
      rewrite <- Rmult_plus_distr_r, <- plus_INR. unfold Y. apply Rmult_le_compat_r; [lra|]. apply le_INR. rewrite <- CC2. lia. }
    assert (CO2 : INR (count is_open (P1 ++ [sl])) * b <= Y) by (unfold Y; apply Rmult_le_compat_r; [lra|]; apply le_INR; lia).
    constructor.
    - exact RP2.
    - apply Forall2_app; auto. constructor; [|constructor]. constructor; cbn [y_signal y_action y_stock y_exposure y_portfolio_value y_earnings y_balance x_signal x_action x_stock x_exposure x_portfolio_value x_earnings x_balance nadd]; auto.
      + rewrite <- PU in PA. apply (near_ap _ _ _ PA). lra.
      + apply (near_ap _ _ _ FE). unfold all. lra.
      + apply (near_ap _ _ _ VS). unfold all. lra.
      + apply (near_ap _ _ _ EAR). unfold all. lra.
      + assert (BA : ap (fadd (fportfolio_value x (FP1 ++ [fsl])) fearn) (real (pv + (v + ge))) (28 * (INR n * y))); [|apply (near_ap _ _ _ BA); unfold all; lra].
        rewrite real_add.
        apply (ap_add _ _ _ _ _ _ (Y * (101 / 100)) _ VS EAR); lra.
      + unfold sized. pose proof Y_b. split; [rewrite PU; fold p; rewrite Rabs_pos_eq by lra; lra|]. split; [|split; [lra|split; [rewrite real_add, GE; lra|rewrite real_add; exact SUM]]].
        rewrite <- msum_snoc. destruct (msum_range is_open _ _ RP2) as [G1 G2]. rewrite Rabs_pos_eq by lra. lra.
    - rewrite L2, app_length; cbn [length]; lia.
    - intros _. rewrite !last_last, app_length. cbn [x_exposure y_exposure length]. rewrite msum_snoc, CC2. split; [reflexivity|]. replace (length D + 1)%nat with (S (length D)) by lia. exact FE.
    - intros _. rewrite !last_last, app_length. cbn [x_earnings y_earnings length]. exists (v + ge)%Qc. split; [reflexivity|]. rewrite CC2. replace (length D + 1)%nat with (S (length D)) by lia.
      split; [rewrite real_add, GE; exact TB|exact EAR]. }
  assert (KEEP : forall q, ap fe (real q) (ex (length D) (count is_closed P) + 8 * (Lc + Sc) + 12 / 10 * y) -> ap fe (real q) (ex (S (length D)) (count is_closed P1))) by (intros q0 H; apply (ap_weaken _ _ _ _ H); lra).
  assert (CO1 : real (msum is_open P1) + b <= Y).
  { apply Rle_trans with (INR (count is_open P1) * b + 1 * b); [lra|]. rewrite <- Rmult_plus_distr_r. unfold Y. apply Rmult_le_compat_r; [lra|]. rewrite <- (S_INR (count is_open P1)). apply le_INR. lia. }
  destruct (ex_le (S (length D)) (count is_closed P1)) as [_ X2]; [lia|lia|].
  destruct sg.
  - (* Buy *)
    assert (S1 : ap (fadd fe x) (real (msum is_open P1 + units k)) (ex (S (length D)) (count is_closed P1))).
    { rewrite real_add, PU. apply (ap_add _ _ _ _ _ _ (Y * (101 / 100)) _ E1 PA); [rewrite Rabs_pos_eq by lra; lra|lra|lra]. }
    rewrite (over_near L _ _ _ LR S1 ltac:(lra)).
    + cbn [nadd] in *. destruct (over_limit _ _); cbn [fst snd].
      * apply OUT; auto using alike_none. unfold sel; cbn. ring.
      * apply OUT; auto. constructor; auto.
    + destruct L as [l|]; [|exact Logic.I]. cbn [nadd option_map] in AL. destruct (over_limit _ _); cbn [snd] in AL; rewrite last_last in AL; exact AL.
  - cbn [fst snd]. apply OUT; auto using alike_none. unfold sel; cbn. ring.
  - pose proof (short_ap k C) as XS. fold x p in XS.
    assert (S1 : ap (fadd fe (fmul ff x)) (real (msum is_open P1 + f * units k)) (ex (S (length D)) (count is_closed P1))).
    { rewrite real_add, real_mul, FU, PU. assert (0 <= rf * p) by (apply Rmult_le_pos; lra). apply (ap_add _ _ _ _ _ _ (Y * (101 / 100)) _ E1 XS); [rewrite Rabs_pos_eq by lra; lra|lra|lra]. }
    rewrite (over_near L _ _ _ LR S1 ltac:(lra)).
    + cbn [nadd nmul] in *. destruct (over_limit _ _); cbn [fst snd].
      * apply OUT; auto using alike_none. unfold sel; cbn. ring.
      * apply OUT; auto. constructor; auto.
    + destruct L as [l|]; [|exact Logic.I]. cbn [nadd nmul option_map] in AL. destruct (over_limit _ _); cbn [snd] in AL; rewrite last_last in AL; exact AL.
Qed.
End Near.

(** * FloatSimDays: whole simulations in binary64 and exactly, and their statistics. *)
From Coq Require Import ZArith QArith Qcanon Qreals Qabs Reals Bool List PeanoNat Permutation Lia Lra Psatz.
From Flocq Require Import Core IEEE754.BinarySingleNaN.
From Verif Require Import Num NumFacts RoundFacts RangeSpec Pandas Frame Sim SimSpec SimProofs SimLemmas FloatSim FloatFacts FloatExact FloatSame.
From Verif Require Import FloatInd FloatOrd FloatDec FloatSpec FloatAccSpec FloatAcc FloatAcc3 FloatSignalFacts FloatStat FloatSimSpec FloatSimAcc.
Import SimProofs ListNotations.
Open Scope list_scope. Open Scope R_scope.

Lemma day_appends m f P D p sg : exists r, snd (day m f P D p sg) = D ++ [r].
Proof.
  destruct (nil_or D) as [->|NE]; [cbn; eauto|]. rewrite day_ne by auto. unfold day_next.
  destruct sg; try destruct (over_limit _ _); cbn [snd]; eauto.
Qed.
Definition exact_limit (L : option Z) : option num := option_map (fun l => Fin (units l)) L.
Lemma kept_days npsum K A n L ds : (forall l, added l (npsum l)) -> (1 <= K <= 2 ^ 36)%Z -> (10000 <= A <= 1000000)%Z -> (1 <= Z.of_nat n <= 2 ^ 20)%Z ->
  limits L -> (length ds <= n)%nat -> (forall x, In x ds -> (0 <= fst x <= K)%Z) ->
  let b := days (exact_limit L) (Fin (units A)) (map (fun x => (Fin (units (fst x)), snd x)) ds) in
  (forall i, (1 <= i < length ds)%nat -> allowed K A n L (nth i (snd b) simrow0)) ->
  let a := fdays npsum (option_map dec4 L) (dec4 A) (map (fun x => (dec4 (fst x), snd x)) ds) in
  kept K A n (fst a) (snd a) (fst b) (snd b).
Proof.
  intros NP HK HA HN HL. induction ds as [|x ds IH] using rev_ind; intros LN C b AL a.
  - constructor; cbn; auto; contradiction.
  - subst a b. rewrite app_length in *. cbn [length] in *. revert AL. rewrite !map_app. unfold fdays, days. rewrite !fold_left_app.
    fold (fdays npsum (option_map dec4 L) (dec4 A) (map (fun x => (dec4 (fst x), snd x)) ds)). fold (days (exact_limit L) (Fin (units A)) (map (fun x => (Fin (units (fst x)), snd x)) ds)).
    cbv zeta in IH. specialize (IH ltac:(lia) ltac:(intros y H; apply C; apply in_or_app; auto)).
    destruct (days_length (exact_limit L) (Fin (units A)) (map (fun x => (Fin (units (fst x)), snd x)) ds)) as [_ LD]. rewrite map_length in LD.
    set (e := days (exact_limit L) (Fin (units A)) (map (fun x => (Fin (units (fst x)), snd x)) ds)) in *.
    set (g := fdays npsum (option_map dec4 L) (dec4 A) (map (fun x => (dec4 (fst x), snd x)) ds)) in *.
    cbn [map fold_left fst snd]. intro AL. destruct (day_appends (exact_limit L) (Fin (units A)) (fst e) (snd e) (Fin (units (fst x))) (snd x)) as [r R].
    assert (I : kept K A n (fst g) (snd g) (fst e) (snd e)).
    { apply IH. intros i Hi. specialize (AL i ltac:(lia)). rewrite R, app_nth1 in AL by lia. exact AL. }
    specialize (C x ltac:(apply in_or_app; right; left; reflexivity)).
    destruct (nil_or (snd e)) as [E|NE].
    + pose proof (k_len _ _ _ _ _ _ _ I) as LP. rewrite E in LP. destruct (fst e) eqn:EP; [|discriminate].
      pose proof (k_port _ _ _ _ _ _ _ I) as RP. pose proof (k_data _ _ _ _ _ _ _ I) as RD. rewrite E in RD. inversion RP as [Q|]. inversion RD as [Q2|].
      rewrite E. apply kept_first; auto.
    + apply kept_day; auto; [lia|]. change (option_map (fun l => Fin (units l)) L) with (exact_limit L). rewrite R, last_last.
      destruct (snd e) as [|r0 D0] eqn:E; [contradiction|]. rewrite <- E in *. specialize (AL (length ds) ltac:(rewrite E in LD; cbn [length] in LD; lia)).
      rewrite R, app_nth2, LD, Nat.sub_diag in AL by lia. exact AL.
Qed.

Lemma combine_first {T} (g : Z -> T) l (t : list signal) : combine (map g l) t = map (fun x => (g (fst x), snd x)) (combine l t).
Proof. revert t. induction l as [|k l IH]; intros [|s t]; cbn; auto. rewrite IH. reflexivity. Qed.

Section Whole.
Variables (npsum : list f64 -> f64) (K A : Z) (L : option Z) (ks : list Z) (sgs : list signal).
Hypothesis NP : forall l, added l (npsum l).
Hypothesis HK : (1 <= K <= 2 ^ 36)%Z.
Hypothesis HA : (10000 <= A <= 1000000)%Z.
Hypothesis HL : limits L.
Hypothesis HN : (Z.of_nat (length sgs) <= 2 ^ 20)%Z.
Hypothesis C : forall k, In k ks -> (0 <= k <= K)%Z.
Hypothesis LS : (length sgs <= length ks)%nat.
Notation fs := (fsimulate npsum (map dec4 ks) (option_map dec4 L) (dec4 A) sgs).
Notation es := (simulate (map (fun k => Fin (units k)) ks) (exact_limit L) (Fin (units A)) sgs).
Notation n := (length sgs).
Hypothesis OFF : forall i, (1 <= i < n)%nat -> nth i sgs Hold <> Hold ->
  match L with Some l => off_limit (slack n K A) l (asked (Fin (units A)) (row_ (data es) i)) | None => True end.

Lemma whole_kept : exists FP FD P D, kept K A n FP FD P D /\ length D = n /\
  f_portfolio fs = FP ++ repeat fslot0 (length ks - n) /\ f_data fs = FD ++ repeat frow0 (length ks - n) /\
  portfolio es = P ++ repeat slot0 (length ks - n) /\ data es = D ++ repeat simrow0 (length ks - n).
Proof.
  set (ds := combine (firstn n ks) sgs).
  assert (LD : length ds = n) by (unfold ds; rewrite combine_length, firstn_length; lia).
  set (a := fdays npsum (option_map dec4 L) (dec4 A) (map (fun x => (dec4 (fst x), snd x)) ds)).
  set (b := days (exact_limit L) (Fin (units A)) (map (fun x => (Fin (units (fst x)), snd x)) ds)).
  assert (M : forall (T : Type) (g : Z -> T), combine (firstn n (map g ks)) sgs = map (fun x => (g (fst x), snd x)) ds).
  { intros T g. unfold ds. rewrite firstn_map. apply combine_first. }
  destruct (days_length (exact_limit L) (Fin (units A)) (map (fun x => (Fin (units (fst x)), snd x)) ds)) as [_ LB]. fold b in LB. rewrite map_length in LB.
  assert (FE : f_portfolio fs = fst a ++ repeat fslot0 (length ks - n) /\ f_data fs = snd a ++ repeat frow0 (length ks - n)).
  { unfold fsimulate, fsim_start. pose proof (frun_sim0 npsum (map dec4 ks) (option_map dec4 L) (dec4 A) sgs ltac:(rewrite map_length; auto)) as R. cbv zeta in R.
    unfold fsim0, fpad in R. cbn [app] in R. rewrite R, (M _ dec4), map_length. fold a. split; reflexivity. }
  assert (EE : portfolio es = fst b ++ repeat slot0 (length ks - n) /\ data es = snd b ++ repeat simrow0 (length ks - n)).
  { unfold simulate, sim_start. pose proof (run_sim0 (map (fun k => Fin (units k)) ks) (exact_limit L) (Fin (units A)) sgs ltac:(rewrite map_length; auto)) as R. cbv zeta in R.
    unfold sim0, pad in R. cbn [app] in R. rewrite R, (M _ (fun k => Fin (units k))), map_length. fold b. split; reflexivity. }
  destruct FE as [F1 F2]. destruct EE as [E1 E2]. exists (fst a), (snd a), (fst b), (snd b). split; [|split; [lia|auto]].
  destruct (Nat.eq_dec n 0) as [Z0|Z0].
  { rewrite Z0 in LD. apply length_zero_iff_nil in LD. unfold a, b. rewrite LD. constructor; cbn; auto; contradiction. }
  apply kept_days; auto.
  - lia.
  - lia.
  - intros [k s] H. cbn [fst]. unfold ds in H. apply in_combine_l in H. apply C. rewrite <- (firstn_skipn n ks). apply in_or_app. left. exact H.
  - rewrite LD. fold b. intros i Hi. specialize (OFF i Hi). rewrite E2 in OFF. unfold row_ in OFF. rewrite app_nth1 in OFF by lia. unfold allowed. destruct L as [l|]; [|exact I].
    assert (SG : x_signal (nth i (snd b) simrow0) = Some (nth i sgs Hold)).
    { clear -LD LB Hi. assert (GEN : forall m f (ds : list (num * signal)) i, (i < length ds)%nat -> x_signal (nth i (snd (days m f ds)) simrow0) = Some (snd (nth i ds (NaN, Hold)))).
      { clear. intros m f ds. induction ds as [|x ds IH] using rev_ind; intros i H; [cbn in H; lia|]. rewrite app_length in H. cbn [length] in H. unfold days. rewrite fold_left_app. fold (days m f ds). cbn [fold_left].
        destruct (days_length m f ds) as [_ LD]. destruct (Nat.eq_dec i (length ds)) as [->|NE].
        - rewrite (app_nth2 ds) by lia. rewrite Nat.sub_diag. cbn [nth]. destruct (nil_or (snd (days m f ds))) as [E|N].
          + rewrite E in *. cbn in LD. destruct ds; [|discriminate]. reflexivity.
          + rewrite day_ne by auto. unfold day_next. destruct (snd x) eqn:Sx; try destruct (over_limit _ _); cbn [snd]; rewrite app_nth2, LD, Nat.sub_diag by lia; reflexivity.
        - destruct (day_appends m f (fst (days m f ds)) (snd (days m f ds)) (fst x) (snd x)) as [r R]. rewrite R, !app_nth1 by lia. apply IH. lia. }
      unfold b. rewrite GEN by (rewrite map_length; lia). f_equal. unfold ds in *. rewrite combine_length, firstn_length in LD.
      change (NaN, Hold) with ((fun x : Z * signal => (match x with (_, s) => (NaN, s) end)) (0%Z, Hold)).
      assert (G2 : forall l (t : list signal) i, (i < length (combine l t))%nat -> snd (nth i (map (fun x : Z * signal => (Fin (units (fst x)), snd x)) (combine l t)) (NaN, Hold)) = nth i t Hold).
      { clear. intro l. induction l as [|k l IH]; intros [|s t] i H; cbn in *; try lia. destruct i; cbn; auto. apply IH. lia. }
      cbn [snd]. apply G2. rewrite combine_length, firstn_length. lia. }
    rewrite SG. destruct (nth i sgs Hold) eqn:EH; try exact I; rewrite all_slack; apply OFF; discriminate.
Qed.
End Whole.

(** ** every day *)
Lemma Forall2_repeat {X Z} (R : X -> Z -> Prop) x z k : R x z -> Forall2 R (repeat x k) (repeat z k).
Proof. intro H. induction k; cbn; constructor; auto. Qed.
Lemma count_rel {X Z} (R : X -> Z -> Prop) f g l m : Forall2 R l m -> (forall x z, R x z -> f x = g z) -> count f l = count g m.
Proof. intros H E. induction H as [|x z l m XZ H IH]; [reflexivity|]. unfold count in *. cbn [filter]. rewrite (E _ _ XZ). destruct (g z); cbn [length]; auto. Qed.

Section Days.
Variables (npsum : list f64 -> f64) (K A : Z) (L : option Z) (ks : list Z) (sgs : list signal).
Hypothesis NP : forall l, added l (npsum l).
Hypothesis HK : (1 <= K <= 2 ^ 36)%Z.
Hypothesis HA : (10000 <= A <= 1000000)%Z.
Hypothesis HL : limits L.
Hypothesis HN : (Z.of_nat (length sgs) <= 2 ^ 20)%Z.
Hypothesis C : forall k, In k ks -> (0 <= k <= K)%Z.
Hypothesis LS : (length sgs <= length ks)%nat.
Notation fs := (fsimulate npsum (map dec4 ks) (option_map dec4 L) (dec4 A) sgs).
Notation es := (simulate (map (fun k => Fin (units k)) ks) (exact_limit L) (Fin (units A)) sgs).
Notation n := (length sgs).
Hypothesis OFF : forall i, (1 <= i < n)%nat -> nth i sgs Hold <> Hold ->
  match L with Some l => off_limit (slack n K A) l (asked (Fin (units A)) (row_ (data es) i)) | None => True end.

Lemma every_day i : (i < n)%nat ->
  tracked K A n (nth i (f_data fs) frow0) (row_ (data es) i) /\
  alike K A (nth i (f_portfolio fs) fslot0) (nth i (portfolio es) slot0).
Proof.
  intro Hi. destruct (whole_kept npsum K A L ks sgs NP HK HA HL HN C LS OFF) as (FP & FD & P & D & I & LD & -> & -> & -> & ->).
  pose proof (k_port _ _ _ _ _ _ _ I) as RP. pose proof (k_data _ _ _ _ _ _ _ I) as RD. pose proof (k_len _ _ _ _ _ _ _ I) as LP.
  pose proof (Forall2_len _ _ _ RP). pose proof (Forall2_len _ _ _ RD). unfold row_. rewrite !app_nth1 by lia. split; apply Forall2_nth_rel; auto; lia.
Qed.
Lemma all_slots : Forall2 (alike K A) (f_portfolio fs) (portfolio es).
Proof.
  destruct (whole_kept npsum K A L ks sgs NP HK HA HL HN C LS OFF) as (FP & FD & P & D & I & LD & -> & _ & -> & _).
  apply Forall2_app; [exact (k_port _ _ _ _ _ _ _ I)|]. apply Forall2_repeat. constructor.
Qed.
Definition same_marks (r : frow) (x : simrow) : Prop := y_signal r = x_signal x /\ y_action r = x_action x.
Lemma all_rows : Forall2 same_marks (f_data fs) (data es).
Proof.
  destruct (whole_kept npsum K A L ks sgs NP HK HA HL HN C LS OFF) as (FP & FD & P & D & I & LD & _ & -> & _ & ->).
  apply Forall2_app; [|apply Forall2_repeat; split; reflexivity]. pose proof (k_data _ _ _ _ _ _ _ I) as RD. clear -RD.
  induction RD as [|r x FD D T RD IH]; constructor; auto. destruct T. split; assumption.
Qed.

End Days.

(** ** two decimals *)
Lemma hundred_val : is_finite (fz 100 0) = true /\ RV (fz 100 0) = 100.
Proof. apply fz_val. lia. Qed.
Lemma cents_ap m x : (Z.abs m <= 2 ^ 52)%Z -> is_finite x = true -> RV x = IZR m -> is_finite (fdiv x (fz 100 0)) = true /\ RV (fdiv x (fz 100 0)) = rnd (IZR m / 100).
Proof.
  intros M Fx Vx. destruct hundred_val as [FH VH].
  pose proof (fdiv_comes x (fz 100 0) Fx FH ltac:(rewrite VH; lra)) as C2. rewrite Vx, VH in C2.
  destruct (fz_val (2 ^ 52)) as [FU VU]; [lia|]. destruct (fz_val (- 2 ^ 52)) as [FL VL]; [lia|].
  assert (B : Rabs (IZR m) <= 4503599627370496) by (rewrite <- abs_IZR; apply (IZR_le _ (2 ^ 52)), M). apply Rabs_le_inv in B.
  edestruct (fun H => comes_fin (fz (- 2 ^ 52) 0) (fz (2 ^ 52) 0) _ _ FL FU H C2) as (A3 & B3 & _); [|auto].
  rewrite VL, VU. change (IZR (- 2 ^ 52)) with (-4503599627370496). change (IZR (2 ^ 52)) with 4503599627370496. lra.
Qed.
Lemma fround2_rounds : rounds fround2.
Proof.
  intros x F X. destruct hundred_val as [FH VH]. unfold fround2, val in *. pose proof (fmul_comes x (fz 100 0) F FH) as C1. rewrite VH in C1. pose proof X as X'. apply Rabs_le_inv in X'.
  assert (A1 : ap (fmul x (fz 100 0)) (100 * RV x) (/ 10)).
  { apply (comes_ap (RV x * 100) _ (100 * RV x) 0 880000000000000); [exact C1|rewrite Rmult_comm, Rminus_eq_0, Rabs_R0; lra|apply Rabs_le; lra|lra|lra]. }
  destruct A1 as [A1 E]. apply Rabs_le_inv in E. destruct (frint_fin _ A1) as [A2 B2]. rewrite fix0 in B2. set (m := ZnearestE (RV (fmul x (fz 100 0)))) in *.
  pose proof (Znearest_half (fun x => negb (Z.even x)) (RV (fmul x (fz 100 0)))) as N. change (Znearest _ _) with m in N. apply Rabs_le_inv in N.
  assert (M : (Z.abs m <= 2 ^ 52)%Z). { apply le_IZR. rewrite abs_IZR. apply Rabs_le. change (IZR (2 ^ 52)) with 4503599627370496. lra. }
  exists m. destruct (cents_ap m _ M A2 B2) as [-> ->]. split; [reflexivity|]. destruct (fz_val m) as [Fm Vm]; [lia|]. unfold dec2. destruct (cents_ap m _ M Fm Vm) as [_ ->].
  split; [reflexivity|]. apply Rabs_le. lra.
Qed.
Lemma round_cents q : exists c, nround 2 (Fin q) = Fin (Q2Qc (Qmake c 100)) /\ Rabs (IZR c - 100 * real q) <= / 2.
Proof.
  cbn [nround]. unfold qround. change (Q2Qc (inject_Z (pow10 2))) with (zq 100). exists (rhe (q * zq 100)%Qc). split.
  - f_equal. apply real_inj. rewrite real_div, real_z, real_zq, real_Q2Qc; [unfold Q2R; reflexivity|]. intro E. apply (f_equal real) in E. rewrite real_zq, real_0 in E. lra.
  - pose proof (rhe_close (q * zq 100)%Qc) as C. apply Qle_Rle in C. rewrite Q2R_abs in C. set (z := rhe _) in *.
    assert (E : Q2R (inject_Z z - (q * zq 100)%Qc) = IZR z - 100 * real q).
    { rewrite Q2R_minus. change (Q2R (q * zq 100)%Qc) with (real (q * zq 100)%Qc). rewrite real_mul, real_zq.
      replace (Q2R (inject_Z z)) with (IZR z) by (unfold Q2R, inject_Z; simpl; field). ring. }
    rewrite E in C. eapply Rle_trans; [exact C|]. unfold Q2R; simpl; lra.
Qed.
Lemma near_cents round2 e x q : rounds round2 -> near e x (Fin q) -> e <= / 400 -> Rabs (real q) <= 8796093022207 ->
  one_cent (round2 x) (nround 2 (Fin q)) /\
  (forall c, Rabs (IZR c - 100 * real q) < 2 / 5 - 100 * e -> val (round2 x) = val (dec2 c) /\ nround 2 (Fin q) = Fin (Q2Qc (Qmake c 100))).
Proof.
  intros RO [F E] E4 B. change (Q2R q) with (real q) in E. apply Rabs_le_inv in E. apply Rabs_le_inv in B.
  assert (e0 : 0 <= e) by lra.
  destruct (RO x F) as (m & Fm & Vm & Dm); [apply Rabs_le; lra|]. destruct (round_cents q) as (c & Ec & Dc). apply Rabs_le_inv in Dm. apply Rabs_le_inv in Dc.
  assert (MC : (Z.abs (m - c) <= 1)%Z).
  { assert (G1 : IZR (m - c) < 2) by (rewrite minus_IZR; lra). assert (G2 : -2 < IZR (m - c)) by (rewrite minus_IZR; lra). apply lt_IZR in G1. apply (lt_IZR (-2)) in G2. lia. }
  split; [exists m, c; auto|]. intros d H. apply Rabs_def2 in H.
  assert (c = d). { assert (G1 : IZR (c - d) < 1) by (rewrite minus_IZR; lra). assert (G2 : -1 < IZR (c - d)) by (rewrite minus_IZR; lra). apply lt_IZR in G1. apply (lt_IZR (-1)) in G2. lia. }
  assert (m = d). { assert (G1 : IZR (m - d) < 1) by (rewrite minus_IZR; lra). assert (G2 : -1 < IZR (m - d)) by (rewrite minus_IZR; lra). apply lt_IZR in G1. apply (lt_IZR (-1)) in G2. lia. }
  subst c m. auto.
Qed.

(** ** statistics *)
Section Stats.
Variables (npsum : list f64 -> f64) (round2 : f64 -> f64) (K A : Z) (L : option Z) (ks : list Z) (sgs : list signal).
Hypothesis NP : forall l, added l (npsum l).
Hypothesis RO : rounds round2.
Hypothesis HK : (1 <= K <= 2 ^ 36)%Z.
Hypothesis HA : (10000 <= A <= 1000000)%Z.
Hypothesis HL : limits L.
Hypothesis HN : (Z.of_nat (length sgs) <= 2 ^ 20)%Z.
Hypothesis C : forall k, In k ks -> (0 <= k <= K)%Z.
Hypothesis LS : (length sgs <= length ks)%nat.
Notation fs := (fsimulate npsum (map dec4 ks) (option_map dec4 L) (dec4 A) sgs).
Notation es := (simulate (map (fun k => Fin (units k)) ks) (exact_limit L) (Fin (units A)) sgs).
Notation n := (length sgs).
Hypothesis OFF : forall i, (1 <= i < n)%nat -> nth i sgs Hold <> Hold ->
  match L with Some l => off_limit (slack n K A) l (asked (Fin (units A)) (row_ (data es) i)) | None => True end.
Hypothesis SM : slack n K A <= / 400.
Notation z := (fstatistics round2 fs).
Notation s := (statistics es).

Lemma counts_same : z_trading_days z = number_of_trading_days s /\
  z_buy_signals z = number_of_buy_signals s /\ z_ignored_buy_signals z = number_of_ignored_buy_signals s /\
  z_sell_signals z = number_of_sell_signals s /\ z_ignored_sell_signals z = number_of_ignored_sell_signals s /\
  z_open_long z = last_open_long_positions s /\ z_open_short z = last_open_short_positions s.
Proof.
  pose proof (all_rows npsum K A L ks sgs NP HK HA HL HN C LS OFF) as R. pose proof (all_slots npsum K A L ks sgs NP HK HA HL HN C LS OFF) as P.
  repeat split; cbn [fstatistics statistics z_trading_days z_buy_signals z_ignored_buy_signals z_sell_signals z_ignored_sell_signals z_open_long z_open_short number_of_trading_days number_of_buy_signals
    number_of_ignored_buy_signals number_of_sell_signals number_of_ignored_sell_signals last_open_long_positions last_open_short_positions].
  1-5: apply (count_rel _ _ _ _ _ R); intros r x [S1 A1]; unfold fhas_signal, has_signal, fno_action, no_action; rewrite ?S1, ?A1; reflexivity.
  all: apply (count_rel _ _ _ _ _ P); intros r x H; destruct H; reflexivity.
Qed.
Lemma days_counted : count (fun r => match x_signal r with Some _ => true | None => false end) (data es) = n /\
  count (fun r => match y_signal r with Some _ => true | None => false end) (f_data fs) = n.
Proof.
  assert (F1 : (1 <= units A)%Qc).
  { apply (real_le 1 (units A)). rewrite real_units. replace (real 1) with 1 by (unfold real; change (Q2R 1%Qc) with (Q2R 1); unfold Q2R; cbn; lra).
    assert (10000 <= IZR A) by (apply IZR_le; lia). lra. }
  pose proof (SimLemmas.stat_days (map units ks) (exact_limit L) (units A) sgs F1 ltac:(rewrite map_length; exact LS)) as H. rewrite map_map in H.
  split; [exact H|]. destruct counts_same as [D _]. cbn [fstatistics z_trading_days] in D. rewrite D. exact H.
Qed.
Definition fcounted := count (fun r => match y_signal r with Some _ => true | None => false end) (f_data fs).
Definition counted := count (fun r => match x_signal r with Some _ => true | None => false end) (data es).
Lemma amount (g : frow -> f64) (h : simrow -> num) :
  (forall i, (i < n)%nat -> near (slack n K A) (g (nth i (f_data fs) frow0)) (h (row_ (data es) i)) /\ sized K A n (h (row_ (data es) i))) ->
  let x := match fcounted with O => f0 | S k => round2 (g (nth k (f_data fs) frow0)) end in
  let a := match counted with O => F 0 | S k => nround 2 (h (nth k (data es) simrow0)) end in
  one_cent x a /\
  (forall k c, n = S k -> settled (slack n K A) c (h (row_ (data es) k)) -> val x = val (dec2 c) /\ a = Fin (Q2Qc (Qmake c 100))).
Proof.
  intros H x a. destruct days_counted as [E1 E2]. fold fcounted in E2. fold counted in E1. subst x a. rewrite E1, E2. destruct n as [|k] eqn:EN.
  - split; [|intros; discriminate]. exists 0%Z, 0%Z. split; [reflexivity|]. split; [|split; [|cbn; lia]].
    + vm_compute. reflexivity.
    + unfold F. f_equal. apply Qc_is_canon. reflexivity.
  - destruct (H k ltac:(lia)) as [N SZ]. unfold row_ in *. set (q0 := h (nth k (data es) simrow0)) in *. destruct q0 as [| | |q] eqn:EQ; try contradiction. cbn [sized] in SZ.
    assert (B : Rabs (real q) <= 8796093022207).
    { eapply Rle_trans; [exact SZ|]. rewrite <- all_slack in SM. assert (NR : (1 <= Z.of_nat (S k) <= 2 ^ 20)%Z) by lia.
      pose proof (sizes K A (S k) HK HA NR) as (W & WY & _ & YE & YB & NY & _). pose proof (n_1 (S k) NR) as N1. unfold all in SM. rewrite YE in SM.
      assert (Y K A (S k) * / 9007199254740992 <= INR (S k) * (Y K A (S k) * / 9007199254740992)).
      { rewrite <- (Rmult_1_l (Y K A (S k) * / 9007199254740992)) at 1. apply Rmult_le_compat_r; [rewrite <- YE; lra|lra]. }
      lra. }
    destruct (near_cents round2 _ _ q RO N SM B) as [O P]. split; [exact O|]. intros k' c EK. injection EK as <-. subst q0. rewrite EQ. exact (P c).
Qed.
End Stats.

(** ** as stated *)
Lemma trades_same npsum K A L ks sgs i : (forall l, added l (npsum l)) -> tradable K A L ks sgs -> off_limits K A L ks sgs -> (i < length sgs)%nat ->
  let x := float_sim npsum A L ks sgs in let e := exact_sim A L ks sgs in
  y_signal (nth i (f_data x) frow0) = x_signal (nth i (data e) simrow0) /\ y_action (nth i (f_data x) frow0) = x_action (nth i (data e) simrow0) /\
  fs_pos (nth i (f_portfolio x) fslot0) = s_pos (nth i (portfolio e) slot0) /\ fs_status (nth i (f_portfolio x) fslot0) = s_status (nth i (portfolio e) slot0).
Proof.
  intros NP (HK & HA & HL & HN & C & LS) OFF Hi. cbv zeta. destruct (every_day npsum K A L ks sgs NP HK HA HL HN C LS OFF i Hi) as [T AL].
  split; [exact (t_signal _ _ _ _ _ T)|]. split; [exact (t_action _ _ _ _ _ T)|]. unfold float_sim, exact_sim. unfold exact_limit in AL. destruct AL; split; reflexivity.
Qed.
Lemma amounts_near npsum K A L ks sgs i : (forall l, added l (npsum l)) -> tradable K A L ks sgs -> off_limits K A L ks sgs -> (i < length sgs)%nat ->
  let r := nth i (f_data (float_sim npsum A L ks sgs)) frow0 in let x := nth i (data (exact_sim A L ks sgs)) simrow0 in let e := slack (length sgs) K A in
  near e (y_stock r) (x_stock x) /\ near e (y_exposure r) (x_exposure x) /\ near e (y_portfolio_value r) (x_portfolio_value x) /\ near e (y_earnings r) (x_earnings x) /\ near e (y_balance r) (x_balance x).
Proof.
  intros NP (HK & HA & HL & HN & C & LS) OFF Hi. cbv zeta. destruct (every_day npsum K A L ks sgs NP HK HA HL HN C LS OFF i Hi) as [T _].
  destruct T as [_ _ T1 T2 T3 T4 T5 _]. rewrite all_slack in T1, T2, T3, T4, T5. auto.
Qed.
Lemma stats_same npsum round2 K A L ks sgs : (forall l, added l (npsum l)) -> tradable K A L ks sgs -> off_limits K A L ks sgs ->
  let z := fstatistics round2 (float_sim npsum A L ks sgs) in let s := statistics (exact_sim A L ks sgs) in
  z_trading_days z = number_of_trading_days s /\
  z_buy_signals z = number_of_buy_signals s /\ z_ignored_buy_signals z = number_of_ignored_buy_signals s /\
  z_sell_signals z = number_of_sell_signals s /\ z_ignored_sell_signals z = number_of_ignored_sell_signals s /\
  z_open_long z = last_open_long_positions s /\ z_open_short z = last_open_short_positions s.
Proof. intros NP (HK & HA & HL & HN & C & LS) OFF. exact (counts_same npsum round2 K A L ks sgs NP HK HA HL HN C LS OFF). Qed.
Lemma stats_near npsum round2 K A L ks sgs : (forall l, added l (npsum l)) -> rounds round2 -> tradable K A L ks sgs -> off_limits K A L ks sgs -> slack (length sgs) K A <= / 400 ->
  let z := fstatistics round2 (float_sim npsum A L ks sgs) in let s := statistics (exact_sim A L ks sgs) in let e := slack (length sgs) K A in
  let x k := nth k (data (exact_sim A L ks sgs)) simrow0 in
  let ok (v : f64) (a : num) (h : simrow -> num) := one_cent v a /\ (forall k c, length sgs = S k -> settled e c (h (x k)) -> val v = val (dec2 c) /\ a = Fin (Q2Qc (Qmake c 100))) in
  ok (z_stock_value z) (last_stock_value s) x_stock /\ ok (z_exposure z) (last_exposure s) x_exposure /\
  ok (z_portfolio_value z) (last_portfolio_value s) x_portfolio_value /\ ok (z_earnings z) (last_earnings s) x_earnings /\ ok (z_balance z) (final_balance s) x_balance.
Proof.
  intros NP RO (HK & HA & HL & HN & C & LS) OFF SM z s e x ok.
  pose proof (fun g h => amount npsum round2 K A L ks sgs NP RO HK HA HL HN C LS OFF SM g h) as AM. cbv zeta in AM.
  pose proof (fun i Hi => proj1 (every_day npsum K A L ks sgs NP HK HA HL HN C LS OFF i Hi)) as ED.
  assert (AS := all_slack K A (length sgs)).
  split; [apply (AM y_stock x_stock)|split; [apply (AM y_exposure x_exposure)|split; [apply (AM y_portfolio_value x_portfolio_value)|split; [apply (AM y_earnings x_earnings)|apply (AM y_balance x_balance)]]]];
    intros i Hi; destruct (ED i Hi) as [_ _ T1 T2 T3 T4 T5 (Z1 & Z2 & Z3 & Z4 & Z5)]; rewrite <- AS; split; assumption.
Qed.

(** ** checking the hypotheses of a case *)
Definition qslack (n : nat) (K A : Z) : Q := Qmake (30 * (Z.of_nat n * Z.of_nat n) * (K * A)) 900719925474099200000000.
Lemma qslack_slack n K A : Q2R (qslack n K A) = slack n K A.
Proof. unfold slack, qslack, Q2R. cbn [Qnum Qden]. rewrite !mult_IZR, <- INR_IZR_INZ. field. Qed.
Definition off_limitb (n : nat) (K A l : Z) (a : num) : bool :=
  match a with Fin q => negb (Qle_bool (Qabs (q - Qmake l 10000)) (qslack n K A + Qabs (Qmake l 10000) * Qmake 1 4503599627370496)) | _ => false end.
Lemma off_limit_of n K A l a : off_limitb n K A l a = true -> off_limit (slack n K A) l a.
Proof.
  destruct a as [| | |q]; try discriminate. cbn [off_limitb off_limit]. intro H. apply negb_true_iff in H.
  assert (G : (qslack n K A + Qabs (Qmake l 10000) * Qmake 1 4503599627370496 < Qabs (q - Qmake l 10000))%Q).
  { apply Qnot_le_lt. intro G. apply Qle_bool_iff in G. congruence. }
  apply Qlt_Rlt in G. rewrite Q2R_plus, Q2R_mult, qslack_slack, !Q2R_abs, Q2R_minus in G.
  replace (Q2R (l # 10000)) with (IZR l / 10000) in G by (unfold Q2R; reflexivity). replace (Q2R (1 # 4503599627370496)) with (/ 4503599627370496) in G by (unfold Q2R; cbn; lra). exact G.
Qed.
Definition off_limitsb (K A : Z) (L : option Z) (ks : list Z) (sgs : list signal) : bool :=
  forallb (fun i => match L with Some l => sig_eqb (nth i sgs Hold) Hold || off_limitb (length sgs) K A l (asked (Fin (units A)) (nth i (data (exact_sim A L ks sgs)) simrow0)) | None => true end)
    (seq 1 (length sgs - 1)).
Lemma off_limits_of K A L ks sgs : off_limitsb K A L ks sgs = true -> off_limits K A L ks sgs.
Proof.
  intros H i Hi NH. unfold off_limitsb in H. rewrite forallb_forall in H. specialize (H i ltac:(apply in_seq; lia)). destruct L as [l|]; [|exact I].
  apply orb_true_iff in H. destruct H as [H|H]; [destruct (nth i sgs Hold); try discriminate; contradiction|]. apply off_limit_of, H.
Qed.
Definition tradableb (K A : Z) (L : option Z) (ks : list Z) (sgs : list signal) : bool :=
  ((1 <=? K) && (K <=? 2 ^ 36) && (10000 <=? A) && (A <=? 1000000) && match L with Some l => (Z.abs l <=? 2 ^ 46) | None => true end &&
  (Z.of_nat (length sgs) <=? 2 ^ 20) && forallb (fun k => (0 <=? k) && (k <=? K)) ks)%Z && Nat.leb (length sgs) (length ks).
Lemma tradable_of K A L ks sgs : tradableb K A L ks sgs = true -> tradable K A L ks sgs.
Proof.
  unfold tradableb. rewrite !andb_true_iff. intros [[[[[[[H1 H2] H3] H4] H5] H6] H7] H8]. apply Z.leb_le in H1, H2, H3, H4, H6. apply Nat.leb_le in H8.
  repeat split; try assumption.
  - destruct L; [apply Z.leb_le, H5|exact I].
  - rewrite forallb_forall in H7. specialize (H7 _ H). apply andb_true_iff in H7. destruct H7 as [H7 _]. apply Z.leb_le, H7.
  - rewrite forallb_forall in H7. specialize (H7 _ H). apply andb_true_iff in H7. destruct H7 as [_ H7]. apply Z.leb_le, H7.
Qed.

Lemma unlimited K A ks sgs : off_limits K A None ks sgs.
Proof. intros i _ _. exact I. Qed.
Lemma slack_cents n A : (n <= 5000)%nat -> (10000 <= A <= 20000)%Z -> slack n (10 ^ 8) A <= / 400.
Proof.
  intros N HA. unfold slack. change (IZR (10 ^ 8)) with 100000000. apply le_INR in N. replace (INR 5000) with 5000 in N by (rewrite INR_IZR_INZ; reflexivity).
  pose proof (pos_INR n). assert (10000 <= IZR A <= 20000) as [A1 A2] by (split; apply IZR_le; lia).
  assert (INR n * INR n <= 25000000) by nra. assert (0 <= INR n * INR n) by nra.
  assert (INR n * INR n * IZR A <= 25000000 * 20000) by (apply Rmult_le_compat; lra). lra.
Qed.
Lemma stats_cents npsum A ks sgs : (forall l, added l (npsum l)) -> (10000 <= A <= 20000)%Z -> (length sgs <= 5000)%nat ->
  (forall k, In k ks -> (0 <= k <= 10 ^ 8)%Z) -> (length sgs <= length ks)%nat ->
  let z := fstatistics fround2 (float_sim npsum A None ks sgs) in let s := statistics (exact_sim A None ks sgs) in
  one_cent (z_stock_value z) (last_stock_value s) /\ one_cent (z_exposure z) (last_exposure s) /\ one_cent (z_portfolio_value z) (last_portfolio_value s) /\
  one_cent (z_earnings z) (last_earnings s) /\ one_cent (z_balance z) (final_balance s).
Proof.
  intros NP HA HN C LS. assert (T : tradable (10 ^ 8) A None ks sgs) by (repeat split; try lia; apply C; assumption).
  destruct (stats_near npsum fround2 (10 ^ 8) A None ks sgs NP fround2_rounds T (unlimited _ _ _ _) (slack_cents _ _ HN HA)) as ([H1 _] & [H2 _] & [H3 _] & [H4 _] & [H5 _]).
  cbv zeta. auto.
Qed.

Lemma slack_of n K A : Qle_bool (qslack n K A) (1 # 400) = true -> slack n K A <= / 400.
Proof. intro H. apply Qle_bool_iff, Qle_Rle in H. rewrite qslack_slack in H. eapply Rle_trans; [exact H|]. unfold Q2R; cbn; lra. Qed.
Definition settledb (n : nat) (K A c : Z) (a : num) : bool :=
  match a with Fin q => negb (Qle_bool ((2 # 5) - 100 * qslack n K A) (Qabs (inject_Z c - 100 * q))) | _ => false end.
Lemma settled_of n K A c a : settledb n K A c a = true -> settled (slack n K A) c a.
Proof.
  destruct a as [| | |q]; try discriminate. cbn [settledb settled]. intro H. apply negb_true_iff in H.
  assert (G : (Qabs (inject_Z c - 100 * q) < (2 # 5) - 100 * qslack n K A)%Q).
  { apply Qnot_le_lt. intro G. apply Qle_bool_iff in G. congruence. }
  apply Qlt_Rlt in G. rewrite Q2R_abs, !Q2R_minus, !Q2R_mult, qslack_slack in G.
  replace (Q2R 100) with 100 in G by (unfold Q2R; cbn; lra). replace (Q2R (2 # 5)) with (2 / 5) in G by (unfold Q2R; cbn; lra).
  replace (Q2R (inject_Z c)) with (IZR c) in G by (unfold Q2R, inject_Z; cbn [Qnum Qden]; field). exact G.
Qed.

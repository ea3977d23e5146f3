(** * FloatExact: where binary64 is exact, the simulator in binary64 and the exact
    simulator return the same rows. *)
From Coq Require Import ZArith QArith Qcanon Qreals Reals Bool List PeanoNat Permutation Lia Lra.
From Flocq Require Import Core IEEE754.BinarySingleNaN.
From Verif Require Import Num NumFacts Pandas Frame Sim SimSpec SimProofs FloatSim FloatFacts.
Import ListNotations.
Open Scope list_scope.

Section Day.
Variable npsum : list f64 -> f64.
(** ** the state as seen by one fday: only past rows matter *)
Definition fpad (c : list f64) m f (P : list fslot) (D : list frow) (n : nat) : fsim :=
  mkFsim c m f (P ++ repeat fslot0 n) (D ++ repeat frow0 n).

Definition fday_next (m : option f64) (f : f64) (P : list fslot) (D : list frow) (p : f64) (sg : signal)
  : list fslot * list frow :=
    let prev := last D frow0 in
    let nl := fnat (count (flong_to_close p) P) in
    let ns := fnat (count (fshort_to_close f p) P) in
    let le := fsum_exposure npsum (flong_to_close p) P in
    let se := fsum_exposure npsum (fshort_to_close f p) P in
    let earn := fadd (y_earnings prev)
                     (fadd (fsub (fmul nl p) le) (fsub (fdiv se f) (fmul ns p))) in
    let e := fsub (y_exposure prev) (fadd le se) in
    let P1 := map (fclose_slot f p) P in
    let out a sl e' :=
      let P2 := P1 ++ [sl] in
      let pv := fportfolio_value p P2 in
      (P2, D ++ [mkFrow (Some sg) (Some a) p e' pv earn (fadd pv earn)]) in
    match sg with
    | Hold => out ANone fslot0 e
    | Buy => if fover_limit m (fadd e p) then out ANone fslot0 e
             else out ALong (mkFslot PLong SOpen p) (fadd e p)
    | Sell => let x := fmul f p in
              if fover_limit m (fadd e x) then out ANone fslot0 e
              else out AShort (mkFslot PShort SOpen x) (fadd e x)
    end.
Definition fday (m : option f64) (f : f64) (P : list fslot) (D : list frow) (p : f64) (sg : signal)
  : list fslot * list frow :=
  match D with
  | [] => ([fslot0], [mkFrow (Some sg) (Some ANone) p f0 f0 f0 f0])
  | _ => fday_next m f P D p sg
  end.
Lemma fday_ne m f P D p sg : D <> [] -> fday m f P D p sg = fday_next m f P D p sg.
Proof. destruct D; [contradiction|reflexivity]. Qed.

Lemma ffilter_slot0 p n : p fslot0 = false -> filter p (repeat fslot0 n) = [].
Proof. intro H. induction n; simpl; auto. rewrite H; auto. Qed.
Lemma fcount_pad p P n : p fslot0 = false -> count p (P ++ repeat fslot0 n) = count p P.
Proof. intro H. unfold count. rewrite filter_app, ffilter_slot0 by auto. rewrite app_nil_r; auto. Qed.
Lemma fsum_exposure_pad p P n : p fslot0 = false -> fsum_exposure npsum p (P ++ repeat fslot0 n) = fsum_exposure npsum p P.
Proof. intro H. unfold fsum_exposure. rewrite filter_app, ffilter_slot0 by auto. rewrite app_nil_r; auto. Qed.
Lemma fclose_slot_pad f p n : map (fclose_slot f p) (repeat fslot0 n) = repeat fslot0 n.
Proof. induction n; simpl; auto. rewrite IHn. reflexivity. Qed.
Lemma fportfolio_value_pad p P n : fportfolio_value p (P ++ repeat fslot0 n) = fportfolio_value p P.
Proof. unfold fportfolio_value. rewrite !fcount_pad by reflexivity. reflexivity. Qed.



Lemma fregister_pad c m f P D n sg a sl e earn r :
  length P = length D -> y_earnings r = earn ->
  fregister (length D) sg a sl e (mkFsim c m f (P ++ repeat fslot0 (S n)) (D ++ r :: repeat frow0 n))
  = let pv := fportfolio_value (nth (length D) c fnan) (P ++ [sl]) in
    fpad c m f (P ++ [sl])
        (D ++ [mkFrow (Some sg) (Some a) (nth (length D) c fnan) e pv earn (fadd pv earn)]) n.
Proof.
  intros HL HE. unfold fregister, frow_at, fprice_at; cbn [f_close f_max f_factor f_portfolio f_data].
  rewrite nth_app_at, HE.
  assert (E1 : set_nth (length D) sl (P ++ repeat fslot0 (S n)) = (P ++ [sl]) ++ repeat fslot0 n).
  { rewrite <- HL, repeat_S_cons, set_nth_app, snoc_app. reflexivity. }
  rewrite E1, fportfolio_value_pad, set_nth_app. unfold fpad; cbn zeta. rewrite (snoc_app D). reflexivity.
Qed.

Lemma frun_round_pad c m f P D n sg :
  length P = length D ->
  frun_round npsum (length D) sg (fpad c m f P D (S n))
  = let '(P', D') := fday m f P D (nth (length D) c fnan) sg in fpad c m f P' D' n.
Proof.
  intro HL. destruct (nil_or D) as [->|Hne].
  - destruct P; [|discriminate]. reflexivity.
  - unfold frun_round.
    destruct (length D) as [|k] eqn:EL; [apply length_zero_iff_nil in EL; contradiction|].
    rewrite <- EL in *.
    set (p := nth (length D) c fnan).
    unfold fclose_open_positions, fpad, frow_at, fprice_at; cbn [f_close f_max f_factor f_portfolio f_data].
    fold p.
    assert (Hlast : nth (length D - 1) (D ++ repeat frow0 (S n)) frow0 = last D frow0).
    { rewrite app_nth1 by lia. apply last_nth; auto. }
    rewrite Hlast.
    rewrite repeat_S_cons with (x := frow0), nth_app_at, set_nth_app.
    rewrite !fcount_pad by reflexivity. rewrite !fsum_exposure_pad by reflexivity.
    rewrite map_app, fclose_slot_pad.
    set (r' := mkFrow _ _ _ _ _ _ _).
    assert (HL' : length (map (fclose_slot f p) P) = length D) by (rewrite map_length; auto).
    unfold fprocess_signal, frow_at, fprice_at; cbn [f_close f_max f_factor f_portfolio f_data].
    rewrite nth_app_at. fold p.
    rewrite fday_ne by auto. unfold fday_next.
    change (fslot0 :: repeat fslot0 n) with (repeat fslot0 (S n)).
    destruct sg.
    + cbn [y_exposure r']. destruct (fover_limit _ _);
        (erewrite fregister_pad by (eauto; reflexivity)); reflexivity.
    + erewrite fregister_pad by (eauto; reflexivity). reflexivity.
    + cbn [y_exposure r']. destruct (fover_limit _ _);
        (erewrite fregister_pad by (eauto; reflexivity)); reflexivity.
Qed.

Definition fdays m f (ds : list (f64 * signal)) : list fslot * list frow :=
  fold_left (fun s x => fday m f (fst s) (snd s) (fst x) (snd x)) ds ([], []).

Lemma fday_length m f P D p sg P' D' :
  length P = length D -> fday m f P D p sg = (P', D') ->
  length P' = S (length P) /\ length D' = S (length D).
Proof.
  intros HL H. destruct (nil_or D) as [->|Hne].
  - destruct P; [|discriminate]. inversion H; auto.
  - rewrite fday_ne in H by auto. unfold fday_next in H. destruct sg; try destruct (fover_limit _ _); inversion H;
      rewrite !app_length, ?map_length; simpl; lia.
Qed.

Lemma frun_rounds_pad c m f sgs : forall P D n,
  length P = length D ->
  (length sgs <= n)%nat ->
  (length D + length sgs <= length c)%nat ->
  frun_rounds npsum (length D) sgs (fpad c m f P D n)
  = let '(P', D') := fold_left (fun s x => fday m f (fst s) (snd s) (fst x) (snd x))
                       (combine (firstn (length sgs) (skipn (length D) c)) sgs) (P, D) in
    fpad c m f P' D' (n - length sgs).
Proof.
  induction sgs as [|sg sgs IH]; intros P D n HL Hn Hc.
  - simpl. f_equal; lia.
  - simpl in Hn, Hc. destruct n as [|n]; [lia|].
    cbn [frun_rounds]. rewrite frun_round_pad by auto.
    destruct (fday m f P D (nth (length D) c fnan) sg) as [P' D'] eqn:E.
    destruct (fday_length _ _ _ _ _ _ _ _ HL E) as [HP' HD'].
    rewrite <- HD'. rewrite IH; [|lia..].
    assert (Hsk : skipn (length D) c = nth (length D) c fnan :: skipn (length D') c).
    { rewrite HD'. clear -Hc. revert Hc. generalize (length D). intros k.
      revert c; induction k; intros [|x c] H; simpl in *; try lia; auto. apply IHk. lia. }
    rewrite Hsk. cbn [length firstn combine fold_left fst snd]. rewrite E.
    reflexivity.
Qed.

(** a run from the initial state *)
Definition fsim0 (c : list f64) m f (n : nat) : fsim := fpad c m f [] [] n.

Lemma frun_sim0 c m f sgs :
  (length sgs <= length c)%nat ->
  let s := fdays m f (combine (firstn (length sgs) c) sgs) in
  frun_rounds npsum 0 sgs (fsim0 c m f (length c)) = fpad c m f (fst s) (snd s) (length c - length sgs).
Proof.
  intros H s. unfold fsim0.
  change 0%nat with (length (@nil frow)) at 1.
  rewrite frun_rounds_pad; simpl; try lia.
  fold (fdays m f (combine (firstn (length sgs) c) sgs)). fold s. destruct s; reflexivity.
Qed.

End Day.

(** ** a binary64 number and an exact number with the same value *)
Definition real (q : Qc) : R := Q2R q.
Definition same (x : f64) (n : num) : Prop :=
  is_finite x = true /\ exists q, n = Fin q /\ RV x = real q.

Lemma real_Q2Qc q : real (Q2Qc q) = Q2R q.
Proof. apply Qeq_eqR. apply Qred_correct. Qed.
Lemma real_add a b : real (a + b)%Qc = (real a + real b)%R.
Proof. unfold Qcplus. rewrite real_Q2Qc. apply Q2R_plus. Qed.
Lemma real_mul a b : real (a * b)%Qc = (real a * real b)%R.
Proof. unfold Qcmult. rewrite real_Q2Qc. apply Q2R_mult. Qed.
Lemma real_opp a : real (- a)%Qc = (- real a)%R.
Proof. unfold Qcopp. rewrite real_Q2Qc. apply Q2R_opp. Qed.
Lemma real_sub a b : real (a - b)%Qc = (real a - real b)%R.
Proof. unfold Qcminus. rewrite real_add, real_opp. reflexivity. Qed.
Lemma real_0 : real 0 = 0%R.
Proof. unfold real, Q2R. simpl. lra. Qed.
Lemma real_1 : real 1 = 1%R.
Proof. unfold real, Q2R. simpl. lra. Qed.
Lemma real_inj a b : real a = real b -> a = b.
Proof. intro H. apply Qc_is_canon. apply eqR_Qeq. exact H. Qed.
Lemma real_lt a b : (a < b)%Qc <-> (real a < real b)%R.
Proof. split; [apply Qlt_Rlt|apply Rlt_Qlt]. Qed.
Lemma real_le a b : (a <= b)%Qc <-> (real a <= real b)%R.
Proof. split; [apply Qle_Rle|apply Rle_Qle]. Qed.
Lemma real_inv a : a <> 0%Qc -> real (/ a)%Qc = (/ real a)%R.
Proof.
  intro H. assert (real a * real (/ a)%Qc = 1)%R as E.
  { rewrite <- real_mul, Qcmult_inv_r by auto. apply real_1. }
  assert (real a <> 0)%R by (rewrite <- real_0; intro Z; apply H, real_inj, Z).
  apply Rmult_eq_reg_l with (real a); auto. rewrite E, Rinv_r; auto.
Qed.
Lemma real_div a b : b <> 0%Qc -> real (a / b)%Qc = (real a / real b)%R.
Proof. intro H. unfold Qcdiv. rewrite real_mul, real_inv by auto. reflexivity. Qed.
Lemma real_z z : real (Q2Qc (inject_Z z)) = IZR z.
Proof. rewrite real_Q2Qc. unfold Q2R, inject_Z. simpl. field. Qed.
Lemma real_nat n : real (qnat n) = INR n.
Proof. unfold qnat. rewrite real_z. symmetry. apply INR_IZR_INZ. Qed.

Lemma same_ltb x y a b : same x a -> same y b -> fltb x y = nltb a b.
Proof.
  intros [Fx [p [-> Ex]]] [Fy [q [-> Ey]]]. rewrite fltb_fin by auto. rewrite Ex, Ey.
  simpl. apply eq_true_iff_eq. rewrite qltb_iff, real_lt. split.
  - case Rlt_bool_spec; auto; discriminate.
  - apply Rlt_bool_true.
Qed.

Section Grid.
Variable u : nat.
Hypothesis u_small : (Z.of_nat u <= 1000)%Z.
Notation e := (- Z.of_nat u)%Z.

(** a whole number of units of 2^-u *)
Definition whole (r : R) : Prop := exists z : Z, r = (IZR z * bpow radix2 e)%R.
Definition small (r : R) : Prop := (Rabs r < bpow radix2 (53 + e))%R.

Lemma whole_add a b : whole a -> whole b -> whole (a + b).
Proof. intros [x ->] [y ->]. exists (x + y)%Z. rewrite plus_IZR. ring. Qed.
Lemma whole_opp a : whole a -> whole (- a).
Proof. intros [x ->]. exists (- x)%Z. rewrite opp_IZR. ring. Qed.
Lemma whole_sub a b : whole a -> whole b -> whole (a - b).
Proof. intros. apply whole_add; auto. apply whole_opp; auto. Qed.
Lemma whole_times n a : whole a -> whole (IZR n * a).
Proof. intros [x ->]. exists (n * x)%Z. rewrite mult_IZR. ring. Qed.
Lemma whole_0 : whole 0.
Proof. exists 0%Z. ring. Qed.

Lemma exact_round r : whole r -> small r -> rnd r = r /\ (Rabs r < bpow radix2 1024)%R.
Proof.
  intros [z E] S. split.
  - apply round_generic; auto with typeclass_instances.
    change (SpecFloat.fexp 53 1024) with (FLT_exp (-1074) 53).
    apply generic_format_FLT. exists (Float radix2 z e).
    + rewrite E. reflexivity.
    + apply lt_IZR. rewrite abs_IZR. unfold small in S. rewrite E, Rabs_mult in S.
      rewrite (Rabs_pos_eq (bpow radix2 e)) in S by apply bpow_ge_0.
      rewrite bpow_plus in S. apply Rmult_lt_reg_r in S; [|apply bpow_gt_0].
      simpl Fnum. rewrite IZR_Zpower by lia. exact S.
    + simpl. lia.
  - eapply Rlt_trans; [exact S|]. apply bpow_lt. lia.
Qed.

Lemma same_add x y a b : same x (Fin a) -> same y (Fin b) -> whole (real a + real b) -> small (real a + real b) ->
  same (fadd x y) (Fin (a + b)).
Proof.
  intros [Fx [p [E1 Ex]]] [Fy [q [E2 Ey]]] W S. inversion E1; inversion E2; subst p q.
  destruct (exact_round _ W S) as [R1 R2].
  pose proof (@Bplus_correct 53 1024 prec_pos prec_lt mode_NE x y Fx Fy) as H. cbn [round_mode] in H.
  rewrite Ex, Ey, R1, Rlt_bool_true in H by auto. destruct H as [H1 [H2 _]].
  split; [exact H2|]. exists (a + b)%Qc. split; auto. rewrite real_add. exact H1.
Qed.
Lemma same_sub x y a b : same x (Fin a) -> same y (Fin b) -> whole (real a - real b) -> small (real a - real b) ->
  same (fsub x y) (Fin (a - b)).
Proof.
  intros [Fx [p [E1 Ex]]] [Fy [q [E2 Ey]]] W S. inversion E1; inversion E2; subst p q.
  destruct (exact_round _ W S) as [R1 R2].
  pose proof (@Bminus_correct 53 1024 prec_pos prec_lt mode_NE x y Fx Fy) as H. cbn [round_mode] in H.
  rewrite Ex, Ey, R1, Rlt_bool_true in H by auto. destruct H as [H1 [H2 _]].
  split; [exact H2|]. exists (a - b)%Qc. split; auto. rewrite real_sub. exact H1.
Qed.
Lemma same_mul x y a b : same x (Fin a) -> same y (Fin b) -> whole (real a * real b) -> small (real a * real b) ->
  same (fmul x y) (Fin (a * b)).
Proof.
  intros [Fx [p [E1 Ex]]] [Fy [q [E2 Ey]]] W S. inversion E1; inversion E2; subst p q.
  destruct (exact_round _ W S) as [R1 R2].
  pose proof (@Bmult_correct 53 1024 prec_pos prec_lt mode_NE x y) as H. cbn [round_mode] in H.
  rewrite Ex, Ey, R1, Rlt_bool_true, Fx, Fy in H by auto. destruct H as [H1 [H2 _]].
  split; [exact H2|]. exists (a * b)%Qc. split; auto. rewrite real_mul. exact H1.
Qed.
Lemma same_div x y a b : same x (Fin a) -> same y (Fin b) -> b <> 0%Qc ->
  whole (real a / real b) -> small (real a / real b) ->
  same (fdiv x y) (Fin (a / b)).
Proof.
  intros [Fx [p [E1 Ex]]] [Fy [q [E2 Ey]]] NZ W S. inversion E1; inversion E2; subst p q.
  destruct (exact_round _ W S) as [R1 R2].
  assert (RV y <> 0)%R as NY by (rewrite Ey, <- real_0; intro Z; apply NZ, real_inj, Z).
  pose proof (@Bdiv_correct 53 1024 prec_pos prec_lt mode_NE x y NY) as H. cbn [round_mode] in H.
  rewrite Ex, Ey, R1, Rlt_bool_true, Fx in H by auto. destruct H as [H1 [H2 _]].
  split; [exact H2|]. exists (a / b)%Qc. split; auto. rewrite real_div by auto. exact H1.
Qed.
Lemma same_0 : same f0 (F 0).
Proof. split; [reflexivity|]. exists 0%Qc. split; [reflexivity|]. rewrite real_0. reflexivity. Qed.
End Grid.

(** integers *)
Lemma same_z z : (Z.abs z < 2 ^ 53)%Z -> same (fz z 0) (Fin (Q2Qc (inject_Z z))).
Proof.
  intro B. pose proof (@binary_normalize_correct 53 1024 prec_pos prec_lt mode_NE z 0 false) as H.
  cbn [round_mode] in H. fold (fz z 0) in H. cbv zeta in H.
  assert (F2R (Float radix2 z 0) = IZR z) as E by (unfold F2R; simpl; ring).
  rewrite E in H.
  assert (whole 0 (IZR z)) as W by (exists z; simpl; ring).
  assert (small 0 (IZR z)) as S.
  { unfold small. rewrite <- abs_IZR. simpl (53 + _)%Z. rewrite <- IZR_Zpower by lia. apply IZR_lt. exact B. }
  destruct (exact_round 0 ltac:(lia) _ W S) as [R1 R2].
  rewrite R1, Rlt_bool_true in H by auto. destruct H as [H1 [H2 _]].
  split; [exact H2|]. exists (Q2Qc (inject_Z z)). split; auto. rewrite real_z. exact H1.
Qed.

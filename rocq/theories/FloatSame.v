(** * FloatSame: on prices that binary64 holds exactly the two simulators agree. *)
From Coq Require Import ZArith QArith Qcanon Qreals Reals Bool List PeanoNat Permutation Lia Lra.
From Flocq Require Import Core IEEE754.BinarySingleNaN.
From Verif Require Import Num NumFacts Pandas Frame Sim SimSpec SimProofs FloatSim FloatFacts FloatExact.
Import ListNotations.
Open Scope list_scope.

Lemma qsum_perm a b : Permutation a b -> qsum a = qsum b.
Proof.
  induction 1; auto.
  - rewrite !qsum_cons, IHPermutation; auto.
  - rewrite !qsum_cons. ring.
  - congruence.
Qed.

Section Same.
Variable u : nat.
Hypothesis u_small : (Z.of_nat u <= 1000)%Z.
Variable npsum : list f64 -> f64.
Hypothesis np : forall l, added l (npsum l).
Variable n : nat.
Variable B : R.
Hypothesis B0 : (0 <= B)%R.
Hypothesis room : (2 * INR n * B < bpow radix2 (53 + - Z.of_nat u))%R.
Hypothesis n_small : (Z.of_nat n < 2 ^ 53)%Z.
Variable ff : f64.
Variable f : Qc.
Hypothesis f_same : same ff (Fin f).
Hypothesis f_one : (1 <= real f)%R.

Notation whole := (whole u).
Notation small := (small u).

Lemma f_nz : f <> 0%Qc.
Proof. intro E. rewrite E, real_0 in f_one. lra. Qed.

Lemma small_le r k : (Rabs r <= INR k * B)%R -> (k <= 2 * n)%nat -> small r.
Proof.
  intros H K. unfold FloatExact.small. eapply Rle_lt_trans; [exact H|]. eapply Rle_lt_trans; [|exact room].
  apply Rmult_le_compat_r; auto. replace 2%R with (INR 2) by (simpl; lra). rewrite <- mult_INR. apply le_INR. lia.
Qed.

(** ** np.sum *)
Definition fine (q : Qc) : Prop := whole (real q) /\ (0 <= real q)%R.
Lemma fine_sum qs : Forall fine qs -> fine (qsum qs).
Proof.
  induction 1 as [|q qs [W P] _ [W2 P2]].
  - split; change (qsum []) with 0%Qc; rewrite real_0; [apply whole_0|lra].
  - split; rewrite qsum_cons, real_add; [apply whole_add; auto|lra].
Qed.
Lemma added_same l x : added l x -> forall qs,
  Forall2 (fun y q => same y (Fin q)) l qs -> Forall fine qs -> small (real (qsum qs)) ->
  same x (Fin (qsum qs)).
Proof.
  induction 1; intros qs R G S.
  - inversion R. apply same_0.
  - inversion R as [|? q ? ? Hq Hn]; subst. inversion Hn; subst.
    replace (qsum [q]) with q; auto. rewrite qsum_cons. change (qsum []) with 0%Qc. ring.
  - apply Forall2_app_inv_l in R. destruct R as [q1 [q2 [R1 [R2 ->]]]].
    apply Forall_app in G. destruct G as [G1 G2].
    destruct (fine_sum _ G1) as [W1 P1], (fine_sum _ G2) as [W2 P2].
    rewrite qsum_app in *. rewrite real_add in S.
    assert (small (real (qsum q1)) /\ small (real (qsum q2))) as [S1 S2].
    { unfold FloatExact.small in *. rewrite Rabs_pos_eq in S by lra. rewrite !Rabs_pos_eq by auto. split; lra. }
    apply (same_add u); auto. apply whole_add; auto.
  - destruct (Permutation_Forall2 (Permutation_sym H) R) as [qs' [Pq R']].
    rewrite (qsum_perm _ _ Pq) in *. apply IHadded; auto.
    eapply Permutation_Forall; eauto.
Qed.

(** ** slots *)
Record srel (x : fslot) (s : slot) : Prop := {
  sr_pos : fs_pos x = s_pos s;
  sr_st : fs_status x = s_status s;
  sr_fin : s_exposure s = Fin (qv (s_exposure s));
  sr_same : same (fs_exposure x) (s_exposure s);
  sr_fine : fine (qv (s_exposure s));
  sr_max : (real (qv (s_exposure s)) <= B)%R;
  sr_short : s_pos s = PShort -> whole (real (qv (s_exposure s)) / real f) }.

Lemma srel0 : srel fslot0 slot0.
Proof.
  constructor; try reflexivity; simpl.
  - apply same_0.
  - split; change (Q2Qc (inject_Z 0)) with 0%Qc; rewrite real_0; [apply whole_0|lra].
  - change (Q2Qc (inject_Z 0)) with 0%Qc; rewrite real_0; auto.
  - discriminate.
Qed.

(** prices *)
Record okp (x : f64) (p : Qc) : Prop := {
  ok_same : same x (Fin p);
  ok_fine : fine p;
  ok_ffine : whole (real f * real p);
  ok_max : (real f * real p <= B)%R }.
Lemma okp_le x p : okp x p -> (real p <= B)%R.
Proof. intros [S [W P] FW M]. nra. Qed.
Lemma small_price x p : okp x p -> (0 < n)%nat -> small (real f * real p).
Proof.
  intros O N. apply small_le with 1%nat; [|lia]. destruct O as [S [W P] FW M].
  rewrite Rabs_pos_eq by nra. simpl; lra.
Qed.
Lemma okp_prod x p : okp x p -> (0 < n)%nat -> same (fmul ff x) (Fin (f * p)).
Proof. intros O N. apply (same_mul u); auto; try apply O. eapply small_price; eauto. Qed.

Section Masks.
Variable x : f64.
Variable p : Qc.
Hypothesis O : okp x p.
Hypothesis N : (0 < n)%nat.
Lemma open_eq y s : srel y s -> fis_open y = is_open s.
Proof. intro H. unfold fis_open, is_open. rewrite (sr_st _ _ H). reflexivity. Qed.
Lemma long_eq y s : srel y s -> flong_to_close x y = long_to_close (Fin p) s.
Proof.
  intro H. unfold flong_to_close, long_to_close. rewrite (open_eq _ _ H).
  unfold fis_long, is_long. rewrite (sr_pos _ _ H). f_equal. apply same_ltb; [apply H|apply O].
Qed.
Lemma short_eq y s : srel y s -> fshort_to_close ff x y = short_to_close (Fin f) (Fin p) s.
Proof.
  intro H. unfold fshort_to_close, short_to_close. rewrite (open_eq _ _ H).
  unfold fis_short, is_short. rewrite (sr_pos _ _ H). f_equal. cbn [nmul].
  apply same_ltb; [apply (okp_prod _ _ O N)|apply H].
Qed.
Lemma close_rel y s : srel y s -> srel (fclose_slot ff x y) (close_slot (Fin f) (Fin p) s).
Proof.
  intro H. unfold fclose_slot, close_slot. rewrite (long_eq _ _ H), (short_eq _ _ H).
  destruct (_ || _); auto. destruct H. constructor; simpl; auto.
Qed.
End Masks.

Definition msum (b : slot -> bool) (P : list slot) : Qc := qsum (map (fun s => qv (s_exposure s)) (filter b P)).

Lemma filter_rel fb b FP P : (forall y s, srel y s -> fb y = b s) -> Forall2 srel FP P ->
  Forall2 srel (filter fb FP) (filter b P).
Proof.
  intros H. induction 1; simpl; auto. rewrite (H _ _ H0). destruct (b y); auto.
Qed.
Lemma count_rel fb b FP P : (forall y s, srel y s -> fb y = b s) -> Forall2 srel FP P ->
  count fb FP = count b P.
Proof. intros. unfold count. pose proof (filter_rel _ _ _ _ H H0) as R. induction R; simpl; auto. Qed.

Definition slot_ok (s : slot) : Prop :=
  s_exposure s = Fin (qv (s_exposure s)) /\ fine (qv (s_exposure s)) /\ (real (qv (s_exposure s)) <= B)%R /\
  (s_pos s = PShort -> whole (real (qv (s_exposure s)) / real f)).
Lemma srel_ok FP P : Forall2 srel FP P -> Forall slot_ok P.
Proof. induction 1; constructor; auto. destruct H. unfold slot_ok; auto. Qed.
Lemma ok_filter b P : Forall slot_ok P -> Forall slot_ok (filter b P).
Proof. induction 1; simpl; auto. destruct (b x); auto. Qed.
Lemma ok_fine_all P : Forall slot_ok P -> Forall fine (map (fun s => qv (s_exposure s)) P).
Proof. induction 1; constructor; auto. apply H. Qed.
Lemma ok_sum_max P : Forall slot_ok P ->
  (real (qsum (map (fun s => qv (s_exposure s)) P)) <= INR (length P) * B)%R.
Proof.
  induction 1 as [|s P [_ [_ [M _]]] _ IH].
  - simpl. change (qsum []) with 0%Qc. rewrite real_0. lra.
  - cbn [map length]. rewrite qsum_cons, real_add, S_INR. lra.
Qed.
Lemma msum_bounds b P : Forall slot_ok P ->
  whole (real (msum b P)) /\ (0 <= real (msum b P) <= INR (count b P) * B)%R.
Proof.
  intro H. apply (ok_filter b) in H. destruct (fine_sum _ (ok_fine_all _ H)) as [W P0].
  split; [exact W|]. split; [exact P0|]. exact (ok_sum_max _ H).
Qed.
Lemma msum_short p P : Forall slot_ok P ->
  whole (real (msum (short_to_close (Fin f) (Fin p)) P) / real f).
Proof.
  unfold msum. intro H. induction H as [|s P [_ [_ [_ W]]] _ IH].
  - simpl. change (qsum []) with 0%Qc. rewrite real_0. unfold Rdiv. rewrite Rmult_0_l. apply whole_0.
  - simpl. destruct (short_to_close _ _ s) eqn:E; auto.
    cbn [map]. rewrite qsum_cons, real_add. unfold Rdiv. rewrite Rmult_plus_distr_r.
    apply whole_add; auto. apply W. unfold short_to_close, is_short in E.
    destruct (s_pos s); auto; rewrite ?andb_false_r in E; discriminate.
Qed.
Lemma sum_exposure_eq b P : Forall slot_ok P -> sum_exposure b P = Fin (msum b P).
Proof.
  intro H. unfold sum_exposure, msum. rewrite <- nsum_fin, map_map. f_equal.
  apply map_ext_in. intros s Hs. apply (ok_filter b) in H. rewrite Forall_forall in H. apply H; auto.
Qed.
Lemma fsum_same fb b FP P : (forall y s, srel y s -> fb y = b s) -> Forall2 srel FP P ->
  (count b P <= n)%nat -> same (fsum_exposure npsum fb FP) (Fin (msum b P)).
Proof.
  intros H R C. pose proof (srel_ok _ _ R) as OK. unfold fsum_exposure, msum.
  eapply added_same.
  - apply np.
  - pose proof (filter_rel _ _ _ _ H R) as FR. revert FR. generalize (filter fb FP) (filter b P).
    induction 1; simpl; constructor; auto. rewrite <- (sr_fin _ _ H0). apply H0.
  - apply ok_fine_all, ok_filter; auto.
  - destruct (msum_bounds b P OK) as [_ [P0 M]]. unfold msum in *. apply small_le with (count b P); [|lia].
    rewrite Rabs_pos_eq; auto.
Qed.

(** ** what closing does to the sums *)
Definition is_closed (s : slot) : bool := match s_status s with SClosed => true | _ => false end.
Definition sel (b : slot -> bool) (s : slot) : Qc := if b s then qv (s_exposure s) else 0%Qc.
Definition one (b : slot -> bool) (s : slot) : nat := if b s then 1%nat else 0%nat.
Lemma msum_cons b s P : msum b (s :: P) = (sel b s + msum b P)%Qc.
Proof. unfold msum, sel. simpl. destruct (b s); cbn [map]; rewrite ?qsum_cons; ring. Qed.
Lemma count_one b s P : count b (s :: P) = (one b s + count b P)%nat.
Proof. unfold count, one. simpl. destruct (b s); reflexivity. Qed.
Lemma close_one p s :
  sel is_open (close_slot (Fin f) (Fin p) s)
   = (sel is_open s - (sel (long_to_close (Fin p)) s + sel (short_to_close (Fin f) (Fin p)) s))%Qc /\
  one is_closed (close_slot (Fin f) (Fin p) s)
   = (one is_closed s + one (long_to_close (Fin p)) s + one (short_to_close (Fin f) (Fin p)) s)%nat.
Proof.
  destruct s as [ps st e]. unfold sel, one, close_slot, long_to_close, short_to_close, is_open, is_closed, is_long, is_short.
  cbn [s_pos s_status s_exposure].
  destruct st, ps; cbn [s_pos s_status s_exposure andb orb];
    try destruct (nltb e (Fin p)); try destruct (ngtb e _);
    cbn [s_pos s_status s_exposure andb orb]; split; try reflexivity; ring.
Qed.
Lemma close_sums p P :
  (msum is_open (map (close_slot (Fin f) (Fin p)) P)
   = msum is_open P - (msum (long_to_close (Fin p)) P + msum (short_to_close (Fin f) (Fin p)) P))%Qc /\
  count is_closed (map (close_slot (Fin f) (Fin p)) P)
   = (count is_closed P + count (long_to_close (Fin p)) P + count (short_to_close (Fin f) (Fin p)) P)%nat.
Proof.
  induction P as [|s P [IH1 IH2]].
  - split; [|reflexivity]. unfold msum; simpl. change (qsum []) with 0%Qc. ring.
  - cbn [map]. rewrite !msum_cons, !count_one. destruct (close_one p s) as [-> ->]. rewrite IH1, IH2.
    split; [ring|lia].
Qed.
Lemma count_le b (P : list slot) : (count b P <= length P)%nat.
Proof. unfold count. induction P; simpl; auto. destruct (b a); simpl; lia. Qed.

(** ** rows *)
Record rrel (y : frow) (x : simrow) : Prop := {
  rr_signal : y_signal y = x_signal x;
  rr_action : y_action y = x_action x;
  rr_stock : same (y_stock y) (x_stock x);
  rr_exposure : same (y_exposure y) (x_exposure x);
  rr_value : same (y_portfolio_value y) (x_portfolio_value x);
  rr_earnings : same (y_earnings y) (x_earnings x);
  rr_balance : same (y_balance y) (x_balance x) }.
Definition mrel (fm : option f64) (m : option num) : Prop :=
  match fm, m with None, None => True | Some a, Some b => same a b | _, _ => False end.
Lemma over_eq fm m y x : mrel fm m -> same y x -> fover_limit fm y = over_limit m x.
Proof. destruct fm, m; simpl; try contradiction; auto. intros. apply same_ltb; auto. Qed.

Record inv (FP : list fslot) (FD : list frow) (P : list slot) (D : list simrow) : Prop := {
  i_port : Forall2 srel FP P;
  i_data : Forall2 rrel FD D;
  i_len : length P = length D;
  i_exp : D <> [] -> x_exposure (last D simrow0) = Fin (msum is_open P);
  i_earn : D <> [] -> exists w, x_earnings (last D simrow0) = Fin w /\ whole (real w) /\
                      (Rabs (real w) <= INR (count is_closed P) * B)%R }.

Lemma last_rel FD D : Forall2 rrel FD D -> D <> [] -> rrel (last FD frow0) (last D simrow0).
Proof.
  induction 1 as [|y x FD D H R IH]; [contradiction|]. intros _.
  inversion R; subst; auto. change (rrel (last (x0 :: l) frow0) (last (y0 :: l') simrow0)). apply IH. discriminate.
Qed.
Lemma Rabs_le2 a b r : (- b <= a <= b)%R -> (b <= r)%R -> (Rabs a <= r)%R.
Proof. intros. apply Rabs_le. lra. Qed.
Lemma msum_snoc b P s : msum b (P ++ [s]) = (msum b P + sel b s)%Qc.
Proof.
  induction P as [|x P IH]; simpl.
  - rewrite msum_cons. unfold msum; simpl. change (qsum []) with 0%Qc. ring.
  - rewrite !msum_cons, IH. ring.
Qed.
Lemma count_snoc b (P : list slot) s : count b (P ++ [s]) = (count b P + one b s)%nat.
Proof. induction P as [|x P IH]; simpl; rewrite ?count_one, ?IH; unfold count; simpl; lia. Qed.
Lemma count_open_closed P : (count is_open P + count is_closed P <= length P)%nat.
Proof.
  induction P as [|s P IH]; [auto|]. rewrite !count_one. cbn [length].
  assert (one is_open s + one is_closed s <= 1)%nat
    by (unfold one, is_open, is_closed; destruct (s_status s); lia).
  lia.
Qed.
Lemma nat_same k : (k <= n)%nat -> same (fnat k) (nnat k).
Proof. intro K. unfold fnat, nnat, qnat. apply same_z. lia. Qed.

Lemma value_same x p FP P : okp x p -> (length P <= n)%nat -> (0 < n)%nat -> Forall2 srel FP P ->
  exists v, portfolio_value (Fin p) P = Fin v /\ same (fportfolio_value x FP) (Fin v) /\
  whole (real v) /\ (Rabs (real v) <= INR (count is_open P) * B)%R.
Proof.
  intros O L N R. unfold fportfolio_value, portfolio_value.
  rewrite (count_rel _ (fun s => is_long s && is_open s) FP P), (count_rel _ (fun s => is_short s && is_open s) FP P); auto;
    try (intros y s H; rewrite (open_eq _ _ H); unfold fis_long, is_long, fis_short, is_short; rewrite (sr_pos _ _ H); reflexivity).
  set (l := count (fun s => is_long s && is_open s) P). set (h := count (fun s => is_short s && is_open s) P).
  assert (l + h <= count is_open P)%nat as LH.
  { unfold l, h. clear. induction P as [|s P IH]; [auto|]. rewrite !count_one.
    assert (one (fun s => is_long s && is_open s) s + one (fun s => is_short s && is_open s) s <= one is_open s)%nat
      by (unfold one, is_long, is_short; destruct (s_pos s), (is_open s); cbn [andb]; lia).
    lia. }
  pose proof (count_le is_open P) as CO.
  set (z := (Z.of_nat l - Z.of_nat h)%Z). cbn [nmul]. eexists. split; [reflexivity|].
  pose proof (okp_le _ _ O) as PB. destruct (ok_fine _ _ O) as [PW P0].
  assert (Rabs (IZR z) <= INR (count is_open P))%R as ZB.
  { rewrite <- abs_IZR, INR_IZR_INZ. apply IZR_le. unfold z. lia. }
  assert (whole (real p * IZR z)) as W by (rewrite Rmult_comm; apply whole_times; auto).
  assert (Rabs (real p * IZR z) <= INR (count is_open P) * B)%R as SB.
  { rewrite Rabs_mult, (Rabs_pos_eq (real p)) by auto. pose proof (Rabs_pos (IZR z)). nra. }
  rewrite real_mul, real_z. split; [|split; auto].
  - eapply (same_mul u); try rewrite real_z; auto.
    + apply O.
    + apply same_z. unfold z. lia.
    + eapply small_le; eauto. lia.
Qed.

(** ** one day *)
Lemma inv_first fm m x p sg : okp x p ->
  let a := fday npsum fm ff [] [] x sg in let b := day m (Fin f) [] [] (Fin p) sg in
  inv (fst a) (snd a) (fst b) (snd b).
Proof.
  intros O. cbn. constructor; cbn.
  - constructor; auto. apply srel0.
  - constructor; auto. constructor; simpl; auto; try apply same_0. apply O.
  - reflexivity.
  - intros _. reflexivity.
  - intros _. exists 0%Qc. rewrite real_0, Rabs_R0. split; [reflexivity|]. split; [apply whole_0|].
    unfold count; simpl. lra.
Qed.

Lemma inv_day fm m FP FD P D x p sg :
  mrel fm m -> okp x p -> (length D < n)%nat -> inv FP FD P D ->
  let a := fday npsum fm ff FP FD x sg in let b := day m (Fin f) P D (Fin p) sg in
  inv (fst a) (snd a) (fst b) (snd b).
Proof.
  intros M O LN I. assert (N : (0 < n)%nat) by lia.
  destruct (nil_or D) as [->|NE].
  { pose proof (i_data _ _ _ _ I) as R. inversion R; subst. pose proof (i_len _ _ _ _ I) as L.
    destruct P; [|discriminate]. pose proof (i_port _ _ _ _ I) as RP. inversion RP; subst. apply inv_first; auto. }
  pose proof (i_port _ _ _ _ I) as RP. pose proof (i_data _ _ _ _ I) as RD. pose proof (i_len _ _ _ _ I) as L.
  assert (FNE : FD <> []) by (intro E; subst; inversion RD; subst; auto).
  pose proof (last_rel _ _ RD NE) as LR.
  pose proof (i_exp _ _ _ _ I NE) as EX. destruct (i_earn _ _ _ _ I NE) as [w [EW [WW WB]]].
  rewrite fday_ne, day_ne by auto. unfold fday_next, day_next.
  pose proof (srel_ok _ _ RP) as OK.
  pose proof (long_eq x p O) as LE. pose proof (short_eq x p O N) as SE.
  rewrite (count_rel _ _ _ _ LE RP), (count_rel _ _ _ _ SE RP).
  rewrite EX, EW, !(sum_exposure_eq _ _ OK).
  destruct (close_sums p P) as [CS CC].
  set (bl := long_to_close (Fin p)) in *. set (bs := short_to_close (Fin f) (Fin p)) in *.
  assert (RP1 : Forall2 srel (map (fclose_slot ff x) FP) (map (close_slot (Fin f) (Fin p)) P)).
  { clear -RP O N f_same f_one B0 room u_small. induction RP; simpl; constructor; auto. apply close_rel; auto. }
  set (FP1 := map (fclose_slot ff x) FP) in *. set (P1 := map (close_slot (Fin f) (Fin p)) P) in *.
  assert (L1 : length P1 = length D) by (unfold P1; rewrite map_length; auto).
  pose proof (srel_ok _ _ RP1) as OK1.
  pose proof (count_open_closed P1) as OC1.
  pose proof (count_open_closed P) as OC.
  destruct (msum_bounds bl P OK) as [LW [L0 LB]]. destruct (msum_bounds bs P OK) as [SW [S0 SB]].
  destruct (msum_bounds is_open P1 OK1) as [W1 [E10 E1B]].
  destruct (msum_bounds is_open P OK) as [_ [EP0 EPB]].
  pose proof (msum_short p P OK) as SW2. fold bs in SW2.
  assert (CL : (count bl P + count bs P <= n)%nat) by lia.
  pose proof (fsum_same _ bl _ _ LE RP ltac:(lia)) as FL.
  pose proof (fsum_same _ bs _ _ SE RP ltac:(lia)) as FS.
  pose proof (okp_le _ _ O) as PB. destruct O as [PS [PW P0] FW FB] eqn:EO. clear EO.
  pose proof (nat_same (count bl P) ltac:(lia)) as NL. pose proof (nat_same (count bs P) ltac:(lia)) as NS.
  pose proof (pos_INR (count bl P)) as IL. pose proof (pos_INR (count bs P)) as IS.
  pose proof (pos_INR (count is_closed P)) as IC.
  set (cl := count bl P) in *. set (cs := count bs P) in *. set (le := msum bl P) in *. set (se := msum bs P) in *.
  assert (SM : forall r, (Rabs r <= (INR cl + INR cs) * B)%R -> small r).
  { intros r Hr. apply small_le with (cl + cs)%nat; [rewrite plus_INR; auto|lia]. }
  assert (WN : forall k, whole (INR k * real p)) by (intro k; rewrite INR_IZR_INZ; apply whole_times; auto).
  (* closed exposure *)
  assert (C1 : same (fadd (fsum_exposure npsum (flong_to_close x) FP) (fsum_exposure npsum (fshort_to_close ff x) FP)) (Fin (le + se))).
  { apply (same_add u); auto; [apply whole_add; auto|]. apply SM. apply Rabs_le. nra. }
  assert (E1 : same (fsub (y_exposure (last FD frow0))
      (fadd (fsum_exposure npsum (flong_to_close x) FP) (fsum_exposure npsum (fshort_to_close ff x) FP))) (Fin (msum is_open P1))).
  { rewrite CS. apply (same_sub u); auto.
    - rewrite <- EX. apply LR.
    - rewrite <- real_sub. rewrite <- CS. auto.
    - rewrite <- real_sub. rewrite <- CS. apply small_le with (count is_open P1); [rewrite Rabs_pos_eq; auto|lia]. }
  cbn [nsub nneg nadd nmul nnat].
  replace (msum is_open P + - (le + se))%Qc with (msum is_open P1) by (rewrite CS; ring).
  (* earnings *)
  unfold nnat in NL, NS.
  assert (A1 : same (fmul (fnat cl) x) (Fin (qnat cl * p))).
  { apply (same_mul u); auto; rewrite real_nat; auto. apply SM. rewrite Rabs_pos_eq; nra. }
  assert (A2 : same (fmul (fnat cs) x) (Fin (qnat cs * p))).
  { apply (same_mul u); auto; rewrite real_nat; auto. apply SM. rewrite Rabs_pos_eq; nra. }
  assert (A3 : same (fsub (fmul (fnat cl) x) (fsum_exposure npsum (flong_to_close x) FP)) (Fin (qnat cl * p - le))).
  { apply (same_sub u); auto; rewrite real_mul, real_nat; [apply whole_sub; auto|]. apply SM. apply Rabs_le. nra. }
  assert (Q : (0 <= real se / real f <= INR cs * B)%R).
  { assert (real se / real f * real f = real se)%R by (field; lra).
    split; [apply Rmult_le_pos; auto; left; apply Rinv_0_lt_compat; lra|]. nra. }
  pose proof f_nz as NZ.
  assert (A4 : same (fdiv (fsum_exposure npsum (fshort_to_close ff x) FP) ff) (Fin (se / f))).
  { apply (same_div u); auto. apply SM. rewrite Rabs_pos_eq; nra. }
  assert (A5 : same (fsub (fdiv (fsum_exposure npsum (fshort_to_close ff x) FP) ff) (fmul (fnat cs) x)) (Fin (se / f - qnat cs * p))).
  { apply (same_sub u); auto; rewrite real_div, real_mul, real_nat by auto; [apply whole_sub; auto|]. apply SM. apply Rabs_le. nra. }
  assert (A6 : same (fadd (fsub (fmul (fnat cl) x) (fsum_exposure npsum (flong_to_close x) FP))
                          (fsub (fdiv (fsum_exposure npsum (fshort_to_close ff x) FP) ff) (fmul (fnat cs) x)))
                    (Fin ((qnat cl * p - le) + (se / f - qnat cs * p)))).
  { apply (same_add u); auto; rewrite !real_sub, real_div, !real_mul, !real_nat by auto.
    - apply whole_add; apply whole_sub; auto.
    - apply SM. apply Rabs_le. nra. }
  set (g := ((qnat cl * p - le) + (se / f - qnat cs * p))%Qc) in *.
  assert (GB : (Rabs (real g) <= (INR cl + INR cs) * B)%R).
  { unfold g. rewrite real_add, !real_sub, real_div, !real_mul, !real_nat by auto. apply Rabs_le. nra. }
  assert (GW : whole (real g)).
  { unfold g. rewrite real_add, !real_sub, real_div, !real_mul, !real_nat by auto. apply whole_add; apply whole_sub; auto. }
  assert (TB : (Rabs (real w + real g) <= INR (count is_closed P1) * B)%R).
  { rewrite CC, !plus_INR. eapply Rle_trans; [apply Rabs_triang|]. lra. }
  assert (A7 : same (fadd (y_earnings (last FD frow0))
       (fadd (fsub (fmul (fnat cl) x) (fsum_exposure npsum (flong_to_close x) FP))
             (fsub (fdiv (fsum_exposure npsum (fshort_to_close ff x) FP) ff) (fmul (fnat cs) x)))) (Fin (w + g))).
  { apply (same_add u); auto.
    - rewrite <- EW. apply LR.
    - apply whole_add; auto.
    - eapply small_le; eauto. lia. }
  set (fearn := fadd (y_earnings (last FD frow0)) _) in *.
  cbn [ndiv]. destruct (qeqb f 0) eqn:EF; [qb; contradiction|]. cbn [nneg nadd].
  replace (w + (qnat cl * p + - le + (se / f + - (qnat cs * p))))%Qc with (w + g)%Qc by (unfold g; ring).
  set (fe := fsub (y_exposure (last FD frow0)) _) in *.
  (* one outcome *)
  assert (OUT : forall a fsl sl fe' e',
    srel fsl sl -> is_closed sl = false -> e' = (msum is_open P1 + sel is_open sl)%Qc -> same fe' (Fin e') ->
    inv (FP1 ++ [fsl]) (FD ++ [mkFrow (Some sg) (Some a) x fe' (fportfolio_value x (FP1 ++ [fsl])) fearn
                               (fadd (fportfolio_value x (FP1 ++ [fsl])) fearn)])
        (P1 ++ [sl]) (D ++ [mkRow (Some sg) (Some a) (Fin p) (Fin e') (portfolio_value (Fin p) (P1 ++ [sl])) (Fin (w + g))
                               (nadd (portfolio_value (Fin p) (P1 ++ [sl])) (Fin (w + g)))])).
  { intros a fsl sl fe' e' SR NC -> FE.
    assert (RP2 : Forall2 srel (FP1 ++ [fsl]) (P1 ++ [sl])) by (apply Forall2_app; auto).
    assert (L2 : length (P1 ++ [sl]) = S (length D)) by (rewrite app_length; simpl; lia).
    destruct (value_same x p (FP1 ++ [fsl]) (P1 ++ [sl]) ltac:(constructor; auto; split; auto) ltac:(lia) N RP2) as [v [-> [VS [VW VB]]]].
    pose proof (count_open_closed (P1 ++ [sl])) as OC2.
    assert (CC2 : count is_closed (P1 ++ [sl]) = count is_closed P1).
    { rewrite count_snoc. unfold one. rewrite NC. lia. }
    constructor.
    - exact RP2.
    - apply Forall2_app; auto. constructor; auto. constructor; simpl; auto.
      apply (same_add u); auto; rewrite real_add.
      + apply whole_add; auto. apply whole_add; auto.
      + eapply small_le with (k := (count is_open (P1 ++ [sl]) + count is_closed (P1 ++ [sl]))%nat); [|lia].
        rewrite CC2, plus_INR. eapply Rle_trans; [apply Rabs_triang|]. lra.
    - rewrite L2, app_length; simpl; lia.
    - intros _. rewrite last_last. cbn [x_exposure]. rewrite msum_snoc. reflexivity.
    - intros _. rewrite last_last. cbn [x_earnings]. exists (w + g)%Qc. split; [reflexivity|].
      rewrite real_add. split; [apply whole_add; auto|]. rewrite CC2. auto. }
  assert (CO1 : (count is_open P1 < n)%nat) by lia.
  destruct sg.
  - (* Buy *)
    assert (S1 : same (fadd fe x) (Fin (msum is_open P1 + p))).
    { apply (same_add u); auto; [apply whole_add; auto|]. apply small_le with (S (count is_open P1)); [|lia].
      rewrite S_INR, Rabs_pos_eq; lra. }
    rewrite (over_eq fm m _ _ M S1). destruct (over_limit m _); cbn [fst snd].
    + apply OUT; auto; [apply srel0|]. unfold sel; simpl. ring.
    + apply OUT; auto. constructor; simpl; auto; [split; auto|discriminate].
  - cbn [fst snd]. apply OUT; auto; [apply srel0|]. unfold sel; simpl. ring.
  - pose proof (okp_prod x p ltac:(constructor; auto; split; auto) N) as XS.
    assert (S1 : same (fadd fe (fmul ff x)) (Fin (msum is_open P1 + f * p))).
    { apply (same_add u); auto; rewrite real_mul; [apply whole_add; auto|]. apply small_le with (S (count is_open P1)); [|lia].
      rewrite S_INR, Rabs_pos_eq; nra. }
    rewrite (over_eq fm m _ _ M S1). destruct (over_limit m _); cbn [fst snd].
    + apply OUT; auto; [apply srel0|]. unfold sel; simpl. ring.
    + apply OUT; auto. constructor; simpl; auto; rewrite ?real_mul; auto.
      * split; rewrite real_mul; auto. nra.
      * intros _. replace (real f * real p / real f)%R with (real p) by (field; lra). auto.
Qed.

(** ** all days *)
Lemma inv_days fm m fps ps sgs : mrel fm m -> Forall2 okp fps ps -> (length sgs <= n)%nat ->
  let a := fdays npsum fm ff (combine fps sgs) in let b := days m (Fin f) (combine (map Fin ps) sgs) in
  inv (fst a) (snd a) (fst b) (snd b).
Proof.
  intros M OK LN.
  assert (GEN : forall fps ps, Forall2 okp fps ps -> forall sgs FP FD P D, (length D + length sgs <= n)%nat -> inv FP FD P D ->
    let a := fold_left (fun s x => fday npsum fm ff (fst s) (snd s) (fst x) (snd x)) (combine fps sgs) (FP, FD) in
    let b := fold_left (fun s x => day m (Fin f) (fst s) (snd s) (fst x) (snd x)) (combine (map Fin ps) sgs) (P, D) in
    inv (fst a) (snd a) (fst b) (snd b)).
  { clear fps ps sgs OK LN. induction 1 as [|x p fps ps O OK IH]; intros sgs FP FD P D LN I; [exact I|].
    destruct sgs as [|sg sgs]; [exact I|]. cbn [length] in LN. cbn [combine map fold_left fst snd].
    pose proof (inv_day fm m FP FD P D x p sg M O ltac:(lia) I) as I2. cbv zeta in I2.
    destruct (fday npsum fm ff FP FD x sg) as [FP2 FD2], (day m (Fin f) P D (Fin p) sg) as [P2 D2] eqn:ED.
    apply IH; auto. pose proof (day_length _ _ _ _ _ _ _ _ (i_len _ _ _ _ I) ED) as [_ LD]. lia. }
  apply GEN; auto. constructor; auto; try contradiction.
Qed.
End Same.

Lemma Forall2_nth_rel {A C} (R : A -> C -> Prop) l l' da dc i :
  Forall2 R l l' -> (i < length l')%nat -> R (nth i l da) (nth i l' dc).
Proof.
  intro H. revert i. induction H; intros [|i] L; simpl in *; try lia; auto. apply IHForall2. lia.
Qed.
Lemma Forall2_len {A C} (R : A -> C -> Prop) l l' : Forall2 R l l' -> length l = length l'.
Proof. induction 1; simpl; auto. Qed.
Lemma Forall2_take {A C} (R : A -> C -> Prop) l l' k : Forall2 R l l' -> Forall2 R (firstn k l) (firstn k l').
Proof. intro H. revert k. induction H; intros [|k]; simpl; auto. Qed.
Lemma days_length m f ds : length (fst (days m f ds)) = length ds /\ length (snd (days m f ds)) = length ds.
Proof.
  induction ds as [|x ds [I1 I2]] using rev_ind; [auto|]. unfold days. rewrite fold_left_app. fold (days m f ds).
  cbn [fold_left]. destruct (day m f (fst (days m f ds)) (snd (days m f ds)) (fst x) (snd x)) as [P D] eqn:E.
  apply day_length in E; [|congruence]. rewrite app_length. simpl. lia.
Qed.

Lemma sims_agree u npsum n B ff f fm m fps ps sgs :
  (Z.of_nat u <= 1000)%Z -> (forall l, added l (npsum l)) -> (0 <= B)%R ->
  (2 * INR n * B < bpow radix2 (53 + - Z.of_nat u))%R -> (Z.of_nat n < 2 ^ 53)%Z ->
  same ff (Fin f) -> (1 <= real f)%R -> mrel fm m -> Forall2 (okp u B f) fps ps ->
  (length sgs <= n)%nat -> (length sgs <= length ps)%nat ->
  forall i, (i < length sgs)%nat ->
  rrel (nth i (f_data (fsimulate npsum fps fm ff sgs)) frow0) (row_ (data (simulate (map Fin ps) m (Fin f) sgs)) i) /\
  fs_pos (nth i (f_portfolio (fsimulate npsum fps fm ff sgs)) fslot0)
    = s_pos (nth i (portfolio (simulate (map Fin ps) m (Fin f) sgs)) slot0) /\
  fs_status (nth i (f_portfolio (fsimulate npsum fps fm ff sgs)) fslot0)
    = s_status (nth i (portfolio (simulate (map Fin ps) m (Fin f) sgs)) slot0).
Proof.
  intros US NP B0 RM NS FS F1 M OK LN LP i Hi.
  assert (LE : length fps = length ps) by (clear -OK; induction OK; simpl; auto).
  assert (LF : (length sgs <= length fps)%nat) by lia.
  unfold fsimulate, simulate, fsim_start, sim_start.
  pose proof (frun_sim0 npsum fps fm ff sgs LF) as FR. cbv zeta in FR.
  unfold fsim0, fpad in FR. simpl app in FR. rewrite FR. clear FR.
  assert (LM : (length sgs <= length (map Fin ps))%nat) by (rewrite map_length; auto).
  pose proof (run_sim0 (map Fin ps) m (Fin f) sgs LM) as ER. cbv zeta in ER.
  unfold sim0, pad in ER. simpl app in ER. rewrite ER. clear ER.
  cbn [f_data f_portfolio data portfolio]. rewrite firstn_map.
  pose proof (inv_days u US npsum NP n B B0 RM NS ff f FS F1 fm m (firstn (length sgs) fps) (firstn (length sgs) ps) sgs M
                (Forall2_take _ _ _ _ OK) LN) as I. cbv zeta in I.
  set (ds := combine (map Fin (firstn (length sgs) ps)) sgs) in *.
  assert (LD : length ds = length sgs).
  { unfold ds. rewrite combine_length, map_length, firstn_length. lia. }
  destruct (days_length m (Fin f) ds) as [L1 L2].
  pose proof (i_port _ _ _ _ _ _ _ I) as RP. pose proof (i_data _ _ _ _ _ _ _ I) as RD.
  assert (L3 : length (fst (fdays npsum fm ff (combine (firstn (length sgs) fps) sgs))) = length sgs).
  { rewrite (Forall2_len _ _ _ RP). lia. }
  assert (L4 : length (snd (fdays npsum fm ff (combine (firstn (length sgs) fps) sgs))) = length sgs).
  { rewrite (Forall2_len _ _ _ RD). lia. }
  unfold row_. rewrite !app_nth1 by lia. split.
  - apply Forall2_nth_rel; auto. lia.
  - pose proof (Forall2_nth_rel _ _ _ fslot0 slot0 i RP ltac:(lia)) as R. split; apply R.
Qed.

(** ** numbers k / 2^s *)
Definition ticks (s : nat) (k : Z) : Qc := Q2Qc (Qmake k (Z.to_pos (2 ^ Z.of_nat s))).
Lemma real_ticks s k : real (ticks s k) = (IZR k * bpow radix2 (- Z.of_nat s))%R.
Proof.
  unfold ticks. rewrite real_Q2Qc. unfold Q2R. cbn [Qnum Qden]. rewrite Z2Pos.id by (apply Z.pow_pos_nonneg; lia).
  rewrite bpow_opp. rewrite <- IZR_Zpower by lia. reflexivity.
Qed.
Lemma same_ticks s k : (Z.of_nat s <= 1000)%Z -> (Z.abs k < 2 ^ 53)%Z -> same (fz k (- Z.of_nat s)) (Fin (ticks s k)).
Proof.
  intros SS KB. pose proof (@binary_normalize_correct 53 1024 prec_pos prec_lt mode_NE k (- Z.of_nat s) false) as H.
  cbn [round_mode] in H. fold (fz k (- Z.of_nat s)) in H. cbv zeta in H.
  assert (F2R (Float radix2 k (- Z.of_nat s)) = (IZR k * bpow radix2 (- Z.of_nat s))%R) as E by reflexivity.
  rewrite E in H.
  assert (whole s (IZR k * bpow radix2 (- Z.of_nat s))%R) as W by (exists k; reflexivity).
  assert (small s (IZR k * bpow radix2 (- Z.of_nat s))%R) as S.
  { unfold small. rewrite bpow_plus, Rabs_mult, (Rabs_pos_eq (bpow _ _)) by apply bpow_ge_0.
    apply Rmult_lt_compat_r; [apply bpow_gt_0|]. rewrite <- abs_IZR, <- IZR_Zpower by lia. apply IZR_lt. exact KB. }
  destruct (exact_round s SS _ W S) as [R1 R2].
  rewrite R1, Rlt_bool_true in H by auto. destruct H as [H1 [H2 _]].
  split; [exact H2|]. eexists. split; [reflexivity|]. rewrite real_ticks. exact H1.
Qed.

Lemma ticks_agree npsum s t a K ks fm m sgs :
  (forall l, added l (npsum l)) ->
  (s + t <= 1000)%nat -> (1 <= K)%Z -> (forall k, In k ks -> (0 <= k <= K)%Z) -> (2 ^ Z.of_nat t <= a)%Z ->
  (2 * Z.of_nat (length sgs) * (a * K) < 2 ^ 53)%Z ->
  mrel fm m -> (length sgs <= length ks)%nat ->
  forall i, (i < length sgs)%nat ->
  let fs := fsimulate npsum (map (fun k => fz k (- Z.of_nat s)) ks) fm (fz a (- Z.of_nat t)) sgs in
  let es := simulate (map (fun k => Fin (ticks s k)) ks) m (Fin (ticks t a)) sgs in
  rrel (nth i (f_data fs) frow0) (row_ (data es) i) /\
  fs_pos (nth i (f_portfolio fs) fslot0) = s_pos (nth i (portfolio es) slot0) /\
  fs_status (nth i (f_portfolio fs) fslot0) = s_status (nth i (portfolio es) slot0).
Proof.
  intros NP ST K1 KS A1 RM M LS i Hi fs es.
  assert (Z1 : (1 <= 2 ^ Z.of_nat t)%Z) by (pose proof (Z.pow_pos_nonneg 2 (Z.of_nat t)); lia).
  assert (N1 : (1 <= Z.of_nat (length sgs))%Z) by lia.
  assert (AK : (1 <= a * K)%Z) by nia.
  assert (AK2 : (a * K < 2 ^ 53)%Z) by nia.
  set (B := (IZR (a * K) * bpow radix2 (- Z.of_nat (s + t)))%R).
  pose proof (bpow_gt_0 radix2 (- Z.of_nat (s + t))) as BP.
  assert (FW : (real (ticks t a) * bpow radix2 (- Z.of_nat s) = IZR a * bpow radix2 (- Z.of_nat (s + t)))%R).
  { rewrite real_ticks, Rmult_assoc, <- bpow_plus. do 2 f_equal. lia. }
  unfold fs, es. rewrite <- (map_map (ticks s) Fin).
  apply sims_agree with (u := (s + t)%nat) (n := length sgs) (B := B); auto.
  - lia.
  - unfold B. apply Rmult_le_pos; [apply IZR_le; lia|lra].
  - unfold B. rewrite bpow_plus. rewrite <- Rmult_assoc. apply Rmult_lt_compat_r; auto.
    rewrite INR_IZR_INZ, <- !mult_IZR, <- IZR_Zpower by lia. apply IZR_lt. exact RM.
  - nia.
  - apply same_ticks; [lia|]. nia.
  - rewrite real_ticks, bpow_opp. rewrite <- (IZR_Zpower radix2 (Z.of_nat t)) by lia.
    apply Rmult_le_reg_r with (IZR (radix2 ^ Z.of_nat t)); [apply IZR_lt; apply Z.pow_pos_nonneg; simpl; lia|].
    rewrite Rmult_assoc, Rinv_l by (apply IZR_neq; simpl radix_val; lia). rewrite Rmult_1_r, Rmult_1_l.
    apply IZR_le. exact A1.
  - assert (Forall (fun k => (0 <= k <= K)%Z) ks) as G by (apply Forall_forall; auto).
    clear -G ST A1 Z1 K1 AK AK2 FW BP. induction G as [|k ks [K0 KK] G IH]; simpl; constructor; auto.
    assert (k < 2 ^ 53)%Z by nia.
    assert (E : (bpow radix2 (- Z.of_nat s) = IZR (2 ^ Z.of_nat t) * bpow radix2 (- Z.of_nat (s + t)))%R).
    { pose proof (IZR_Zpower radix2 (Z.of_nat t) ltac:(lia)) as IZ. change (radix_val radix2) with 2%Z in IZ.
      rewrite IZ, <- bpow_plus. f_equal. lia. }
    constructor.
    + apply same_ticks; lia.
    + split; rewrite real_ticks.
      * exists (k * 2 ^ Z.of_nat t)%Z. rewrite mult_IZR, E. ring.
      * apply Rmult_le_pos; [apply IZR_le; lia|apply bpow_ge_0].
    + exists (a * k)%Z. rewrite (real_ticks s), mult_IZR.
      rewrite (Rmult_comm (IZR k)), <- Rmult_assoc, FW. ring.
    + unfold B. rewrite (real_ticks s), (Rmult_comm (IZR k)), <- Rmult_assoc, FW, mult_IZR.
      assert (IZR k <= IZR K)%R by (apply IZR_le; lia). assert (1 <= IZR a)%R by (apply IZR_le; lia).
      set (b := bpow radix2 (- Z.of_nat (s + t))) in *.
      replace (IZR a * IZR K * b)%R with (IZR a * b * IZR K)%R by ring.
      apply Rmult_le_compat_l; auto. apply Rmult_le_pos; lra.
  - rewrite map_length. auto.
Qed.

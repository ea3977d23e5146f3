(** * FloatRange: ranges of the indicators in binary64. *)
From Coq Require Import ZArith Reals Bool List PeanoNat Permutation Lia Lra Psatz.
From Flocq Require Import Core Relative Plus_error IEEE754.BinarySingleNaN.
From Verif Require Import Pandas Sim FloatSim FloatFacts FloatInd FloatOrd FloatDec.
Import ListNotations.
Open Scope list_scope.

(** ** series *)
Lemma fmap2_nth f a b k : (k < length a)%nat -> length b = length a -> nth k (fmap2 f a b) fnan = f (nth k a fnan) (nth k b fnan).
Proof.
  intros H L. unfold fmap2. rewrite nth_indep with (d' := f (fst (fnan, fnan)) (snd (fnan, fnan))).
  2: rewrite map_length, combine_length; lia.
  rewrite (map_nth (fun q => f (fst q) (snd q))). rewrite combine_nth by lia. reflexivity.
Qed.
Lemma fmap3_nth f a b c k : (k < length a)%nat -> length b = length a -> length c = length a ->
  nth k (fmap3 f a b c) fnan = f (nth k a fnan) (nth k b fnan) (nth k c fnan).
Proof.
  intros H L M. unfold fmap3. set (g := fun q : f64 * (f64 * f64) => f (fst q) (fst (snd q)) (snd (snd q))).
  rewrite nth_indep with (d' := g (fnan, (fnan, fnan))) by (rewrite map_length, !combine_length; lia).
  rewrite (map_nth g). rewrite combine_nth by (rewrite combine_length; lia). rewrite combine_nth by lia. reflexivity.
Qed.
Lemma frolling_length w m b s : length (frolling w m b s) = length s.
Proof. unfold frolling. rewrite map_length, seq_length. reflexivity. Qed.
Lemma frolling_nth w m b s k : (k < length s)%nat -> nth k (frolling w m b s) fnan =
  let v := filter is_finite (window w k s) in if (m <=? length v)%nat then fpick b v else fnan.
Proof.
  intro H. unfold frolling. set (g := fun i => _). rewrite nth_indep with (d' := g 0%nat) by (rewrite map_length, seq_length; exact H).
  rewrite map_nth, seq_nth by exact H. reflexivity.
Qed.
Lemma window_length {A} w k (s : list A) : (k < length s)%nat -> length (window w k s) = Nat.min w (S k).
Proof. intro H. unfold window. rewrite skipn_length, firstn_length. lia. Qed.
Lemma skipn_nth {A} n (l : list A) j d : nth j (skipn n l) d = nth (n + j) l d.
Proof. revert n; induction l; destruct n; simpl; auto. destruct j; reflexivity. Qed.
Lemma firstn_nth {A} n (l : list A) j d : (j < n)%nat -> nth j (firstn n l) d = nth j l d.
Proof. revert n j; induction l; destruct n, j; simpl; intros; try lia; auto. apply IHl. lia. Qed.
Lemma window_nth {A} w k (s : list A) j d : (S k - w + j <= k)%nat -> nth j (window w k s) d = nth (S k - w + j) s d.
Proof. intro H. unfold window. rewrite skipn_nth, firstn_nth by lia. reflexivity. Qed.
Lemma window_in {A} w k (s : list A) x d : (k < length s)%nat ->
  (In x (window w k s) <-> exists j, (S k - w <= j <= k)%nat /\ x = nth j s d).
Proof.
  intro H. split.
  - intro I. destruct (In_nth _ _ d I) as [j [J E]]. rewrite window_length in J by auto. rewrite window_nth in E by lia. exists (S k - w + j)%nat. split; [lia|auto].
  - intros [j [J ->]]. replace j with (S k - w + (j - (S k - w)))%nat by lia. rewrite <- window_nth by lia. apply nth_In. rewrite window_length by auto. lia.
Qed.
Definition all_finite (s : fseries) : Prop := forall x, In x s -> is_finite x = true.
Lemma finite_nth s k : all_finite s -> (k < length s)%nat -> is_finite (nth k s fnan) = true.
Proof. intros F H. apply F, nth_In, H. Qed.
Lemma window_sub {A} w k (s : list A) x : In x (window w k s) -> In x s.
Proof.
  unfold window. intro I. rewrite <- (firstn_skipn (S k) s). apply in_app_iff. left. rewrite <- (firstn_skipn (S k - w) (firstn (S k) s)). apply in_app_iff. right. exact I.
Qed.
Lemma finite_window s w k : all_finite s -> filter is_finite (window w k s) = window w k s.
Proof.
  intro F. assert (G : forall x, In x (window w k s) -> is_finite x = true) by (intros x I; apply F; eapply window_sub; eauto).
  induction (window w k s) as [|y l IH]; [reflexivity|]. cbn. rewrite (G y) by (left; reflexivity). rewrite IH; auto. intros x I. apply G. right; exact I.
Qed.

Lemma pick_max v : v <> [] -> all_finite v -> let m := fpick (fun y a => fltb a y) v in In m v /\ forall x, In x v -> fle x m.
Proof.
  destruct v as [|x r]; [congruence|]. intros _ F. cbn.
  assert (G : forall l a, is_finite a = true -> all_finite l -> let m := fold_left (fun a y => if fltb a y then y else a) l a in
    (m = a \/ In m l) /\ fle a m /\ forall y, In y l -> fle y m).
  { induction l as [|y l IH]; intros a Fa Fl; cbn.
    - split; [auto|]. split; [apply fle_refl; destruct a; auto; discriminate|tauto].
    - assert (Fy : is_finite y = true) by (apply Fl; left; reflexivity).
      assert (Fl' : all_finite l) by (intros z I; apply Fl; right; exact I).
      destruct (fltb a y) eqn:L.
      + destruct (IH y Fy Fl') as (A & B & C). split; [destruct A; auto|]. split; [eapply fle_trans; [apply lt_fle; exact L|exact B]|].
        intros z [<-|I]; auto.
      + destruct (IH a Fa Fl') as (A & B & C). split; [destruct A; auto|]. split; [exact B|].
        intros z [<-|I]; auto. eapply fle_trans; [|exact B]. apply not_lt_fle; auto; [destruct y|destruct a]; auto; discriminate. }
  destruct (G r x) as (A & B & C); [apply F; left; reflexivity|intros z I; apply F; right; exact I|].
  split; [destruct A; auto|]. intros z [<-|I]; auto.
Qed.
Lemma pick_min v : v <> [] -> all_finite v -> let m := fpick (fun y a => fltb y a) v in In m v /\ forall x, In x v -> fle m x.
Proof.
  destruct v as [|x r]; [congruence|]. intros _ F. cbn.
  assert (G : forall l a, is_finite a = true -> all_finite l -> let m := fold_left (fun a y => if fltb y a then y else a) l a in
    (m = a \/ In m l) /\ fle m a /\ forall y, In y l -> fle m y).
  { induction l as [|y l IH]; intros a Fa Fl; cbn.
    - split; [auto|]. split; [apply fle_refl; destruct a; auto; discriminate|tauto].
    - assert (Fy : is_finite y = true) by (apply Fl; left; reflexivity).
      assert (Fl' : all_finite l) by (intros z I; apply Fl; right; exact I).
      destruct (fltb y a) eqn:L.
      + destruct (IH y Fy Fl') as (A & B & C). split; [destruct A; auto|]. split; [eapply fle_trans; [exact B|apply lt_fle; exact L]|].
        intros z [<-|I]; auto.
      + destruct (IH a Fa Fl') as (A & B & C). split; [destruct A; auto|]. split; [exact B|].
        intros z [<-|I]; auto. eapply fle_trans; [exact B|]. apply not_lt_fle; auto; [destruct a|destruct y]; auto; discriminate. }
  destruct (G r x) as (A & B & C); [apply F; left; reflexivity|intros z I; apply F; right; exact I|].
  split; [destruct A; auto|]. intros z [<-|I]; auto.
Qed.
(** the highest of rows k-w+1 .. k *)
Definition highest (w k : nat) (s : fseries) (x : f64) : Prop :=
  (exists j, (S k - w <= j <= k)%nat /\ x = nth j s fnan) /\ forall j, (S k - w <= j <= k)%nat -> fle (nth j s fnan) x.
Definition lowest (w k : nat) (s : fseries) (x : f64) : Prop :=
  (exists j, (S k - w <= j <= k)%nat /\ x = nth j s fnan) /\ forall j, (S k - w <= j <= k)%nat -> fle x (nth j s fnan).
Lemma window_ne {A} w k (s : list A) : (0 < w)%nat -> (k < length s)%nat -> window w k s <> [].
Proof. intros W H E. apply (f_equal (@length A)) in E. rewrite window_length in E by auto. simpl in E. lia. Qed.
Lemma roll_max_in w m s k : all_finite s -> (0 < w)%nat -> (m <= w)%nat -> (m <= S k)%nat -> (k < length s)%nat ->
  highest w k s (nth k (froll_max w m s) fnan).
Proof.
  intros F W M K L. unfold froll_max. rewrite frolling_nth by auto. cbv zeta. rewrite finite_window by auto. rewrite window_length by auto.
  replace (m <=? Nat.min w (S k))%nat with true by (symmetry; apply Nat.leb_le; lia).
  destruct (pick_max (window w k s)) as [A B]; [apply window_ne; auto|intros x I; apply F; eapply window_sub; eauto|].
  split; [apply (window_in w k s _ fnan); auto|]. intros j J. apply B. apply (window_in w k s _ fnan); eauto.
Qed.
Lemma roll_min_in w m s k : all_finite s -> (0 < w)%nat -> (m <= w)%nat -> (m <= S k)%nat -> (k < length s)%nat ->
  lowest w k s (nth k (froll_min w m s) fnan).
Proof.
  intros F W M K L. unfold froll_min. rewrite frolling_nth by auto. cbv zeta. rewrite finite_window by auto. rewrite window_length by auto.
  replace (m <=? Nat.min w (S k))%nat with true by (symmetry; apply Nat.leb_le; lia).
  destruct (pick_min (window w k s)) as [A B]; [apply window_ne; auto|intros x I; apply F; eapply window_sub; eauto|].
  split; [apply (window_in w k s _ fnan); auto|]. intros j J. apply B. apply (window_in w k s _ fnan); eauto.
Qed.
Lemma roll_early w b s k : (S k < w)%nat -> (k < length s)%nat -> nth k (frolling w w b s) fnan = fnan.
Proof.
  intros K L. rewrite frolling_nth by auto. cbv zeta. replace (w <=? _)%nat with false; [reflexivity|]. symmetry. apply Nat.leb_gt.
  assert (length (filter is_finite (window w k s)) <= length (window w k s))%nat.
  { generalize (window w k s) as l. induction l as [|y l IH]; cbn; [lia|]. destruct (is_finite y); cbn; lia. }
  rewrite window_length in H by auto. lia.
Qed.

(** ** Williams %R *)
Lemma fin_nan (x : f64) : is_finite x = true -> is_nan x = false.
Proof. destruct x; auto; discriminate. Qed.
Definition fone : f64 := fz 1 0.
Lemma fone_val : is_finite fone = true /\ RV fone = 1%R.
Proof. apply fz_val. lia. Qed.
(** 0 <= a <= b, none missing: the quotient is missing or between 0 and 1 *)
Lemma f0_val : RV f0 = 0%R. Proof. reflexivity. Qed.
Lemma ratio a b : fle f0 a -> fle a b -> fdiv a b = fnan \/ (is_finite (fdiv a b) = true /\ (0 <= RV (fdiv a b) <= 1)%R).
Proof.
  intros A B. destruct (fle_nan _ _ B) as [Na Nb].
  destruct fone_val as [F1 V1].
  destruct (is_finite b) eqn:Fb.
  - assert (Fa : is_finite a = true) by (apply (fle_finite f0 a b); auto).
    apply fle_fin in A; auto. apply fle_fin in B; auto. change (RV f0) with 0%R in A.
    destruct (Req_dec (RV b) 0) as [Z|Z].
    + left. assert (Za : RV a = 0%R) by lra. apply fin_sign0 in Z; auto. apply fin_sign0 in Za; auto. rewrite Z, Za. reflexivity.
    + right. pose proof (fdiv_comes a b Fa Fb Z) as C. assert (P : (0 < RV b)%R) by lra.
      edestruct (fun H => comes_fin f0 fone _ _ eq_refl F1 H C) as (G1 & _ & G2).
      { change (RV f0) with 0%R. rewrite V1. split; [apply Rmult_le_pos; [lra|apply Rlt_le, Rinv_0_lt_compat; lra]|].
        apply Rmult_le_reg_r with (RV b); auto. unfold Rdiv. rewrite Rmult_assoc, Rinv_l by auto. lra. }
      split; [exact G1|]. rewrite V1 in G2. exact G2.
  - destruct b as [|[]| |]; try discriminate.
    + apply fle_to_ninf in B. subst a. discriminate.
    + destruct a as [|[]| |]; try discriminate; [right|left|right]; try reflexivity; (split; [reflexivity|]); simpl; lra.
Qed.
Definition m100 : f64 := fz (-100) 0.
Definition p100 : f64 := fz 100 0.
Lemma m100_val : is_finite m100 = true /\ RV m100 = (-100)%R.
Proof. apply fz_val. lia. Qed.
Lemma p100_val : is_finite p100 = true /\ RV p100 = 100%R.
Proof. apply fz_val. lia. Qed.
Lemma fmul_nan x : fmul x fnan = fnan. Proof. destruct x; reflexivity. Qed.
Lemma wr_ranged hh ll c : is_finite hh = true -> is_finite ll = true -> is_finite c = true -> fle ll c -> fle c hh ->
  fwr_of hh ll c = fnan \/ (is_finite (fwr_of hh ll c) = true /\ fle m100 (fwr_of hh ll c) /\ fle (fwr_of hh ll c) f0).
Proof.
  intros Fh Fl Fc A B. pose proof A as A'. pose proof B as B'. apply fle_fin in A'; auto. apply fle_fin in B'; auto.
  pose proof (fsub_comes hh c Fh Fc) as C1. pose proof (fsub_comes hh ll Fh Fl) as C2.
  assert (P : fle f0 (fsub hh c)) by (apply (fun H => comes_ge f0 _ _ eq_refl H C1); change (RV f0) with 0%R; lra).
  assert (Q : fle (fsub hh c) (fsub hh ll)) by (apply (fun H => comes_mono _ _ _ _ H C1 C2); lra).
  unfold fwr_of. fold m100. destruct (ratio _ _ P Q) as [->|[F R]]; [left; rewrite fmul_nan; reflexivity|right].
  destruct m100_val as [Fm Vm]. pose proof (fmul_comes m100 _ Fm F) as C. rewrite Vm in C.
  edestruct (fun H => comes_fin m100 f0 _ _ Fm eq_refl H C) as (G1 & G2 & G3); [rewrite Vm; change (RV f0) with 0%R; nra|].
  assert (U : fle m100 (fmul m100 (fdiv (fsub hh c) (fsub hh ll)))) by (apply fle_fin; auto; tauto).
  assert (V : fle (fmul m100 (fdiv (fsub hh c) (fsub hh ll))) f0) by (apply fle_fin; auto; tauto).
  apply fround4_mono in U. apply fround4_mono in V.
  assert (U' : fle m100 (fround4 m100)) by (vm_compute; reflexivity). assert (V' : fle (fround4 f0) f0) by (vm_compute; reflexivity).
  pose proof (fle_trans _ _ _ U' U) as W. pose proof (fle_trans _ _ _ V V') as X. split; [|split; assumption].
  apply (fle_finite m100 _ f0); auto.
Qed.
(** differences of prices that are not extremely large *)
Definition modest (x : f64) : Prop := is_finite x = true /\ (Rabs (RV x) <= bpow radix2 1000)%R.
Lemma diff_fin x y : modest x -> modest y -> is_finite (fsub x y) = true /\ RV (fsub x y) = rnd (RV x - RV y) /\ (Rabs (RV (fsub x y)) <= bpow radix2 1001)%R.
Proof.
  intros [Fx Bx] [Fy By]. pose proof (fsub_comes x y Fx Fy) as C.
  assert (B : bpow radix2 1001 = (2 * bpow radix2 1000)%R) by (change 1001%Z with (1000 + 1)%Z; rewrite bpow_plus_1; reflexivity).
  destruct (fz_val2 1 969) as [F1 V1]; [lia|lia|].
  assert (A : exists u, is_finite u = true /\ RV u = bpow radix2 1001).
  { exists (fz (2 ^ 40) 961). destruct (fz_val2 (2 ^ 40) 961) as [F V]; [lia|lia|]. split; [exact F|]. rewrite V.
    change (2 ^ 40)%Z with (Zpower radix2 40). rewrite IZR_Zpower by lia. rewrite <- bpow_plus. reflexivity. }
  assert (A' : exists u, is_finite u = true /\ RV u = (- bpow radix2 1001)%R).
  { exists (fz (- 2 ^ 40) 961). destruct (fz_val2 (- 2 ^ 40) 961) as [F V]; [lia|lia|]. split; [exact F|]. rewrite V, opp_IZR.
    change (2 ^ 40)%Z with (Zpower radix2 40). rewrite IZR_Zpower by lia. rewrite Ropp_mult_distr_l_reverse. rewrite <- bpow_plus. reflexivity. }
  destruct A as (u & Fu & Vu). destruct A' as (v & Fv & Vv). apply Rabs_le_inv in Bx. apply Rabs_le_inv in By.
  edestruct (fun H => comes_fin v u _ _ Fv Fu H C) as (P & Q & R); [rewrite Vu, Vv; lra|].
  split; [exact P|]. split; [exact Q|]. rewrite Vu, Vv in R. apply Rabs_le. exact R.
Qed.
Lemma diff_pos x y : modest x -> modest y -> (RV y < RV x)%R -> (0 < RV (fsub x y))%R.
Proof.
  intros Mx My L. destruct (diff_fin x y Mx My) as (_ & E & _). rewrite E.
  assert (N : rnd (RV x + - RV y) <> 0%R).
  { apply (round_plus_neq_0 radix2 (FLT_exp (-1074) 53) ZnearestE).
    - apply (generic_format_B2R 53 1024 x).
    - apply generic_format_opp. apply (generic_format_B2R 53 1024 y).
    - lra. }
  pose proof (rnd_le 0 (RV x - RV y)) as P. rewrite rnd_0 in P. unfold Rminus in *. specialize (P ltac:(lra)). lra.
Qed.
Lemma rnd_1 : rnd 1 = 1%R.
Proof. destruct fone_val as [_ V]. rewrite <- V at 1. rewrite rnd_id. exact V. Qed.
Lemma fround4_zero x : is_finite x = true -> RV x = 0%R -> is_finite (fround4 x) = true /\ RV (fround4 x) = 0%R.
Proof. intros F Z. apply fin_sign0 in Z; auto. rewrite Z. destruct (Bsign x); split; try reflexivity; vm_compute; reflexivity. Qed.
(** a number whose neighbours round to the same value *)
Lemma fround4_between a b c x : is_finite x = true -> fle a x -> fle x b -> fle c (fround4 a) -> fle (fround4 b) c -> is_finite c = true -> RV (fround4 x) = RV c /\ is_finite (fround4 x) = true.
Proof.
  intros F A B C D Fc. assert (P : fle c (fround4 x)) by (eapply fle_trans; [exact C|apply fround4_mono; exact A]).
  assert (Q : fle (fround4 x) c) by (eapply fle_trans; [apply fround4_mono; exact B|exact D]).
  assert (G : is_finite (fround4 x) = true) by (apply (fle_finite c _ c); auto). split; auto.
  apply fle_fin in P; auto. apply fle_fin in Q; auto. lra.
Qed.
Lemma wr_ends hh ll c : modest hh -> modest ll -> modest c -> fle ll c -> fle c hh -> fltb ll hh = true ->
  is_finite (fwr_of hh ll c) = true /\ (RV c = RV hh -> RV (fwr_of hh ll c) = 0%R) /\ (RV c = RV ll -> RV (fwr_of hh ll c) = (-100)%R).
Proof.
  intros Mh Ml Mc A B L. pose proof Mh as [Fh _]. pose proof Ml as [Fl _]. pose proof Mc as [Fc _].
  rewrite fltb_fin in L by auto. revert L. case Rlt_bool_spec; [intros L _|discriminate].
  destruct (diff_fin hh c Mh Mc) as (F1 & E1 & _). destruct (diff_fin hh ll Mh Ml) as (F2 & E2 & _). pose proof (diff_pos hh ll Mh Ml L) as P.
  pose proof (fdiv_comes _ _ F1 F2 ltac:(lra)) as C. destruct m100_val as [Fm Vm].
  split; [|split].
  - destruct (wr_ranged hh ll c Fh Fl Fc A B) as [N|[G _]]; auto. exfalso.
    assert (is_nan (fwr_of hh ll c) = false); [|rewrite N in H; discriminate].
    unfold fwr_of. fold m100. apply fle_fin in A; auto. apply fle_fin in B; auto.
    assert (P1 : fle f0 (fsub hh c)) by (apply (fun H => comes_ge f0 _ _ eq_refl H (fsub_comes hh c Fh Fc)); change (RV f0) with 0%R; lra).
    assert (P2 : fle (fsub hh c) (fsub hh ll)) by (apply (fun H => comes_mono _ _ _ _ H (fsub_comes hh c Fh Fc) (fsub_comes hh ll Fh Fl)); lra).
    destruct (ratio _ _ P1 P2) as [R|[R _]]; [rewrite R in C; apply comes_nan in C; discriminate|].
    pose proof (fmul_comes m100 _ Fm R) as C2. apply comes_nan in C2. apply (fle_nan _ _ (fround4_mono _ _ (fle_refl _ C2))).
  - intro E. assert (Z : RV (fsub hh c) = 0%R) by (rewrite E1, E, Rminus_diag_eq, rnd_0 by reflexivity; reflexivity).
    rewrite Z in C. unfold Rdiv in C. rewrite Rmult_0_l in C. edestruct (fun H => comes_fin f0 f0 _ _ eq_refl eq_refl H C) as (G1 & G2 & _); [change (RV f0) with 0%R; lra|]. rewrite rnd_0 in G2.
    pose proof (fmul_comes m100 _ Fm G1) as C2. rewrite G2, Rmult_0_r in C2.
    edestruct (fun H => comes_fin f0 f0 _ _ eq_refl eq_refl H C2) as (G3 & G4 & _); [change (RV f0) with 0%R; lra|]. rewrite rnd_0 in G4.
    apply fround4_zero; auto.
  - intro E. assert (Z : RV (fsub hh c) = RV (fsub hh ll)) by (rewrite E1, E2, E; reflexivity).
    rewrite Z in C. unfold Rdiv in C. rewrite Rinv_r in C by lra. destruct fone_val as [F1' V1'].
    edestruct (fun H => comes_fin fone fone _ _ F1' F1' H C) as (G1 & G2 & _); [rewrite V1'; lra|]. rewrite rnd_1 in G2.
    pose proof (fmul_comes m100 _ Fm G1) as C2. rewrite G2, Rmult_1_r in C2.
    edestruct (fun H => comes_fin m100 m100 _ _ Fm Fm H C2) as (G3 & G4 & G5); [lra|].
    unfold fwr_of. fold m100. edestruct (fround4_between m100 m100 m100) with (1 := G3) as [R _]; [apply fle_fin; auto; lra|apply fle_fin; auto; lra|vm_compute; reflexivity|vm_compute; reflexivity|exact Fm|].
    rewrite R. exact Vm.
Qed.

(** ** %K of the stochastic oscillator *)
Definition khi : f64 := fz (100 * 2 ^ 40 + 1) (-40).
Definition klo : f64 := fz (100 * 2 ^ 40 - 1) (-40).
Lemma khi_val : is_finite khi = true /\ RV khi = (100 + bpow radix2 (-40))%R.
Proof.
  destruct (fz_val2 (100 * 2 ^ 40 + 1) (-40)) as [F V]; [lia|lia|]. split; [exact F|]. unfold khi. rewrite V, plus_IZR, mult_IZR.
  change (2 ^ 40)%Z with (Zpower radix2 40). rewrite IZR_Zpower by lia. rewrite Rmult_plus_distr_r, Rmult_assoc, <- bpow_plus. simpl (bpow _ (40 + -40)). simpl (IZR 1). lra.
Qed.
Lemma klo_val : is_finite klo = true /\ RV klo = (100 - bpow radix2 (-40))%R.
Proof.
  destruct (fz_val2 (100 * 2 ^ 40 - 1) (-40)) as [F V]; [lia|lia|]. split; [exact F|]. unfold klo. rewrite V, minus_IZR, mult_IZR.
  change (2 ^ 40)%Z with (Zpower radix2 40). rewrite IZR_Zpower by lia. unfold Rminus. rewrite Rmult_plus_distr_r, Rmult_assoc, <- bpow_plus. simpl (bpow _ (40 + -40)). simpl (IZR 1). lra.
Qed.
Lemma times100 x : is_finite x = true -> (Rabs (RV x) <= bpow radix2 1001)%R ->
  is_finite (fmul p100 x) = true /\ (Rabs (RV (fmul p100 x) - 100 * RV x) <= bpow radix2 (-53) * Rabs (100 * RV x))%R.
Proof.
  intros F B. destruct p100_val as [Fp Vp]. pose proof (fmul_comes p100 x Fp F) as C. rewrite Vp in C. pose proof (rnd_multiple 100 x) as R.
  unfold comes in C. revert C. rewrite Rlt_bool_true; [intros [G E]; split; [exact G|rewrite E; exact R]|].
  assert (S : (Rabs (100 * RV x) <= 100 * bpow radix2 1001)%R) by (rewrite Rabs_mult, (Rabs_pos_eq 100) by lra; lra).
  assert (T : (bpow radix2 (-53) <= 1)%R) by (change 1%R with (bpow radix2 0); apply bpow_le; lia).
  assert (U : (200 * bpow radix2 1001 < big)%R).
  { change 1024%Z with (8 + (1001 + 15))%Z. rewrite (bpow_plus radix2 8). change (bpow radix2 8) with 256%R. assert (bpow radix2 1001 <= bpow radix2 (1001 + 15))%R by (apply bpow_le; lia). pose proof (bpow_gt_0 radix2 1001). lra. }
  pose proof (Rabs_pos (100 * RV x)). replace (rnd (100 * RV x)) with ((rnd (100 * RV x) - 100 * RV x) + 100 * RV x)%R by ring.
  eapply Rle_lt_trans; [apply Rabs_triang|]. nra.
Qed.
Lemma so_full hh ll c : modest hh -> modest ll -> modest c -> fle ll c -> fle c hh -> fltb ll hh = true ->
  is_finite (fso_of hh ll c) = true /\ (0 <= RV (fso_of hh ll c) <= 100)%R /\ (RV c = RV ll -> RV (fso_of hh ll c) = 0%R) /\ (RV c = RV hh -> RV (fso_of hh ll c) = 100%R).
Proof.
  intros Mh Ml Mc A B L. pose proof Mh as [Fh _]. pose proof Ml as [Fl _]. pose proof Mc as [Fc _].
  rewrite fltb_fin in L by auto. revert L. case Rlt_bool_spec; [intros L _|discriminate].
  apply fle_fin in A; auto. apply fle_fin in B; auto.
  destruct (diff_fin c ll Mc Ml) as (F1 & E1 & B1). destruct (diff_fin hh ll Mh Ml) as (F2 & E2 & B2). pose proof (diff_pos hh ll Mh Ml L) as P.
  set (a := fsub c ll) in *. set (b := fsub hh ll) in *.
  assert (Pa : (0 <= RV a)%R) by (rewrite E1, <- rnd_0; apply rnd_le; lra).
  assert (Pab : (RV a <= RV b)%R) by (rewrite E1, E2; apply rnd_le; lra).
  destruct (times100 a F1 B1) as [F3 E3]. destruct p100_val as [Fp Vp].
  assert (P3 : (0 <= RV (fmul p100 a))%R).
  { pose proof (fmul_comes p100 a Fp F1) as C. rewrite Vp in C. apply (proj1 (fle_fin f0 _ eq_refl F3)). apply (fun H => comes_ge f0 _ _ eq_refl H C). change (RV f0) with 0%R. lra. }
  pose proof (fdiv_comes _ b F3 F2 ltac:(lra)) as C. destruct khi_val as [Fk Vk]. destruct klo_val as [Fk' Vk'].
  assert (U : (bpow radix2 (-53) * 100 <= bpow radix2 (-40))%R).
  { change (-40)%Z with (-53 + 13)%Z. rewrite bpow_plus. change (bpow radix2 13) with 8192%R. pose proof (bpow_gt_0 radix2 (-53)). lra. }
  set (u := bpow radix2 (-53)) in *. assert (U0 : (0 < u)%R) by apply bpow_gt_0.
  assert (HQ : (RV (fmul p100 a) <= (100 + bpow radix2 (-40)) * RV b)%R).
  { apply Rabs_le_inv in E3. rewrite Rabs_pos_eq in E3 by lra. apply Rle_trans with (100 * RV a + u * (100 * RV a))%R; [lra|].
    apply Rle_trans with (100 * RV b + u * (100 * RV b))%R; nra. }
  edestruct (fun H => comes_fin f0 khi _ _ eq_refl Fk H C) as (G1 & G2 & G3).
  { rewrite Vk. change (RV f0) with 0%R. split.
    - apply Rmult_le_pos; auto. apply Rlt_le, Rinv_0_lt_compat; auto.
    - apply Rmult_le_reg_r with (RV b); auto. unfold Rdiv. rewrite Rmult_assoc, Rinv_l by lra. lra. }
  assert (W1 : fle f0 (fso_of hh ll c)).
  { unfold fso_of. fold p100 a b. eapply fle_trans; [|apply (fround4_mono f0); apply fle_fin; [reflexivity|exact G1|exact (proj1 G3)]]. vm_compute; reflexivity. }
  assert (W2 : fle (fso_of hh ll c) p100).
  { unfold fso_of. fold p100 a b. eapply fle_trans; [apply fround4_mono; apply fle_fin; [exact G1|exact Fk|exact (proj2 G3)]|]. vm_compute; reflexivity. }
  assert (FF : is_finite (fso_of hh ll c) = true) by (apply (fle_finite f0 _ p100); auto).
  split; [exact FF|]. split; [|split].
  - apply fle_fin in W1; auto. apply fle_fin in W2; auto. rewrite Vp in W2. split; [exact W1|exact W2].
  - intro E. assert (Z : RV a = 0%R) by (rewrite E1, E, Rminus_diag_eq, rnd_0 by reflexivity; reflexivity).
    rewrite Z, Rmult_0_r, Rabs_R0, Rmult_0_r, Rminus_0_r in E3. assert (Z3 : RV (fmul p100 a) = 0%R) by (apply Rabs_le_inv in E3; lra).
    rewrite Z3 in G2. unfold Rdiv in G2. rewrite Rmult_0_l, rnd_0 in G2. unfold fso_of. fold p100 a b. apply fround4_zero; auto.
  - intro E. assert (Z : RV a = RV b) by (rewrite E1, E2, E; reflexivity).
    assert (HL : ((100 - bpow radix2 (-40)) * RV b <= RV (fmul p100 a))%R).
    { apply Rabs_le_inv in E3. rewrite Rabs_pos_eq in E3 by lra. rewrite Z in E3. nra. }
    assert (W3 : fle klo (fdiv (fmul p100 a) b)).
    { apply (fun H => comes_ge klo _ _ Fk' H C). rewrite Vk'. apply Rmult_le_reg_r with (RV b); auto. unfold Rdiv. rewrite Rmult_assoc, Rinv_l by lra. lra. }
    unfold fso_of. fold p100 a b. destruct (fround4_between klo khi p100 _ G1 W3) as [R _]; [apply fle_fin; auto; tauto|vm_compute; reflexivity|vm_compute; reflexivity|exact Fp|].
    rewrite R. exact Vp.
Qed.

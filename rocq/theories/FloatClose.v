(** * FloatClose: when the simulator in binary64 closes a position. *)
From Coq Require Import ZArith Reals Bool List PeanoNat Permutation Lia Lra.
From Flocq Require Import Core IEEE754.BinarySingleNaN.
From Verif Require Import Sim SimProofs FloatSim FloatFacts FloatExact.
Import ListNotations.
Open Scope list_scope.

Lemma finf_lt y : fltb (B754_infinity false) y = false.
Proof. destruct y as [|[]| |[]]; reflexivity. Qed.

Lemma fmul_lt f p q : is_finite f = true -> is_finite p = true -> is_finite q = true ->
  not_neg f -> not_neg p -> not_neg q -> fltb (fmul f p) (fmul f q) = true -> fltb p q = true.
Proof.
  intros Ff Fp Fq Nf Np Nq L.
  pose proof (proj1 (not_neg_fin f Ff) Nf) as Pf. pose proof (proj1 (not_neg_fin p Fp) Np) as Pp.
  pose proof (proj1 (not_neg_fin q Fq) Nq) as Pq.
  rewrite fltb_fin by auto. apply Rlt_bool_true. apply Rnot_le_lt. intro QP.
  enough (fltb (fmul f p) (fmul f q) = false) by congruence. clear L.
  pose proof (@Bmult_correct 53 1024 prec_pos prec_lt mode_NE f p) as H.
  fold (fmul f p) in H. cbn [round_mode] in H. rewrite Ff, Fp in H.
  assert (RV f * RV q <= RV f * RV p)%R as M by (apply Rmult_le_compat_l; auto).
  apply rnd_le in M.
  assert (0 <= rnd (RV f * RV q))%R as M0 by (rewrite <- rnd_0; apply rnd_le; apply Rmult_le_pos; auto).
  revert H. case Rlt_bool_spec; intros O H.
  - destruct H as [H1 [H2 _]].
    pose proof (@Bmult_correct 53 1024 prec_pos prec_lt mode_NE f q) as G.
    fold (fmul f q) in G. cbn [round_mode] in G. rewrite Ff, Fq in G.
    rewrite Rlt_bool_true in G.
    + destruct G as [G1 [G2 _]]. rewrite fltb_fin by auto. rewrite H1, G1. apply Rlt_bool_false. exact M.
    + rewrite Rabs_pos_eq in * by lra. lra.
  - cbn in H. apply SF_inf in H. rewrite H.
    assert (RV f * RV p <> 0)%R as NZ.
    { intro Z. rewrite Z, rnd_0, Rabs_R0 in O. pose proof (bpow_gt_0 radix2 1024). lra. }
    rewrite (neg_sign f), (neg_sign p); auto; try (intro Z; rewrite Z in NZ; apply NZ; ring).
    apply finf_lt.
Qed.

Section Close.
Variable npsum : list f64 -> f64.
Variable m : option f64.
Variable f : f64.

Definition fresh (p : f64) (s : fslot) : Prop :=
  s = fslot0 \/ s = mkFslot PLong SOpen p \/ s = mkFslot PShort SOpen (fmul f p).

Lemma fday_slots P D p sg : (D = [] -> P = []) ->
  exists sl, fst (fday npsum m f P D p sg) = map (fclose_slot f p) P ++ [sl] /\ fresh p sl.
Proof.
  intro H. unfold fresh. destruct D as [|r D].
  - rewrite H by auto. exists fslot0. split; [reflexivity|auto].
  - rewrite fday_ne by discriminate. unfold fday_next.
    destruct sg; try destruct (fover_limit _ _); cbn [fst]; eexists; (split; [reflexivity|auto]).
Qed.

(** the slot of day j after the days ds *)
Definition hit (p : f64) (s : fslot) : bool := flong_to_close p s || fshort_to_close f p s.
Definition reopened (s : fslot) : fslot := mkFslot (fs_pos s) SOpen (fs_exposure s).
Record story (ds : list (f64 * signal)) (j : nat) (s : fslot) : Prop := {
  st_kind : (fs_pos s = PNone /\ fs_status s = SNone) \/
            (fs_pos s = PLong /\ fs_exposure s = fst (nth j ds (fnan, Hold))) \/
            (fs_pos s = PShort /\ fs_exposure s = fmul f (fst (nth j ds (fnan, Hold))));
  st_open : fs_status s = SOpen -> forall k, (j < k < length ds)%nat -> hit (fst (nth k ds (fnan, Hold))) (reopened s) = false;
  st_closed : fs_status s = SClosed -> exists k, (j < k < length ds)%nat /\ hit (fst (nth k ds (fnan, Hold))) (reopened s) = true;
  st_none : fs_status s = SNone -> fs_pos s = PNone }.

Lemma fdays_len ds : length (fst (fdays npsum m f ds)) = length ds /\ length (snd (fdays npsum m f ds)) = length ds.
Proof.
  induction ds as [|x ds [I1 I2]] using rev_ind; [auto|]. unfold fdays. rewrite fold_left_app.
  fold (fdays npsum m f ds). cbn [fold_left].
  destruct (fday npsum m f (fst (fdays npsum m f ds)) (snd (fdays npsum m f ds)) (fst x) (snd x)) as [P D] eqn:E.
  apply fday_length in E; [|congruence]. rewrite app_length. simpl. lia.
Qed.

Lemma fdays_story ds j : (j < length ds)%nat -> story ds j (nth j (fst (fdays npsum m f ds)) fslot0).
Proof.
  induction ds as [|x ds IH] using rev_ind; [simpl; lia|]. intro Hj.
  destruct (fdays_len ds) as [L1 L2].
  unfold fdays. rewrite fold_left_app. fold (fdays npsum m f ds). cbn [fold_left].
  destruct (fday_slots (fst (fdays npsum m f ds)) (snd (fdays npsum m f ds)) (fst x) (snd x)) as [sl [-> FR]].
  { intro E. rewrite E in L2. simpl in L2. destruct (fst _); auto. simpl in L1. lia. }
  rewrite app_length in Hj. simpl in Hj.
  destruct (Nat.eq_dec j (length ds)) as [->|NJ].
  - rewrite app_nth2; rewrite map_length, L1; auto. rewrite Nat.sub_diag. simpl nth.
    assert (nth (length ds) (ds ++ [x]) (fnan, Hold) = x) as NX by (apply nth_snoc).
    destruct FR as [FR | [FR | FR] ]; subst sl; constructor; simpl; rewrite ?NX; auto; try discriminate;
      intros; rewrite app_length in *; simpl in *; lia.
  - assert (HJ : (j < length ds)%nat) by lia. specialize (IH HJ).
    rewrite app_nth1 by (rewrite map_length; lia).
    change fslot0 with (fclose_slot f (fst x) fslot0). rewrite map_nth.
    set (s := nth j (fst (fdays npsum m f ds)) fslot0) in *.
    assert (OLD : forall k, (k < length ds)%nat -> nth k (ds ++ [x]) (fnan, Hold) = nth k ds (fnan, Hold))
      by (intros; apply app_nth1; auto).
    assert (NEW : nth (length ds) (ds ++ [x]) (fnan, Hold) = x) by apply nth_snoc.
    destruct IH as [K O C N]. unfold fclose_slot. fold (hit (fst x) s).
    destruct (hit (fst x) s) eqn:H.
    + assert (fs_status s = SOpen) as SO.
      { unfold hit, flong_to_close, fshort_to_close, fis_open in H. destruct (fs_status s); auto; discriminate. }
      constructor; cbn [fs_pos fs_status fs_exposure]; try discriminate.
      * rewrite OLD by auto. destruct K as [ [_ K] | K]; [congruence|auto].
      * intros _. exists (length ds). rewrite app_length. simpl. split; [lia|]. rewrite NEW.
        replace (reopened _) with s; auto. unfold reopened; simpl. destruct s; simpl in *; congruence.
    + constructor; auto.
      * rewrite OLD by auto. exact K.
      * intros SO k Hk. rewrite app_length in Hk. simpl in Hk.
        destruct (Nat.eq_dec k (length ds)) as [->|NK].
        -- rewrite NEW. replace (reopened s) with s; auto. unfold reopened. destruct s; simpl in *; congruence.
        -- rewrite OLD by lia. apply O; auto. lia.
      * intro SC. destruct (C SC) as [k [Hk E]]. exists k. rewrite app_length. split; [simpl; lia|].
        rewrite OLD by lia. exact E.
Qed.
End Close.

Section Run.
Variable npsum : list f64 -> f64.
Variable c : list f64.
Variable m : option f64.
Variable f : f64.
Variable sgs : list signal.
Hypothesis len : (length sgs <= length c)%nat.
Notation slot_ j := (nth j (f_portfolio (fsimulate npsum c m f sgs)) fslot0).
Notation p_ j := (nth j c fnan).

Lemma run_story j : (j < length sgs)%nat -> story f (combine (firstn (length sgs) c) sgs) j (slot_ j).
Proof.
  intro Hj. unfold fsimulate, fsim_start.
  pose proof (frun_sim0 npsum c m f sgs len) as FR. cbv zeta in FR.
  unfold fsim0, fpad in FR. simpl app in FR. rewrite FR. clear FR. cbn [f_portfolio].
  set (ds := combine (firstn (length sgs) c) sgs).
  assert (LD : length ds = length sgs) by (unfold ds; rewrite combine_length, firstn_length; lia).
  destruct (fdays_len npsum m f ds) as [L1 _].
  rewrite app_nth1 by lia. apply fdays_story. lia.
Qed.
Lemma nth_pair k : (k < length sgs)%nat -> fst (nth k (combine (firstn (length sgs) c) sgs) (fnan, Hold)) = p_ k.
Proof.
  intro Hk. rewrite combine_nth by (rewrite firstn_length; lia). cbn [fst].
  rewrite <- (firstn_skipn (length sgs) c) at 2. rewrite app_nth1; auto. rewrite firstn_length; lia.
Qed.
Lemma pair_len : length (combine (firstn (length sgs) c) sgs) = length sgs.
Proof. rewrite combine_length, firstn_length. lia. Qed.

Lemma long_closed j : (j < length sgs)%nat -> fs_pos (slot_ j) = PLong ->
  (fs_status (slot_ j) = SClosed <-> exists k, (j < k < length sgs)%nat /\ fltb (p_ j) (p_ k) = true).
Proof.
  intros Hj PL. destruct (run_story j Hj) as [K O C N]. rewrite pair_len in *.
  destruct K as [ [K _] | [ [_ K] | [K _] ] ]; try congruence. rewrite nth_pair in K by auto.
  assert (H : forall p, hit f p (reopened (slot_ j)) = fltb (p_ j) p).
  { intro p. unfold hit, flong_to_close, fshort_to_close, reopened, fis_open, fis_long, fis_short. simpl. rewrite PL, K.
    simpl. apply orb_false_r. }
  split.
  - intro SC. destruct (C SC) as [k [Hk E]]. exists k. split; auto. rewrite nth_pair, H in E by lia. exact E.
  - intros [k [Hk E]]. destruct (fs_status (slot_ j)) eqn:S; auto.
    + rewrite N in PL by auto. discriminate.
    + exfalso. specialize (O eq_refl k Hk). rewrite nth_pair, H in O by lia. congruence.
Qed.

Lemma short_closed j : (j < length sgs)%nat -> fs_pos (slot_ j) = PShort ->
  is_finite f = true -> not_neg f -> (forall p, In p c -> is_finite p = true /\ not_neg p) ->
  fs_status (slot_ j) = SClosed -> exists k, (j < k < length sgs)%nat /\ fltb (p_ k) (p_ j) = true.
Proof.
  intros Hj PL Ff Nf PR SC. destruct (run_story j Hj) as [K O C N]. rewrite pair_len in *.
  destruct K as [ [K _] | [ [K _] | [_ K] ] ]; try congruence. rewrite nth_pair in K by auto.
  destruct (C SC) as [k [Hk E]]. exists k. split; auto. rewrite nth_pair in E by lia.
  unfold hit, flong_to_close, fshort_to_close, reopened, fis_open, fis_long, fis_short in E. simpl in E. rewrite PL, K in E.
  simpl in E. destruct (PR (p_ j)) as [Fj Nj]; [apply nth_In; lia|].
  destruct (PR (p_ k)) as [Fk Nk]; [apply nth_In; lia|].
  eapply fmul_lt; [exact Ff|..]; eauto.
Qed.
End Run.

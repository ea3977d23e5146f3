(** * MirrorAll: the table of MirrorSpec holds. *)
From Coq Require Import ZArith QArith Qcanon Bool List String PeanoNat Lia Sorted Permutation.
From Verif Require Import Num NumFacts RoundFacts Pandas Sim Frame FrameSpec FrameProofs Ind Signal Api IndSpec SeriesFacts Lengths Causal IndFacts Shape ApiSpec ApiCheck ApiProofs ApiLemmas RangeSpec Cells RangeFacts RangeMore Publish RangeApi ValueSpec ValueFacts ValueMore Recur ValueApi CumulApi.
From Verif Require Import FormulaSpec Starts Formula Formula2 Formula3 Formula4 Line Formula5 Formula6 FormulaApi FlatFacts IdentFacts SignalSpec MirrorSpec MirrorFacts MirrorApi MirrorApi2 MirrorApi3 MirrorSar.
Import ListNotations.
Open Scope list_scope. Open Scope string_scope. Open Scope Qc_scope.

Lemma faces_less m k n ob ob' a a' f : (k <= n)%nat -> faces m n ob ob' a a' f -> faces m k ob ob' a a' f.
Proof. intros K [X Y]. split; intros j J; [apply X|apply Y]; lia. Qed.
Lemma known_less x k n f : (k <= n)%nat -> known x n f -> known x k f.
Proof. intros K X j J. apply X. lia. Qed.

Section All.
  Variables (o : oracle) (raw raw' : rawframe) (b b' : bool) (ob ob' : obj) (m : Qc) (op h l cl v : nat -> Qc).
  Hypothesis W : wf_raw raw. Hypothesis W' : wf_raw raw'.
  Hypothesis E : even_ticks m.

  Lemma dpo_late p k o' raw'' b'' ob'' : wf_raw raw'' -> snd (construct o' (cDPO p) (RFrame raw'') (VBool b'')) = Ok ob'' ->
    (days_given ob'' <= k + S (nat_arg p / 2))%nat -> shown "dpo" ob'' k = NaN.
  Proof.
    intros W2 H K. destruct (dpo_published _ _ _ _ _ W2 H) as (f & V & Q). rewrite (view_days V) in K. unfold shown, cell_at. rewrite Q. apply nth_overflow. rewrite firstn_length. lia.
  Qed.
  Lemma mir_dpo_all p k : twice (cDPO p) o raw raw' b b' ob ob' -> days_given ob' = days_given ob -> faces m (days_given ob - 1) ob ob' "close" "close" cl -> (k < days_given ob)%nat ->
    shown "dpo" ob' k = nneg (shown "dpo" ob k).
  Proof.
    intros T D C K. destruct (Nat.lt_ge_cases (k + S (nat_arg p / 2)) (days_given ob)) as [G|G].
    - assert (C1 : faces m (k + S (nat_arg p / 2)) ob ob' "close" "close" cl) by (apply (faces_less m _ (days_given ob - 1)); [lia|exact C]).
      pose proof (mir_dpo o raw raw' b b' ob ob' m (k + S (nat_arg p / 2)) W W' cl p T (Nat.le_add_l _ _) C1) as Q.
      replace (k + S (nat_arg p / 2) - S (nat_arg p / 2))%nat with k in Q by lia. exact Q.
    - destruct T as [A B]. rewrite (dpo_late p k o raw b ob W A G), (dpo_late p k o raw' b' ob' W' B); [reflexivity|lia].
  Qed.

  Lemma mirrored c k : twice c o raw raw' b b' ob ob' -> turned_over c m ob ob' op h l cl v -> (k < days_given ob)%nat ->
    ordinary c (days_given ob) k op h l cl v -> forall name' name w, In (name', name, w) (mirror_table c) -> shown name' ob' k = follow w m (shown name ob k).
  Proof.
    intros T (D & O & H & L & C & V) K R name' name w I.
    assert (KK : (k <= days_given ob - 1)%nat) by lia. assert (JJ : forall j, (j <= k)%nat -> (j < days_given ob)%nat) by (intros; lia).
    assert (J1 : forall a j, (a <= j <= k)%nat -> (a <= j < days_given ob)%nat) by (intros; lia).
    destruct c; cbn [mirror_table] in I; try contradiction; cbn [required asked] in O, H, L, C, V; cbn [ordinary] in R.
    all: try (specialize (O ltac:(cbn; tauto)); pose proof (faces_less _ _ _ _ _ _ _ _ KK O) as O1); try (specialize (H ltac:(cbn; tauto)); pose proof (faces_less _ _ _ _ _ _ _ _ KK H) as H1);
         try (specialize (L ltac:(cbn; tauto)); pose proof (faces_less _ _ _ _ _ _ _ _ KK L) as L1); try (specialize (C ltac:(cbn; tauto)); pose proof (faces_less _ _ _ _ _ _ _ _ KK C) as C1);
         try (specialize (V ltac:(cbn; tauto)); assert (V1 : known (given "volume" ob) k v /\ known (given "volume" ob') k v) by (split; eapply known_less; try exact KK; apply V)).
    Ltac rw I := repeat (destruct I as [I|I]); try contradiction; injection I as <- <- <-; cbn [follow].
    - (* ADL *) rw I. exact (mir_adl o raw raw' b b' ob ob' m W W' D h l cl v k T K R (conj H (conj L C)) V).
    - rw I. exact (mir_atr o raw raw' b b' ob ob' m k W W' h l cl T R (conj H1 (conj L1 C1))).
    - rw I; apply (mir_bb o raw raw' b b' ob ob' m k W W' cl E period std_number T C1).
    - rw I. exact (mir_cmf o raw raw' b b' ob ob' m k W W' h l cl v period T (fun j J => R j (JJ j J)) (conj H1 (conj L1 C1)) V1).
    - rw I. exact (mir_co o raw raw' b b' ob ob' m W W' D h l cl v k T K (fun j J => conj (proj1 (R j J)) (proj1 (proj2 (R j J)))) (fun j J => proj2 (proj2 (R j J))) (conj H (conj L C)) V).
    - rw I. exact (mir_cmo o raw raw' b b' ob ob' m k W W' period cl T C1).
    - rw I. exact (mir_cci o raw raw' b b' ob ob' m k W W' h l cl period T H1 L1 C1).
    - rw I. exact (mir_dpo_all period k T D C K).
    - rw I.
      + apply (mir_di o raw raw' b b' ob ob' m k W W' h l cl T (fun j J => proj1 (R j (J1 _ _ J))) (conj H1 (conj L1 C1))).
      + apply (mir_di o raw raw' b b' ob ob' m k W W' h l cl T (fun j J => proj1 (R j (J1 _ _ J))) (conj H1 (conj L1 C1))).
      + apply (mir_adx o raw raw' b b' ob ob' m k W W' h l cl "dx" T ltac:(cbn; tauto) (fun j J => proj1 (R j (J1 _ _ J))) (fun j J => proj2 (R j (J1 _ _ J))) (conj H1 (conj L1 C1))).
      + apply (mir_adx o raw raw' b b' ob ob' m k W W' h l cl "adx" T ltac:(cbn; tauto) (fun j J => proj1 (R j (J1 _ _ J))) (fun j J => proj2 (R j (J1 _ _ J))) (conj H1 (conj L1 C1))).
      + apply (mir_adx o raw raw' b b' ob ob' m k W W' h l cl "adxr" T ltac:(cbn; tauto) (fun j J => proj1 (R j (J1 _ _ J))) (fun j J => proj2 (R j (J1 _ _ J))) (conj H1 (conj L1 C1))).
    - rw I. exact (mir_dema o raw raw' b b' ob ob' m k W W' cl E period T C1).
    - rw I; apply (mir_emv o raw raw' b b' ob ob' m k W W' h l v period T (fun j J => R j (JJ j J)) (conj H1 L1) V1).
    - rw I.
      + apply (mir_fib o raw raw' b b' ob ob' m W W' D cl "rl_0.0" (zq 0) "rl_100.0" k T E); [cbn; auto|right; right; right; right; right; left; f_equal; ring|exact K|exact C].
      + apply (mir_fib o raw raw' b b' ob ob' m W W' D cl "rl_38.2" (Q2Qc (382 # 1000)) "rl_61.8" k T E); [cbn; auto|right; right; right; right; left; f_equal; apply Qc_is_canon; reflexivity|exact K|exact C].
      + apply (mir_fib o raw raw' b b' ob ob' m W W' D cl "rl_50.0" (Q2Qc (1 # 2)) "rl_50.0" k T E); [cbn; auto|right; right; right; left; f_equal; apply Qc_is_canon; reflexivity|exact K|exact C].
      + apply (mir_fib o raw raw' b b' ob ob' m W W' D cl "rl_61.8" (Q2Qc (618 # 1000)) "rl_38.2" k T E); [cbn; auto 8|right; right; left; f_equal; apply Qc_is_canon; reflexivity|exact K|exact C].
      + apply (mir_fib o raw raw' b b' ob ob' m W W' D cl "rl_100.0" (zq 1) "rl_0.0" k T E); [cbn; auto 9|left; f_equal; apply Qc_is_canon; reflexivity|exact K|exact C].
    - rw I; (apply (mir_ich o raw raw' b b' ob ob' m k W W' h l E _ T); [cbn; tauto|exact (conj H1 L1)]).
    - rw I. exact (mir_imi o raw raw' b b' ob ob' m k W W' period op cl T O1 C1).
    - rw I. exact (mir_ko o raw raw' b b' ob ob' m k W W' h l cl v T (fun j J => proj1 (R j (J1 _ _ J))) (fun j J => proj2 (R j (J1 _ _ J))) (conj H1 (conj L1 C1)) V1).
    - rw I. exact (mir_lri o raw raw' b b' ob ob' m k W W' cl E period T C1).
    - rw I. exact (mir_lrs o raw raw' b b' ob ob' m k W W' cl period T R C1).
    - rw I. exact (mir_mfi o raw raw' b b' ob ob' m k W W' h l v T (conj H1 L1) V1).
    - rw I. exact (mir_mi o raw raw' b b' ob ob' m k W W' h l T (fun j J => R j (JJ j J)) (conj H1 L1)).
    - rw I. exact (mir_mp o raw raw' b b' ob ob' m k W W' h l E period T (conj H1 L1)).
    - destruct ma_type as [| | |t| |]; try contradiction. destruct (existsb (String.eqb t) _) eqn:X; [|contradiction]. apply existsb_exists in X. destruct X as (t' & X & Q). apply String.eqb_eq in Q. subst t'.
      rw I. repeat (destruct X as [<-|X]); [..|contradiction].
      + exact (mir_simple o raw raw' b b' ob ob' m k W W' cl E period T C1).
      + exact (mir_exponential o raw raw' b b' ob ob' m k W W' cl E period T C1).
      + exact (mir_triangular o raw raw' b b' ob ob' m k W W' cl E period T C1).
      + exact (mir_time_series o raw raw' b b' ob ob' m k W W' cl E period T R C1).
      + exact (mir_variable o raw raw' b b' ob ob' m k W W' cl E period T R C1).
    - rw I; apply (mir_macd o raw raw' b b' ob ob' m k W W' cl E T C1).
    - rw I. exact (mir_obv o raw raw' b b' ob ob' m k W W' cl v T C1 V1).
    - rw I. destruct R as [N R]. apply (mir_sar o raw raw' b b' ob ob' m k (days_given ob - 1) h l W W' T E); auto; lia.
    - rw I; apply (mir_pch o raw raw' b b' ob ob' m k W W' h l E period T (conj H1 L1)).
    - rw I; apply (mir_pb o raw raw' b b' ob ob' m k W W' h l E period T (conj H1 L1)).
    - rw I.
      + exact (mir_posc o raw raw' b b' ob ob' m k W W' h l cl E period T (conj H1 (conj L1 C1))).
      + exact (mir_trigger o raw raw' b b' ob ob' m k W W' h l cl E period T R (conj H1 (conj L1 C1))).
    - rw I. exact (mir_qstick o raw raw' b b' ob ob' m k W W' period op cl T O1 C1).
    - rw I. exact (mir_rsi o raw raw' b b' ob ob' m k W W' period cl T C1).
    - rw I. exact (mir_rvi o raw raw' b b' ob ob' m k W W' h l period T (conj H1 L1)).
    - rw I. exact (mir_sd o raw raw' b b' ob ob' m k W W' cl period T C1).
    - rw I. exact (mir_smi o raw raw' b b' ob ob' m k W W' h l cl _ _ _ T H1 L1 C1).
    - destruct d_method as [| | |t| |]; try contradiction. destruct (String.eqb t "simple") eqn:Q; [apply String.eqb_eq in Q; subst t|]; rw I.
      + exact (mir_so o raw raw' b b' ob ob' m k W W' h l cl _ _ _ _ T H1 L1 C1).
      + exact (mir_so_d o raw raw' b b' ob ob' m k W W' h l cl _ _ _ T R H1 L1 C1).
      + exact (mir_so o raw raw' b b' ob ob' m k W W' h l cl _ _ _ _ T H1 L1 C1).
    - rw I. exact (mir_swi o raw raw' b b' ob ob' m k W W' op h l cl T R O1 (conj H1 (conj L1 C1))).
    - rw I. exact (mir_tsf o raw raw' b b' ob ob' m k W W' cl E period T C1).
    - rw I. exact (mir_tema o raw raw' b b' ob ob' m k W W' cl E period T C1).
    - rw I. exact (mir_tp o raw raw' b b' ob ob' m k W W' h l cl E period T (conj H1 (conj L1 C1))).
    - rw I. exact (mir_uo o raw raw' b b' ob ob' m k W W' h l cl T R H1 L1 C1).
    - rw I. exact (mir_vhf o raw raw' b b' ob ob' m k W W' cl period T C1).
    - rw I. exact (mir_vch o raw raw' b b' ob ob' m k W W' h l _ _ T (conj H1 L1)).
    - rw I. exact (mir_wc o raw raw' b b' ob ob' m k W W' h l cl E T (conj H1 (conj L1 C1))).
    - rw I. exact (mir_ws o raw raw' b b' ob ob' m k W W' cl E period T C1).
    - rw I. exact (mir_wad o raw raw' b b' ob ob' m k W W' h l cl T (conj H1 (conj L1 C1))).
    - rw I. exact (mir_wr o raw raw' b b' ob ob' m k W W' h l cl period T H1 L1 C1).
  Qed.
End All.

(** * ValueApi: single values, for every object a constructor returns. *)
From Coq Require Import ZArith QArith Qcanon Bool List String PeanoNat Lia Sorted Permutation.
From Verif Require Import Num NumFacts RoundFacts Pandas Sim Frame FrameSpec FrameProofs Ind Signal Api IndSpec SeriesFacts Lengths Causal IndFacts Shape ApiSpec ApiCheck ApiProofs ApiLemmas RangeSpec Cells RangeFacts RangeMore Publish RangeApi ValueSpec ValueFacts ValueMore.
Import ListNotations.
Open Scope list_scope. Open Scope string_scope.

Lemma input_cols i f c : good_input i f -> In c (required i) -> col c (input_after i f) = col c f.
Proof.
  intros (R & WF & _) I.
  destruct i; cbn [input_after]; auto; apply col_add_other; auto; try (rewrite len_ewm; apply len_col; apply R; cbn; auto);
    cbn in I; intros ->; repeat destruct I as [I|I]; try discriminate I; auto.
Qed.
Lemma input_days i f : good_input i f -> List.length (rows (input_after i f)) = List.length (rows f).
Proof.
  intro G. pose proof (input_after_index i f G) as E. unfold index in E. apply (f_equal (@List.length Z)) in E. rewrite !map_length in E. exact E.
Qed.
Section Given.
  Context {o : oracle} {i : ind} {raw : rawframe} {b : bool} {ob : obj} {f : frame}.
  Hypothesis V : view o i raw b ob f.
  Lemma view_given c j : In c (required i) -> given c ob j = nth j (col c f) NaN.
  Proof. intro I. unfold given, cell_at. rewrite (v_input _ _ _ _ _ _ V), input_cols; auto. apply V. Qed.
  Lemma view_days : days_given ob = List.length (rows f).
  Proof. unfold days_given. rewrite (v_input _ _ _ _ _ _ V). apply input_days. apply V. Qed.
  Lemma view_givens c : In c (required i) -> forall P : (nat -> num) -> Prop, (forall x y, (forall j, x j = y j) -> P x -> P y) ->
    P (fun j => nth j (col c f) NaN) -> P (given c ob).
  Proof. intros I P H X. eapply H; [|exact X]. intro j. symmetry. apply view_given; auto. Qed.
End Given.

(** the statements only look at the cells *)
Lemma win_same x y p k g : (forall j, x j = y j) -> win x p k g -> win y p k g.
Proof. intros E [A B]. split; auto. intros j J. rewrite <- E. auto. Qed.
Lemma rolled_same x y p k v g : (forall j, x j = y j) -> rolled x p k v g -> rolled y p k v g.
Proof.
  intros E [A B]. split.
  - intros f W. apply A. apply (win_same y x); auto.
  - intro N. apply B. intros f W. apply (N f). apply (win_same x y); auto.
Qed.
Lemma highest_same x y a b M : (forall j, x j = y j) -> highest x a b M -> highest y a b M.
Proof. intros E [(j & J & X) B]. split; [exists j; rewrite <- E; auto|]. intros i q I X'. rewrite <- E in X'. eauto. Qed.
Lemma lowest_same x y a b M : (forall j, x j = y j) -> lowest x a b M -> lowest y a b M.
Proof. intros E [(j & J & X) B]. split; [exists j; rewrite <- E; auto|]. intros i q I X'. rewrite <- E in X'. eauto. Qed.
Lemma none_same x y a b : (forall j, x j = y j) -> none_finite x a b -> none_finite y a b.
Proof. intros E H j J. rewrite <- E. auto. Qed.
Lemma midpoint_same x y x' y' a b v : (forall j, x j = x' j) -> (forall j, y j = y' j) -> midpoint x y a b v -> midpoint x' y' a b v.
Proof.
  intros E E' [(M & m & A & B & C)|([A|A] & C)].
  - left. exists M, m. split; [eapply highest_same; eauto|]. split; [eapply lowest_same; eauto|auto].
  - right. split; auto. left. eapply none_same; eauto.
  - right. split; auto. right. eapply none_same; eauto.
Qed.
Ltac sees V := intro; symmetry; apply (view_given V); req.


Lemma construct_params o c v fill ob : snd (construct o c v fill) = Ok ob -> params_ok c.
Proof. intro H. apply construct_inv in H as (i & _ & _ & _ & CK & _). apply check_accepts. eauto. Qed.

Section Values.
  Variables (o : oracle) (raw : rawframe) (b : bool) (ob : obj).
  Hypothesis W : wf_raw raw.
  Notation constructed c := (snd (construct o c (RFrame raw) (VBool b)) = Ok ob).

  (** Bollinger bands *)
  Lemma bb_shown_values p w k : constructed (cBB p w) ->
    rolled (given "close" ob) (nat_arg p) k (shown "middle_band" ob k) (fun x => Fin (r4 (mean x (nat_arg p)))) /\
    rolled (given "close" ob) (nat_arg p) k (shown "upper_band" ob k)
      (fun x => nround 4 (nadd (Fin (r4 (mean x (nat_arg p)))) (nmul (Fin (o_sqrt o (variance x (nat_arg p)))) (as_number w)))) /\
    rolled (given "close" ob) (nat_arg p) k (shown "lower_band" ob k)
      (fun x => nround 4 (nsub (Fin (r4 (mean x (nat_arg p)))) (nmul (Fin (o_sqrt o (variance x (nat_arg p)))) (as_number w)))).
  Proof.
    intro H. look f V VV. unfold shown. split; [|split]; shown V; (eapply rolled_same; [sees V|]);
      [apply bb_middle_rolled|apply bb_upper_rolled|apply bb_lower_rolled]; auto.
  Qed.
  Lemma bb_shown_order p w k : constructed (cBB p w) -> good_sqrt o ->
    present_le (shown "lower_band" ob k) (shown "middle_band" ob k) /\ present_le (shown "middle_band" ob k) (shown "upper_band" ob k).
  Proof.
    intros H G. look f V VV. unfold shown. do 3 (shown V). apply bb_ordered; auto.
    destruct (construct_params _ _ _ _ _ H (mkParam "std_number" (is_number w) (nltb (F 0) (as_number w)))) as [_ A]; [cbn; auto|exact A].
  Qed.
  Lemma bb_shown_symmetric p w k u m l : constructed (cBB p w) -> shown "upper_band" ob k = Fin u ->
    shown "middle_band" ob k = Fin m -> shown "lower_band" ob k = Fin l -> (u - m = m - l)%Qc.
  Proof.
    intros H. look f V VV. unfold shown. do 3 (shown V). apply bb_symmetric. auto.
  Qed.
  (** Envelopes *)
  Lemma env_shown_values p w k : constructed (cENV p w) ->
    rolled (given "close" ob) (nat_arg p) k (shown "upper_band" ob k) (fun x => nround 4 (nmul (nadd (F 1) (as_number w)) (Fin (mean x (nat_arg p))))) /\
    rolled (given "close" ob) (nat_arg p) k (shown "lower_band" ob k) (fun x => nround 4 (nmul (nsub (F 1) (as_number w)) (Fin (mean x (nat_arg p))))).
  Proof.
    intro H. look f V VV. unfold shown. split; shown V; (eapply rolled_same; [sees V|]); apply env_rolled; auto.
  Qed.
  Lemma env_shown_order p w k : constructed (cENV p w) -> (forall j, present_le (F 0) (given "close" ob j)) ->
    present_le (shown "lower_band" ob k) (shown "upper_band" ob k).
  Proof.
    intros H NN. look f V VV. unfold shown. do 2 (shown V).
    destruct (construct_params _ _ _ _ _ H (mkParam "shift" (is_float w) (nltb (F 0) (as_number w) && nltb (as_number w) (F 1)))) as [_ A]; [cbn; auto|].
    cbn [p_range] in A. apply andb_true_iff in A as [A B]. destruct (pos_cases _ A) as [E|(a & E & PA)]; rewrite E in *; [discriminate B|].
    apply env_ordered; auto. intro j. rewrite <- (view_given V "close") by req. apply NN.
  Qed.
  (** averages *)
  Lemma ma_shown_between p t k lo hi : constructed (cMA p (VStr t)) -> In t ["simple"; "exponential"; "triangular"; "variable"] ->
    seen_between (given "close" ob) k lo hi -> between (r4 lo) (r4 hi) (shown ("ma-" ++ t)%string ob k).
  Proof.
    intros H T S0. look f V VV.
    assert (SB : Forall (between lo hi) (firstn (S k) (col "close" f))).
    { apply seen_firstn. intros j J. rewrite <- (view_given V "close") by req. apply S0. exact J. }
    assert (R : forall s, nth k s NaN = nth k (firstn (S k) s) NaN) by (intro s; rewrite nth_firstn by lia; reflexivity).
    assert (FN : forall x, Forall (between lo hi) x -> between (r4 lo) (r4 hi) (nth k (sround 4 x) NaN)).
    { intros x X. rewrite nth_sround. apply between_round. apply (Forall_nth_NaN (between lo hi)); auto. }
    cbn [In] in T. unfold shown. destruct T as [<-|[<-|[<-|[<-|[]]]]]; cbn [append] in *;
      (erewrite (view_cell V) by reflexivity); cbv beta iota zeta; rewrite R; rewrite <- ma_firstn; apply FN.
    - apply roll_mean_between; auto.
    - apply ewm_between'; auto.
    - apply roll_mean_between; auto. apply roll_mean_between; auto.
    - apply ma_variable_between; auto. apply Forall_of_nth. intros j J. apply cmo_range.
  Qed.
  Lemma ws_shown_between p k lo hi : constructed (cWS p) ->
    seen_between (given "close" ob) k lo hi -> between (r4 lo) (r4 hi) (shown "ws" ob k).
  Proof.
    intros H S0. look f V VV.
    assert (SB : Forall (between lo hi) (firstn (S k) (col "close" f))).
    { apply seen_firstn. intros j J. rewrite <- (view_given V "close") by req. apply S0. exact J. }
    unfold shown. shown V. rewrite (at_firstn (ws (nat_arg p))) by (intro; apply ws_firstn; auto).
    apply (Forall_nth_NaN (between (r4 lo) (r4 hi))); [left; reflexivity|]. apply ws_between; auto.
  Qed.
  (** price channel and Ichimoku *)
  Lemma pch_shown_high p k : constructed (cPCH p) -> (k < days_given ob)%nat ->
    (exists M, (nat_arg p <= k)%nat /\ full (given "high" ob) (k - nat_arg p) (k - 1) /\
       highest (given "high" ob) (k - nat_arg p) (k - 1) M /\ shown "highest_high" ob k = Fin (r4 M)) \/
    (((k < nat_arg p)%nat \/ gap (given "high" ob) (k - nat_arg p) (k - 1)) /\ shown "highest_high" ob k = NaN).
  Proof.
    intros H L. look f V VV. set (P := nat_arg p) in *. rewrite (view_days V) in L. unfold shown. shown V. unfold pch_high. rewrite nth_sround.
    assert (LH : List.length (col "high" f) = List.length (rows f)) by (rewrite (view_length V); auto; req).
    rewrite (c_shift 1 _ k (List.length (rows f))) by lens. destruct (Nat.ltb_spec k 1) as [K|K].
    - right. split; auto. left. lia.
    - destruct (roll_max_full P (col "high" f) (k - 1) VV ltac:(lia)) as [(M & A & B & C & E)|(A & E)]; rewrite E.
      + left. exists M. split; [lia|]. replace (S (k - 1) - P)%nat with (k - P)%nat in * by lia. split; [|split].
        * intros j J. rewrite (view_given V) by req. auto.
        * eapply highest_same; [sees V|exact C].
        * reflexivity.
      + right. replace (S (k - 1) - P)%nat with (k - P)%nat in * by lia. split; auto. destruct A as [A|(j & J & A)]; [left; lia|right].
        exists j. split; auto. rewrite (view_given V) by req. auto.
  Qed.
  Lemma pch_shown_low p k : constructed (cPCH p) -> (k < days_given ob)%nat ->
    (exists M, (nat_arg p <= k)%nat /\ full (given "low" ob) (k - nat_arg p) (k - 1) /\
       lowest (given "low" ob) (k - nat_arg p) (k - 1) M /\ shown "lowest_low" ob k = Fin (r4 M)) \/
    (((k < nat_arg p)%nat \/ gap (given "low" ob) (k - nat_arg p) (k - 1)) /\ shown "lowest_low" ob k = NaN).
  Proof.
    intros H L. look f V VV. set (P := nat_arg p) in *. rewrite (view_days V) in L. unfold shown. shown V. unfold pch_low. rewrite nth_sround.
    assert (LH : List.length (col "low" f) = List.length (rows f)) by (rewrite (view_length V); auto; req).
    rewrite (c_shift 1 _ k (List.length (rows f))) by lens. destruct (Nat.ltb_spec k 1) as [K|K].
    - right. split; auto. left. lia.
    - destruct (roll_min_full P (col "low" f) (k - 1) VV ltac:(lia)) as [(M & A & B & C & E)|(A & E)]; rewrite E.
      + left. exists M. split; [lia|]. replace (S (k - 1) - P)%nat with (k - P)%nat in * by lia. split; [|split].
        * intros j J. rewrite (view_given V) by req. auto.
        * eapply lowest_same; [sees V|exact C].
        * reflexivity.
      + right. replace (S (k - 1) - P)%nat with (k - P)%nat in * by lia. split; auto. destruct A as [A|(j & J & A)]; [left; lia|right].
        exists j. split; auto. rewrite (view_given V) by req. auto.
  Qed.
  Lemma ich_shown_lines k : constructed cICH -> (k < days_given ob)%nat ->
    (exists v, midpoint (given "high" ob) (given "low" ob) (k - 8) k v /\ shown "tenkan_sen" ob k = nround 4 v) /\
    (exists v, midpoint (given "high" ob) (given "low" ob) (k - 25) k v /\ shown "kijun_sen" ob k = nround 4 v).
  Proof.
    intros H L. look f V VV. rewrite (view_days V) in L.
    assert (LH : List.length (col "high" f) = List.length (rows f)) by (rewrite (view_length V); auto; req).
    assert (LL : List.length (col "low" f) = List.length (rows f)) by (rewrite (view_length V); auto; req).
    split; unfold shown; shown V; eexists; (split; [|unfold ich_tenkan, ich_kijun; apply nth_sround]);
      (eapply midpoint_same; [sees V|sees V|]).
    - apply (ich_mid_midpoint 9); lia.
    - apply (ich_mid_midpoint 26); lia.
  Qed.
  Lemma ich_shown_cloud k : constructed cICH -> (k < days_given ob)%nat ->
    ((k < 26)%nat -> shown "senkou_a" ob k = NaN /\ shown "senkou_b" ob k = NaN) /\
    ((26 <= k)%nat ->
      (exists v w, midpoint (given "high" ob) (given "low" ob) (k - 26 - 8) (k - 26) v /\
         midpoint (given "high" ob) (given "low" ob) (k - 26 - 25) (k - 26) w /\
         shown "senkou_a" ob k = nround 4 (ndiv (nadd v w) (F 2))) /\
      (exists v, midpoint (given "high" ob) (given "low" ob) (k - 26 - 51) (k - 26) v /\ shown "senkou_b" ob k = nround 4 v)).
  Proof.
    intros H L. look f V VV. rewrite (view_days V) in L.
    assert (LH : List.length (col "high" f) = List.length (rows f)) by (rewrite (view_length V); auto; req).
    assert (LL : List.length (col "low" f) = List.length (rows f)) by (rewrite (view_length V); auto; req).
    unfold shown. do 2 (shown V). unfold ich_senkou_a, ich_senkou_b. rewrite !nth_sround.
    rewrite (c_shift 26 (sdivc _ _) k (List.length (rows f))), (c_shift 26 (ich_mid 52 _ _) k (List.length (rows f))) by lens.
    split; intro K; destruct (Nat.ltb_spec k 26) as [X|X]; try lia; [split; reflexivity|].
    assert (L' : (k - 26 < List.length (rows f))%nat) by lia. split.
    - exists (nth (k - 26) (ich_mid 9 (col "high" f) (col "low" f)) NaN), (nth (k - 26) (ich_mid 26 (col "high" f) (col "low" f)) NaN).
      split; [|split].
      + eapply midpoint_same; [sees V|sees V|]. apply (ich_mid_midpoint 9); lia.
      + eapply midpoint_same; [sees V|sees V|]. apply (ich_mid_midpoint 26); lia.
      + f_equal. unfold sdivc, sadd. cell. reflexivity.
    - eexists. split; [|reflexivity]. eapply midpoint_same; [sees V|sees V|]. apply (ich_mid_midpoint 52); lia.
  Qed.
  (** Fibonacci retracement *)
  Lemma fib_column name c f k : view o iFIB raw b ob f -> In (name, c) levels -> shown name ob k = nth k (fib_level (Fin c) (col "close" f)) NaN.
  Proof.
    intros V I. unfold shown. cbn [In levels] in I.
    repeat destruct I as [I|I]; try contradiction; injection I as <- <-; (erewrite (view_cell V) by reflexivity); reflexivity.
  Qed.
  Lemma fib_shown_constant name c k k' : constructed cFIB -> In (name, c) levels -> (k < days_given ob)%nat -> (k' < days_given ob)%nat ->
    shown name ob k = shown name ob k'.
  Proof.
    intros H I K K'. look f V VV. rewrite (view_days V) in K, K'. rewrite <- (view_length V "close") in K, K' by req.
    rewrite !(fib_column _ _ _ _ V I), !fib_cell by auto. reflexivity.
  Qed.
  Lemma fib_shown_order n1 c1 n2 c2 k : constructed cFIB -> In (n1, c1) levels -> In (n2, c2) levels -> (c1 <= c2)%Qc ->
    present_le (shown n2 ob k) (shown n1 ob k).
  Proof.
    intros H I1 I2 C. look f V VV. rewrite (fib_column _ _ _ k V I1), (fib_column _ _ _ k V I2). apply fib_ordered; auto.
    cbn [In levels] in I1. clear - I1. repeat destruct I1 as [I1|I1]; try contradiction; injection I1 as _ <-; discriminate.
  Qed.
  Lemma fib_shown_values : constructed cFIB -> (forall j, given "close" ob j = NaN \/ isfin (given "close" ob j) = true) ->
    (exists M m, highest (given "close" ob) 0 (days_given ob - 1) M /\ lowest (given "close" ob) 0 (days_given ob - 1) m /\
       forall name c k, In (name, c) levels -> (k < days_given ob)%nat -> shown name ob k = Fin (r4 (M - c * (M - m))%Qc)) \/
    (none_finite (given "close" ob) 0 (days_given ob - 1) /\
       forall name c k, In (name, c) levels -> (k < days_given ob)%nat -> shown name ob k = NaN).
  Proof.
    intros H NI. look f V VV. rewrite (view_days V), <- (view_length V "close") by req.
    destruct (fib_values (col "close" f)) as [(M & m & A & B & C)|(A & C)].
    - intros x X. apply (In_nth _ _ NaN) in X as (j & J & <-). rewrite <- (view_given V "close") by req. auto.
    - left. exists M, m. split; [eapply highest_same; [sees V|exact A]|]. split; [eapply lowest_same; [sees V|exact B]|].
      intros name c k I K. rewrite (fib_column _ _ _ k V I). auto.
    - right. split; [eapply none_same; [sees V|exact A]|]. intros name c k I K. rewrite (fib_column _ _ _ k V I). auto.
  Qed.
  (** the day's average prices *)
  Lemma mp_shown p k h l : constructed (cMP p) -> given "high" ob k = Fin h -> given "low" ob k = Fin l ->
    shown "mp" ob k = Fin (r4 ((h + l) / zq 2)%Qc).
  Proof.
    intros H A B. look f V VV. rewrite (view_given V) in A, B by req. unfold shown. shown V. apply mp_cell; collen V; auto.
  Qed.
  Lemma tp_shown p k h l c : constructed (cTP p) -> given "high" ob k = Fin h -> given "low" ob k = Fin l -> given "close" ob k = Fin c ->
    shown "tp" ob k = Fin (r4 ((h + l + c) / zq 3)%Qc).
  Proof.
    intros H A B C. look f V VV. rewrite (view_given V) in A by req. rewrite (view_given V) in B by req. rewrite (view_given V) in C by req.
    unfold shown. shown V. apply (tp_cell _ _ _ _ _ _ _ (List.length (rows f))); auto; apply (view_length V); req.
  Qed.
  Lemma wc_shown k h l c : constructed cWC -> given "high" ob k = Fin h -> given "low" ob k = Fin l -> given "close" ob k = Fin c ->
    shown "wc" ob k = Fin (r4 ((zq 2 * c + h + l) / zq 4)%Qc).
  Proof.
    intros H A B C. look f V VV. rewrite (view_given V) in A by req. rewrite (view_given V) in B by req. rewrite (view_given V) in C by req.
    unfold shown. shown V. apply (wc_cell _ _ _ _ _ _ _ (List.length (rows f))); auto; apply (view_length V); req.
  Qed.
  (** momentum and rate of change *)
  Lemma mom_shown p k a c : constructed (cMOM p) -> given "close" ob k = Fin a -> (nat_arg p <= k)%nat -> given "close" ob (k - nat_arg p) = Fin c ->
    shown "mom" ob k = nround 4 (ndiv (Fin (zq 100 * a)) (Fin c)).
  Proof.
    intros H A P C. look f V VV. rewrite (view_given V) in A by req. rewrite (view_given V) in C by req. unfold shown. shown V. apply (mom_cell _ _ _ a c); auto.
  Qed.
  Lemma prc_shown p k a c : constructed (cPRC p) -> given "close" ob k = Fin a -> (nat_arg p <= k)%nat -> given "close" ob (k - nat_arg p) = Fin c ->
    shown "prc" ob k = nround 4 (ndiv (Fin (zq 100 * (a - c))) (Fin c)).
  Proof.
    intros H A P C. look f V VV. rewrite (view_given V) in A by req. rewrite (view_given V) in C by req. unfold shown. shown V. apply (mom_cell _ _ _ a c); auto.
  Qed.
  Lemma mom_shown_early p k : constructed (cMOM p) -> (k < nat_arg p)%nat -> shown "mom" ob k = NaN.
  Proof. intros H K. look f V VV. unfold shown. shown V. apply mom_early. auto. Qed.
  Lemma prc_shown_early p k : constructed (cPRC p) -> (k < nat_arg p)%nat -> shown "prc" ob k = NaN.
  Proof. intros H K. look f V VV. unfold shown. shown V. apply mom_early. auto. Qed.
End Values.

Lemma mom_prc_shown o raw b ob ob' p k m q : wf_raw raw -> snd (construct o (cMOM p) (RFrame raw) (VBool b)) = Ok ob ->
  snd (construct o (cPRC p) (RFrame raw) (VBool b)) = Ok ob' -> shown "mom" ob k = Fin m -> shown "prc" ob' k = Fin q -> (m - q = zq 100)%Qc.
Proof.
  intros W H H'. destruct (construct_view _ _ _ _ _ W H) as (f & V). destruct (construct_view _ _ _ _ _ W H') as (f' & V').
  cbn [asked] in V, V'. assert (E : f = f').
  { pose proof (v_val _ _ _ _ _ _ V) as A. pose proof (v_val _ _ _ _ _ _ V') as B. cbn [required] in A, B. rewrite A in B. injection B as ->. reflexivity. }
  subst f'. unfold shown. erewrite (view_cell V "mom") by reflexivity. erewrite (view_cell V' "prc") by reflexivity. apply mom_prc.
Qed.
Lemma avg_bounds l h c : (l <= c)%Qc -> (c <= h)%Qc ->
  between (r4 l) (r4 h) (Fin (r4 ((h + l) / zq 2))) /\ between (r4 l) (r4 h) (Fin (r4 ((h + l + c) / zq 3))) /\
  between (r4 l) (r4 h) (Fin (r4 ((zq 2 * c + h + l) / zq 4))).
Proof.
  intros A B. assert (G : forall q, (l <= q)%Qc -> (q <= h)%Qc -> between (r4 l) (r4 h) (Fin (r4 q))).
  { intros q X Y. right. exists (r4 q). repeat split; apply qround_mono; auto. }
  repeat split; apply G; unfold zq; (apply qcle_div; [reflexivity|]) || (apply qcdiv_le; [reflexivity|]); qlra.
Qed.
Section Ranges2.
  Variables (o : oracle) (raw : rawframe) (b : bool) (ob : obj).
  Hypothesis W : wf_raw raw.
  Notation constructed c := (snd (construct o c (RFrame raw) (VBool b)) = Ok ob).
  Lemma mp_shown_range p k h l : constructed (cMP p) -> given "high" ob k = Fin h -> given "low" ob k = Fin l -> (l <= h)%Qc ->
    shown "mp" ob k = Fin (r4 ((h + l) / zq 2)%Qc) /\ between (r4 l) (r4 h) (shown "mp" ob k).
  Proof. intros H A B L. rewrite (mp_shown _ _ _ _ W p k h l H A B). split; [reflexivity|]. apply (avg_bounds l h l); auto. apply Qcle_refl. Qed.
  Lemma tp_shown_range p k h l c : constructed (cTP p) -> given "high" ob k = Fin h -> given "low" ob k = Fin l -> given "close" ob k = Fin c ->
    (l <= c)%Qc -> (c <= h)%Qc -> shown "tp" ob k = Fin (r4 ((h + l + c) / zq 3)%Qc) /\ between (r4 l) (r4 h) (shown "tp" ob k).
  Proof. intros H A B C L L'. rewrite (tp_shown _ _ _ _ W p k h l c H A B C). split; [reflexivity|]. apply (avg_bounds l h c); auto. Qed.
  Lemma wc_shown_range k h l c : constructed cWC -> given "high" ob k = Fin h -> given "low" ob k = Fin l -> given "close" ob k = Fin c ->
    (l <= c)%Qc -> (c <= h)%Qc -> shown "wc" ob k = Fin (r4 ((zq 2 * c + h + l) / zq 4)%Qc) /\ between (r4 l) (r4 h) (shown "wc" ob k).
  Proof. intros H A B C L L'. rewrite (wc_shown _ _ _ _ W k h l c H A B C). split; [reflexivity|]. apply (avg_bounds l h c); auto. Qed.
  Lemma mom_shown_values p k : constructed (cMOM p) -> ((k < nat_arg p)%nat -> shown "mom" ob k = NaN) /\
    forall a c, (nat_arg p <= k)%nat -> given "close" ob k = Fin a -> given "close" ob (k - nat_arg p) = Fin c ->
    shown "mom" ob k = nround 4 (ndiv (Fin (zq 100 * a)) (Fin c)).
  Proof. intro H. split; [apply (mom_shown_early _ _ _ _ W p k H)|]. intros. eapply mom_shown; eauto. Qed.
  Lemma prc_shown_values p k : constructed (cPRC p) -> ((k < nat_arg p)%nat -> shown "prc" ob k = NaN) /\
    forall a c, (nat_arg p <= k)%nat -> given "close" ob k = Fin a -> given "close" ob (k - nat_arg p) = Fin c ->
    shown "prc" ob k = nround 4 (ndiv (Fin (zq 100 * (a - c))) (Fin c)).
  Proof. intro H. split; [apply (prc_shown_early _ _ _ _ W p k H)|]. intros. eapply prc_shown; eauto. Qed.
End Ranges2.

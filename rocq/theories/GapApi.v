(** * GapApi: missing prices, for every object a constructor returns. *)
From Coq Require Import ZArith QArith Qcanon Bool List String PeanoNat Lia.
From Verif Require Import Num NumFacts RoundFacts Pandas Sim Frame FrameSpec FrameProofs Ind Signal Api IndSpec SeriesFacts Lengths Causal IndFacts Shape ApiSpec ApiCheck ApiProofs ApiLemmas RangeSpec Cells RangeFacts RangeMore Publish RangeApi ValueSpec ValueApi Recur.
From Verif Require Import GapSpec GapFacts.
Import ListNotations.
Open Scope list_scope. Open Scope string_scope.

Ltac strict := first [ intros; reflexivity | intros; apply nmul_nan | intros []; reflexivity | intros [] []; reflexivity ].
Ltac gp :=
  multimatch goal with
  | G : gaps ?s ?a ?z |- gaps ?s _ _ => exact G
  | |- gaps (smap _ _) _ _ => eapply g_map; [strict|gp]
  | |- gaps (assign (map _ ?t) _ _) _ _ => eapply g_assign; [strict|gp|gp]
  | |- gaps (szip nsub ?s (shift 1 ?s)) _ _ => eapply g_diff; [|gp]
  | |- gaps (szip _ _ _) _ _ => (eapply g_zl; [strict|gp]) + (eapply g_zr; [strict|gp])
  | |- gaps (szip3 _ _ _ _) _ _ => (eapply g_3a; [strict|gp]) + (eapply g_3b; [strict|gp]) + (eapply g_3c; [strict|gp])
  | |- gaps (shift _ _) _ _ => eapply g_shift; gp
  | |- gaps (from_row _ _) _ _ => eapply g_from_row; gp
  | |- gaps (rolling _ _ _ _) _ _ => eapply g_roll; [| |gp]
  | |- gaps (cumsum_from _ _) _ _ => eapply g_cumsum; gp
  | |- gaps (astype_int _) _ _ => eapply g_astype; gp
  end.
Ltac plain := unfold adl_of, adl, bb_upper, bb_lower, bb_middle, cmf, money_flow, cmo, emv, emv_ma, emv_raw, env_upper, env_lower, fosc, imi, lrs, mfi, mp, mom, ma,
  prf, pch_high, pch_low, price_osc, prc, proj, proj_raw, qstick, sd, so_d, so_k, swi, uo, uo_ratio, uo_high, uo_low, vhf, vosc, vrc, wc, wad, wr,
  cumsum, roll_sum, roll_mean, roll_max, roll_min, roll_std, roll_wmean, drop_neg, drop_pos, sdiff, row2, row3, sround, scale, sdivc, saddc, sabs, sadd, ssub, smul, sdiv.
Ltac close_gap := eapply gap_of; [gp|..]; lia.
Lemma row_two {A} (x y : A) (P : A -> Prop) : P x -> P y -> forall z, In z [x; y] -> P z.
Proof. intros X Y z [<-|[<-|[]]]; auto. Qed.

Lemma uses_gap o i f name s price days d k : valid i -> lookup name (ti_cols o i f) = Some s ->
  In (name, price, days) (uses i) -> In d days -> (d <= k)%nat ->
  nth (k - d) (col price f) NaN = NaN -> nth k s NaN = NaN.
Proof.
  intros V L U D DK G. apply gap_one in G.
  destruct i; cbn [valid] in V; cbn in L, U; try (destruct U; fail);
  repeat match goal with
  | U : False |- _ => destruct U
  | U : _ \/ _ |- _ => destruct U
  | U : In _ (match ?t with _ => _ end) |- _ => destruct t; cbn in U
  | U : (_, _, _) = (_, _, _) |- _ => injection U as <- <- <-
  end; cbn in L; try (injection L as <-).
  all: repeat match type of D with In _ (seq _ _) => apply in_seq in D | In _ (_ :: _) => destruct D as [<-|D] | In _ [] => destruct D end.
  all: repeat match goal with m : d_method |- _ => destruct m end.
  all: plain; try (match goal with |- context [map (nround 4) ?s] => change (map (nround 4) s) with (smap (nround 4) s) end); solve [close_gap].
Qed.

Ltac chain2 := intros; unfold wilder; cbn [fst snd]; rewrite ?nsub_nan, ?ndiv_nan, ?nmul_nan, ?nadd_nan; reflexivity.
Lemma nth_combine {A B} (l : list A) (m : list B) k d d' : List.length l = List.length m -> nth k (combine l m) (d, d') = (nth k l d, nth k m d').
Proof. intro E. apply combine_nth. exact E. Qed.

(** DirectionalMovementIndex *)
Lemma g_smooth s i z : (13 < i)%nat -> nth i s NaN = NaN -> gaps (dmi_smooth s) i z.
Proof. intros K E. apply (g_seeded 13 _ _ s NaN); [exact K| |]; [reflexivity|]. intro prev. rewrite E. apply nadd_nan. Qed.
Lemma g_di dm h l c i z : (13 < i)%nat -> nth i (true_range_nan h l c) NaN = NaN -> gaps (dmi_di dm (true_range_nan h l c)) i z.
Proof. intros K E. unfold dmi_di, sdiv. apply g_from_row, g_zr; [strict|]. apply g_smooth; auto. Qed.
Lemma g_dx p m i z : gaps p i z -> gaps (dmi_dx p m) i z.
Proof. intro G. unfold dmi_dx, sdiv, scale, sabs, ssub, sadd. gp. Qed.
Lemma g_adx s i z : (27 < i)%nat -> nth i s NaN = NaN -> gaps (dmi_adx s) i z.
Proof. intros K E. apply (g_seeded 27 _ _ s NaN); [exact K| |]; [reflexivity|]. intro prev. rewrite E, nadd_nan. reflexivity. Qed.
Lemma g_adxr s i z : gaps s i z -> gaps (dmi_adxr s) i z.
Proof. intro G. unfold dmi_adxr, sdivc, sadd. apply g_from_row, g_map; [strict|]. apply g_zl; [strict|exact G]. Qed.
Lemma tr_gap f x e i : In (x, e) [("high", 0%nat); ("low", 0%nat); ("close", 1%nat)] -> nth i (col x f) NaN = NaN ->
  nth (i + e) (true_range_nan (col "high" f) (col "low" f) (col "close" f)) NaN = NaN.
Proof.
  intros I G. apply gap_one in G. unfold true_range_nan, row3, ssub.
  destruct I as [X|[X|[X|[]]]]; injection X as <- <-; solve [close_gap].
Qed.

Lemma pick {A} (x : A) l P : (forall y, In y l -> P y) -> In x l -> P x.
Proof. auto. Qed.
Lemma pvt_step_nan (q : (num * num) * num) : fst (fst q) = NaN \/ snd (fst q) = NaN \/ snd q = NaN ->
  forall prev, (let '((c1, c0), v) := q in nadd prev (nmul (nsub c1 c0) (ndiv v c0))) = NaN.
Proof.
  destruct q as [[c1 c0] v]. cbn [fst snd]. intros H prev; destruct H as [-> | [-> | ->]]; cbn [nsub]; rewrite ?nsub_nan, ?ndiv_nan; cbn; rewrite ?nmul_nan, ?nadd_nan; try reflexivity.
Qed.
Lemma ws_gap p c j k : (1 <= p)%nat -> (p <= j)%nat -> (j <= k)%nat -> nth j c NaN = NaN -> nth k (ws p c) NaN = NaN.
Proof.
  intros P D K G. refine (gap_of _ j k k _ K (le_n k)). unfold ws, sround. apply g_map; [reflexivity|].
  apply (g_seeded (p - 1) _ _ c NaN); [lia|chain2|intro; rewrite G; chain2].
Qed.
Lemma rmi_gap p m c d j k : (1 <= p)%nat -> d = 0%nat /\ (p + m <= j)%nat \/ d = m /\ (p <= j)%nat -> (j + d <= k)%nat -> nth j c NaN = NaN -> nth k (rmi p m c) NaN = NaN.
Proof.
  intros P D K G. refine (gap_of _ (j + d) k k _ K (le_n k)). unfold rmi, sround, sdiv, scale, saddc. apply g_map; [reflexivity|].
  apply g_zl; [strict|]. apply g_map; [strict|]. apply g_zl; [strict|].
  assert (X : nth (j + d) (rmi_up m c) NaN = NaN).
  { apply gap_one in G. refine (gap_of _ (j + d) (j + d) _ _ (le_n _) (le_n _)). unfold rmi_up, ssub. apply g_map; [reflexivity|].
    destruct D as [[-> _]|[-> _]]; [rewrite Nat.add_0_r; apply g_zl; [strict|exact G]|apply g_zr; [strict|apply g_shift, G]]. }
  unfold rmi_smooth. apply (g_seeded (p + m - 1) _ _ (rmi_up m c) NaN); [lia|chain2|intro; rewrite X; chain2].
Qed.
Lemma pvt_gap c v x d j k : List.length c = List.length v ->
  x = c /\ d = 0%nat /\ (1 <= j)%nat \/ x = c /\ d = 1%nat \/ x = v /\ d = 0%nat /\ (1 <= j)%nat -> (j + d <= k)%nat -> nth j x NaN = NaN -> nth k (pvt c v) NaN = NaN.
Proof.
  intros LL D K G. refine (gap_of _ (j + d) k k _ K (le_n k)). unfold pvt, sround. apply g_map; [reflexivity|].
  apply (g_seeded 0 _ _ _ ((NaN, NaN), NaN)); [lia| |].
  - intros [[c1 c0] w]. reflexivity.
  - intro prev. rewrite !nth_combine by (rewrite ?combine_length, ?len_shift; lia). refine (pvt_step_nan ((nth (j + d) c NaN, nth (j + d) (shift 1 c) NaN), nth (j + d) v NaN) _ prev). cbn [fst snd].
    destruct D as [(-> & -> & _)|[(-> & ->)|(-> & -> & _)]]; rewrite ?Nat.add_0_r; auto.
    right; left. rewrite Nat.add_1_r. destruct (Nat.lt_ge_cases (S j) (List.length c)) as [L|L]; [rewrite nth_shift1 by auto; exact G|apply nth_overflow; rewrite len_shift; exact L].
Qed.
Lemma var_gap p c w j k : List.length c = List.length w -> (21 <= j)%nat -> (j <= k)%nat -> nth j c NaN = NaN -> nth k (ma_variable p c w) NaN = NaN.
Proof.
  intros LL D K G. refine (gap_of _ j k k _ K (le_n k)). unfold ma_variable.
  destruct (Nat.eq_dec j 21) as [->|N].
  - apply (g_seed 21 _ _ _ (NaN, NaN)); [exact G|]. intro x. rewrite nmul_nan, nadd_nan. reflexivity.
  - apply (g_seeded 21 _ _ _ (NaN, NaN)); [lia| |].
    + intro x. rewrite nmul_nan, nadd_nan. reflexivity.
    + intro prev. rewrite nth_combine by (unfold sabs, sdivc, smap; rewrite !map_length; exact LL). cbn [fst snd]. rewrite G, nmul_nan. reflexivity.
Qed.

Lemma len_same f a b : List.length (col a f) = List.length (rows f) -> List.length (col b f) = List.length (rows f) -> List.length (col a f) = List.length (col b f).
Proof. congruence. Qed.
Ltac dmi_base j := match goal with
  | G : nth j (col ?x ?f) NaN = NaN |- _ =>
    first [ let T := fresh "T" in pose proof (tr_gap f x 0 j ltac:(cbn; auto) G) as T; rewrite Nat.add_0_r in T
          | let T := fresh "T" in pose proof (tr_gap f x 1 j ltac:(cbn; auto 6) G) as T ] end.
Lemma some_inj {A} (x y : A) : Some x = Some y -> x = y.
Proof. congruence. Qed.
Ltac named L := cbv beta iota zeta delta [lookup ti_cols fst snd String.eqb Ascii.eqb Bool.eqb] in L; apply some_inj in L; rewrite <- L.
Lemma blanks_gap o i f name s price first delay j k : valid i ->
  (forall x, In x (required i) -> List.length (col x f) = List.length (rows f)) -> List.length (col "close" (fill_missing f)) = List.length (col "close" f) ->
  lookup name (ti_cols o i f) = Some s -> In (name, price, first, delay) (blanks i) -> (first <= j)%nat -> (j + delay <= k)%nat ->
  nth j (col price f) NaN = NaN -> nth k s NaN = NaN.
Proof.
  intros V LR LF L U D DK G.
  destruct i; cbn [valid] in V; cbn [required] in LR; cbn [blanks] in U; try (destruct U; fail).
  - (* DMI *)
    cbn in U.
    assert (Q : exists n e, (n = name /\ e = delay) /\ In (price, e) [("high", 0%nat); ("low", 0%nat); ("close", 1%nat)] /\
       (In name ["+di"; "-di"; "dx"] /\ (13 < j + e)%nat \/ In name ["adx"; "adxr"] /\ (27 < j + e)%nat)).
    { repeat destruct U as [U|U]; try (destruct U; fail); injection U as <- <- <- <-;
        (eexists; eexists; split; [split; reflexivity|]; split; [cbn; auto|]; solve [left; split; [cbn; tauto|lia] | right; split; [cbn; tauto|lia]]). }
    destruct Q as (n & e & (-> & ->) & IP & C). pose proof (tr_gap f price delay j IP G) as T.
    assert (DX : forall z, (13 < j + delay)%nat -> gaps (dmi_di (plus_dm (col "high" f) (col "low" f)) (true_range_nan (col "high" f) (col "low" f) (col "close" f))) (j + delay) z) by (intros; apply g_di; auto).
    assert (DM : forall z, (13 < j + delay)%nat -> gaps (dmi_di (minus_dm (col "high" f) (col "low" f)) (true_range_nan (col "high" f) (col "low" f) (col "close" f))) (j + delay) z) by (intros; apply g_di; auto).
    refine (gap_of _ (j + delay) k k _ DK (le_n k)).
    destruct C as [[C B]|[C B]].
    + destruct C as [<-|[<-|[<-|[]]]]; named L; unfold sround; (apply g_map; [reflexivity|]); [exact (DX k B)|exact (DM k B)|apply g_dx; exact (DX k B)].
    + assert (AD : forall z, gaps (dmi_adx (dmi_dx (dmi_di (plus_dm (col "high" f) (col "low" f)) (true_range_nan (col "high" f) (col "low" f) (col "close" f))) (dmi_di (minus_dm (col "high" f) (col "low" f)) (true_range_nan (col "high" f) (col "low" f) (col "close" f))))) (j + delay) z).
      { intro z. apply g_adx; [exact B|]. refine (gap_of _ (j + delay) (j + delay) _ (g_dx _ _ _ _ (DX _ _)) (le_n _) (le_n _)). lia. }
      destruct C as [<-|[<-|[]]]; named L; unfold sround; (apply g_map; [reflexivity|]); [exact (AD k)|apply g_adxr; exact (AD k)].
  - (* MA *)
    destruct t; cbn [In] in U; try (destruct U; fail). destruct U as [U|[]]. injection U as <- <- <- <-. cbn in L. injection L as <-.
    change (map (nround 4)) with (smap (nround 4)). rewrite Nat.add_0_r in DK. refine (gap_of _ k k k _ (le_n k) (le_n k)). apply g_map; [reflexivity|]. apply gap_one.
    apply (var_gap p _ _ j); auto. unfold cmo, sround, smap, sdiv, scale, ssub, sadd, sabs. unfold smap. rewrite ?map_length, ?len_szip, ?map_length, ?len_szip. unfold roll_sum, smap.
    rewrite ?map_length, !len_rolling. unfold drop_neg, drop_pos, smap, sdiff, ssub. rewrite !map_length, len_szip, len_shift, LF. lia.
  - (* PVT *)
    assert (LL : List.length (col "close" f) = List.length (col "volume" f)) by (rewrite !LR by (cbn; auto); reflexivity).
    destruct U as [U|[U|[U|[]]]]; injection U as <- <- <- <-; cbn in L; injection L as <-; eapply pvt_gap; try exact G; try exact LL; try exact DK; auto.
  - (* RMI *)
    destruct U as [U|[U|[]]]; injection U as <- <- <- <-; cbn in L; injection L as <-; eapply rmi_gap; try exact G; try exact DK; auto; lia.
  - (* WS *)
    destruct U as [U|[]]; injection U as <- <- <- <-; cbn in L; injection L as <-. rewrite Nat.add_0_r in DK. eapply ws_gap; try exact G; try exact DK; auto; lia.
Qed.

Section Gaps.
  Variables (o : oracle) (raw : rawframe) (b : bool) (ob : obj) (c : ctor).
  Hypothesis W : wf_raw raw.
  Hypothesis H : snd (construct o c (RFrame raw) (VBool b)) = Ok ob.

  Lemma uses_no_dpo i x : In x (uses i) -> is_dpo i = false.
  Proof. destruct i; cbn; tauto. Qed.
  Lemma blanks_no_dpo i x : In x (blanks i) -> is_dpo i = false.
  Proof. destruct i; cbn; tauto. Qed.
  Lemma uses_required i name x days : In (name, x, days) (uses i) -> In x (required i).
  Proof.
    destruct i; cbn; try tauto; intro U; repeat (destruct U as [U|U]; [injection U as <- <- <-; tauto|]); try tauto.
    destruct t; cbn in U; repeat (destruct U as [U|U]; [injection U as <- <- <-; tauto|]); try tauto.
  Qed.
  Lemma blanks_required i name x a d : In (name, x, a, d) (blanks i) -> In x (required i).
  Proof.
    destruct i; cbn; try tauto; intro U; repeat (destruct U as [U|U]; [injection U as <- <- <- <-; tauto|]); try tauto.
    destruct t; cbn in U; repeat (destruct U as [U|U]; [injection U as <- <- <- <-; tauto|]); try tauto.
  Qed.
  Lemma uses_published i name x days f : In (name, x, days) (uses i) -> exists s, lookup name (ti_cols o i f) = Some s.
  Proof.
    destruct i; cbn; try tauto; intro U; repeat (destruct U as [U|U]; [injection U as <- <- <-; cbn; eauto|]); try tauto.
    destruct t; cbn in U; repeat (destruct U as [U|U]; [injection U as <- <- <-; cbn; eauto|]); try tauto.
  Qed.
  Lemma blanks_published i name x a d f : In (name, x, a, d) (blanks i) -> exists s, lookup name (ti_cols o i f) = Some s.
  Proof.
    destruct i; cbn; try tauto; intro U; repeat (destruct U as [U|U]; [injection U as <- <- <- <-; cbn; eauto|]); try tauto.
    destruct t; cbn in U; repeat (destruct U as [U|U]; [injection U as <- <- <- <-; cbn; eauto|]); try tauto.
  Qed.

  Lemma gap_shown name x days d k : In (name, x, days) (uses (ob_ind ob)) -> In d days -> (d <= k)%nat ->
    given x ob (k - d) = NaN -> shown name ob k = NaN.
  Proof.
    destruct (construct_view _ _ _ _ _ W H) as (f & V). rewrite (v_ind _ _ _ _ _ _ V). intros U D DK G.
    destruct (uses_published _ _ _ _ f U) as (s & L). rewrite (view_given V) in G by (eapply uses_required; eauto).
    unfold shown. rewrite (view_cell V _ _ (uses_no_dpo _ _ U) L). eapply uses_gap; eauto. apply (v_valid _ _ _ _ _ _ V).
  Qed.
  Lemma blank_shown name x first delay j k : In (name, x, first, delay) (blanks (ob_ind ob)) -> (first <= j)%nat -> (j + delay <= k)%nat ->
    given x ob j = NaN -> shown name ob k = NaN.
  Proof.
    destruct (construct_view _ _ _ _ _ W H) as (f & V). rewrite (v_ind _ _ _ _ _ _ V). intros U D DK G.
    destruct (blanks_published _ _ _ _ _ f U) as (s & L). rewrite (view_given V) in G by (eapply blanks_required; eauto).
    unfold shown. rewrite (view_cell V _ _ (blanks_no_dpo _ _ U) L). eapply blanks_gap; eauto.
    - apply (v_valid _ _ _ _ _ _ V).
    - intros y Y. apply (view_length V y Y).
    - pose proof (v_good _ _ _ _ _ _ V) as (G1 & G2 & G3). rewrite (fill_col f "close" G2 G3), map_length, seq_length. reflexivity.
  Qed.
End Gaps.

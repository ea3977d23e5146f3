(** * SignalApi2: the signals that search or average the published values. *)
From Coq Require Import ZArith QArith Qcanon Bool List String PeanoNat Lia Sorted.
From Verif Require Import Num NumFacts Pandas Sim Frame FrameSpec FrameProofs Ind Signal Api IndSpec SeriesFacts Lengths
  Causal IndFacts Shape ApiSpec ApiCheck ApiProofs RangeSpec Cells RangeMore ValueSpec ValueFacts ValueMore Recur FormulaSpec Starts Formula SignalSpec SignalApi SignalFacts.
Import ListNotations.
Open Scope list_scope. Open Scope string_scope.

Lemma len_ti st c : sound st -> In c (ti_names (ob_ind st)) -> length (col c (ob_ti st)) = days_shown st.
Proof. intros S I. apply len_col. destruct S as [-> _]. exact I. Qed.
Lemma len_in st c : sound st -> In c (required (ob_ind st)) -> length (col c (ob_input st)) = days_given st.
Proof. intros S I. apply len_col. destruct S as (_ & S & _). apply S. exact I. Qed.
Lemma len_first st : length (icol 0 (ob_input st)) = days_given st.
Proof. apply len_icol. Qed.
Lemma first_cell st j : nth j (icol 0 (ob_input st)) NaN = first_column st j.
Proof. unfold icol, first_column. exact (map_nth (fun r : Z * list num => nth 0 (snd r) NaN) (rows (ob_input st)) (0%Z, []) j). Qed.
Lemma iat_last s n k : length s = n -> (1 <= k <= n)%nat -> iat s k = Ok (nth (n - k) s NaN).
Proof. intros <- H. apply iat_at. exact H. Qed.
Lemma iat_extra st c k : In c (cols (ob_input st)) -> (1 <= k <= days_given st)%nat -> iat (col c (ob_input st)) k = Ok (price c st k).
Proof.
  intros I K. assert (L : length (col c (ob_input st)) = days_given st) by (apply len_col; auto).
  rewrite iat_at by (rewrite L; exact K). rewrite L. reflexivity.
Qed.
Lemma working_check o c raw b st : working o c raw b st -> exists i, check c = Ok i.
Proof. intros (W & ob & H & _). apply construct_inv in H as (i & raw0 & b0 & f & CK & _). eauto. Qed.

Section Rules2.
  Context {o : oracle} {raw : rawframe} {b : bool} {st : obj}.

  Lemma first_mean p f : (0 < p <= days_given st)%nat -> latest (fun d => first_column st (days_given st - d)) p f ->
    nth (days_given st - 1) (roll_mean p (icol 0 (ob_input st))) NaN = Fin (mean_of f p).
  Proof.
    intros P L. rewrite <- (len_first st) in *. apply roll_mean_latest; [|lia].
    intros d D. rewrite first_cell. apply L. exact D.
  Qed.
  Lemma listed_starts (s : series) n a f : length s = n -> listed (fun j => nth j s NaN) n a f -> starts n a s f.
  Proof. intros L H. split; [exact L|]. intros j J. exact (H j J). Qed.
  Lemma listed_ti c a f : sound st -> In c (ti_names (ob_ind st)) -> listed (shown c st) (days_shown st) a f ->
    starts (days_shown st) a (col c (ob_ti st)) f.
  Proof. intros S I H. apply listed_starts; [apply len_ti; auto|exact H]. Qed.
  Lemma mom_signal_rule n a m f : starts n a m f -> (9 <= n)%nat ->
    let x := fun d => from a (n - d) (Fin (f (n - d)%nat)) in
    let e := fun d => from (a + 8) (n - d) (Fin (ema_from a 9 f (n - d))) in
    (mom_signal m = Ok Sell <-> crossed_above x e) /\ (mom_signal m = Ok Buy <-> crossed_below x e) /\
    (mom_signal m = Ok Hold <-> ~ crossed_above x e /\ ~ crossed_below x e).
  Proof.
    intros M N x e. unfold mom_signal. rewrite (st_len _ _ _ _ M). destruct (Nat.ltb_spec n 9); [lia|]. cbv zeta.
    assert (E : starts n (a + 8) (ewm 9 9 m) (ema_from a 9 f)) by (eapply st_at; [apply st_ewm; [exact M|lia]|lia]).
    rewrite !(iat_last m n) by (try lia; exact (st_len _ _ _ _ M)). rewrite !(iat_last (ewm 9 9 m) n) by (try lia; exact (st_len _ _ _ _ E)). cbn [bind].
    rewrite !(st_cell _ _ _ _ _ M), !(st_cell _ _ _ _ _ E) by lia. unfold case2. subst x e.
    two.
  Qed.
  Lemma ma_answers p t : working o (cMA p t) raw b st ->
    answers1 st 1 Buy (less (ago ("ma-" ++ as_str t)%string st 1) (price "close" st 1)).
  Proof.
    intros W. destruct (working_check _ _ _ _ _ W) as [i CK].
    assert (NM : exists ty, asked (cMA p t) = iMA (nat_arg p) ty /\ ma_name ty = ("ma-" ++ as_str t)%string).
    { cbn [check] in CK. destruct (check_ma_period p t); [|discriminate]. cbn [bind] in CK. cbn [asked].
      destruct t as [| | |s| |]; try discriminate. cbn [check_ma_type as_str] in *.
      destruct (String.eqb_spec s "simple") as [->|]; [eexists; split; reflexivity|].
      destruct (String.eqb_spec s "exponential") as [->|]; [eexists; split; reflexivity|].
      destruct (String.eqb_spec s "time_series") as [->|]; [eexists; split; reflexivity|].
      destruct (String.eqb_spec s "triangular") as [->|]; [eexists; split; reflexivity|].
      destruct (String.eqb_spec s "variable") as [->|]; [eexists; split; reflexivity|discriminate]. }
    destruct NM as (ty & EA & NM). rewrite <- NM. clear NM CK.
    destruct (working_sound _ _ _ _ _ W) as [SD EI]. rewrite EA in EI. pose proof (days_same _ SD) as DS. rewrite EI in DS. specialize (DS eq_refl).
    unfold answers1, get_ti_signal. rewrite EI. unfold signal_of, guard.
    change (length (rows (ob_ti st))) with (days_shown st). split; intro NN; destruct (Nat.ltb_spec (days_shown st) 1); try lia; [reflexivity|].
    see. one.
  Qed.
  Lemma prf_answers t : working o (cPRF (VStr "LONG") t) raw b st -> answers1 st 1 Sell (at_most (as_number t) (ago "prf" st 1)).
  Proof.
    intros W. open W c. cbn in EI. assert (E : icol 0 (ob_ti st) = col "prf" (ob_ti st)).
    { destruct SD as [C _]. rewrite EI in C. cbn in C. unfold icol, col. rewrite C. reflexivity. }
    unfold get_ti_data. rewrite E. see. one.
  Qed.
  Lemma prf_short_answers t : working o (cPRF (VStr "SHORT") t) raw b st -> answers1 st 1 Buy (at_most (ago "prf" st 1) (as_number t)).
  Proof.
    intros W. open W c. cbn in EI. assert (E : icol 0 (ob_ti st) = col "prf" (ob_ti st)).
    { destruct SD as [C _]. rewrite EI in C. cbn in C. unfold icol, col. rewrite C. reflexivity. }
    unfold get_ti_data. rewrite E. see. one.
  Qed.
  Lemma pb_answers p u l c : working o (cPB p) raw b st ->
    ago "upper_band" st 1 = Fin u -> ago "lower_band" st 1 = Fin l -> price "close" st 1 = Fin c ->
    let margin := (Q2Qc (15 # 100) * (u - l))%Qc in
    answers st 1 Sell (u - c < margin)%Qc Buy (c - l < margin /\ ~ u - c < margin)%Qc.
  Proof.
    intros W U L C margin. open W c; see. rewrite U, L, C. cbn [nsub nneg nadd nmul D].
    eapply answer2p; [repeat split; discriminate| | |reflexivity]; rewrite less_iff; reflexivity.
  Qed.
  Lemma pb_missing p : working o (cPB p) raw b st ->
    ago "upper_band" st 1 = NaN \/ ago "lower_band" st 1 = NaN \/ price "close" st 1 = NaN -> get_ti_signal st = Ok Hold.
  Proof.
    intros W M. destruct (Nat.lt_ge_cases (days_shown st) 1) as [NN|NN].
    - destruct (working_sound _ _ _ _ _ W) as [SD EI]. unfold get_ti_signal. rewrite EI. cbn [asked]. unfold signal_of, guard.
      change (length (rows (ob_ti st))) with (days_shown st). destruct (Nat.ltb_spec (days_shown st) 1); [reflexivity|lia].
    - destruct (working_sound _ _ _ _ _ W) as [SD EI]. pose proof (days_same _ SD) as DS. rewrite EI in DS. specialize (DS eq_refl).
      unfold get_ti_signal. rewrite EI. cbn [asked] in *. unfold signal_of, guard, case2.
      change (length (rows (ob_ti st))) with (days_shown st). destruct (Nat.ltb_spec (days_shown st) 1); [lia|].
      see. cbv zeta. destruct M as [M|[M|M]]; rewrite M.
      all: assert (NS : forall u, nsub u NaN = NaN) by (intros []; reflexivity).
      all: assert (NM : forall u, nmul u NaN = NaN) by (intros []; reflexivity).
      all: assert (NL : forall u, nltb u NaN = false) by (intros []; reflexivity).
      + rewrite (eq_refl : nsub NaN (ago "lower_band" st 1) = NaN), NM, !NL. reflexivity.
      + rewrite !NS, NM, !NL. reflexivity.
      + rewrite NS, (eq_refl : nsub NaN (ago "lower_band" st 1) = NaN). reflexivity.
  Qed.
  (** price and money flow in the other direction *)
  Lemma cmf_answers p : working o (cCMF p) raw b st -> price "close" st 2 <> NaN ->
    let x := ago "cmf" st in let c := price "close" st in
    answers st 3 Sell (less (x 1%nat) (x 2%nat) /\ less (c 2%nat) (c 1%nat) /\ less (c 3%nat) (c 1%nat))
                 Buy (less (x 2%nat) (x 1%nat) /\ less (c 1%nat) (c 2%nat) /\ less (c 1%nat) (c 3%nat)).
  Proof.
    intros W N x c. open W c; see. subst x c.
    assert (MX : forall u v w, v <> NaN -> (nltb (pymax u v) w = true <-> less v w /\ less u w)).
    { clear. intros u v w V. unfold pymax. destruct (nltb u v) eqn:E; rewrite less_iff.
      - apply less_iff in E. split; [|tauto]. intro H. split; [exact H|exact (less_trans _ _ _ E H)].
      - split; [|tauto]. intro H. split; [|exact H]. destruct (less_present _ _ H) as [U _].
        assert (M : ~ less u v) by (intro K; apply less_iff in K; congruence).
        destruct (trichotomy u v U V) as [Q|[Q|Q]]; [tauto|exact (less_same_l _ _ _ Q H)|exact (less_trans _ _ _ Q H)]. }
    assert (MN : forall u v w, v <> NaN -> (nltb w (pymin u v) = true <-> less w v /\ less w u)).
    { clear. intros u v w V. unfold pymin. destruct (nltb v u) eqn:E; rewrite less_iff.
      - apply less_iff in E. split; [|tauto]. intro H. split; [exact H|exact (less_trans _ _ _ H E)].
      - split; [|tauto]. intro H. split; [|exact H]. destruct (less_present _ _ H) as [_ U].
        assert (M : ~ less v u) by (intro K; apply less_iff in K; congruence).
        destruct (trichotomy u v U V) as [Q|[Q|Q]]; [exact (less_trans _ _ _ H Q)|exact (less_same_r _ _ _ Q H)|tauto]. }
    unfold ngtb. eapply answer2x; [repeat split; discriminate| | | |reflexivity].
    - rewrite andb_true_iff, MX, less_iff by exact N. tauto.
    - rewrite andb_true_iff, MN, less_iff by exact N. tauto.
    - intros; order.
  Qed.
  Lemma co_answers c : working o cCO raw b st -> latest (price "close" st) 90 c ->
    let x := ago "co" st in
    answers st 90 Buy (mean_of c 90 < c 1%nat /\ less (x 2%nat) (x 1%nat) /\ less (x 1%nat) (level 0))%Qc
                  Sell (c 1%nat < mean_of c 90 /\ less (x 1%nat) (x 2%nat) /\ less (level 0) (x 1%nat))%Qc.
  Proof.
    intros W K x. open W c. assert (LC : length (col "close" (ob_input st)) = days_given st) by (apply len_in; auto; rewrite EI; cbn; tauto).
    rewrite (mean_skip_latest 90 (col "close" (ob_input st)) c) by (rewrite LC; auto; lia).
    see. subst x. rewrite (K 1%nat) by lia. unfold case2, ngtb, lt3, gt3, ngtb.
    eapply answer2x; [repeat split; discriminate| | | |reflexivity].
    - rewrite !andb_true_iff, !less_iff. cbn [less]. tauto.
    - rewrite !andb_true_iff, !less_iff. cbn [less]. tauto.
    - intros; order.
  Qed.

  (** the first column of the input *)
  Lemma atr_answers a c f : working o cATR raw b st -> ago "atr" st 1 = Fin a -> price "close" st 1 = Fin c ->
    latest (fun d => first_column st (days_given st - d)) 10 f ->
    let volatile := (Q2Qc (1 # 100) * c < a)%Qc in
    answers st 10 Buy (volatile /\ (c < mean_of f 5 \/ mean_of f 5 < c /\ mean_of f 10 < c))%Qc
                  Sell (volatile /\ mean_of f 5 < c /\ ~ mean_of f 10 < c)%Qc.
  Proof.
    intros W A C K volatile. open W c. see. rewrite A, C.
    change (rolling 5 5 agg_mean) with (roll_mean 5).
    rewrite (iat_last _ (days_given st)) by (try lia; unfold roll_mean; rewrite ?len_rolling; apply len_first). cbn [bind].
    rewrite (first_mean 5 f) by (try lia; intros d D; apply K; lia).
    rewrite (iat_last _ (days_given st)) by (try lia; unfold roll_mean; rewrite ?len_rolling; apply len_first). cbn [bind].
    rewrite (rolling_more 10 5 _ _ _ (fun j => f (10 - j)%nat)); [|apply (latest_win _ (days_given st)); [|lia|reflexivity]|lia|rewrite len_first; lia].
    2:{ intros d D. rewrite first_cell. apply K. exact D. }
    change (rolling 10 10 agg_mean) with (roll_mean 10). rewrite (first_mean 10 f) by (auto; lia).
    cbn [nmul D]. unfold ngtb.
    set (v := nltb (Fin _) (Fin a)). set (u5 := nltb (Fin (mean_of f 5)) (Fin c)). set (u10 := nltb (Fin (mean_of f 10)) (Fin c)). set (d5 := nltb (Fin c) (Fin (mean_of f 5))).
    assert (V : v = true <-> volatile) by (subst v volatile; rewrite less_iff; reflexivity).
    assert (U5 : u5 = true <-> (mean_of f 5 < c)%Qc) by (subst u5; rewrite less_iff; reflexivity).
    assert (U10 : u10 = true <-> (mean_of f 10 < c)%Qc) by (subst u10; rewrite less_iff; reflexivity).
    assert (D5 : d5 = true <-> (c < mean_of f 5)%Qc) by (subst d5; rewrite less_iff; reflexivity).
    assert (X : u5 = true -> d5 = true -> False).
    { rewrite U5, D5. intros P Q. exact (less_asym (Fin _) (Fin _) P Q). }
    rewrite <- V, <- U5, <- U10, <- D5. clearbody v u5 u10 d5. clear - X.
    assert (T : forall x y : signal, Ok x = Ok y <-> x = y) by (split; congruence). rewrite !T.
    destruct v, u5, u10, d5; try (exfalso; auto; fail); clear X T; intuition congruence.
  Qed.
  Lemma sd_answers p c f : working o (cSD p) raw b st -> price "close" st 1 = Fin c ->
    latest (fun d => first_column st (days_given st - d)) (nat_arg p) f -> (nat_arg p <= days_given st)%nat ->
    let average := r4 (mean_of f (nat_arg p)) in
    answers st 1 Sell (average < c /\ less (level 2) (ago "sd" st 1))%Qc Buy (c < average /\ less (level 2) (ago "sd" st 1))%Qc.
  Proof.
    intros W C K P average. assert (P0 : (0 < nat_arg p)%nat).
    { destruct (working_sound _ _ _ _ _ W) as [SD EI]. destruct SD as (_ & _ & _ & _ & _ & _ & _ & V). rewrite EI in V. cbn in V. lia. }
    open W c. see. rewrite C.
    rewrite (iat_last _ (days_given st)); [|unfold sround, smap, roll_mean; rewrite map_length, len_rolling; apply len_first|lia]. cbn [bind].
    unfold sround, smap. rewrite (nth_map _ NaN) by (unfold roll_mean; rewrite len_rolling, len_first; lia). rewrite (first_mean (nat_arg p) f) by (auto; lia).
    cbn [nround]. unfold ngtb. subst average. eapply answer2x; [repeat split; discriminate| | | |reflexivity].
    - rewrite andb_true_iff, !less_iff. reflexivity.
    - rewrite andb_true_iff, !less_iff. reflexivity.
    - intros [A _] [B _]. exact (less_asym (Fin _) (Fin _) A B).
  Qed.
  Lemma tp_answers p f : working o (cTP p) raw b st ->
    latest (fun d => first_column st (days_given st - d)) (nat_arg p) f ->
    answers1 st (nat_arg p) Buy (less (Fin (mean_of f (nat_arg p))) (ago "tp" st 1)).
  Proof.
    intros W K. assert (P0 : (0 < nat_arg p)%nat).
    { destruct (working_sound _ _ _ _ _ W) as [SD EI]. destruct SD as (_ & _ & _ & _ & _ & _ & _ & V). rewrite EI in V. cbn in V. lia. }
    destruct (working_sound _ _ _ _ _ W) as [SD EI]. pose proof (days_same _ SD) as DS. rewrite EI in DS. specialize (DS eq_refl). cbn [asked] in EI.
    unfold answers1, get_ti_signal. rewrite EI. unfold signal_of, guard.
    change (length (rows (ob_ti st))) with (days_shown st). fold (days_given st). rewrite DS.
    split; intro NN; (destruct (Nat.ltb_spec (days_shown st) (nat_arg p)); [try reflexivity; lia|]); [lia|].
    destruct (Nat.ltb_spec (days_shown st) 1); [lia|]. see.
    rewrite (iat_last _ (days_given st)); [|unfold roll_mean; rewrite len_rolling; apply len_first|lia]. cbn [bind].
    rewrite (first_mean (nat_arg p) f) by (auto; lia). one.
  Qed.

  (** ** comparison with the exponential average of the indicator itself *)
  Lemma mom_answers p a f : working o (cMOM p) raw b st -> listed (shown "mom" st) (days_shown st) a f ->
    let n := days_shown st in
    let e := fun d => from (a + 8) (n - d) (Fin (ema_from a 9 f (n - d))) in
    answers st 9 Sell (crossed_above (ago "mom" st) e) Buy (crossed_below (ago "mom" st) e).
  Proof.
    intros W H n e. destruct (working_sound _ _ _ _ _ W) as [SD EI]. cbn [asked] in EI.
    assert (M : starts n a (col "mom" (ob_ti st)) f) by (apply listed_ti; auto; rewrite EI; cbn; tauto).
    unfold answers, get_ti_signal. rewrite EI. unfold signal_of. split; intro NN.
    - unfold mom_signal. rewrite (st_len _ _ _ _ M). subst n. destruct (Nat.ltb_spec (days_shown st) 9); [reflexivity|lia].
    - pose proof (mom_signal_rule n a _ f M NN) as R. cbv zeta in R.
      assert (EQ : forall d, (1 <= d <= 2)%nat -> ago "mom" st d = from a (n - d) (Fin (f (n - d)%nat))).
      { intros d D. unfold ago, shown, cell_at, get_ti_data. fold n. apply (st_cell _ _ _ _ _ M). lia. }
      unfold crossed_above, crossed_below in *. rewrite !EQ by lia. exact R.
  Qed.
  Lemma nvi_answers a f : working o cNVI raw b st -> listed (shown "nvi" st) (days_shown st) a f ->
    let n := days_shown st in
    answers1 st 255 Buy (less (from (a + 254) (n - 1) (Fin (ema_from a 255 f (n - 1)))) (ago "nvi" st 1)).
  Proof.
    intros W H n. destruct (working_sound _ _ _ _ _ W) as [SD0 EI0]. cbn [asked] in EI0.
    assert (M : starts n a (col "nvi" (ob_ti st)) f) by (apply listed_ti; auto; rewrite EI0; cbn; tauto).
    assert (E : starts n (a + 254) (ewm 255 255 (col "nvi" (ob_ti st))) (ema_from a 255 f)) by (eapply st_at; [apply st_ewm; [exact M|lia]|lia]).
    open W c. subst n. unfold get_ti_data. rewrite (iat_last (ewm _ _ _) (days_shown st)) by (try lia; exact (st_len _ _ _ _ E)). see.
    rewrite (st_cell _ _ _ _ _ E) by lia. one.
  Qed.
  Lemma pvi_answers a f : working o cPVI raw b st -> listed (shown "pvi" st) (days_shown st) a f ->
    let n := days_shown st in
    let e := fun d => from (a + 254) (n - d) (Fin (ema_from a 255 f (n - d))) in
    answers st 255 Buy (crossed_above (ago "pvi" st) e) Sell (crossed_below (ago "pvi" st) e).
  Proof.
    intros W H n e. destruct (working_sound _ _ _ _ _ W) as [SD0 EI0]. cbn [asked] in EI0.
    assert (M : starts n a (col "pvi" (ob_ti st)) f) by (apply listed_ti; auto; rewrite EI0; cbn; tauto).
    assert (E : starts n (a + 254) (ewm 255 255 (col "pvi" (ob_ti st))) (ema_from a 255 f)) by (eapply st_at; [apply st_ewm; [exact M|lia]|lia]).
    open W c. subst n e. unfold get_ti_data. rewrite !(iat_last (ewm _ _ _) (days_shown st)) by (try lia; exact (st_len _ _ _ _ E)). see.
    rewrite !(st_cell _ _ _ _ _ E) by lia. two.
  Qed.
  Lemma mp_answers p : working o (cMP p) raw b st -> (2 <= nat_arg p \/ 2 <= days_shown st)%nat ->
    answers st (nat_arg p) Buy (crossed_above (price "close_ema" st) (ago "mp" st)) Sell (crossed_below (price "close_ema" st) (ago "mp" st)).
  Proof.
    intros W H. destruct (working_sound _ _ _ _ _ W) as [SD EI]. pose proof (days_same _ SD) as DS. rewrite EI in DS. specialize (DS eq_refl). cbn [asked] in EI.
    assert (IC : In "close_ema" (cols (ob_input st))) by (destruct SD as (_ & _ & _ & _ & _ & X & _); eapply X; exact EI).
    unfold answers, get_ti_signal. rewrite EI. unfold signal_of, guard, line_cross, case2.
    change (length (rows (ob_ti st))) with (days_shown st).
    split; intro NN; (destruct (Nat.ltb_spec (days_shown st) (nat_arg p)); [try reflexivity; lia|]); [lia|].
    rewrite !(iat_extra st "close_ema") by (auto; lia). see. two.
  Qed.
  Lemma mi_answers : working o cMI raw b st ->
    let x := ago "mi" st in let e := price "9_ema" st in
    let bulge := exists d, (2 <= d <= days_shown st)%nat /\ less (level 27) (x d) /\
                   forall e, (2 <= e < d)%nat -> ~ less (x e) (Fin (Q2Qc (265 # 10))) in
    answers st 2 Sell (bulge /\ less (e 2%nat) (e 1%nat)) Buy (bulge /\ less (e 1%nat) (e 2%nat)).
  Proof.
    intros W x e bulge. destruct (working_sound _ _ _ _ _ W) as [SD0 EI0]. cbn [asked] in EI0.
    assert (IC : In "9_ema" (cols (ob_input st))) by (destruct SD0 as (_ & _ & _ & _ & X & _); auto).
    assert (LT : length (col "mi" (ob_ti st)) = days_shown st) by (apply len_ti; auto; rewrite EI0; cbn; tauto).
    open W c.
    assert (B : Signal.bulge (rev (removelast (col "mi" (get_ti_data st)))) = true <-> bulge).
    { rewrite bulge_iff. unfold get_ti_data. rewrite rev_length, len_removelast, LT.
      assert (C : forall i, (i < days_shown st - 1)%nat -> nth i (rev (removelast (col "mi" (ob_ti st)))) NaN = x (i + 2)%nat).
      { intros i I. rewrite rev_nth by (rewrite len_removelast; lia). rewrite len_removelast, LT.
        subst x. unfold ago, shown, cell_at, get_ti_data. rewrite removelast_firstn_len, nth_firstn by (rewrite LT; lia). f_equal. lia. }
      split.
      - intros (i & I & G & F). exists (i + 2)%nat. split; [lia|]. rewrite <- C by auto. split; [exact G|].
        intros y Y. replace y with (y - 2 + 2)%nat by lia. rewrite <- C by lia. apply F. lia.
      - intros (d & D & G & F). exists (d - 2)%nat. split; [lia|]. rewrite C by lia. replace (d - 2 + 2)%nat with d by lia. split; [exact G|].
        intros j J. rewrite C by lia. apply F. lia. }
    rewrite !(iat_extra st "9_ema") by (auto; lia). cbn [bind]. fold e. rewrite <- B. clear B. unfold ngtb.
    destruct (Signal.bulge _).
    - eapply answer2x; [repeat split; discriminate| | | |reflexivity]; [rewrite less_iff; tauto|rewrite less_iff; tauto|].
      intros [_ P] [_ Q]. exact (less_asym _ _ P Q).
    - intuition congruence.
  Qed.
  Lemma ri_answers r s : working o (cRI r s) raw b st ->
    let x := ago "ri" st in let c := price "close" st in let n := days_shown st in
    let low d := latest_day 1 n (fun d => less (x d) (level 20)) d in
    ((n < 2)%nat -> get_ti_signal st = Ok Hold) /\
    ((2 <= n)%nat ->
      (rose_through x (level 20) -> get_ti_signal st = Ok Buy <-> less (c 2%nat) (c 1%nat)) /\
      (rose_through x (level 20) -> get_ti_signal st = Ok Sell <-> ~ less (c 2%nat) (c 1%nat)) /\
      (~ rose_through x (level 20) -> rose_through x (level 70) -> forall d, low d ->
         get_ti_signal st = Ok Sell <-> less (c d) (c 1%nat)) /\
      (~ rose_through x (level 20) -> rose_through x (level 70) -> forall d, low d ->
         get_ti_signal st = Ok Buy <-> ~ less (c d) (c 1%nat)) /\
      (~ rose_through x (level 20) -> rose_through x (level 70) -> (forall d, ~ low d) -> get_ti_signal st = Err IndexErr) /\
      (~ rose_through x (level 20) -> ~ rose_through x (level 70) -> get_ti_signal st = Ok Hold)).
  Proof.
    intros W x c n low.
    destruct (working_sound _ _ _ _ _ W) as [SD0 EI0]. cbn [asked] in EI0.
    assert (LT : length (col "ri" (ob_ti st)) = days_shown st) by (apply len_ti; auto; rewrite EI0; cbn; tauto).
    assert (LC : length (col "close" (ob_input st)) = days_given st) by (apply len_in; auto; rewrite EI0; cbn; tauto).
    assert (AR : answers st 2 Buy False Buy False -> True) by auto. clear AR.
    subst n. open W c. see. fold (x 2%nat) (x 1%nat) (c 2%nat) (c 1%nat).
    assert (R20 : lt3 (x 2%nat) (F 20) (x 1%nat) = true <-> rose_through x (level 20)) by (unfold lt3; rewrite andb_true_iff, !less_iff; reflexivity).
    assert (R70 : lt3 (x 2%nat) (F 70) (x 1%nat) = true <-> rose_through x (level 70)) by (unfold lt3; rewrite andb_true_iff, !less_iff; reflexivity).
    rewrite <- R20, <- R70. clear R20 R70.
    set (mask := map (fun v : num => nltb v (F 20)) (col "ri" (ob_ti st))).
    assert (LM : length mask = length (col "close" (ob_input st))) by (unfold mask; rewrite map_length; congruence).
    destruct (masked_last mask _ LM) as [M1 M2].
    assert (CM : forall k, (k < days_shown st)%nat -> (nth k mask false = true <-> less (x (days_shown st - k)%nat) (level 20))).
    { intros k K. unfold mask. rewrite (nth_map _ NaN) by (rewrite LT; exact K). rewrite less_iff. subst x. unfold ago, shown, cell_at, get_ti_data.
      replace (days_shown st - (days_shown st - k))%nat with k by lia. reflexivity. }
    assert (LMN : length mask = days_shown st) by (unfold mask; rewrite map_length; exact LT).
    assert (ML : forall d, low d -> iat (masked mask (col "close" (ob_input st))) 1 = Ok (c d)).
    { intros d (D & L & F). rewrite (M1 (days_shown st - d)%nat).
      - subst c. unfold price, given, cell_at. rewrite DS. reflexivity.
      - lia.
      - rewrite CM by lia. replace (days_shown st - (days_shown st - d))%nat with d by lia. exact L.
      - intros j J. apply not_true_iff_false. rewrite CM by lia. apply F. lia. }
    assert (MN : (forall d, ~ low d) -> iat (masked mask (col "close" (ob_input st))) 1 = Err IndexErr).
    { intro NL. apply M2. intros k K. apply not_true_iff_false. rewrite LMN in K. rewrite CM by lia. intro L.
      (* the latest of these days *)
      assert (EX : forall m d, (d <= m)%nat -> (1 <= d <= days_shown st)%nat -> less (x d) (level 20) -> exists d', low d').
      { induction m as [|m IH]; intros d B D LL; [lia|].
        destruct (existsb (fun e => nltb (x e) (F 20)) (seq 1 (d - 1))) eqn:EB.
        - apply existsb_exists in EB as (e & I & T). apply in_seq in I. apply less_iff in T. apply (IH e); [lia|lia|exact T].
        - exists d. split; [lia|]. split; [exact LL|]. intros e Ee. intro T. rewrite <- not_true_iff_false in EB. apply EB.
          apply existsb_exists. exists e. split; [apply in_seq; lia|apply less_iff; exact T]. }
      destruct (EX (days_shown st) (days_shown st - k)%nat ltac:(lia) ltac:(lia) L) as [d' Q]. exact (NL d' Q). }
    assert (T : forall x y : signal, Ok x = Ok y <-> x = y) by (split; congruence).
    destruct (lt3 (x 2%nat) (F 20) (x 1%nat)) eqn:E20.
    - repeat split; intros; try congruence; try (rewrite T in *); try (rewrite <- less_iff in *; destruct (nltb (c 2%nat) (c 1%nat)); congruence).
    - destruct (lt3 (x 2%nat) (F 70) (x 1%nat)) eqn:E70.
      + split; [intro Q; discriminate|]. split; [intro Q; discriminate|].
        split; [|split; [|split; [|intros _ Q; congruence]]].
        * intros _ _ d D. rewrite (ML d D). cbn [bind]. rewrite T, <- less_iff. destruct (nltb (c d) (c 1%nat)); split; congruence.
        * intros _ _ d D. rewrite (ML d D). cbn [bind]. rewrite T, <- less_iff. destruct (nltb (c d) (c 1%nat)); split; congruence.
        * intros _ _ Q. rewrite (MN Q). reflexivity.
      + repeat split; intros; try congruence; discriminate.
  Qed.
End Rules2.

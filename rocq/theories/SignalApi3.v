(** * SignalApi3: the signals of the cloud, the extremes and the remembered days. *)
From Coq Require Import ZArith QArith Qcanon Bool List String PeanoNat Lia Sorted.
From Verif Require Import Num NumFacts Pandas Sim Frame FrameSpec FrameProofs Ind Signal Api IndSpec SeriesFacts Lengths
  Causal IndFacts Shape ApiSpec ApiCheck ApiProofs RangeSpec Cells RangeMore ValueSpec ValueFacts ValueMore Recur FormulaSpec Starts Formula SignalSpec SignalApi SignalFacts SignalApi2.
Import ListNotations.
Open Scope list_scope. Open Scope string_scope.

Section Rules3.
  Context {o : oracle} {raw : rawframe} {b : bool} {st : obj}.

  (** days on which the lowest value of the last 30 was first reached *)
  Lemma lowest_argmin (s : series) n x d : length s = n -> (30 <= n)%nat -> (forall e, x e = nth (n - e) s NaN) ->
    (forall e, (1 <= e <= 30)%nat -> x e = NaN \/ isfin (x e) = true) -> lowest_first x 30 d -> argmin (tail_k 30 s) = Z.of_nat (30 - d).
  Proof.
    intros L N X FN (D & m & E & H). apply (argmin_spec _ _ m).
    - intros y Y. apply in_tail_k in Y as (e & Ee & ->); [|lia]. rewrite L, <- X. auto.
    - split; [rewrite len_tail_k by lia; lia|]. split.
      + rewrite nth_tail_k by lia. rewrite L. replace (30 - (30 - d))%nat with d by lia. rewrite <- X. exact E.
      + intros j q J Q. rewrite len_tail_k in J by lia. rewrite nth_tail_k, L, <- X in Q by lia.
        destruct (H (30 - j)%nat q ltac:(lia) Q) as [H1 H2]. split; [exact H1|]. intro K. apply H2. lia.
  Qed.
  Lemma ich_answers : working o cICH raw b st ->
    let a := ago "senkou_a" st 1 in let b' := ago "senkou_b" st 1 in let c := price "close" st 1 in
    let t := ago "tenkan_sen" st in let k := ago "kijun_sen" st in
    a <> NaN -> b' <> NaN -> c <> NaN ->
    let above v := less a v /\ less b' v in let below v := at_most v a /\ at_most v b' in
    answers st 2 Buy (crossed_above t k /\ above c /\ above (t 1%nat) /\ above (k 1%nat))
                 Sell (crossed_below t k /\ below c /\ below (t 1%nat) /\ below (k 1%nat)).
  Proof.
    intros W a b' c t k A B C above below. open W cc. see. fold a b' c. fold (t 1%nat) (t 2%nat) (k 1%nat) (k 2%nat).
    cbv zeta. unfold crossed_above, crossed_below, ngtb.
    assert (P3 : t 1%nat <> NaN -> k 1%nat <> NaN ->
      ((where_in_cloud c a b' + where_in_cloud (t 1%nat) a b' + where_in_cloud (k 1%nat) a b')%Z = 3%Z <-> above c /\ above (t 1%nat) /\ above (k 1%nat)) /\
      ((where_in_cloud c a b' + where_in_cloud (t 1%nat) a b' + where_in_cloud (k 1%nat) a b')%Z = (-3)%Z <-> below c /\ below (t 1%nat) /\ below (k 1%nat))).
    { intros T K. destruct (cloud c a b' C A B) as (X1 & X2 & X3), (cloud (t 1%nat) a b' T A B) as (Y1 & Y2 & Y3), (cloud (k 1%nat) a b' K A B) as (Z1 & Z2 & Z3).
      unfold above, below. rewrite <- X1, <- X2, <- Y1, <- Y2, <- Z1, <- Z2. split; split; lia. }
    eapply answer2x; [repeat split; discriminate| | | |reflexivity].
    - rewrite !andb_true_iff, !less_iff, Z.eqb_eq. split.
      + intros [[X Y] Z]. destruct (less_present _ _ Y) as [U V]. apply P3 in Z; auto.
      + intros [[X Y] Z]. destruct (less_present _ _ Y) as [U V]. apply P3 in Z; auto.
    - rewrite !andb_true_iff, !less_iff, Z.eqb_eq. split.
      + intros [[X Y] Z]. destruct (less_present _ _ Y) as [U V]. apply P3 in Z; auto.
      + intros [[X Y] Z]. destruct (less_present _ _ Y) as [U V]. apply P3 in Z; auto.
    - intros [[X _] _] [[Y _] _]. exact (less_asym _ _ X Y).
  Qed.

  Lemma wad_answers : working o cWAD raw b st ->
    let c := price "close" st in let x := ago "wad" st in
    answers st 30 Buy (lowest_now c 30 /\ ~ lowest_now x 30)
                  Sell (highest_now c 30 /\ ~ highest_now x 30 /\ ~ (lowest_now c 30 /\ ~ lowest_now x 30)).
  Proof.
    intros W c x. destruct (working_sound _ _ _ _ _ W) as [SD EI]. pose proof (days_same _ SD) as DS. rewrite EI in DS. specialize (DS eq_refl). cbn [asked] in EI.
    assert (LT : length (col "wad" (ob_ti st)) = days_shown st) by (apply len_ti; auto; rewrite EI; cbn; tauto).
    assert (LC : length (col "close" (ob_input st)) = days_shown st) by (rewrite <- DS; apply len_in; auto; rewrite EI; cbn; tauto).
    unfold answers, get_ti_signal. rewrite EI. unfold signal_of.
    change (length (rows (ob_input st))) with (days_given st). rewrite DS.
    split; intro NN; (destruct (Nat.ltb_spec (days_shown st) 30); [try reflexivity; lia|]); [lia|]. unfold case2. see. fold (c 1%nat) (x 1%nat).
    assert (LOW : forall s (y : nat -> num), length s = days_shown st -> (forall d, y d = nth (days_shown st - d) s NaN) ->
      (neqb (min_skip (tail_k 30 s)) (y 1%nat) = true <-> lowest_now y 30) /\ (neqb (max_skip (tail_k 30 s)) (y 1%nat) = true <-> highest_now y 30)).
    { intros s y L Y.
      assert (I : In (y 1%nat) (tail_k 30 s)) by (apply in_tail_k; [lia|]; exists 1%nat; rewrite L, Y; split; [lia|reflexivity]).
      rewrite min_skip_is, max_skip_is by exact I. unfold lowest_now, highest_now.
      assert (Q : forall P : num -> Prop, (forall z, In z (tail_k 30 s) -> P z) <-> (forall d, (1 <= d <= 30)%nat -> P (y d))).
      { intro P. split.
        - intros H1 d D. apply H1. apply in_tail_k; [lia|]. exists d. rewrite L, Y. auto.
        - intros H1 z Z. apply in_tail_k in Z as (d & D & ->); [|lia]. rewrite L, <- Y. auto. }
      rewrite (Q (fun z => ~ less z (y 1%nat))), (Q (fun z => ~ less (y 1%nat) z)). tauto. }
    destruct (LOW _ c LC) as [C1 C2]. { intro d. subst c. unfold price, given, cell_at. rewrite DS. reflexivity. }
    destruct (LOW _ x LT) as [X1 X2]. { intro d. reflexivity. }
    rewrite <- C1, <- C2, <- X1, <- X2. clear.
    assert (T : forall x y : signal, Ok x = Ok y <-> x = y) by (split; congruence). rewrite !T. unfold get_ti_data.
    destruct (neqb _ (c 1%nat)), (neqb _ (x 1%nat)), (neqb _ (c 1%nat)), (neqb _ (x 1%nat)); cbn [andb negb]; clear T; intuition congruence.
  Qed.

  Lemma wr_answers p : working o (cWR p) raw b st ->
    let x := ago "wr" st in
    let sold := exists d, (2 <= d <= days_shown st)%nat /\ at_most (x d) (level (-80)) /\ forall e, (2 <= e < d)%nat -> ~ at_most (level (-20)) (x e) in
    let bought := exists d, (2 <= d <= days_shown st)%nat /\ at_most (level (-20)) (x d) /\ forall e, (2 <= e < d)%nat -> ~ at_most (x e) (level (-80)) in
    answers st 2 Buy (sold /\ rose_through x (level (-50))) Sell (bought /\ fell_through x (level (-50))).
  Proof.
    intros W x sold bought. destruct (working_sound _ _ _ _ _ W) as [SD0 EI0]. cbn [asked] in EI0.
    assert (LT : length (col "wr" (ob_ti st)) = days_shown st) by (apply len_ti; auto; rewrite EI0; cbn; tauto).
    open W cc. see. fold (x 2%nat) (x 1%nat). unfold get_ti_data.
    set (w := removelast (col "wr" (ob_ti st))). assert (LW : length w = (days_shown st - 1)%nat) by (unfold w; rewrite len_removelast, LT; reflexivity).
    assert (CW : forall j, (j < days_shown st - 1)%nat -> nth j w NaN = x (days_shown st - j)%nat).
    { intros j J. unfold w. rewrite removelast_firstn_len, nth_firstn by (rewrite LT; lia). subst x. unfold ago, shown, cell_at, get_ti_data. f_equal. lia. }
    set (ms := map (fun v => nleb v (F (-80))) w). set (mb := map (fun v => ngeb v (F (-20))) w).
    assert (CS : forall j, (j < days_shown st - 1)%nat -> (nth j ms false = true <-> at_most (x (days_shown st - j)%nat) (level (-80)))).
    { intros j J. unfold ms. rewrite (nth_map _ NaN) by lia. rewrite CW by lia. apply at_most_iff. }
    assert (CB : forall j, (j < days_shown st - 1)%nat -> (nth j mb false = true <-> at_most (level (-20)) (x (days_shown st - j)%nat))).
    { intros j J. unfold mb. rewrite (nth_map _ NaN) by lia. rewrite CW by lia. apply at_most_iff. }
    assert (LS : length ms = (days_shown st - 1)%nat) by (unfold ms; rewrite map_length; exact LW).
    assert (LB : length mb = (days_shown st - 1)%nat) by (unfold mb; rewrite map_length; exact LW).
    assert (X : forall j, nth j ms false = true -> nth j mb false = true -> False).
    { intros j A B. destruct (Nat.lt_ge_cases j (days_shown st - 1)) as [J|J]; [|rewrite nth_overflow in A by lia; discriminate].
      apply CS in A; auto. apply CB in B; auto. clear - A B. destruct (x (days_shown st - j)%nat) as [| | |q]; unfold at_most in *; cbn in *; try tauto.
      assert (Q : (zq (-20) <= zq (-80))%Qc).
      { apply Qcle_trans with q; [destruct B as [B|B]; [apply Qclt_le_weak; exact B|rewrite B; apply Qcle_refl]|destruct A as [A|A]; [apply Qclt_le_weak; exact A|rewrite A; apply Qcle_refl]]. }
      revert Q. vm_compute. auto. }
    assert (EQ : forall (m m' : list bool) (P P' : nat -> Prop), length m = (days_shown st - 1)%nat ->
      (forall j, (j < days_shown st - 1)%nat -> (nth j m false = true <-> P (days_shown st - j)%nat)) ->
      (forall j, (j < days_shown st - 1)%nat -> (nth j m' false = true <-> P' (days_shown st - j)%nat)) ->
      ((exists k, (k < length m)%nat /\ nth k m false = true /\ forall j, (k < j < length m)%nat -> nth j m' false = false) <->
       (exists d, (2 <= d <= days_shown st)%nat /\ P d /\ forall e, (2 <= e < d)%nat -> ~ P' e))).
    { intros m m' P P' L A B. rewrite L. split.
      - intros (k & K & T & Fa). exists (days_shown st - k)%nat. split; [lia|]. split; [apply A; auto|].
        intros e E Q. specialize (Fa (days_shown st - e)%nat ltac:(lia)). apply not_true_iff_false in Fa. apply Fa. apply B; [lia|].
        replace (days_shown st - (days_shown st - e))%nat with e by lia. exact Q.
      - intros (d & D & T & Fa). exists (days_shown st - d)%nat. split; [lia|]. split.
        + apply A; [lia|]. replace (days_shown st - (days_shown st - d))%nat with d by lia. exact T.
        + intros j J. apply not_true_iff_false. rewrite B by lia. apply Fa. lia. }
    assert (S1 : (last_index mb < last_index ms)%Z <-> sold).
    { rewrite last_index_lt by (auto; lia). apply (EQ ms mb (fun d => at_most (x d) (level (-80))) (fun e => at_most (level (-20)) (x e))); auto. }
    assert (B1 : (last_index ms < last_index mb)%Z <-> bought).
    { rewrite last_index_lt by (try lia; intros j A B; exact (X j B A)). apply (EQ mb ms (fun d => at_most (level (-20)) (x d)) (fun e => at_most (x e) (level (-80)))); auto. }
    assert (R : lt3 (x 2%nat) (F (-50)) (x 1%nat) = true <-> rose_through x (level (-50))) by (unfold lt3; rewrite andb_true_iff, !less_iff; reflexivity).
    assert (G : gt3 (x 2%nat) (F (-50)) (x 1%nat) = true <-> fell_through x (level (-50))) by (unfold gt3, ngtb; rewrite andb_true_iff, !less_iff; reflexivity).
    rewrite <- S1, <- B1, <- R, <- G. clear.
    assert (T : forall x y : signal, Ok x = Ok y <-> x = y) by (split; congruence). rewrite !T.
    destruct (Z.eqb_spec (last_index ms) (-1)), (Z.eqb_spec (last_index mb) (-1)); cbn [andb];
      destruct (Z.ltb_spec (last_index mb) (last_index ms)), (Z.ltb_spec (last_index ms) (last_index mb)); try lia; cbn [andb];
      destruct (lt3 _ _ _), (gt3 _ _ _); clear T; intuition (try congruence; try lia).
  Qed.

  Lemma uo_answers dc du : working o cUO raw b st ->
    let c := price "close" st in let x := ago "uosc" st in
    (forall e, (1 <= e <= 30)%nat -> (c e = NaN \/ isfin (c e) = true) /\ (x e = NaN \/ isfin (x e) = true)) ->
    lowest_first c 30 dc -> lowest_first x 30 du ->
    answers1 st 30 Buy (dc <> du /\ (less (level 1) (x 1%nat) \/ less (level 0) (x 1%nat) /\ exists e, (2 <= e <= 30)%nat /\ same (x e) (level 0))).
  Proof.
    intros W c x FN LC LU. destruct (working_sound _ _ _ _ _ W) as [SD0 EI0]. cbn [asked] in EI0.
    pose proof (days_same _ SD0) as DS0. rewrite EI0 in DS0. specialize (DS0 eq_refl).
    assert (LT : length (col "uosc" (ob_ti st)) = days_shown st) by (apply len_ti; auto; rewrite EI0; cbn; tauto).
    assert (LCL : length (col "close" (ob_input st)) = days_shown st) by (rewrite <- DS0; apply len_in; auto; rewrite EI0; cbn; tauto).
    open W cc. see. fold (x 1%nat). unfold get_ti_data.
    rewrite (lowest_argmin _ (days_shown st) c dc LCL) by (auto; try (intros; subst c; unfold price, given, cell_at; rewrite DS0; reflexivity); intros; apply FN; auto).
    rewrite (lowest_argmin _ (days_shown st) x du LT) by (auto; intros; apply FN; auto).
    assert (SA : forall v, nltb (num_of_bool v) (F 30) = true) by (intros []; reflexivity). rewrite SA, andb_true_r.
    assert (DD : negb (Z.of_nat (30 - dc) =? Z.of_nat (30 - du))%Z = true <-> dc <> du).
    { destruct LC as [? _], LU as [? _]. rewrite negb_true_iff, Z.eqb_neq. lia. }
    set (z := sall (tail_but_last 30 (col "uosc" (ob_ti st)))).
    assert (ZZ : z = true <-> ~ exists e, (2 <= e <= 30)%nat /\ same (x e) (level 0)).
    { unfold z. rewrite sall_iff. unfold tail_but_last.
      assert (LL : length (tail_k 30 (col "uosc" (ob_ti st))) = 30%nat) by (apply len_tail_k; lia).
      split.
      - intros A (e & E & S). revert S. apply A. replace (x e) with (nth (30 - e) (removelast (tail_k 30 (col "uosc" (ob_ti st)))) NaN).
        + apply nth_In. rewrite len_removelast, LL. lia.
        + rewrite removelast_firstn_len, nth_firstn by (rewrite LL; lia). rewrite nth_tail_k, LT by lia. subst x. unfold ago, shown, cell_at, get_ti_data. f_equal. lia.
      - intros A v V S. apply A. apply (In_nth _ _ NaN) in V as (i & I & <-). rewrite len_removelast, LL in I.
        rewrite removelast_firstn_len, nth_firstn in S by (rewrite LL; lia). rewrite nth_tail_k, LT in S by lia.
        exists (30 - i)%nat. split; [lia|exact S]. }
    assert (T : forall x y : signal, Ok x = Ok y <-> x = y) by (split; congruence). rewrite !T.
    assert (G : nltb (num_of_bool z) (x 1%nat) = true <-> (less (level 1) (x 1%nat) \/ less (level 0) (x 1%nat) /\ exists e, (2 <= e <= 30)%nat /\ same (x e) (level 0))).
    { rewrite less_iff. destruct z; cbn [num_of_bool].
      - pose proof (proj1 ZZ eq_refl). change (Num.F 1) with (level 1). tauto.
      - change (Num.F 0) with (level 0). split.
        + intro L. right. split; [exact L|]. destruct (existsb (fun e => neqb (x e) (level 0)) (seq 2 29)) eqn:EB.
          * apply existsb_exists in EB as (e & I & Q). apply in_seq in I. apply same_iff in Q. exists e. split; [lia|exact Q].
          * exfalso. assert (K : false = true) by (apply ZZ; intros (e & E & S); rewrite <- not_true_iff_false in EB; apply EB; apply existsb_exists; exists e; split; [apply in_seq; lia|apply same_iff; exact S]). discriminate.
        + intros [L|[L _]]; [|exact L]. apply (less_trans _ (level 1)); [reflexivity|exact L]. }
    rewrite <- DD, <- G. destruct (negb _), (nltb _ _); clear; cbn [andb]; intuition congruence.
  Qed.
  Lemma uo_never_sells : working o cUO raw b st -> get_ti_signal st <> Ok Sell.
  Proof.
    intros W E. destruct (working_sound _ _ _ _ _ W) as [SD EI]. cbn [asked] in EI. unfold get_ti_signal in E. rewrite EI in E. unfold signal_of, guard in E.
    destruct (_ <? 30)%nat; [discriminate|]. destruct (iat _ 1); [|discriminate]. cbn [bind] in E. destruct (_ && _)%bool; discriminate.
  Qed.

  Lemma vhf_answers p c : working o (cVHF p) raw b st ->
    (forall j, (j < days_given st)%nat -> given "close" st j = Fin (c j)) -> (forall j, (j < days_given st)%nat -> c j <> 0%Qc) ->
    let n := days_shown st in let x := ago "vhf" st in
    let e := ema_from 0 5 c in let e2 := ema_from 4 5 e in let dema5 k := from 8 k (Fin (r4 (zq 2 * e k - e2 k))%Qc) in
    let m k := r4 (zq 100 * c k / c (k - 12)%nat)%Qc in
    let mom12 d := from 12 (n - d) (Fin (m (n - d)%nat)) in let line d := from 20 (n - d) (Fin (ema_from 12 9 m (n - d))) in
    answers st 3 Buy ((rising3 x /\ (5 <= n)%nat /\ less (price "close" st 1) (dema5 (n - 1)%nat)) \/
                      (falling3 x /\ (12 <= n)%nat /\ crossed_below mom12 line))
                 Sell (falling3 x /\ (12 <= n)%nat /\ crossed_above mom12 line).
  Proof.
    intros W KC NZ n x e e2 dema5 m mom12 line. destruct (working_sound _ _ _ _ _ W) as [SD0 EI0]. cbn [asked] in EI0.
    assert (LC : length (col "close" (ob_input st)) = days_given st) by (apply len_in; auto; rewrite EI0; cbn; tauto).
    assert (FC : col "close" (fill_missing (ob_input st)) = col "close" (ob_input st)).
    { destruct SD0 as (_ & _ & G2 & G3 & _). rewrite (fill_col _ "close" G2 G3).
      apply nth_ext with (d := NaN) (d' := NaN); [rewrite map_length, seq_length; reflexivity|].
      intros k L. rewrite map_length, seq_length in L. rewrite nth_map_seq by auto. apply nearest_present; auto.
      specialize (KC k ltac:(lia)). unfold given, cell_at in KC. rewrite KC. reflexivity. }
    assert (SC : starts (days_given st) 0 (col "close" (ob_input st)) c).
    { split; [exact LC|]. intros j J. unfold from. cbn. apply KC. exact J. }
    assert (SM : starts (days_given st) 12 (mom 12 (col "close" (ob_input st))) m).
    { unfold mom, m. eapply st_at; [apply st_round, st_div; [apply st_scale|apply st_shift|]; [exact SC|exact SC|]|reflexivity].
      intros j A B. apply NZ. lia. }
    open W cc. see. rewrite FC. change (length (rows (ob_input st))) with (days_given st). fold (x 1%nat) (x 2%nat) (x 3%nat).
    rewrite DS in *. fold n in LC, SC, SM, NN, H |- *.
    assert (R : lt3 (x 3%nat) (x 2%nat) (x 1%nat) = true <-> rising3 x) by (unfold lt3; rewrite andb_true_iff, !less_iff; reflexivity).
    assert (G : gt3 (x 3%nat) (x 2%nat) (x 1%nat) = true <-> falling3 x) by (unfold gt3, ngtb; rewrite andb_true_iff, !less_iff; reflexivity).
    assert (X : rising3 x -> falling3 x -> False) by (intros [A _] [B _]; exact (less_asym _ _ A B)).
    assert (DEM : (5 <= n)%nat -> dema_signal (col "close" (ob_input st)) (dema 5 (col "close" (ob_input st))) =
       Ok (if nltb (price "close" st 1) (dema5 (n - 1)%nat) then Buy else Hold)).
    { intro N5. unfold dema_signal. rewrite (iat_last _ n 1 LC) by lia.
      assert (LD : length (dema 5 (col "close" (ob_input st))) = n) by (unfold dema; lens).
      rewrite (iat_last _ n 1 LD) by lia. cbn [bind]. unfold price, given, cell_at. rewrite DS. fold n.
      rewrite (dema_at n (n - 1) _ c (conj LC KC) ltac:(lia) 5 ltac:(lia)). reflexivity. }
    destruct (lt3 _ _ _).
    - pose proof (proj1 R eq_refl) as RR. assert (NF : ~ falling3 x) by tauto. clear R G X.
      destruct (Nat.ltb_spec n 5) as [N5|N5].
      + assert (~ (5 <= n)%nat) by lia. intuition congruence.
      + specialize (DEM N5). unfold dema_signal in DEM. rewrite DEM. assert (T : forall x y : signal, Ok x = Ok y <-> x = y) by (split; congruence). rewrite !T, <- less_iff.
        destruct (nltb _ _); clear - RR NF N5; intuition congruence.
    - assert (NR : ~ rising3 x) by (intro Q; apply R in Q; discriminate). destruct (gt3 _ _ _).
      + pose proof (proj1 G eq_refl) as RR. clear R G X. destruct (Nat.ltb_spec n 12) as [N5|N5].
        * assert (~ (12 <= n)%nat) by lia. intuition congruence.
        * pose proof (mom_signal_rule n 12 _ m SM ltac:(lia)) as MR. cbv zeta in MR. fold mom12 line in MR. tauto.
      + assert (NF : ~ falling3 x) by (intro Q; apply G in Q; discriminate). clear R G X. intuition congruence.
  Qed.

  Lemma level_missing c name up su down sd : level_rule c = Some (name, up, su, down, sd) -> working o c raw b st ->
    ago name st 1 = NaN \/ ago name st 2 = NaN -> get_ti_signal st = Ok Hold.
  Proof.
    intros R W M. destruct (level_answers c name up su down sd R W) as [A B].
    destruct (Nat.lt_ge_cases (days_shown st) 2) as [L|L]; [auto|]. destruct (B L) as (_ & _ & H). apply H.
    unfold rose_through, fell_through. destruct M as [-> | ->]; split; intros [X Y]; destruct (less_present _ _ X), (less_present _ _ Y); congruence.
  Qed.
  Lemma line_missing c name sa sb : line_rule c = Some (name, sa, sb) -> working o c raw b st ->
    ago name st 1 = NaN \/ ago name st 2 = NaN \/ price "close" st 1 = NaN \/ price "close" st 2 = NaN -> get_ti_signal st = Ok Hold.
  Proof.
    intros R W M. destruct (line_answers c name sa sb R W) as [A B].
    destruct (Nat.lt_ge_cases (days_shown st) 2) as [L|L]; [auto|]. destruct (B L) as (_ & _ & H). apply H.
    unfold crossed_above, crossed_below. destruct M as [-> | [-> | [-> | ->]]]; split; intros [X Y]; destruct (less_present _ _ X), (less_present _ _ Y); congruence.
  Qed.
End Rules3.

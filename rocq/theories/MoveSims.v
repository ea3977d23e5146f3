(** * MoveSims: the simulations of one indicator on a market and on the same market with one amount added to all prices. *)
From Coq Require Import ZArith QArith Qcanon Bool List String PeanoNat Lia Sorted Permutation.
From Verif Require Import Num NumFacts RoundFacts Pandas Sim Frame FrameSpec FrameProofs SimSpec SimProofs SimLemmas SimLimit Ind Signal Api IndSpec SeriesFacts Lengths Causal IndFacts Shape ApiSpec ApiCheck ApiProofs ApiLemmas RangeSpec Cells RangeFacts RangeMore Publish RangeApi ValueSpec ValueFacts ValueMore Recur ValueApi CumulApi.
From Verif Require Import SteadySig FormulaSpec Starts Formula Formula2 Formula3 Formula4 Line Formula5 Formula6 FormulaApi FlatFacts IdentFacts IdentApi SignalSpec SignalApi SignalApi2 SignalApi3 MirrorSpec MirrorFacts MirrorApi MirrorApi2 MirrorApi3 MirrorSar MirrorAll MirrorSignal OneWaySpec OneWay OneWayApi AdviceSpec AdviceApi QuietSpec QuietSim QuietApi BooksSpec Books BooksApi TurnSpec TurnSim TurnApi MoveSpec MoveApi MoveDaySpec MirrorDays MirrorSims.
Import ListNotations.
Open Scope list_scope. Open Scope string_scope. Open Scope Qc_scope.
Notation price := SignalSpec.price.

Lemma even_facing o raw raw' b b' m c ob ob' : facing_objects o raw raw' b b' m c ob ob' -> even_handed c ob -> even_handed c ob'.
Proof.
  intros T EH. pose proof (fo_ago _ _ _ _ _ _ _ _ _ T) as AT. pose proof (fo_days _ _ _ _ _ _ _ _ _ T) as RS.
  destruct c; cbn [even_handed] in EH |- *; try exact I; try contradiction.
  - rewrite (AT "upper_band" "lower_band" Across ltac:(cbn; tauto) 1%nat), (AT "lower_band" "upper_band" Across ltac:(cbn; tauto) 1%nat) by lia. cbn [follow]. rewrite less_sub. exact EH.
  - rewrite RS. exact EH.
  - rewrite (AT "highest_high" "lowest_low" Across ltac:(cbn; tauto) 1%nat), (AT "lowest_low" "highest_high" Across ltac:(cbn; tauto) 1%nat) by lia. cbn [follow]. rewrite less_sub. exact EH.
  - rewrite (AT "upper_band" "lower_band" Across ltac:(cbn; tauto) 1%nat), (AT "lower_band" "upper_band" Across ltac:(cbn; tauto) 1%nat) by lia. cbn [follow]. rewrite less_sub. exact EH.
  - destruct EH as [-> EH]. split; [reflexivity|].
    assert (XK : forall d', (1 <= d')%nat -> ago "%K" ob' d' = follow Rest m (ago "%K" ob d')) by (intros; apply AT; [cbn; tauto|lia]).
    assert (XD : forall d', (1 <= d')%nat -> ago "%D" ob' d' = follow Rest m (ago "%D" ob d')) by (intros; apply AT; [cbn; tauto|lia]).
    assert (RV : reversing (follow Rest m)) by (apply follow_reversing; discriminate).
    assert (L8 : level 80 = follow Rest m (level 20)) by (unfold level; cbn [follow nsub nadd nneg]; apply (f_equal Fin), Qc_is_canon; reflexivity).
    assert (L2 : level 20 = follow Rest m (level 80)) by (unfold level; cbn [follow nsub nadd nneg]; apply (f_equal Fin), Qc_is_canon; reflexivity).
    rewrite (fell_r _ RV _ _ 20%Z 80%Z XK L8), (fell_r _ RV _ _ 20%Z 80%Z XD L8), (rose_r _ RV _ _ 80%Z 20%Z XK L2), (rose_r _ RV _ _ 80%Z 20%Z XD L2). tauto.
  - assert (X : forall d', (1 <= d')%nat -> price "close" ob' d' = follow Across m (price "close" ob d')) by (intros d' D'; apply (fo_close _ _ _ _ _ _ _ _ _ T); [cbn; tauto|exact D']).
    assert (RV : reversing (follow Across m)) by (apply follow_reversing; discriminate).
    rewrite (lowest_r _ RV _ _ 30 X), (highest_r _ RV _ _ 30 X). tauto.
Qed.
Lemma frame_dates n op h l cl v : NoDup (dates (frame_of n op h l cl v)).
Proof.
  unfold dates, frame_of. cbn [r_rows]. rewrite map_map. cbn [fst]. apply FinFun.Injective_map_NoDup; [intros x y X; lia|apply seq_NoDup].
Qed.

Section Days.
  Variables (o : oracle) (raw raw' : rawframe) (b b' : bool) (ob ob' : obj) (d : Qc) (op h l cl v : nat -> Qc) (c : ctor).
  Hypothesis W : wf_raw raw. Hypothesis W' : wf_raw raw'. Hypothesis N : NoDup (dates raw). Hypothesis N' : NoDup (dates raw'). Hypothesis E : even_ticks d.
  Hypothesis T : twice c o raw raw' b b' ob ob'. Hypothesis M : moved c d ob ob' op h l cl v.
  Hypothesis ORD : forall k, (k < days_given ob)%nat -> ordinary c (days_given ob) k op h l cl v.
  Hypothesis ND : is_dpo (asked c) = false.

  Lemma move_dpo_first : is_dpo (ob_ind ob) = false. Proof. rewrite (ind_asked o raw b ob W c (proj1 T)). exact ND. Qed.
  Lemma move_dpo_second : is_dpo (ob_ind ob') = false. Proof. rewrite (ind_asked o raw' b' ob' W' c (proj2 T)). exact ND. Qed.
  Lemma even_day_stays k s : (k < days_given ob)%nat -> even_handed c (limited k ob) -> get_ti_signal (limited k ob) = Ok s -> get_ti_signal (limited k ob') = Ok s.
  Proof.
    intros K EH G. destruct (in_between o raw raw' b b' ob ob' d op h l cl v c W T M ltac:(lia)) as (mid & T1 & T2 & O1 & O2).
    pose proof (frame_wf (days_given ob) (mo op) (mo l) (mo h) (mo cl) v) as WM. pose proof (frame_dates (days_given ob) (mo op) (mo l) (mo h) (mo cl) v) as NM.
    pose proof (day_reversed o raw _ b false ob mid 0 op h l cl v c W WM N NM zero_even T1 O1 ORD ND k s K EH G) as G1.
    pose proof (even_facing _ _ _ _ _ _ _ _ _ (limited_facing o raw _ b false ob mid 0 op h l cl v c W WM N NM zero_even T1 O1 ORD ND k K) EH) as EM.
    rewrite <- (opposite_twice s). apply (day_reversed o _ raw' false b' mid ob' d (mo op) (mo l) (mo h) (mo cl) v c WM W' NM N' E T2 O2); [|exact ND| |exact EM|exact G1].
    - intros j J. destruct O1 as [D _]. rewrite D in *. apply ordinary_mir, ORD, J.
    - destruct O1 as [D _]. rewrite D. exact K.
  Qed.
  Section Day.
    Variable k : nat. Hypothesis K : (k < days_given ob)%nat.
    Lemma move_days : days_shown (limited k ob) = S k /\ days_shown (limited k ob') = S k.
    Proof. split; [apply (limited_shown o c raw b ob k W N (proj1 T) move_dpo_first K)|apply (limited_shown o c raw' b' ob' k W' N' (proj2 T) move_dpo_second); destruct M as [-> _]; exact K]. Qed.
    Lemma day_ago name e : (1 <= e)%nat -> (In name (price_like c) -> ago name (limited k ob') e = nadd (Fin d) (ago name (limited k ob) e)) /\ (In name (level_free c) -> ago name (limited k ob') e = ago name (limited k ob) e).
    Proof.
      intro D. assert (K' : (k < days_given ob')%nat) by (destruct M as [-> _]; exact K). destruct move_days as [DS DS']. unfold ago. rewrite DS, DS'.
      rewrite (limited_cell o c raw' b' ob' k name (S k - e) W' N' (proj2 T) move_dpo_second K' ltac:(lia)), (limited_cell o c raw b ob k name (S k - e) W N (proj1 T) move_dpo_first K ltac:(lia)).
      split; intro I; [apply (prices_move o raw raw' b b' ob ob' d op h l cl v c W W' E T M); auto; try lia; apply ORD; lia|apply (levels_stay o raw raw' b b' ob ob' d op h l cl v c W W' E T M); auto; try lia; apply ORD; lia].
    Qed.
    Lemma day_close e : In "close" (required (asked c)) -> (1 <= e)%nat -> price "close" (limited k ob') e = nadd (Fin d) (price "close" (limited k ob) e).
    Proof.
      intros I D. assert (K' : (k < days_given ob')%nat) by (destruct M as [-> _]; exact K).
      destruct (limited_days o c raw b ob k W N (proj1 T) K) as [DG GV]. destruct (limited_days o c raw' b' ob' k W' N' (proj2 T) K') as [DG' GV'].
      destruct M as (_ & _ & _ & _ & MC & _). destruct (MC I) as [X Y]. unfold price. rewrite DG, DG', GV, GV' by lia. rewrite X, Y by lia. reflexivity.
    Qed.
    Lemma day_stays s : keeps_advice c (limited k ob) -> get_ti_signal (limited k ob) = Ok s -> get_ti_signal (limited k ob') = Ok s.
    Proof.
      destruct move_days as [DS DS']. pose proof (lim_working o raw b ob W c k (proj1 T)) as FW. pose proof (lim_working o raw' b' ob' W' c k (proj2 T)) as SW. pose proof day_ago as DA. pose proof day_close as DC.
      assert (LA : forall x y, less (nadd (Fin d) x) (nadd (Fin d) y) <-> less x y) by (intros x y; apply less_add).
      assert (ONE : forall n0 P P', answers1 (limited k ob) n0 Buy P -> answers1 (limited k ob') n0 Buy P' -> (P' <-> P) -> get_ti_signal (limited k ob) = Ok s -> get_ti_signal (limited k ob') = Ok s).
      { intros n0 P P' [A1 A2] [B1 B2] Q G. rewrite DS in A1, A2. rewrite DS' in B1, B2. destruct (Nat.lt_ge_cases (S k) n0) as [L|L].
        - rewrite (A1 L) in G. injection G as <-. apply B1, L.
        - specialize (A2 L) as [A2 A3]. specialize (B2 L) as [B2 B3]. destruct s.
          + apply B2, Q, A2, G. + apply B3. rewrite Q. apply A3, G.
          + exfalso. assert (DP : P -> False) by (intro X; apply A2 in X; congruence). apply A3 in DP. congruence. }
      intros [EH|[EC|[(p & q & EC)|[(p & EC)|(p & t & EC & PL)]]]].
      - apply even_day_stays; assumption.
      - rewrite EC in FW, SW, DA. assert (X : forall e, (1 <= e)%nat -> ago "mfi" (limited k ob') e = ago "mfi" (limited k ob) e) by (intros; apply DA; [lia|cbn; tauto]).
        eapply stay; [|rewrite DS, DS'; reflexivity|exact (mfi_answers FW)|exact (mfi_answers SW)|..]; [auto|..]; rewrite !X by lia; tauto.
      - rewrite EC in FW, SW, DA. assert (X : forall e, (1 <= e)%nat -> ago "vch" (limited k ob') e = ago "vch" (limited k ob) e) by (intros; apply DA; [lia|cbn; tauto]).
        eapply stay; [|rewrite DS, DS'; reflexivity|exact (three_answers (cVCH p q) "vch" Buy Sell eq_refl FW)|exact (three_answers (cVCH p q) "vch" Buy Sell eq_refl SW)|..]; [auto|..]; unfold rising3, falling3; rewrite !X by lia; tauto.
      - rewrite EC in FW, SW, DA, DC. apply (ONE _ _ _ (dema_answers _ FW) (dema_answers _ SW)). rewrite (DC 1%nat ltac:(cbn; tauto) (le_n 1)), (proj1 (DA "dema" 1%nat (le_n 1)) ltac:(cbn; tauto)). apply LA.
      - assert (R2 : In ("ma-" ++ t)%string (price_like c)) by (rewrite EC in PL |- *; cbn [price_like] in PL |- *; destruct (existsb _ _); [left; reflexivity|congruence]).
        pose proof (proj1 (DA _ 1%nat (le_n 1)) R2) as C2. rewrite EC in FW, SW, DC. apply (ONE _ _ _ (ma_answers _ _ FW) (ma_answers _ _ SW)). cbn [as_str]. rewrite (DC 1%nat ltac:(cbn; tauto) (le_n 1)), C2. apply LA.
    Qed.
  End Day.
  Variables (cv cv' : rawval) (me me' fa fa' : pyval) (st st' : sim) (sts sts' : stats).
  Hypothesis R : snd (get_ti_simulation ob cv me fa) = Ok (st, sts).
  Hypothesis R' : snd (get_ti_simulation ob' cv' me' fa') = Ok (st', sts').
  Hypothesis KA : forall k, (k < days_given ob)%nat -> keeps_advice c (limited k ob).
  Lemma run_stays k : (k < days_given ob)%nat -> x_signal (row_ (data st') k) = x_signal (row_ (data st) k).
  Proof.
    intros K. pose proof (construct_sound _ _ _ _ _ W (proj1 T)) as SO. pose proof (construct_sound _ _ _ _ _ W' (proj2 T)) as SO'.
    destruct (simulation_inv _ _ _ _ _ _ SO R) as (ps & m0 & x & a & A & -> & L & _ & P). destruct (simulation_inv _ _ _ _ _ _ SO' R') as (ps' & m0' & x' & a' & A' & -> & L' & _ & P').
    assert (LT : List.length (rows (ob_ti ob)) = days_given ob) by (rewrite ti_shorter by (auto using not_dpo, move_dpo_first); unfold days_given; apply len_index).
    assert (LT' : List.length (rows (ob_ti ob')) = days_given ob') by (rewrite ti_shorter by (auto using not_dpo, move_dpo_second); unfold days_given; apply len_index).
    assert (LC : List.length ps = days_given ob) by (rewrite (start_len _ _ _ _ _ _ _ A); unfold days_given; apply len_index).
    assert (LC' : List.length ps' = days_given ob') by (rewrite (start_len _ _ _ _ _ _ _ A'); unfold days_given; apply len_index).
    assert (DD : days_given ob' = days_given ob) by (destruct M as [-> _]; reflexivity).
    destruct (simulate_rows ps m0 x a k ltac:(lia) ltac:(lia)) as (Y & _). destruct (simulate_rows ps' m0' x' a' k ltac:(lia) ltac:(lia)) as (Y' & _).
    unfold row_ in *. rewrite Y, Y'. pose proof (day_stays k K _ (KA k K) (P k ltac:(lia))) as Q. rewrite (P' k ltac:(lia)) in Q. injection Q as ->. reflexivity.
  Qed.
End Days.

(** ** the books *)
Lemma opposites a : map opposite (map opposite a) = a.
Proof. rewrite map_map. rewrite <- (map_id a) at 2. apply map_ext. intros []; reflexivity. Qed.
Lemma twice_down d ps : upside_down d (upside_down 0 ps) = map (fun p => d + p) ps.
Proof. unfold upside_down. rewrite map_map. apply map_ext. intro. ring. Qed.
Lemma run_moved ps d f f' sgs i : 1 <= f -> 1 <= f' -> (List.length sgs <= List.length ps)%nat -> (i < List.length sgs)%nat ->
  let r := data (simulate (map Fin ps) None (Fin f) sgs) in let r' := data (simulate (map Fin (map (fun p => d + p) ps)) None (Fin f') sgs) in
  x_earnings (row_ r' i) = x_earnings (row_ r i) /\ open_longs r' i = open_longs r i /\ open_shorts r' i = open_shorts r i /\ on_paper r' i = on_paper r i /\ BooksSpec.moves r' i = BooksSpec.moves r i.
Proof.
  intros F1 F2 L I. cbv zeta. destruct (run_turned ps 0 f 1 sgs i F1 ltac:(discriminate) L I) as (A1 & A2 & A3 & A4 & A5).
  destruct (run_turned (upside_down 0 ps) d 1 f' (map opposite sgs) i ltac:(discriminate) F2) as (B1 & B2 & B3 & B4 & B5); [unfold upside_down; rewrite !map_length; exact L|rewrite map_length; exact I|].
  rewrite twice_down, opposites in B1, B2, B3, B4, B5. rewrite B1, B2, B3, B4, B5, A1, A2, A3, A4, A5. repeat split; reflexivity.
Qed.
Section Two.
  Variables (o o' : oracle) (c c' : ctor) (raw raw' : rawframe) (b b' : bool) (ob ob' : obj) (cv cv' : rawval) (fa fa' : pyval) (f f' d : Qc) (st st' : sim) (sts sts' : stats).
  Hypothesis W : wf_raw raw.
  Hypothesis W' : wf_raw raw'.
  Hypothesis H : snd (construct o c (RFrame raw) (VBool b)) = Ok ob.
  Hypothesis H' : snd (construct o' c' (RFrame raw') (VBool b')) = Ok ob'.
  Hypothesis ND : is_dpo (ob_ind ob) = false.
  Hypothesis ND' : is_dpo (ob_ind ob') = false.
  Hypothesis FA : number_of fa = Some (Fin f).
  Hypothesis FA' : number_of fa' = Some (Fin f').
  Hypothesis R : snd (get_ti_simulation ob cv VNone fa) = Ok (st, sts).
  Hypothesis R' : snd (get_ti_simulation ob' cv' VNone fa') = Ok (st', sts').
  Hypothesis DG : days_given ob' = days_given ob.
  Hypothesis PR : forall k, (k < days_given ob)%nat -> isfin (x_stock (row_ (data st) k)) = true /\ x_stock (row_ (data st') k) = nadd (Fin d) (x_stock (row_ (data st) k)).
  Hypothesis SG : forall k, (k < days_given ob)%nat -> x_signal (row_ (data st') k) = x_signal (row_ (data st) k).

  Lemma reported_moved : (forall i, (i < days_given ob)%nat -> x_earnings (row_ (data st') i) = x_earnings (row_ (data st) i)) /\
    last_earnings sts' = last_earnings sts /\ last_open_long_positions sts' = last_open_long_positions sts /\ last_open_short_positions sts' = last_open_short_positions sts /\
    number_of_buy_signals sts' = number_of_buy_signals sts /\ number_of_sell_signals sts' = number_of_sell_signals sts.
  Proof.
    destruct (one_run o c raw b ob cv VNone fa f st sts W H ND FA R ltac:(intros k K; apply (PR k K))) as (ps & m0 & a & E & ST & F1 & LP & LA & M0). specialize (M0 eq_refl). subst m0.
    assert (PR2 : forall k, (k < days_given ob')%nat -> isfin (x_stock (row_ (data st') k)) = true) by (intros k K; rewrite DG in K; destruct (PR k K) as [P1 P2]; rewrite P2; destruct (x_stock (row_ (data st) k)); try discriminate P1; reflexivity).
    destruct (one_run o' c' raw' b' ob' cv' VNone fa' f' st' sts' W' H' ND' FA' R' PR2) as (ps' & m0 & a' & E' & ST' & F1' & LP' & LA' & M0). specialize (M0 eq_refl). subst m0. rewrite DG in LP', LA'.
    assert (LAP : (List.length a <= List.length ps)%nat) by lia. assert (LAP' : (List.length a' <= List.length ps')%nat) by lia.
    assert (EP : ps' = map (fun p => d + p) ps).
    { apply (nth_ext _ _ 0 0); [rewrite map_length; lia|]. intros j J. destruct (PR j ltac:(lia)) as [_ P]. rewrite E, E', !(sp_stock _ None) in P by (auto; lia). cbn [nadd] in P.
      rewrite (nth_indep (map _ _) 0 (d + 0)) by (rewrite map_length; lia). rewrite (map_nth (fun p => d + p)). congruence. }
    assert (EA : a' = a).
    { apply (nth_ext _ _ Hold Hold); [lia|]. intros j J. assert (P := SG j ltac:(lia)). rewrite E, E', !(sp_signal _ None) in P by (auto; lia). congruence. }
    rewrite EP in E'. rewrite EA in E', LA', LAP'. rewrite EP in LAP'.
    assert (G : forall i, (i < days_given ob)%nat -> x_earnings (row_ (data st') i) = x_earnings (row_ (data st) i)) by (intros i I; rewrite E, E'; apply run_moved; auto; lia).
    split; [exact G|]. rewrite ST, ST', E, E'.
    cut (let s' := statistics (simulate (map Fin (map (fun p => d + p) ps)) None (Fin f') a) in let s := statistics (simulate (map Fin ps) None (Fin f) a) in
      last_earnings s' = last_earnings s /\ last_open_long_positions s' = last_open_long_positions s /\ last_open_short_positions s' = last_open_short_positions s).
    { cbv zeta. intros (A1 & A2 & A3). split; [exact A1|]. split; [exact A2|]. split; [exact A3|]. cbn [statistics number_of_buy_signals number_of_sell_signals]. rewrite !stat_signals by auto. split; reflexivity. }
    cbv zeta. destruct (days_given ob) as [|k] eqn:DK.
    - destruct a; [|discriminate LA]. destruct ps; [|discriminate LP]. split; [reflexivity|]. split; reflexivity.
    - destruct (stat_values ps None f a F1 LAP k LA) as (_ & _ & _ & S4 & _ & S6 & S7). destruct (stat_values (map (fun p => d + p) ps) None f' a F1' LAP' k LA') as (_ & _ & _ & S4' & _ & S6' & S7'). rewrite S4, S4', S6, S6', S7, S7'.
      destruct (run_moved ps d f f' a k F1 F1' LAP ltac:(lia)) as (X1 & X2 & X3 & _). rewrite X1, X2, X3. split; [reflexivity|]. split; reflexivity.
  Qed.
End Two.
Section Whole.
  Variables (o : oracle) (raw raw' : rawframe) (b b' : bool) (ob ob' : obj) (d : Qc) (op h l cl v : nat -> Qc) (c : ctor).
  Hypothesis W : wf_raw raw. Hypothesis W' : wf_raw raw'. Hypothesis N : NoDup (dates raw). Hypothesis N' : NoDup (dates raw'). Hypothesis E : even_ticks d.
  Hypothesis T : twice c o raw raw' b b' ob ob'. Hypothesis M : moved c d ob ob' op h l cl v.
  Hypothesis ORD : forall k, (k < days_given ob)%nat -> ordinary c (days_given ob) k op h l cl v.
  Hypothesis ND : is_dpo (asked c) = false.
  Variables (cv cv' : rawval) (me me' fa fa' : pyval) (f f' : Qc) (st st' : sim) (sts sts' : stats).
  Hypothesis R : snd (get_ti_simulation ob cv me fa) = Ok (st, sts).
  Hypothesis R' : snd (get_ti_simulation ob' cv' me' fa') = Ok (st', sts').
  Hypothesis KA : forall k, (k < days_given ob)%nat -> keeps_advice c (limited k ob).
  Hypothesis FA : number_of fa = Some (Fin f).
  Hypothesis FA' : number_of fa' = Some (Fin f').
  Hypothesis ME : me = VNone.
  Hypothesis ME' : me' = VNone.
  Hypothesis PR : forall k, (k < days_given ob)%nat -> isfin (x_stock (row_ (data st) k)) = true /\ x_stock (row_ (data st') k) = nadd (Fin d) (x_stock (row_ (data st) k)).
  Lemma run_earns_as_before : (forall i, (i < days_given ob)%nat -> x_earnings (row_ (data st') i) = x_earnings (row_ (data st) i)) /\
    last_earnings sts' = last_earnings sts /\ last_open_long_positions sts' = last_open_long_positions sts /\ last_open_short_positions sts' = last_open_short_positions sts /\
    number_of_buy_signals sts' = number_of_buy_signals sts /\ number_of_sell_signals sts' = number_of_sell_signals sts.
  Proof.
    assert (RR := run_stays o raw raw' b b' ob ob' d op h l cl v c W W' N N' E T M ORD ND cv cv' me me' fa fa' st st' sts sts' R R' KA). rewrite ME in R. rewrite ME' in R'.
    exact (reported_moved o o c c raw raw' b b' ob ob' cv cv' fa fa' f f' d st st' sts sts' W W' (proj1 T) (proj2 T) (move_dpo_first o raw raw' b b' ob ob' c W T ND) (move_dpo_second o raw raw' b b' ob ob' c W' T ND) FA FA' R R' (proj1 M) PR RR).
  Qed.
End Whole.

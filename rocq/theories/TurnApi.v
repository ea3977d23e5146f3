(** * TurnApi: two reported simulations, one of them turned upside down. *)
From Coq Require Import ZArith QArith Qcanon Bool List String PeanoNat Lia.
From Verif Require Import Num NumFacts RoundFacts Pandas Sim Frame FrameSpec FrameProofs SimSpec SimProofs SimLemmas SimLimit Ind Signal Api IndSpec SeriesFacts Lengths Causal IndFacts Shape ApiSpec ApiCheck ApiProofs ApiLemmas RangeSpec Cells RangeFacts RangeMore Publish RangeApi ValueSpec ValueFacts ValueMore Recur ValueApi CumulApi.
From Verif Require Import FormulaSpec OrderFacts SignalSpec SignalApi SignalApi2 OneWaySpec OneWay OneWayApi AdviceSpec AdviceApi QuietSpec QuietSim BooksSpec Books BooksApi MirrorSpec TurnSpec TurnSim.
Import ListNotations.
Open Scope list_scope. Open Scope string_scope. Open Scope Qc_scope.

Section Two.
  Variables (o o' : oracle) (c c' : ctor) (raw raw' : rawframe) (b b' : bool) (ob ob' : obj) (cv cv' : rawval) (fa fa' : pyval) (f f' m : Qc) (st st' : sim) (sts sts' : stats).
  Hypothesis W : wf_raw raw.
  Hypothesis W' : wf_raw raw'.
  Hypothesis H : snd (construct o c (RFrame raw) (VBool b)) = Ok ob.
  Hypothesis H' : snd (construct o' c' (RFrame raw') (VBool b')) = Ok ob'.
  Hypothesis ND : is_dpo (ob_ind ob) = false.
  Hypothesis ND' : is_dpo (ob_ind ob') = false.
  Hypothesis FA : number_of fa = Some (Fin f).
  Hypothesis FA' : number_of fa' = Some (Fin f').
  Hypothesis R : snd (get_ti_simulation ob cv VNone fa) = Ok (st, sts).
  Hypothesis R' : snd (get_ti_simulation ob' cv' VNone fa') = Ok (st', sts').
  Hypothesis DG : days_given ob' = days_given ob.
  Hypothesis PR : forall k, (k < days_given ob)%nat -> isfin (x_stock (row_ (data st) k)) = true /\ x_stock (row_ (data st') k) = nsub (Fin m) (x_stock (row_ (data st) k)).
  Hypothesis OP : forall k s, (k < days_given ob)%nat -> x_signal (row_ (data st) k) = Some s -> x_signal (row_ (data st') k) = Some (opposite s).

  Lemma reported_turned : (forall i, (i < days_given ob)%nat -> x_earnings (row_ (data st') i) = x_earnings (row_ (data st) i)) /\
    last_earnings sts' = last_earnings sts /\ last_open_long_positions sts' = last_open_short_positions sts /\ last_open_short_positions sts' = last_open_long_positions sts /\
    number_of_buy_signals sts' = number_of_sell_signals sts /\ number_of_sell_signals sts' = number_of_buy_signals sts.
  Proof.
    destruct (one_run o c raw b ob cv VNone fa f st sts W H ND FA R ltac:(intros k K; apply (PR k K))) as (ps & m0 & a & E & ST & F1 & LP & LA & M0). specialize (M0 eq_refl). subst m0.
    assert (PR2 : forall k, (k < days_given ob')%nat -> isfin (x_stock (row_ (data st') k)) = true) by (intros k K; rewrite DG in K; destruct (PR k K) as [P1 P2]; rewrite P2; destruct (x_stock (row_ (data st) k)); try discriminate P1; reflexivity).
    destruct (one_run o' c' raw' b' ob' cv' VNone fa' f' st' sts' W' H' ND' FA' R' PR2) as (ps' & m0 & a' & E' & ST' & F1' & LP' & LA' & M0). specialize (M0 eq_refl). subst m0. rewrite DG in LP', LA'.
    assert (LAP : (List.length a <= List.length ps)%nat) by lia. assert (LAP' : (List.length a' <= List.length ps')%nat) by lia.
    assert (EP : ps' = upside_down m ps).
    { apply (nth_ext _ _ 0 0); [unfold upside_down; rewrite map_length; lia|]. intros j J. destruct (PR j ltac:(lia)) as [_ P]. rewrite E, E', !(sp_stock _ None) in P by (auto; lia). cbn [nsub] in P.
      unfold upside_down. rewrite (nth_indep (map _ _) 0 (m - 0)) by (rewrite map_length; lia). rewrite (map_nth (fun p => m - p)). injection P as P. rewrite P. reflexivity. }
    assert (EA : a' = map opposite a).
    { apply (nth_ext _ _ Hold (opposite Hold)); [rewrite map_length; lia|]. intros j J. rewrite map_nth. assert (P := OP j (nth j a Hold) ltac:(lia)). rewrite E, E', !(sp_signal _ None) in P by (auto; lia). specialize (P eq_refl). congruence. }
    rewrite EP in E'. rewrite EA in E', LA', LAP'. rewrite EP in LAP'.
    assert (G : forall i, (i < days_given ob)%nat -> x_earnings (row_ (data st') i) = x_earnings (row_ (data st) i)) by (intros i I; rewrite E, E'; apply run_turned; auto; lia).
    split; [exact G|]. rewrite ST, ST', E, E'.
    assert (CN : forall s l, count (sig_eqb s) (map opposite l) = count (sig_eqb (opposite s)) l).
    { intros s l. unfold count. induction l as [|x l IH]; [reflexivity|]. cbn [map filter]. replace (sig_eqb s (opposite x)) with (sig_eqb (opposite s) x) by (destruct s, x; reflexivity). destruct (sig_eqb (opposite s) x); cbn [length]; rewrite IH; reflexivity. }
    cut (let s' := statistics (simulate (map Fin (upside_down m ps)) None (Fin f') (map opposite a)) in let s := statistics (simulate (map Fin ps) None (Fin f) a) in
      last_earnings s' = last_earnings s /\ last_open_long_positions s' = last_open_short_positions s /\ last_open_short_positions s' = last_open_long_positions s).
    { cbv zeta. intros (A1 & A2 & A3). split; [exact A1|]. split; [exact A2|]. split; [exact A3|]. cbn [statistics number_of_buy_signals number_of_sell_signals]. rewrite !stat_signals by auto. rewrite !CN. split; reflexivity. }
    cbv zeta. destruct (days_given ob) as [|k] eqn:DK.
    - destruct a; [|discriminate LA]. destruct ps; [|discriminate LP]. split; [reflexivity|]. split; reflexivity.
    - destruct (stat_values ps None f a F1 LAP k LA) as (_ & _ & _ & S4 & _ & S6 & S7). destruct (stat_values (upside_down m ps) None f' (map opposite a) F1' LAP' k LA') as (_ & _ & _ & S4' & _ & S6' & S7'). rewrite S4, S4', S6, S6', S7, S7'.
      destruct (run_turned ps m f f' a k F1 F1' LAP ltac:(lia)) as (X1 & X2 & X3 & _). rewrite X1, X2, X3. split; [reflexivity|]. split; reflexivity.
  Qed.
End Two.

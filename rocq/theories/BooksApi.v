(** * BooksApi: the books of the simulations that getTiSimulation reports. *)
From Coq Require Import ZArith QArith Qcanon Bool List String PeanoNat Lia.
From Verif Require Import Num NumFacts RoundFacts Pandas Sim Frame FrameSpec FrameProofs SimSpec SimProofs SimLemmas SimLimit Ind Signal Api IndSpec SeriesFacts Lengths Causal IndFacts Shape ApiSpec ApiCheck ApiProofs ApiLemmas RangeSpec Cells RangeFacts RangeMore Publish RangeApi ValueSpec ValueFacts ValueMore Recur ValueApi CumulApi.
From Verif Require Import FormulaSpec OrderFacts SignalSpec SignalApi SignalApi2 OneWaySpec OneWay OneWayApi AdviceSpec AdviceApi QuietSpec QuietSim BooksSpec Books.
Import ListNotations.
Open Scope list_scope. Open Scope string_scope. Open Scope Qc_scope.

Section One.
  Variables (o : oracle) (c : ctor) (raw : rawframe) (b : bool) (ob : obj) (cv : rawval) (me fa : pyval) (f : Qc) (st : sim) (sts : stats).
  Hypothesis W : wf_raw raw.
  Hypothesis H : snd (construct o c (RFrame raw) (VBool b)) = Ok ob.
  Hypothesis ND : is_dpo (ob_ind ob) = false.
  Hypothesis FA : number_of fa = Some (Fin f).
  Hypothesis R : snd (get_ti_simulation ob cv me fa) = Ok (st, sts).
  Hypothesis PR : forall k, (k < days_given ob)%nat -> isfin (x_stock (row_ (data st) k)) = true.

  Lemma one_run_limited : exists ps m a, st = simulate (map Fin ps) m (Fin f) a /\ sts = statistics st /\ 1 <= f /\ List.length ps = days_given ob /\ List.length a = days_given ob /\ check_max_exposure me = Ok m.
  Proof.
    pose proof (construct_sound _ _ _ _ _ W H) as SO. destruct (simulation_inv _ _ _ _ _ _ SO R) as (cl & m & x & a & A & E & L & ST & P).
    assert (LT : List.length (rows (ob_ti ob)) = days_given ob) by (rewrite ti_shorter by (auto using not_dpo); unfold days_given; apply len_index).
    assert (LC : List.length cl = days_given ob) by (rewrite (start_len _ _ _ _ _ _ _ A); unfold days_given; apply len_index).
    destruct A as (fr & V1 & IX & M & X & CL). clear CL.
    set (ps := map qv cl). assert (CE : cl = map Fin ps).
    { apply (nth_ext _ _ NaN NaN); [unfold ps; rewrite !map_length; reflexivity|]. intros j J. rewrite LC in J. unfold ps. rewrite map_map.
      destruct (simulate_rows cl m x a j ltac:(lia) ltac:(lia)) as (_ & _ & Y). specialize (PR j J). rewrite E in PR. unfold row_ in PR. rewrite Y in PR.
      rewrite (nth_indep (map _ _) NaN ((fun z => Fin (qv z)) NaN)) by (rewrite map_length; lia). rewrite (map_nth (fun z => Fin (qv z))). destruct (nth j cl NaN); try discriminate PR. reflexivity. }
    unfold check_factor in X. rewrite FA in X. destruct (nltb (Fin f) (F 1)) eqn:F1; [discriminate|]. injection X as <-.
    exists ps, m, a. rewrite <- CE. split; [exact E|]. split; [exact ST|].
    split; [cbn in F1; change (Q2Qc (inject_Z 1)) with 1 in F1; destruct (qltb_spec f 1) as [G|G]; [discriminate|apply Qcnot_lt_le; exact G]|].
    split; [unfold ps; rewrite map_length; exact LC|]. split; [lia|]. exact M.
  Qed.
  Lemma one_run : exists ps m a, st = simulate (map Fin ps) m (Fin f) a /\ sts = statistics st /\ 1 <= f /\ List.length ps = days_given ob /\ List.length a = days_given ob /\ (me = VNone -> m = None).
  Proof. destruct one_run_limited as (ps & m & a & A1 & A2 & A3 & A4 & A5 & M). exists ps, m, a. do 5 (split; [assumption|]). intros ->. cbn in M. injection M as <-. reflexivity. Qed.
  Lemma reported_books i : (i < days_given ob)%nat -> exists e v x, x_earnings (row_ (data st) i) = Fin e /\ x_portfolio_value (row_ (data st) i) = Fin v /\ x_exposure (row_ (data st) i) = Fin x /\ x_balance (row_ (data st) i) = Fin (e + v) /\
    e + on_paper (data st) i = moves (data st) i /\ on_paper (data st) i <= 0 /\ v = SimSpec.price (data st) i * held (data st) i /\ x = paid (data st) i + f * received (data st) i /\ on_paper (data st) i = v - paid (data st) i + received (data st) i.
  Proof. intro I. destruct one_run as (ps & m & a & E & _ & F1 & LP & LA & _). rewrite E. apply run_books; auto; lia. Qed.
  Lemma reported_flat : last_open_long_positions sts = 0%nat -> last_open_short_positions sts = 0%nat -> last_earnings sts = nround 2 (Fin (moves (data st) (days_given ob - 1))).
  Proof.
    destruct one_run as (ps & m & a & E & ST & F1 & LP & LA & _). assert (LAP : (List.length a <= List.length ps)%nat) by lia. rewrite ST, E. intros OL OS.
    destruct (days_given ob) as [|k] eqn:DK.
    - destruct a; [|discriminate LA]. destruct ps; [|discriminate LP]. refine (f_equal Fin (_ : Q2Qc (inject_Z 0) = qround 2 (moves [] 0))). apply Qc_is_canon. vm_compute. reflexivity.
    - destruct (stat_values ps m f a F1 LAP k LA) as (_ & _ & _ & S4 & _ & S6 & S7). rewrite S6 in OL. rewrite S7 in OS. rewrite S4, sp_earnings by (auto; lia). f_equal. f_equal.
      replace (S k - 1)%nat with k by lia. rewrite <- books, nothing_open by assumption. ring.
  Qed.
End One.

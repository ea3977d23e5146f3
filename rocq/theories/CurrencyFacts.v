(** * CurrencyFacts: the simulator commutes with a change of the currency. *)
From Coq Require Import ZArith QArith Qcanon Bool List String PeanoNat Lia.
From Verif Require Import Num NumFacts Pandas Frame FrameSpec Sim Ind Signal Api CurrencySpec.
Import ListNotations.
Open Scope list_scope. Open Scope Qc_scope.

Section Scale.
  Variable a : Qc.
  Hypothesis A : 0 < a.
  Notation sc := (nmul (Fin a)).
  Lemma a_pos : qltb 0 a = true. Proof. apply qltb_iff, A. Qed.
  Lemma a_nz : qeqb a 0 = false. Proof. apply qeqb_false. intro E. rewrite E in A. exact (Qclt_not_eq _ _ A eq_refl). Qed.
  Lemma sc_pinf : sc PInf = PInf. Proof. cbn. unfold infmul. rewrite a_nz, a_pos. reflexivity. Qed.
  Lemma sc_ninf : sc NInf = NInf. Proof. cbn. unfold infmul. rewrite a_nz, a_pos. reflexivity. Qed.
  Lemma sc_fin q : sc (Fin q) = Fin (a * q). Proof. reflexivity. Qed.
  Lemma sc_nan : sc NaN = NaN. Proof. reflexivity. Qed.
  Lemma sc_0 : sc (F 0) = F 0. Proof. cbn. apply (f_equal Fin). change (Q2Qc (inject_Z 0)) with 0. ring. Qed.
  Ltac sce := rewrite ?sc_pinf, ?sc_ninf, ?sc_fin, ?sc_nan.
  Lemma qltb_sc x y : qltb (a * x) (a * y) = qltb x y.
  Proof.
    destruct (qltb x y) eqn:E.
    - apply qltb_iff in E. apply qltb_iff. rewrite !(Qcmult_comm a). apply Qcmult_lt_compat_r; assumption.
    - apply qltb_false in E. apply qltb_false. rewrite !(Qcmult_comm a). apply Qcmult_le_compat_r; [assumption|apply Qclt_le_weak, A].
  Qed.
  Lemma qeqb_sc x y : qeqb (a * x) (a * y) = qeqb x y.
  Proof.
    destruct (qeqb x y) eqn:E; [apply qeqb_iff in E as ->; apply qeqb_iff; reflexivity|]. apply qeqb_false in E. apply qeqb_false. intro Q. apply E.
    assert (N : a <> 0) by (apply qeqb_false, a_nz). rewrite <- (Qcmult_1_l x), <- (Qcmult_1_l y), <- (Qcmult_inv_l a N), <- !Qcmult_assoc, Q. reflexivity.
  Qed.
  Lemma qltb_sc0 x : qltb 0 (a * x) = qltb 0 x. Proof. rewrite <- (qltb_sc 0 x). f_equal. ring. Qed.
  Lemma qltb_sc0' x : qltb (a * x) 0 = qltb x 0. Proof. rewrite <- (qltb_sc x 0). f_equal. ring. Qed.
  Lemma qeqb_sc0 x : qeqb (a * x) 0 = qeqb x 0. Proof. rewrite <- (qeqb_sc x 0). f_equal. ring. Qed.
  Lemma nltb_sc x y : nltb (sc x) (sc y) = nltb x y.
  Proof. destruct x; destruct y; sce; try reflexivity. apply qltb_sc. Qed.
  Lemma neqb_sc x y : neqb (sc x) (sc y) = neqb x y.
  Proof. destruct x; destruct y; sce; try reflexivity. apply qeqb_sc. Qed.
  Lemma isnan_sc x : isnan (sc x) = isnan x. Proof. destruct x; sce; reflexivity. Qed.
  Lemma nadd_sc x y : nadd (sc x) (sc y) = sc (nadd x y).
  Proof. destruct x; destruct y; sce; cbn [nadd]; sce; try reflexivity. f_equal. ring. Qed.
  Lemma nneg_sc x : nneg (sc x) = sc (nneg x). Proof. destruct x; sce; cbn [nneg]; sce; try reflexivity. f_equal. ring. Qed.
  Lemma nsub_sc x y : nsub (sc x) (sc y) = sc (nsub x y). Proof. unfold nsub. rewrite nneg_sc. apply nadd_sc. Qed.
  Lemma infmul_sc p q : sc (infmul p q) = infmul p q. Proof. unfold infmul. destruct (qeqb q 0); [reflexivity|]. destruct (Bool.eqb _ _); sce; reflexivity. Qed.
  Lemma infmul_sc' p q : infmul p (a * q) = infmul p q. Proof. unfold infmul. rewrite qeqb_sc0, qltb_sc0. reflexivity. Qed.
  Lemma nmul_sc f x : nmul f (sc x) = sc (nmul f x).
  Proof. destruct f; destruct x; sce; cbn [nmul]; rewrite ?infmul_sc'; sce; try reflexivity; rewrite ?infmul_sc; try reflexivity; try (match goal with |- infmul ?p ?q = _ => exact (eq_sym (infmul_sc p q)) end); try (unfold infmul; rewrite a_nz, a_pos; reflexivity). apply (f_equal Fin). ring. Qed.
  Lemma nmul_sc' f x : nmul (sc x) f = sc (nmul x f).
  Proof. destruct x; destruct f; sce; cbn [nmul]; rewrite ?infmul_sc'; sce; rewrite ?infmul_sc; try reflexivity; try (match goal with |- infmul ?p ?q = _ => exact (eq_sym (infmul_sc p q)) end); try (unfold infmul; rewrite a_nz, a_pos; reflexivity). apply (f_equal Fin). ring. Qed.
  Lemma ndiv_sc f x : ndiv (sc x) f = sc (ndiv x f).
  Proof.
    destruct x as [| | |x]; destruct f as [| | |f]; sce; cbn [ndiv]; rewrite ?qeqb_sc0, ?qltb_sc0; try (destruct (qltb f 0)); try (destruct (qeqb f 0) eqn:E); try (destruct (qeqb x 0)); try (destruct (qltb 0 x)); sce; try reflexivity.
    all: f_equal; unfold Qcdiv; ring.
  Qed.
  Lemma nsum_sc l : nsum (map sc l) = sc (nsum l).
  Proof.
    unfold nsum. assert (H : forall x, fold_left nadd (map sc l) (sc x) = sc (fold_left nadd l x)); [|rewrite <- H; f_equal; symmetry; apply sc_0].
    induction l as [|y l IH]; intro x; [reflexivity|]. cbn [map fold_left]. rewrite nadd_sc. apply IH.
  Qed.

  (** ** the simulator *)
  Definition scs (s : slot) : slot := mkSlot (s_pos s) (s_status s) (sc (s_exposure s)).
  Definition scr (r : simrow) : simrow :=
    mkRow (x_signal r) (x_action r) (sc (x_stock r)) (sc (x_exposure r)) (sc (x_portfolio_value r)) (sc (x_earnings r)) (sc (x_balance r)).
  Definition sct (st : sim) : sim := mkSim (map sc (close st)) (option_map sc (max_exposure st)) (factor st) (map scs (portfolio st)) (map scr (data st)).
  Lemma scs0 : scs slot0 = slot0. Proof. unfold scs, slot0. cbn [s_pos s_status s_exposure]. rewrite sc_0. reflexivity. Qed.
  Lemma scr0 : scr simrow0 = simrow0. Proof. reflexivity. Qed.
  Lemma set_nth_map {X Y} (g : X -> Y) i v l : set_nth i (g v) (map g l) = map g (set_nth i v l).
  Proof. revert i. induction l as [|x l IH]; intros [|i]; try reflexivity. cbn. f_equal. apply IH. Qed.
  Lemma count_map {X Y} (g : X -> Y) p l : count p (map g l) = count (fun x => p (g x)) l.
  Proof. unfold count. induction l as [|x l IH]; [reflexivity|]. cbn [map filter]. destruct (p (g x)); cbn [List.length]; rewrite IH; reflexivity. Qed.
  Lemma count_ext {X} (p q : X -> bool) l : (forall x, p x = q x) -> count p l = count q l.
  Proof. intro E. unfold count. f_equal. induction l as [|x l IH]; [reflexivity|]. cbn [filter]. rewrite E, IH. reflexivity. Qed.
  Lemma price_at_sc i st : price_at i (sct st) = sc (price_at i st).
  Proof. unfold price_at. cbn [sct close]. rewrite <- (map_nth sc). reflexivity. Qed.
  Lemma row_at_sc i st : row_at i (sct st) = scr (row_at i st).
  Proof. unfold row_at. cbn [sct data]. rewrite <- (map_nth scr), scr0. reflexivity. Qed.
  Lemma long_sc p s : long_to_close (sc p) (scs s) = long_to_close p s.
  Proof. unfold long_to_close. cbn [scs s_exposure]. rewrite nltb_sc. reflexivity. Qed.
  Lemma short_sc f p s : short_to_close f (sc p) (scs s) = short_to_close f p s.
  Proof. unfold short_to_close, ngtb. cbn [scs s_exposure]. rewrite nmul_sc, nltb_sc. reflexivity. Qed.
  Lemma close_slot_sc f p s : close_slot f (sc p) (scs s) = scs (close_slot f p s).
  Proof. unfold close_slot. rewrite long_sc, short_sc. destruct (_ || _); reflexivity. Qed.
  Lemma sum_exposure_sc p q l : (forall s, p (scs s) = q s) -> sum_exposure p (map scs l) = sc (sum_exposure q l).
  Proof.
    intro E. unfold sum_exposure. rewrite <- nsum_sc. f_equal. rewrite map_map. induction l as [|s l IH]; [reflexivity|]. cbn [map filter]. rewrite E. destruct (q s); [cbn [map]; f_equal|]; exact IH.
  Qed.
  Lemma portfolio_value_sc p l : portfolio_value (sc p) (map scs l) = sc (portfolio_value p l).
  Proof. unfold portfolio_value. rewrite !count_map, nmul_sc'. reflexivity. Qed.
  Lemma close_open_sc i st : close_open_positions i (sct st) = sct (close_open_positions i st).
  Proof.
    unfold close_open_positions. rewrite price_at_sc, !row_at_sc. cbn [sct factor portfolio close max_exposure data].
    set (p := price_at i st). set (f := factor st). set (pf := portfolio st). unfold sct at 1. cbn [factor portfolio close max_exposure data].
    rewrite (sum_exposure_sc _ (long_to_close p)) by (intro; apply long_sc). rewrite (sum_exposure_sc _ (short_to_close f p)) by (intro; apply short_sc).
    rewrite !count_map, (count_ext (fun x => long_to_close (sc p) (scs x)) (long_to_close p)) by (intro; apply long_sc). rewrite (count_ext (fun x => short_to_close f (sc p) (scs x)) (short_to_close f p)) by (intro; apply short_sc).
    f_equal.
    - rewrite !map_map. apply map_ext. intro s. apply close_slot_sc.
    - rewrite <- set_nth_map. f_equal. unfold scr at 3. cbn [x_signal x_action x_stock x_exposure x_portfolio_value x_earnings x_balance].
      cbn [scr x_signal x_action x_stock x_exposure x_portfolio_value x_earnings x_balance]. rewrite !ndiv_sc, !nmul_sc, !nsub_sc, !nadd_sc, !nsub_sc. reflexivity.
  Qed.
  Lemma register_sc i sg act sl e st : register i sg act (scs sl) (sc e) (sct st) = sct (register i sg act sl e st).
  Proof.
    unfold register. rewrite price_at_sc, row_at_sc. cbn [sct factor portfolio close max_exposure data scr x_earnings].
    rewrite set_nth_map, portfolio_value_sc, nadd_sc. unfold sct. cbn [factor portfolio close max_exposure data]. f_equal. rewrite <- set_nth_map. reflexivity.
  Qed.
  Lemma over_limit_sc m x : over_limit (option_map sc m) (sc x) = over_limit m x.
  Proof. destruct m; [apply nltb_sc|reflexivity]. Qed.
  Lemma process_sc i sg st : process_signal i sg (sct st) = sct (process_signal i sg st).
  Proof.
    unfold process_signal. rewrite price_at_sc, row_at_sc. cbn [scr x_exposure sct max_exposure factor].
    pose proof (fun sg => register_sc i sg ANone slot0) as R. rewrite scs0 in R.
    destruct sg; rewrite ?nmul_sc, ?nadd_sc, ?over_limit_sc.
    - destruct (over_limit _ _); [apply R|]. rewrite <- register_sc. reflexivity.
    - apply R.
    - destruct (over_limit _ _); [apply R|]. rewrite <- register_sc. reflexivity.
  Qed.
  Lemma round_sc i sg st : run_round i sg (sct st) = sct (run_round i sg st).
  Proof.
    destruct i as [|i]; cbn [run_round]; [|rewrite close_open_sc; apply process_sc].
    rewrite price_at_sc. unfold sct. cbn [close max_exposure factor portfolio data]. f_equal; rewrite <- set_nth_map; f_equal; [symmetry; apply scs0|].
    unfold scr. cbn [x_signal x_action x_stock x_exposure x_portfolio_value x_earnings x_balance]. rewrite sc_0. reflexivity.
  Qed.
  Definition oks {X} (g : X -> X) (r : res X) : res X := match r with Ok x => Ok (g x) | Err e => Err e end.
  Lemma rounds_sc full n : forall i cur st, rounds full i n cur (sct st) = (fst (rounds full i n cur st), oks sct (snd (rounds full i n cur st))).
  Proof.
    induction n as [|n IH]; intros i cur st; [reflexivity|]. cbn [rounds]. destruct (get_ti_signal (limited i full)); [|reflexivity]. rewrite round_sc. apply IH.
  Qed.

  (** ** the prices given to it *)
  Notation sc_row := (fun r : row => (fst r, map sc (snd r))).
  Definition scf (f : frame) : frame := mkFrame (cols f) (map sc_row (rows f)).
  Lemma insert_sc r l : insert (sc_row r) (map sc_row l) = map sc_row (insert r l).
  Proof. induction l as [|x l IH]; [reflexivity|]. cbn [map insert fst]. destruct (Z.leb _ _); [reflexivity|]. cbn [map]. f_equal. exact IH. Qed.
  Lemma sort_sc l : sort_rows (map sc_row l) = map sc_row (sort_rows l).
  Proof. induction l as [|x l IH]; [reflexivity|]. cbn [map sort_rows fold_right]. unfold sort_rows in IH. rewrite IH. apply insert_sc. Qed.
  Lemma szip_sc p c : fill_cells (map sc p) (map sc c) = map sc (fill_cells p c).
  Proof. unfold fill_cells. revert c. induction p as [|x p IH]; intros [|y c]; try reflexivity. cbn. f_equal; [|apply IH]. fold (sc y). rewrite isnan_sc. destruct (isnan y); reflexivity. Qed.
  Lemma ffill_from_sc l : forall p, ffill_from (map sc p) (map sc_row l) = map sc_row (ffill_from p l).
  Proof. induction l as [|[t c] l IH]; intro p; [reflexivity|]. cbn [map ffill_from fst snd]. rewrite szip_sc, IH. reflexivity. Qed.
  Lemma ffill_sc l : ffill (map sc_row l) = map sc_row (ffill l).
  Proof. destruct l as [|[t c] l]; [reflexivity|]. cbn [map ffill fst snd]. rewrite ffill_from_sc. reflexivity. Qed.
  Lemma bfill_sc l : bfill (map sc_row l) = map sc_row (bfill l).
  Proof. induction l as [|[t c] l IH]; [reflexivity|]. cbn [map bfill fst snd]. rewrite IH. destruct (bfill l) as [|[t' c'] r]; [reflexivity|]. cbn [map fst snd]. rewrite szip_sc. reflexivity. Qed.
  Lemma select_sc keep c : select keep (map sc c) = map sc (select keep c).
  Proof. revert c. induction keep as [|[] keep IH]; intros [|x c]; try reflexivity; cbn; [f_equal|]; apply IH. Qed.
  Lemma validate_sc raw req b : snd (validate (RFrame (repriced a raw)) req b) = match snd (validate (RFrame raw) req b) with Ok f => Ok (scf f) | Err e => Err e end.
  Proof.
    cbn [validate]. unfold repriced. cbn [r_datetime r_labels r_numeric r_rows]. destruct (r_datetime raw); [|reflexivity]. cbn [negb].
    assert (X : forall l : list row, match map (fun r : Z * list num => (fst r, map sc (snd r))) l with [] => true | _ :: _ => false end = match l with [] => true | _ :: _ => false end) by (intros []; reflexivity).
    rewrite X. clear X. destruct (match r_rows raw with [] => true | _ :: _ => false end || match r_labels raw with [] => true | _ :: _ => false end); [reflexivity|].
    destruct (lower_labels (r_labels raw)) as [labels|]; [|reflexivity]. cbn [snd]. destruct (check_required req labels (r_numeric raw)); [|reflexivity]. cbn [bind].
    destruct (check_drops req labels []); [|reflexivity]. cbn [bind]. cbv zeta. apply (f_equal Ok).
    set (g := drop_cols req labels (r_rows raw)). replace (drop_cols req labels (map (fun r : Z * list num => (fst r, map sc (snd r))) (r_rows raw))) with (scf g).
    2:{ unfold scf, g, drop_cols. cbn [cols rows]. rewrite !map_map. f_equal. apply map_ext. intro r. cbn [fst snd]. rewrite select_sc. reflexivity. }
    assert (S : forall g, sort_index (scf g) = scf (sort_index g)) by (intro; unfold sort_index, scf; cbn [cols rows]; rewrite sort_sc; reflexivity).
    rewrite S. destruct b; [|reflexivity]. unfold fill_missing. rewrite S. unfold scf. cbn [cols rows]. rewrite ffill_sc, bfill_sc. reflexivity.
  Qed.
  Lemma icol_sc k f : icol k (scf f) = map sc (icol k f).
  Proof. unfold icol, scf. cbn [rows]. rewrite !map_map. apply map_ext. intro r. cbn [snd]. rewrite <- (map_nth sc). reflexivity. Qed.
  Lemma index_sc f : index (scf f) = index f. Proof. unfold index, scf. cbn [rows]. rewrite map_map. reflexivity. Qed.
  Lemma limit_sc m m' : limit_in a m m' -> check_max_exposure m' = match check_max_exposure m with Ok x => Ok (option_map sc x) | Err e => Err e end.
  Proof.
    intros [[-> ->]|(x & N & N')]; [reflexivity|]. unfold check_max_exposure. rewrite N, N'.
    assert (L : nleb (sc x) (F 0) = nleb x (F 0)) by (unfold nleb; rewrite <- sc_0 at 1 2; rewrite nltb_sc, neqb_sc; reflexivity). rewrite L. destruct (nleb x (F 0)); reflexivity.
  Qed.
  Lemma repeat_map {X Y} (g : X -> Y) x n : map g (repeat x n) = repeat (g x) n. Proof. induction n; cbn; congruence. Qed.
  Lemma sim_init_sc idx cv m m' x : limit_in a m m' -> snd (sim_init idx (RFrame (repriced a cv)) m' x) = oks sct (snd (sim_init idx (RFrame cv) m x)).
  Proof.
    intro L. unfold sim_init. pose proof (validate_sc cv ["close"%string] true) as V. destruct (validate (RFrame cv) ["close"%string] true) as [v1 r1]. destruct (validate (RFrame (repriced a cv)) ["close"%string] true) as [v2 r2]. cbn [snd] in *. subst r2.
    destruct r1 as [f|]; [|reflexivity]. rewrite index_sc, icol_sc, (limit_sc m m' L). destruct (negb _); [reflexivity|]. destruct (check_max_exposure m) as [mx|]; [|reflexivity]. cbn [bind]. destruct (check_factor x); [|reflexivity]. cbn [bind oks].
    unfold sct. cbn [close max_exposure factor portfolio data]. rewrite !repeat_map, scs0, scr0. reflexivity.
  Qed.
  Lemma in_currency_scr r : in_currency a r (scr r). Proof. repeat split. Qed.
  Theorem simulation_sc ob cv m m' x : limit_in a m m' ->
    match snd (get_ti_simulation ob (RFrame cv) m x), snd (get_ti_simulation ob (RFrame (repriced a cv)) m' x) with
    | Ok (st, s), Ok (st', s') => Forall2 (in_currency a) (data st) (data st') /\ same_counts s s'
    | Err e, Err e' => e' = e
    | _, _ => False
    end.
  Proof.
    intro L. unfold get_ti_simulation. pose proof (sim_init_sc (index (ob_input ob)) cv m m' x L) as S. destruct (sim_init (index (ob_input ob)) (RFrame cv) m x) as [v1 r1]. destruct (sim_init (index (ob_input ob)) (RFrame (repriced a cv)) m' x) as [v2 r2]. cbn [snd] in S. subst r2.
    destruct r1 as [st|]; [|reflexivity]. cbn [oks]. rewrite rounds_sc. destruct (rounds ob 0 _ ob st) as [o1 [st1|]]; cbn [fst snd oks]; [|reflexivity]. split.
    - cbn [sct data]. generalize (data st1). induction l as [|r l IH]; constructor; [apply in_currency_scr|exact IH].
    - unfold same_counts, statistics. cbn [number_of_trading_days number_of_buy_signals number_of_ignored_buy_signals number_of_sell_signals number_of_ignored_sell_signals last_open_long_positions last_open_short_positions sct data portfolio].
      rewrite !count_map. repeat split.
  Qed.
End Scale.

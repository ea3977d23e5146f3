(** * PropsFloat: the trading simulation in IEEE-754 binary64 (C58).

    [fsimulate npsum prices m f sgs] is the simulator of FloatSim.v, which adds,
    subtracts, multiplies and divides with rounding to nearest even, as numpy does.
    [npsum] is np.sum.  It may add the cells in any order and grouping; that is the
    hypothesis [forall l, added l (npsum l)].  [fltb x y] is the float comparison
    x < y; it is false when one of them is missing. *)
From Coq Require Import ZArith QArith Qcanon Bool List PeanoNat Lia.
From Flocq Require Import Core IEEE754.BinarySingleNaN.
From Verif Require Import Num NumFacts Pandas Frame Sim SimSpec SimProofs FloatSim FloatFacts FloatExact FloatSame FloatClose.
Import ListNotations.
Open Scope list_scope.

(** np.sum of fewer than eight cells: from left to right *)
Definition left_sum (l : list f64) : f64 := fold_left fadd l f0.
Example left_sum_adds : forall l, added l (left_sum l).
Proof.
  induction l as [|x l IH] using rev_ind; [constructor|].
  unfold left_sum. rewrite fold_left_app. simpl. apply added_app; [exact IH|constructor].
Qed.
Definition row_of (st : fsim) (i : nat) : frow := nth i (f_data st) frow0.
Definition slot_at (st : fsim) (i : nat) : fslot := nth i (f_portfolio st) fslot0.
(** n tenths, as python reads the literal; sign, mantissa and exponent of a result *)
Definition tenths (k : Z) : f64 := fdiv (fz k 0) (fz 10 0).
Definition threehalves : f64 := fz 3 (-1).
Definition bits (x : f64) := B2SF x.

(** ** C58: the limit *)
Theorem C58_exposure_limit :
  forall npsum c m f sgs i, (forall l, added l (npsum l)) ->
  (forall p, In p c -> fltb p f0 = false) -> fltb f f0 = false -> fltb m f0 = false ->
  (length sgs <= length c)%nat -> (i < length sgs)%nat ->
  fltb m (y_exposure (row_of (fsimulate npsum c (Some m) f sgs) i)) = false.
Proof. intros npsum c m f sgs i NP C F M L I. exact (float_limit npsum NP c m f C F M sgs i L I). Qed.
Print Assumptions C58_exposure_limit.

(** prices 0.3, 0.7, 0.1; limit 1: the second purchase does not fit *)
Definition lim_c : list f64 := [tenths 3; tenths 7; tenths 4; tenths 1].
Definition lim_st := fsimulate left_sum lim_c (Some (fz 1 0)) threehalves [Hold; Buy; Buy; Buy].
Example C58_limit_case :
  forallb (fun p => negb (fltb p f0)) lim_c = true /\
  map y_action (f_data lim_st) = map Some [ANone; ALong; ANone; ALong] /\
  (** 0.7 + 0.1 in binary64 is one unit in the last place below 0.8 *)
  fltb (y_exposure (row_of lim_st 3)) (tenths 8) = true.
Proof. vm_compute. auto. Qed.

(** a negative limit is not kept: the first day already reports exposure zero *)
Theorem C58_negative_limit_refuted :
  exists c m, fltb m f0 = true /\
  fltb m (y_exposure (row_of (fsimulate left_sum c (Some m) threehalves [Hold]) 0)) = true.
Proof. exists [fz 1 0], (fz (-1) 0). vm_compute. auto. Qed.
Print Assumptions C58_negative_limit_refuted.

(** ** C58: when positions are closed *)
Theorem C58_long_closed_iff_price_rose :
  forall npsum c m f sgs j, (length sgs <= length c)%nat -> (j < length sgs)%nat ->
  let st := fsimulate npsum c m f sgs in
  fs_pos (slot_at st j) = PLong ->
  (fs_status (slot_at st j) = SClosed
   <-> exists k, (j < k < length sgs)%nat /\ fltb (nth j c fnan) (nth k c fnan) = true).
Proof. intros npsum c m f sgs j L J. exact (long_closed npsum c m f sgs L j J). Qed.
Print Assumptions C58_long_closed_iff_price_rose.

Theorem C58_short_closed_only_if_price_fell :
  forall npsum c m f sgs j, (length sgs <= length c)%nat -> (j < length sgs)%nat ->
  let st := fsimulate npsum c m f sgs in
  is_finite f = true -> fltb f f0 = false ->
  (forall p, In p c -> is_finite p = true /\ fltb p f0 = false) ->
  fs_pos (slot_at st j) = PShort -> fs_status (slot_at st j) = SClosed ->
  exists k, (j < k < length sgs)%nat /\ fltb (nth k c fnan) (nth j c fnan) = true.
Proof. intros npsum c m f sgs j L J st Ff Nf C P S. exact (short_closed npsum c m f sgs L j J P Ff Nf C S). Qed.
Print Assumptions C58_short_closed_only_if_price_fell.

Definition close_c : list f64 := [tenths 3; tenths 7; tenths 8; tenths 9; tenths 6].
Definition close_st := fsimulate left_sum close_c None threehalves [Hold; Buy; Sell; Sell; Hold].
Example C58_closing_case :
  forallb (fun p => is_finite p && negb (fltb p f0)) close_c = true /\
  map fs_status (f_portfolio close_st) = [SNone; SClosed; SClosed; SClosed; SNone] /\
  map fs_pos (f_portfolio close_st) = [PNone; PLong; PShort; PShort; PNone].
Proof. vm_compute. auto. Qed.

(** but a short position can stay open although the price fell: both prices times
    the factor are rounded to the same number *)
Theorem C58_short_closed_when_price_fell_refuted :
  exists c f sgs j k, (length sgs <= length c)%nat /\ (j < k < length sgs)%nat /\
  (forall p, In p c -> fltb f0 p = true /\ is_finite p = true) /\ fltb f (fz 1 0) = false /\
  let st := fsimulate left_sum c None f sgs in
  fs_pos (slot_at st j) = PShort /\ fltb (nth k c fnan) (nth j c fnan) = true /\
  fs_status (slot_at st j) = SOpen.
Proof.
  exists [fz 1 0; fz 6755399441055747 (-52); fz 6755399441055746 (-52)], threehalves, [Hold; Sell; Hold], 1%nat, 2%nat.
  split; [simpl; lia|]. split; [simpl; lia|]. split.
  - intros p H. repeat (destruct H as [H | H]; [subst; vm_compute; auto|]). destruct H.
  - vm_compute. auto.
Qed.
Print Assumptions C58_short_closed_when_price_fell_refuted.

(** ** C58: what rounding breaks *)
(** with nothing open the reported exposure need not be zero ... *)
Theorem C58_zero_exposure_refuted :
  exists c sgs i, (length sgs <= length c)%nat /\ (i < length sgs)%nat /\
  let st := fsimulate left_sum c None threehalves sgs in
  forallb (fun s => negb (fis_open s)) (f_portfolio st) = true /\
  fltb f0 (y_exposure (row_of st i)) = true.
Proof.
  exists [tenths 1; tenths 2; tenths 1; tenths 2; tenths 3], [Hold; Buy; Buy; Hold; Hold], 4%nat.
  split; [simpl; lia|]. split; [simpl; lia|]. vm_compute. auto.
Qed.
Print Assumptions C58_zero_exposure_refuted.

(** ... and can be negative *)
Theorem C58_exposure_not_negative_refuted :
  exists c sgs i, (length sgs <= length c)%nat /\ (i < length sgs)%nat /\
  (forall p, In p c -> fltb f0 p = true) /\
  let st := fsimulate left_sum c None threehalves sgs in
  forallb (fun s => negb (fis_open s)) (f_portfolio st) = true /\
  fltb (y_exposure (row_of st i)) f0 = true.
Proof.
  exists [tenths 1; tenths 2; tenths 2; tenths 1; tenths 3], [Hold; Buy; Sell; Buy; Hold], 4%nat.
  split; [simpl; lia|]. split; [simpl; lia|]. split.
  - intros p H. repeat (destruct H as [H | H]; [subst; vm_compute; auto|]). destruct H.
  - vm_compute. auto.
Qed.
Print Assumptions C58_exposure_not_negative_refuted.

(** closing positions at a better price can report a loss *)
Theorem C58_earnings_never_fall_refuted :
  exists c sgs k, (S k < length sgs)%nat /\ (length sgs <= length c)%nat /\
  (forall p, In p c -> fltb f0 p = true) /\
  let st := fsimulate left_sum c None threehalves sgs in
  fltb (y_earnings (row_of st (S k))) (y_earnings (row_of st k)) = true.
Proof.
  exists (repeat (fz 8519823703352348 (-52)) 8 ++ [fz 8519823703352349 (-52)]), (Hold :: repeat Buy 7 ++ [Hold]), 7%nat.
  split; [simpl; lia|]. split; [simpl; lia|]. split.
  - intros p H. repeat (destruct H as [H | H]; [subst; vm_compute; auto|]). destruct H.
  - vm_compute. auto.
Qed.
Print Assumptions C58_earnings_never_fall_refuted.

(** ** C58: where nothing is lost *)
(** [ticks s k] is k / 2^s.  [same x n]: the float x is finite and its value is n. *)
(** Prices k / 2^s with 0 <= k <= K, a factor a / 2^t of at least one, few enough days:
    every row of the simulator in binary64 has exactly the numbers of the exact
    simulator, so that C17-C26 hold for the floats as well. *)
Theorem C58_exact_on_binary_fractions :
  forall npsum s t a K ks fm m sgs i, (forall l, added l (npsum l)) ->
  (s + t <= 1000)%nat -> (1 <= K)%Z -> (forall k, In k ks -> (0 <= k <= K)%Z) -> (2 ^ Z.of_nat t <= a)%Z ->
  (2 * Z.of_nat (length sgs) * (a * K) < 2 ^ 53)%Z ->
  match fm, m with None, None => True | Some x, Some v => same x v | _, _ => False end ->
  (length sgs <= length ks)%nat -> (i < length sgs)%nat ->
  let fs := fsimulate npsum (map (fun k => fz k (- Z.of_nat s)) ks) fm (fz a (- Z.of_nat t)) sgs in
  let es := simulate (map (fun k => Fin (ticks s k)) ks) m (Fin (ticks t a)) sgs in
  let y := row_of fs i in let x := row_ (data es) i in
  (y_signal y = x_signal x /\ y_action y = x_action x) /\
  same (y_stock y) (x_stock x) /\ same (y_exposure y) (x_exposure x) /\
  same (y_portfolio_value y) (x_portfolio_value x) /\
  same (y_earnings y) (x_earnings x) /\ same (y_balance y) (x_balance x) /\
  fs_pos (slot_at fs i) = s_pos (nth i (portfolio es) slot0) /\
  fs_status (slot_at fs i) = s_status (nth i (portfolio es) slot0).
Proof.
  intros npsum s t a K ks fm m sgs i NP ST K1 KS A RM M LS Hi fs es y x.
  destruct (ticks_agree npsum s t a K ks fm m sgs NP ST K1 KS A RM M LS i Hi) as [[R1 R2 R3 R4 R5 R6 R7] [P S]].
  exact (conj (conj R1 R2) (conj R3 (conj R4 (conj R5 (conj R6 (conj R7 (conj P S))))))).
Qed.
Print Assumptions C58_exact_on_binary_fractions.

(** prices in eighths of a dollar up to 1000 dollars, factor 3/2, limit 20 dollars:
    enough room for more than 10^10 days *)
Definition exact_ks : list Z := [80; 84; 79; 90; 77; 81]%Z.
Definition exact_sgs : list signal := [Buy; Buy; Sell; Buy; Sell; Hold].
Example C58_exact_case :
  (forall k, In k exact_ks -> (0 <= k <= 8000)%Z) /\ (2 ^ Z.of_nat 1 <= 3)%Z /\
  (2 * 10000000000 * (3 * 8000) < 2 ^ 53)%Z /\
  same (fz 20 0) (F 20) /\
  let st := fsimulate left_sum (map (fun k => fz k (- Z.of_nat 3)) exact_ks) (Some (fz 20 0)) (fz 3 (- Z.of_nat 1)) exact_sgs in
  map y_action (f_data st) = map Some [ANone; ALong; ANone; ALong; ANone; ANone] /\
  bits (y_earnings (row_of st 3)) = bits (fz 6 (-3)).
Proof.
  split; [intros k H; repeat (destruct H as [H | H]; [subst; lia|]); destruct H|].
  split; [vm_compute; discriminate|]. split; [reflexivity|]. split; [apply same_z; reflexivity|].
  vm_compute. auto.
Qed.

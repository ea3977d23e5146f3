(** * ScaleFacts: the formulas when every price is multiplied by the same positive number. *)
From Coq Require Import ZArith QArith Qcanon Bool List String PeanoNat Lia Sorted Permutation.
From Verif Require Import Num NumFacts RoundFacts Pandas Sim Frame FrameSpec FrameProofs Ind Signal Api IndSpec SeriesFacts Lengths Causal IndFacts Shape ApiSpec ApiCheck ApiProofs ApiLemmas RangeSpec Cells RangeFacts RangeMore Publish RangeApi ValueSpec ValueFacts ValueMore Recur ValueApi CumulApi.
From Verif Require Import FormulaSpec Starts Formula Formula2 Formula3 Formula4 Line Formula5 Formula6 FormulaApi FlatFacts.
Import ListNotations.
Open Scope list_scope. Open Scope string_scope. Open Scope Qc_scope.

Section Scale.
  Variable s : Qc.
  Hypothesis S0 : 0 < s.
  Lemma s_nonzero : s <> 0. Proof. intro E. rewrite E in S0. revert S0. apply Qclt_not_eq || qlra. Qed.
  Lemma lt_scale a b : qltb (s * a) (s * b) = qltb a b.
  Proof. destruct (qltb a b) eqn:E; [apply qltb_iff in E; apply qltb_iff; qnra|]. apply qltb_false in E. apply qltb_false. qnra. Qed.
  Lemma lt_scale0 a : qltb (s * a) 0 = qltb a 0.
  Proof. rewrite <- (lt_scale a 0). f_equal. ring. Qed.
  Lemma lt_scale0' a : qltb 0 (s * a) = qltb 0 a.
  Proof. rewrite <- (lt_scale 0 a). f_equal. ring. Qed.
  Lemma eq_scale0 a : qeqb (s * a) 0 = qeqb a 0.
  Proof.
    destruct (qeqb a 0) eqn:E; [apply qeqb_iff in E; apply qeqb_iff; subst; ring|]. apply qeqb_false in E. apply qeqb_false. intro Q.
    apply Qcmult_integral in Q as [Q|Q]; [exact (s_nonzero Q)|auto].
  Qed.
  Lemma larger_scale a b : larger (s * a) (s * b) = s * larger a b.
  Proof. unfold larger. rewrite lt_scale. destruct (qltb a b); reflexivity. Qed.
  Lemma smaller_scale a b : smaller (s * a) (s * b) = s * smaller a b.
  Proof. unfold smaller. rewrite lt_scale. destruct (qltb b a); reflexivity. Qed.
  Lemma larger3_scale a b c : larger3 (s * a) (s * b) (s * c) = s * larger3 a b c.
  Proof. unfold larger3. rewrite !larger_scale. reflexivity. Qed.
  Lemma gain_scale a : gain (s * a) = s * gain a.
  Proof. unfold gain. rewrite lt_scale0'. destruct (qltb 0 a); [reflexivity|ring]. Qed.
  Lemma loss_scale a : loss (s * a) = s * loss a.
  Proof. unfold loss. rewrite lt_scale0. destruct (qltb a 0); ring. Qed.
  Lemma abs_scale a : abs (s * a) = s * abs a.
  Proof. unfold abs. rewrite lt_scale0. destruct (qltb a 0); ring. Qed.
  (** g is f in another unit *)
  Definition unit_of (f g : nat -> Qc) := forall j, g j = s * f j.
  Lemma total_scale f g n : unit_of f g -> total g n = s * total f n.
  Proof. intro U. rewrite <- total_mul. apply total_ext. intros. apply U. Qed.
  Lemma sum_scale f g n : unit_of f g -> unit_of (sum_last f n) (sum_last g n).
  Proof. intros U j. apply total_scale. intro. apply U. Qed.
  Lemma mean_scale f g n : unit_of f g -> unit_of (mean_last f n) (mean_last g n).
  Proof. intros U j. unfold mean_last. rewrite (sum_scale f g n U j). unfold Qcdiv. ring. Qed.
  Lemma change_scale m f g : unit_of f g -> unit_of (change m f) (change m g).
  Proof. intros U j. unfold change. rewrite !U. ring. Qed.
  Lemma max_to_scale f g a n : unit_of f g -> max_to g a n = s * max_to f a n.
  Proof. intro U. induction n; cbn [max_to]; [apply U|]. rewrite IHn, U. apply larger_scale. Qed.
  Lemma min_to_scale f g a n : unit_of f g -> min_to g a n = s * min_to f a n.
  Proof. intro U. induction n; cbn [min_to]; [apply U|]. rewrite IHn, U. apply smaller_scale. Qed.
  Lemma max_scale f g n : unit_of f g -> unit_of (max_last f n) (max_last g n).
  Proof. intros U j. apply max_to_scale, U. Qed.
  Lemma min_scale f g n : unit_of f g -> unit_of (min_last f n) (min_last g n).
  Proof. intros U j. apply min_to_scale, U. Qed.
  Lemma ema_scale a n f g : unit_of f g -> unit_of (ema_from a n f) (ema_from a n g).
  Proof. intros U j. unfold ema_from. induction (j - a)%nat; cbn [ema]; rewrite !U; auto. rewrite IHn0. ring. Qed.
  Lemma run_scale a step x f g : unit_of f g -> (forall p y, step (s * p) (s * y) = s * step p y) -> unit_of (run_from a step x f) (run_from a step (s * x) g).
  Proof. intros U H j. unfold run_from. induction (j - a)%nat; cbn [run]; auto. rewrite IHn, U. apply H. Qed.
  Lemma wilders_scale n p y : wilders n (s * p) (s * y) = s * wilders n p y.
  Proof. unfold wilders, Qcdiv. ring. Qed.
  Lemma wilder_from_scale a p f g : unit_of f g -> unit_of (wilder_from a p f) (wilder_from a p g).
  Proof. intros U. unfold wilder_from. rewrite (mean_scale f g p U). apply run_scale; auto. apply wilders_scale. Qed.
  Lemma unit_gain f g : unit_of f g -> unit_of (fun j => gain (f j)) (fun j => gain (g j)).
  Proof. intros U j. rewrite U. apply gain_scale. Qed.
  Lemma unit_loss f g : unit_of f g -> unit_of (fun j => loss (f j)) (fun j => loss (g j)).
  Proof. intros U j. rewrite U. apply loss_scale. Qed.
  Lemma unit_abs f g : unit_of f g -> unit_of (fun j => abs (f j)) (fun j => abs (g j)).
  Proof. intros U j. rewrite U. apply abs_scale. Qed.
  Lemma unit_sub f g f' g' : unit_of f g -> unit_of f' g' -> unit_of (fun j => f j - f' j) (fun j => g j - g' j).
  Proof. intros U V j. rewrite U, V. ring. Qed.
  Lemma ratio_unit a b : ratio (s * a) (s * b) = ratio a b.
  Proof.
    unfold ratio, ndiv. rewrite eq_scale0. destruct (qeqb b 0) eqn:E.
    - rewrite ?eq_scale0, ?lt_scale0, ?lt_scale0'. reflexivity.
    - f_equal. field. split; [apply qeqb_false, E|apply s_nonzero].
  Qed.
  Lemma quotient_unit a b : s * a / (s * b) = a / b.
  Proof.
    destruct (qeqb b 0) eqn:E.
    - apply qeqb_iff in E. subst. replace (s * 0) with 0 by ring. unfold Qcdiv. replace (/ 0) with 0 by (apply Qc_is_canon; reflexivity). ring.
    - field. split; [apply qeqb_false, E|apply s_nonzero].
  Qed.
  Lemma ratio_same a b a' b' : a' = s * a -> b' = s * b -> ratio a' b' = ratio a b.
  Proof. intros -> ->. apply ratio_unit. Qed.
  Lemma quotient_same a b a' b' : a' = s * a -> b' = s * b -> a' / b' = a / b.
  Proof. intros -> ->. apply quotient_unit. Qed.
End Scale.

(** two runs of the same indicator on prices in different units *)
Section Runs.
  Variables (o o' : oracle) (raw raw' : rawframe) (b b' : bool) (ob ob' : obj) (s : Qc) (k : nat).
  Hypothesis W : wf_raw raw. Hypothesis W' : wf_raw raw'. Hypothesis S0 : 0 < s.
  Notation both c := (snd (construct o c (RFrame raw) (VBool b)) = Ok ob /\ snd (construct o' c (RFrame raw') (VBool b')) = Ok ob').
  Notation priced n f := (known (given n ob) k f%function /\ known (given n ob') k (fun j => s * f j)).
  Notation agree n := (shown n ob' k = shown n ob k).
  Ltac ua := let j := fresh in intro j; reflexivity.
  Lemma scaled_cmo p c : both (cCMO p) -> priced "close" c -> agree "cmo".
  Proof.
    intros [A B] [K K']. erewrite (chande_momentum_shown o raw b ob), (chande_momentum_shown o' raw' b' ob') by eauto.
    pose proof (unit_gain s S0 _ _ (change_scale s 1 c (fun j => s * c j) ltac:(ua))) as G. pose proof (unit_loss s S0 _ _ (change_scale s 1 c (fun j => s * c j) ltac:(ua))) as L.
    rewrite (sum_scale s _ _ _ G k), (sum_scale s _ _ _ L k). do 2 f_equal. apply (ratio_same s S0); ring.
  Qed.
  Lemma scaled_rmi p q c : both (cRMI p q) -> priced "close" c -> agree "rmi".
  Proof.
    intros [A B] [K K']. erewrite (relative_momentum_shown o raw b ob), (relative_momentum_shown o' raw' b' ob') by eauto.
    pose proof (unit_gain s S0 _ _ (change_scale s (nat_arg q) c (fun j => s * c j) ltac:(ua))) as G. pose proof (unit_loss s S0 _ _ (change_scale s (nat_arg q) c (fun j => s * c j) ltac:(ua))) as L.
    rewrite (wilder_from_scale s _ _ _ _ G k), (wilder_from_scale s _ _ _ _ L k), (eq_scale0 s S0). f_equal.
    match goal with |- (if ?t then _ else _) = _ => destruct t end; [reflexivity|]. do 2 f_equal. apply (quotient_same s S0); ring.
  Qed.
  Lemma scaled_imi p op c : both (cIMI p) -> priced "open" op -> priced "close" c -> agree "imi".
  Proof.
    intros [A B] [J J'] [K K']. erewrite (intraday_momentum_shown o raw b ob), (intraday_momentum_shown o' raw' b' ob') by eauto.
    assert (G : unit_of s (fun j => gain (c j - op j)) (fun j => gain (s * c j - s * op j))) by (intro; rewrite <- (gain_scale s S0); f_equal; ring).
    assert (L : unit_of s (fun j => gain (op j - c j)) (fun j => gain (s * op j - s * c j))) by (intro; rewrite <- (gain_scale s S0); f_equal; ring).
    rewrite (sum_scale s _ _ _ G k), (sum_scale s _ _ _ L k). do 2 f_equal. apply (ratio_same s S0); ring.
  Qed.
  Lemma scaled_wr p h l c : both (cWR p) -> priced "high" h -> priced "low" l -> priced "close" c -> agree "wr".
  Proof.
    intros [A B] [H H'] [L L'] [K K']. erewrite (williams_r_shown o raw b ob), (williams_r_shown o' raw' b' ob') by eauto.
    rewrite (max_scale s S0 h (fun j => s * h j) _ ltac:(ua) k), (min_scale s S0 l (fun j => s * l j) _ ltac:(ua) k). do 3 f_equal.
    apply (ratio_same s S0); ring.
  Qed.
  Lemma scaled_so p q r m h l c : both (cSO p q r m) -> priced "high" h -> priced "low" l -> priced "close" c -> agree "%K".
  Proof.
    intros [A B] [H H'] [L L'] [K K']. erewrite (stochastic_shown o raw b ob), (stochastic_shown o' raw' b' ob') by eauto.
    pose proof (max_scale s S0 h (fun j => s * h j) (nat_arg p) ltac:(ua)) as MX. pose proof (min_scale s S0 l (fun j => s * l j) (nat_arg p) ltac:(ua)) as MN.
    rewrite (sum_scale s _ _ _ (unit_sub s c (fun j => s * c j) _ _ ltac:(ua) MN) k), (sum_scale s _ _ _ (unit_sub s _ _ _ _ MX MN) k).
    do 2 f_equal. apply (ratio_same s S0); ring.
  Qed.
  Lemma scaled_mom p c : both (cMOM p) -> priced "close" c -> agree "mom".
  Proof.
    intros [A B] [K K']. destruct (mom_shown_values o raw b ob W p k A) as [N V]. destruct (mom_shown_values o' raw' b' ob' W' p k B) as [N' V'].
    destruct (Nat.lt_ge_cases k (nat_arg p)) as [Q|Q]; [rewrite N, N' by auto; reflexivity|].
    rewrite (V (c k) (c (k - nat_arg p)%nat)) by (auto; apply K; lia). rewrite (V' (s * c k) (s * c (k - nat_arg p)%nat)) by (auto; apply K'; lia).
    f_equal. fold (ratio (zq 100 * (s * c k)) (s * c (k - nat_arg p)%nat)). fold (ratio (zq 100 * c k) (c (k - nat_arg p)%nat)). apply (ratio_same s S0); ring.
  Qed.
  Lemma scaled_prc p c : both (cPRC p) -> priced "close" c -> agree "prc".
  Proof.
    intros [A B] [K K']. destruct (prc_shown_values o raw b ob W p k A) as [N V]. destruct (prc_shown_values o' raw' b' ob' W' p k B) as [N' V'].
    destruct (Nat.lt_ge_cases k (nat_arg p)) as [Q|Q]; [rewrite N, N' by auto; reflexivity|].
    rewrite (V (c k) (c (k - nat_arg p)%nat)) by (auto; apply K; lia). rewrite (V' (s * c k) (s * c (k - nat_arg p)%nat)) by (auto; apply K'; lia).
    f_equal. fold (ratio (zq 100 * (s * c k - s * c (k - nat_arg p)%nat)) (s * c (k - nat_arg p)%nat)). fold (ratio (zq 100 * (c k - c (k - nat_arg p)%nat)) (c (k - nat_arg p)%nat)).
    apply (ratio_same s S0); ring.
  Qed.
  Lemma scaled_posc p q c : both (cPOSC p q) -> priced "close" c -> agree "posc".
  Proof.
    intros [A B] [K K']. erewrite (price_oscillator_shown o raw b ob), (price_oscillator_shown o' raw' b' ob') by eauto.
    rewrite !(mean_scale s c (fun j => s * c j) _ ltac:(ua) k). do 2 f_equal. apply (ratio_same s S0); ring.
  Qed.
  Lemma scaled_vhf p c : both (cVHF p) -> priced "close" c -> agree "vhf".
  Proof.
    intros [A B] [K K']. erewrite (vertical_horizontal_filter_shown o raw b ob), (vertical_horizontal_filter_shown o' raw' b' ob') by eauto.
    pose proof (unit_abs s S0 _ _ (change_scale s 1 c (fun j => s * c j) ltac:(ua))) as G. 
    rewrite (sum_scale s _ _ _ G k), (max_scale s S0 c (fun j => s * c j) _ ltac:(ua) k), (min_scale s S0 c (fun j => s * c j) _ ltac:(ua) k). do 2 f_equal. apply (ratio_same s S0); ring.
  Qed.
  Lemma scaled_prf p q c : both (cPRF p q) -> priced "close" c -> agree "prf".
  Proof.
    intros [A B] [K K']. erewrite (performance_shown o raw b ob), (performance_shown o' raw' b' ob') by eauto. f_equal. apply (ratio_same s S0); ring.
  Qed.
  Lemma scaled_cci p h l c : both (cCCI p) -> priced "high" h -> priced "low" l -> priced "close" c -> agree "cci".
  Proof.
    intros [A B] [H H'] [L L'] [K K']. erewrite (commodity_channel_shown o raw b ob), (commodity_channel_shown o' raw' b' ob') by eauto.
    assert (T : unit_of s (typical h l c) (typical (fun j => s * h j) (fun j => s * l j) (fun j => s * c j))) by (intro; unfold typical, Qcdiv; ring).
    rewrite (mean_scale s _ _ (nat_arg p) T k), (T k).
    assert (G : unit_of s (fun j => abs (mean_last (typical h l c) (nat_arg p) k - typical h l c j)) (fun j => abs (s * mean_last (typical h l c) (nat_arg p) k - typical (fun j => s * h j) (fun j => s * l j) (fun j => s * c j) j)))
      by (intro; rewrite <- (abs_scale s S0), T; f_equal; ring).
    rewrite (mean_scale s _ _ (nat_arg p) G k). do 2 f_equal. apply (ratio_same s S0); ring.
  Qed.
  Lemma scaled_smi p q r h l c : both (cSMI p q r) -> priced "high" h -> priced "low" l -> priced "close" c -> agree "smi".
  Proof.
    intros [A B] [H H'] [L L'] [K K']. erewrite (stochastic_momentum_shown o raw b ob), (stochastic_momentum_shown o' raw' b' ob') by eauto.
    pose proof (max_scale s S0 h (fun j => s * h j) (nat_arg p) ltac:(ua)) as MX. pose proof (min_scale s S0 l (fun j => s * l j) (nat_arg p) ltac:(ua)) as MN.
    pose proof (fun a a' n n' f g U => ema_scale s a n _ _ (ema_scale s a' n' f g U) k) as T2.
    assert (D : unit_of s (fun j => c j - (max_last h (nat_arg p) j + min_last l (nat_arg p) j) / zq 2)
      (fun j => s * c j - (max_last (fun j => s * h j) (nat_arg p) j + min_last (fun j => s * l j) (nat_arg p) j) / zq 2)) by (intro j; rewrite (MX j), (MN j); unfold Qcdiv; ring).
    rewrite (T2 _ _ _ _ _ _ D).
    rewrite (T2 _ _ _ _ _ _ (unit_sub s _ _ _ _ MX MN)).
    do 2 f_equal. apply (ratio_same s S0); unfold Qcdiv; ring.
  Qed.
  Lemma scaled_vch p q h l : both (cVCH p q) -> priced "high" h -> priced "low" l -> agree "vch".
  Proof.
    intros [A B] [H H'] [L L']. erewrite (chaikin_volatility_shown o raw b ob), (chaikin_volatility_shown o' raw' b' ob') by eauto.
    pose proof (ema_scale s 0 (nat_arg p) (fun j => h j - l j) (fun j => s * h j - s * l j) ltac:(intro; ring)) as E.
    rewrite !E. do 2 f_equal. apply (ratio_same s S0); ring.
  Qed.
  Lemma scaled_mi h l : both cMI -> (forall j, (j <= k)%nat -> l j < h j) -> priced "high" h -> priced "low" l -> agree "mi".
  Proof.
    intros [A B] HL [H H'] [L L']. assert (HL' : forall j, (j <= k)%nat -> s * l j < s * h j) by (intros j J; specialize (HL j J); apply qltb_iff; rewrite (lt_scale s S0); apply qltb_iff; exact HL).
    rewrite (mass_index_shown o raw b ob W k h l A HL H L), (mass_index_shown o' raw' b' ob' W' k _ _ B HL' H' L').
    pose proof (ema_scale s 0 9 (fun j => h j - l j) (fun j => s * h j - s * l j) ltac:(intro; ring)) as E. pose proof (ema_scale s 8 9 _ _ E) as E2.
    do 3 f_equal. apply total_ext. intros j J. rewrite E, E2. apply quotient_same with (s := s); auto.
  Qed.
  Lemma scaled_cmf p h l c v : both (cCMF p) -> (forall j, (j <= k)%nat -> l j <= c j /\ c j <= h j /\ l j < h j) ->
    priced "high" h -> priced "low" l -> priced "close" c -> known (given "volume" ob) k v -> known (given "volume" ob') k v -> agree "cmf".
  Proof.
    intros [A B] HL [H H'] [L L'] [K K'] Q Q'.
    assert (HL' : forall j, (j <= k)%nat -> s * l j <= s * c j /\ s * c j <= s * h j /\ s * l j < s * h j)
      by (intros j J; specialize (HL j J) as (X & Y & Z); rewrite <- !qltb_false, <- qltb_iff, !(lt_scale s S0), !qltb_false, qltb_iff; auto).
    rewrite (chaikin_money_flow_shown o raw b ob W p k c v h l A HL K Q H L), (chaikin_money_flow_shown o' raw' b' ob' W' p k _ v _ _ B HL' K' Q' H' L').
    do 3 f_equal. apply total_ext. intros j J. unfold adl_move. rewrite (lt_scale s S0). destruct qltb; [|reflexivity]. f_equal. apply (quotient_same s S0); ring.
  Qed.
  Lemma scaled_stochastic_d p q r h l c : both (cSO p q r (VStr "simple")) ->
    (forall j, (nat_arg p + nat_arg q - 2 <= j <= k)%nat -> sum_last (fun i => max_last h (nat_arg p) i - min_last l (nat_arg p) i) (nat_arg q) j <> 0) ->
    priced "high" h -> priced "low" l -> priced "close" c -> agree "%D".
  Proof.
    intros [A B] NZ [H H'] [L L'] [K K'].
    pose proof (max_scale s S0 h (fun j => s * h j) (nat_arg p) ltac:(ua)) as MX. pose proof (min_scale s S0 l (fun j => s * l j) (nat_arg p) ltac:(ua)) as MN.
    pose proof (sum_scale s _ _ (nat_arg q) (unit_sub s c (fun j => s * c j) _ _ ltac:(ua) MN)) as U1. pose proof (sum_scale s _ _ (nat_arg q) (unit_sub s _ _ _ _ MX MN)) as U2. cbv beta in U1, U2.
    rewrite (stochastic_signal_shown o raw b ob W p q r k h l c A NZ H L K).
    assert (NZ' : forall j, (nat_arg p + nat_arg q - 2 <= j <= k)%nat -> sum_last (fun i => max_last (fun j => s * h j) (nat_arg p) i - min_last (fun j => s * l j) (nat_arg p) i) (nat_arg q) j <> 0).
    { intros j J. rewrite (U2 j). intro E. apply Qcmult_integral in E as [E|E]; [exact (s_nonzero s S0 E)|]. exact (NZ j J E). }
    rewrite (stochastic_signal_shown o' raw' b' ob' W' p q r k (fun j => s * h j) (fun j => s * l j) (fun j => s * c j) B NZ' H' L' K').
    cbv zeta. match goal with |- from _ _ (Fin (r4 (mean_last ?x _ _))) = from _ _ (Fin (r4 (mean_last ?y _ _))) => assert (Q : forall j, x j = y j) end.
    { intro j. rewrite (U1 j), (U2 j). apply (f_equal r4). apply (quotient_same s S0); ring. }
    match goal with |- from _ _ (Fin (r4 ?x)) = from _ _ (Fin (r4 ?y)) => replace x with y; [reflexivity|] end.
    unfold mean_last. apply (f_equal (fun z => z / nq (nat_arg r))). symmetry. apply total_ext. intros j J. apply Q.
  Qed.
  Section Directional.
  Variables h l c : nat -> Qc.
  Let h' j := s * h j. Let l' j := s * l j. Let c' j := s * c j.
  Lemma unit_true_range : unit_of s (true_range h l c) (true_range h' l' c').
  Proof. intro j. unfold true_range, h', l', c'. destruct j; [ring|]. rewrite <- (larger3_scale s S0). f_equal; ring. Qed.
  Lemma unit_plus : unit_of s (plus_move h l) (plus_move h' l').
  Proof.
    intro j. unfold plus_move. replace (up_move h' j) with (s * up_move h j) by (unfold up_move, h'; ring).
    replace (down_move l' j) with (s * down_move l j) by (unfold down_move, l'; ring). rewrite (lt_scale s S0), (lt_scale0' s S0). destruct (_ && _); ring.
  Qed.
  Lemma unit_minus : unit_of s (minus_move h l) (minus_move h' l').
  Proof.
    intro j. unfold minus_move. replace (up_move h' j) with (s * up_move h j) by (unfold up_move, h'; ring).
    replace (down_move l' j) with (s * down_move l j) by (unfold down_move, l'; ring). rewrite (lt_scale s S0), (lt_scale0' s S0). destruct (_ && _); ring.
  Qed.
  Lemma unit_running f g : unit_of s f g -> unit_of s (running f) (running g).
  Proof.
    intros U j. unfold running. rewrite (total_scale s (fun j => f (1 + j)%nat) (fun j => g (1 + j)%nat)) by (intro; apply U).
    apply (run_scale s 13 _ _ f g U). intros. unfold Qcdiv. ring.
  Qed.
  Lemma plus_di_same j : plus_di h' l' c' j = plus_di h l c j.
  Proof. unfold plus_di, directional. rewrite (unit_running _ _ unit_plus j), (unit_running _ _ unit_true_range j). apply (quotient_same s S0); ring. Qed.
  Lemma minus_di_same j : minus_di h' l' c' j = minus_di h l c j.
  Proof. unfold minus_di, directional. rewrite (unit_running _ _ unit_minus j), (unit_running _ _ unit_true_range j). apply (quotient_same s S0); ring. Qed.
  Lemma dx_same j : dx_line h' l' c' j = dx_line h l c j.
  Proof. unfold dx_line. rewrite plus_di_same, minus_di_same. reflexivity. Qed.
  Lemma run_ext a step x f g j : (forall i, f i = g i) -> run_from a step x f j = run_from a step x g j.
  Proof. intro E. unfold run_from. induction (j - a)%nat; cbn [run]; [reflexivity|]. rewrite IHn, E. reflexivity. Qed.
  Lemma adx_same j : adx_line h' l' c' j = adx_line h l c j.
  Proof. unfold adx_line. rewrite (total_ext _ (fun i => dx_line h l c (14 + i)%nat)) by (intros; apply dx_same). apply run_ext. exact dx_same. Qed.
  Lemma scaled_dmi name : both cDMI -> In name ["+di"; "-di"; "dx"; "adx"; "adxr"] ->
    (forall j, (14 <= j <= k)%nat -> running (true_range h l c) j <> 0) -> (forall j, (14 <= j <= k)%nat -> plus_di h l c j + minus_di h l c j <> 0) ->
    priced "high" h -> priced "low" l -> priced "close" c -> agree name.
  Proof.
    intros [A B] I R P [H H'] [L L'] [K K'].
    assert (R' : forall j, (14 <= j <= k)%nat -> running (true_range h' l' c') j <> 0).
    { intros j J. rewrite (unit_running _ _ unit_true_range j). intro E. apply Qcmult_integral in E as [E|E]; [exact (s_nonzero s S0 E)|exact (R j J E)]. }
    assert (P' : forall j, (14 <= j <= k)%nat -> plus_di h' l' c' j + minus_di h' l' c' j <> 0) by (intros j J; rewrite plus_di_same, minus_di_same; auto).
    destruct (directional_lines_shown o raw b ob W k h l c A R H L K) as [E1 E2]. destruct (directional_lines_shown o' raw' b' ob' W' k h' l' c' B R' H' L' K') as [F1 F2].
    destruct I as [<-|[<-|[<-|[<-|[<-|[]]]]]].
    - rewrite E1, F1, plus_di_same. reflexivity.
    - rewrite E2, F2, minus_di_same. reflexivity.
    - rewrite (directional_index_shown o raw b ob W k h l c A R P H L K), (directional_index_shown o' raw' b' ob' W' k h' l' c' B R' P' H' L' K'), dx_same. reflexivity.
    - rewrite (average_directional_index_shown o raw b ob W k h l c A R P H L K), (average_directional_index_shown o' raw' b' ob' W' k h' l' c' B R' P' H' L' K'), adx_same. reflexivity.
    - rewrite (directional_rating_shown o raw b ob W k h l c A R P H L K), (directional_rating_shown o' raw' b' ob' W' k h' l' c' B R' P' H' L' K'), !adx_same. reflexivity.
  Qed.
  End Directional.
End Runs.

(** * MirrorSignal: what the signals of two objects have to do with each other when the second was built from the
    mirrored prices. *)
From Coq Require Import ZArith QArith Qcanon Bool List String PeanoNat Lia Sorted Permutation.
From Verif Require Import Num NumFacts RoundFacts Pandas Sim Frame FrameSpec FrameProofs Ind Signal Api IndSpec SeriesFacts Lengths Causal IndFacts Shape ApiSpec ApiCheck ApiProofs ApiLemmas RangeSpec Cells RangeFacts RangeMore Publish RangeApi ValueSpec ValueFacts ValueMore Recur ValueApi CumulApi.
From Verif Require Import FormulaSpec Starts Formula Formula2 Formula3 Formula4 Line Formula5 Formula6 FormulaApi FlatFacts IdentFacts IdentApi SignalSpec SignalApi SignalApi2 SignalApi3 MirrorSpec MirrorFacts MirrorApi MirrorApi2 MirrorApi3 MirrorSar MirrorAll.
Import ListNotations.
Open Scope list_scope. Open Scope string_scope. Open Scope Qc_scope.

(** ** order *)
Lemma less_neg x y : less (nneg x) (nneg y) <-> less y x.
Proof. destruct x, y; cbn; try tauto. split; intro; qlra. Qed.
Lemma less_sub m x y : less (nsub (Fin m) x) (nsub (Fin m) y) <-> less y x.
Proof. destruct x, y; cbn; try tauto. split; intro; qlra. Qed.
Lemma same_neg x y : same (nneg x) (nneg y) <-> same y x.
Proof. destruct x, y; cbn; try tauto. split; intro H; apply Qcle_antisym; qlra. Qed.
Lemma same_sub m x y : same (nsub (Fin m) x) (nsub (Fin m) y) <-> same y x.
Proof. destruct x, y; cbn; try tauto. split; intro H; apply Qcle_antisym; qlra. Qed.
Lemma nan_neg x : nneg x = NaN <-> x = NaN.
Proof. destruct x; cbn; split; congruence. Qed.
Lemma nan_sub m x : nsub (Fin m) x = NaN <-> x = NaN.
Proof. destruct x; cbn; split; congruence. Qed.
Lemma less_trans x y z : less x y -> less y z -> less x z.
Proof. destruct x, y, z; cbn; try tauto. intros. qlra. Qed.

(** a map that reverses the order *)
Definition reversing (f : num -> num) := (forall x y, less (f x) (f y) <-> less y x) /\ (forall x y, same (f x) (f y) <-> same y x) /\ forall x, f x = NaN <-> x = NaN.
Lemma follow_reversing w m : w <> Same -> reversing (follow w m).
Proof. destruct w; intro N; [congruence|..]; cbn [follow]; (split; [|split]); intros; first [apply less_neg|apply same_neg|apply nan_neg|apply less_sub|apply same_sub|apply nan_sub]. Qed.

Section Rules.
  Variables f : num -> num. Hypothesis R : reversing f.
  Lemma less_r x y : less (f x) (f y) <-> less y x. Proof. apply R. Qed.
  Lemma most_r x y : at_most (f x) (f y) <-> at_most y x. Proof. unfold at_most. rewrite less_r. destruct R as (_ & S & _). rewrite S. tauto. Qed.
  Lemma rose_r x x' a b : (forall d, (1 <= d)%nat -> x' d = f (x d)) -> level b = f (level a) -> (rose_through x' (level b) <-> fell_through x (level a)).
  Proof. intros X L. unfold rose_through, fell_through. rewrite !X, L, !less_r by lia. tauto. Qed.
  Lemma fell_r x x' a b : (forall d, (1 <= d)%nat -> x' d = f (x d)) -> level b = f (level a) -> (fell_through x' (level b) <-> rose_through x (level a)).
  Proof. intros X L. unfold rose_through, fell_through. rewrite !X, L, !less_r by lia. tauto. Qed.
  Lemma above_r x x' y y' : (forall d, (1 <= d)%nat -> x' d = f (x d)) -> (forall d, (1 <= d)%nat -> y' d = f (y d)) -> (crossed_above x' y' <-> crossed_below x y).
  Proof. intros X Y. unfold crossed_above, crossed_below. rewrite !X, !Y, !less_r by lia. tauto. Qed.
  Lemma below_r x x' y y' : (forall d, (1 <= d)%nat -> x' d = f (x d)) -> (forall d, (1 <= d)%nat -> y' d = f (y d)) -> (crossed_below x' y' <-> crossed_above x y).
  Proof. intros X Y. unfold crossed_above, crossed_below. rewrite !X, !Y, !less_r by lia. tauto. Qed.
  Lemma lowest_r x x' n : (forall d, (1 <= d)%nat -> x' d = f (x d)) -> (lowest_now x' n <-> highest_now x n).
  Proof.
    intro X. unfold lowest_now, highest_now. destruct R as (RL & _ & RN). rewrite X, RN by lia. split; intros [A B]; (split; [exact A|]); intros d D; specialize (B d D); rewrite X, RL in * by lia; exact B.
  Qed.
  Lemma highest_r x x' n : (forall d, (1 <= d)%nat -> x' d = f (x d)) -> (highest_now x' n <-> lowest_now x n).
  Proof.
    intro X. unfold lowest_now, highest_now. destruct R as (RL & _ & RN). rewrite X, RN by lia. split; intros [A B]; (split; [exact A|]); intros d D; specialize (B d D); rewrite X, RL in * by lia; exact B.
  Qed.
  Lemma under_r x x' a b : x' = f x -> level b = f (level a) -> (less x' (level b) <-> less (level a) x).
  Proof. intros -> ->. apply less_r. Qed.
  Lemma over_r x x' a b : x' = f x -> level b = f (level a) -> (less (level b) x' <-> less x (level a)).
  Proof. intros -> ->. apply less_r. Qed.
  Lemma both_r x x' y y' : x' = f x -> y' = f y -> (less x' y' <-> less y x).
  Proof. intros -> ->. apply less_r. Qed.
  Lemma at_under_r x x' a b : x' = f x -> level b = f (level a) -> (at_most x' (level b) <-> at_most (level a) x).
  Proof. intros -> ->. apply most_r. Qed.
  Lemma at_over_r x x' a b : x' = f x -> level b = f (level a) -> (at_most (level b) x' <-> at_most x (level a)).
  Proof. intros -> ->. apply most_r. Qed.
End Rules.

Lemma flip ob ob' n sa A sb B A' B' : (sa = Buy /\ sb = Sell) \/ (sa = Sell /\ sb = Buy) -> days_shown ob' = days_shown ob ->
  answers ob n sa A sb B -> answers ob' n sa A' sb B' -> (A' <-> B) -> (B' <-> A) -> forall s, get_ti_signal ob = Ok s -> get_ti_signal ob' = Ok (opposite s).
Proof.
  intros S D [H1 H2] [H1' H2'] AB BA s G. rewrite D in *. destruct (Nat.lt_ge_cases (days_shown ob) n) as [L|L].
  - rewrite (H1 L) in G. injection G as <-. apply H1', L.
  - specialize (H2 L) as (a & b0 & c). specialize (H2' L) as (a' & b' & c').
    destruct S as [[-> ->]|[-> ->]]; destruct s; cbn [opposite]; tauto.
Qed.

Lemma shown_rows o c raw b ob : wf_raw raw -> snd (construct o c (RFrame raw) (VBool b)) = Ok ob ->
  days_shown ob = match asked c with iDPO p => days_given ob - S (p / 2) | _ => days_given ob end%nat.
Proof.
  intros W H. apply construct_inv in H as (i & raw0 & b0 & f & CK & Q & B & V & K & EI). injection Q as <-. injection B as <-.
  assert (G : good_input i f) by (eapply validated_good; eauto). rewrite <- (check_asked _ _ CK). unfold days_shown, days_given, get_ti_data.
  rewrite <- !len_index, (calc_index _ _ _ _ _ K), (calc_input_index _ _ _ _ _ G K). destruct i; try reflexivity.
  cbn [ti_index]. rewrite firstn_length, len_index. lia.
Qed.
Lemma shown_out name ob k : (days_shown ob <= k)%nat -> shown name ob k = NaN.
Proof. intro G. unfold shown, cell_at. rewrite nth_overflow; [reflexivity|]. unfold col. destruct position; [rewrite map_length; exact G|cbn; lia]. Qed.

Section Signals.
  Variables (o : oracle) (raw raw' : rawframe) (b b' : bool) (ob ob' : obj) (m : Qc) (op h l cl v : nat -> Qc) (c : ctor).
  Hypothesis W : wf_raw raw. Hypothesis W' : wf_raw raw'. Hypothesis E : even_ticks m.
  Hypothesis T : twice c o raw raw' b b' ob ob'. Hypothesis TO : turned_over c m ob ob' op h l cl v.
  Hypothesis ORD : forall k, (k < days_given ob)%nat -> ordinary c (days_given ob) k op h l cl v.

  Lemma rows_same : days_shown ob' = days_shown ob.
  Proof. rewrite (shown_rows o c raw' b' ob' W' (proj2 T)), (shown_rows o c raw b ob W (proj1 T)). destruct TO as [-> _]. reflexivity. Qed.
  Lemma rows_few : (days_shown ob <= days_given ob)%nat.
  Proof. rewrite (shown_rows o c raw b ob W (proj1 T)). destruct (asked c); lia. Qed.
  Lemma ago_turn name' name w d : In (name', name, w) (mirror_table c) -> (1 <= d)%nat -> ago name' ob' d = follow w m (ago name ob d).
  Proof.
    intros I D. unfold ago. rewrite rows_same. set (k := (days_shown ob - d)%nat). destruct (Nat.lt_ge_cases k (days_given ob)) as [G|G].
    - apply (mirrored o raw raw' b b' ob ob' m op h l cl v W W' E c k T TO G (ORD k G) name' name w I).
    - pose proof rows_few. rewrite !shown_out by (rewrite ?rows_same; lia). destruct w; reflexivity.
  Qed.
  Lemma price_turn name name' f d : faces m (days_given ob - 1) ob ob' name name' f -> (1 <= d)%nat -> price name' ob' d = nsub (Fin m) (price name ob d).
  Proof.
    intros [X Y] D. unfold price. destruct TO as [-> _]. destruct (Nat.lt_ge_cases (days_given ob - d) (days_given ob)) as [G|G].
    - rewrite X, Y by lia. reflexivity.
    - rewrite !given_out; [reflexivity|lia|]. destruct TO as [-> _]. lia.
  Qed.
  Lemma first_works : working o c raw b ob. Proof. split; [exact W|]. exists ob. split; [apply T|auto]. Qed.
  Lemma second_works : working o c raw' b' ob'. Proof. split; [exact W'|]. exists ob'. split; [apply T|auto]. Qed.

  (** ** kinds of rules *)
  Lemma level_flip name up su down sd w : level_rule c = Some (name, up, su, down, sd) -> In (name, name, w) (mirror_table c) -> w <> Same ->
    level up = follow w m (level down) -> level down = follow w m (level up) -> (su = Buy /\ sd = Sell) \/ (su = Sell /\ sd = Buy) ->
    forall s, get_ti_signal ob = Ok s -> get_ti_signal ob' = Ok (opposite s).
  Proof.
    intros L I N U D S. pose proof (follow_reversing w m N) as R. eapply flip; [exact S|exact rows_same|exact (level_answers c name up su down sd L first_works)|exact (level_answers c name up su down sd L second_works)|..].
    - apply (rose_r _ R); [intros; apply ago_turn; auto|exact U].
    - apply (fell_r _ R); [intros; apply ago_turn; auto|exact D].
  Qed.
  Lemma line_flip name sa sb : line_rule c = Some (name, sa, sb) -> In (name, name, Across) (mirror_table c) -> In "close" (required (asked c)) ->
    forall s, get_ti_signal ob = Ok s -> get_ti_signal ob' = Ok (opposite s).
  Proof.
    intros L I C. pose proof (follow_reversing Across m ltac:(discriminate)) as R. pose proof TO as (_ & _ & _ & _ & F & _). specialize (F C).
    eapply flip; [|exact rows_same|exact (line_answers c name sa sb L first_works)|exact (line_answers c name sa sb L second_works)|..].
    - clear - L. destruct c; try discriminate; injection L as <- <- <-; auto.
    - apply (above_r _ R); intros; [apply (price_turn "close" "close" cl); auto|apply ago_turn; auto].
    - apply (below_r _ R); intros; [apply (price_turn "close" "close" cl); auto|apply ago_turn; auto].
  Qed.
  Lemma band_flip up low : band_rule c = Some (up, low) -> In (up, low, Across) (mirror_table c) -> In (low, up, Across) (mirror_table c) -> In "close" (required (asked c)) ->
    ~ less (ago up ob 1) (ago low ob 1) -> forall s, get_ti_signal ob = Ok s -> get_ti_signal ob' = Ok (opposite s).
  Proof.
    intros L I J C O. pose proof (follow_reversing Across m ltac:(discriminate)) as R. pose proof TO as (_ & _ & _ & _ & F & _). specialize (F C).
    eapply flip; [right; split; reflexivity|exact rows_same|exact (band_answers c up low L first_works)|exact (band_answers c up low L second_works)|..];
      rewrite (price_turn "close" "close" cl 1 F), (ago_turn up low Across 1 I), ?(ago_turn low up Across 1 J) by lia; change (nsub (Fin m)) with (follow Across m); rewrite !(less_r _ R).
    - split; [|tauto]. intro A. split; [exact A|]. intro X. apply O. eapply less_trans; eauto.
    - split; [tauto|]. intro A. split; [exact A|]. intro X. apply O. eapply less_trans; eauto.
  Qed.
  Lemma three_flip name sa sb : three_rule c = Some (name, sa, sb) -> In (name, name, Opposed) (mirror_table c) ->
    forall s, get_ti_signal ob = Ok s -> get_ti_signal ob' = Ok (opposite s).
  Proof.
    intros L I. pose proof (follow_reversing Opposed m ltac:(discriminate)) as R.
    eapply flip; [|exact rows_same|exact (three_answers c name sa sb L first_works)|exact (three_answers c name sa sb L second_works)|..].
    - clear - L. destruct c; try discriminate; injection L as <- <- <-; auto.
    - unfold rising3, falling3. rewrite !(ago_turn name name Opposed) by (auto; lia). rewrite !(less_r _ R). tauto.
    - unfold rising3, falling3. rewrite !(ago_turn name name Opposed) by (auto; lia). rewrite !(less_r _ R). tauto.
  Qed.
End Signals.

Ltac lev := apply (f_equal Fin); apply Qc_is_canon; vm_compute; reflexivity.
Lemma level_neg z : level (- z) = nneg (level z).
Proof. unfold level, nneg. f_equal. apply Qc_is_canon. unfold zq, Qcopp. cbn [this Q2Qc]. rewrite !Qred_correct. reflexivity. Qed.

Lemma no_days o c raw b ob : working o c raw b ob -> days_shown ob = 0%nat -> (exists p, c = cCMF p) \/ c = cCO -> get_ti_signal ob = Ok Hold.
Proof.
  intros FW D S. destruct (working_sound _ _ _ _ _ FW) as (_ & EI). unfold get_ti_signal. rewrite EI.
  destruct S as [[p ->]| ->]; cbn [asked]; unfold signal_of, guard; change (length (rows (ob_ti ob))) with (days_shown ob); rewrite D; reflexivity.
Qed.

Section Every.
  Variables (o : oracle) (raw raw' : rawframe) (b b' : bool) (ob ob' : obj) (m : Qc) (op h l cl v : nat -> Qc).
  Hypothesis W : wf_raw raw. Hypothesis W' : wf_raw raw'. Hypothesis E : even_ticks m.
  Definition turns c := twice c o raw raw' b b' ob ob' -> turned_over c m ob ob' op h l cl v -> (forall k, (k < days_given ob)%nat -> ordinary c (days_given ob) k op h l cl v) ->
    even_handed c ob -> forall s, get_ti_signal ob = Ok s -> get_ti_signal ob' = Ok (opposite s).
  Let AT c (T : twice c o raw raw' b b' ob ob') (TO : turned_over c m ob ob' op h l cl v) (ORD : forall k, (k < days_given ob)%nat -> ordinary c (days_given ob) k op h l cl v) :=
    ago_turn o raw raw' b b' ob ob' m op h l cl v c W W' E T TO ORD.

  Ltac levels := intros T TO ORD _; eapply (level_flip o raw raw' b b' ob ob' m op h l cl v _ W W' E T TO ORD);
    [reflexivity|cbn [mirror_table In]; eauto|discriminate|cbn [follow]; lev|cbn [follow]; lev|auto].
  Ltac lines := intros T TO ORD _; eapply (line_flip o raw raw' b b' ob ob' m op h l cl v _ W W' E T TO ORD);
    [reflexivity|cbn [mirror_table In]; auto|cbn [asked required In]; auto 8].
  Tactic Notation "pair" uconstr(X) := intros T TO ORD EH; eapply flip; [|exact (rows_same _ _ _ _ _ _ _ _ _ _ _ _ _ _ W W' T TO)|
    refine (X (first_works _ _ _ _ _ _ _ _ W T))|refine (X (second_works _ _ _ _ _ _ _ _ W' T))|..]; [auto|..]; cbv zeta.
  Lemma t_cmo p : turns (cCMO p). Proof. levels. Qed.
  Lemma t_dpo p : turns (cDPO p). Proof. levels. Qed.
  Lemma t_emv p : turns (cEMV p). Proof. levels. Qed.
  Lemma t_imi p : turns (cIMI p). Proof. levels. Qed.
  Lemma t_ko : turns cKO. Proof. levels. Qed.
  Lemma t_lrs p : turns (cLRS p). Proof. levels. Qed.
  Lemma t_rsi p : turns (cRSI p). Proof. levels. Qed.
  Lemma t_rvi p : turns (cRVI p). Proof. levels. Qed.
  Lemma t_smi p q r : turns (cSMI p q r). Proof. levels. Qed.
  Lemma t_swi : turns cSWI. Proof. levels. Qed.
  Lemma t_lri p : turns (cLRI p). Proof. lines. Qed.
  Lemma t_tsf p : turns (cTSF p). Proof. lines. Qed.
  Lemma t_wc : turns cWC. Proof. lines. Qed.
  Lemma t_ws p : turns (cWS p). Proof. lines. Qed.
  Lemma t_psar : turns cPSAR. Proof. lines. Qed.
  Ltac inn := cbn [mirror_table In asked required String.eqb Ascii.eqb Bool.eqb]; auto 8.
  Ltac close T TO := let F := fresh "CL" in
    assert (F : forall d, (1 <= d)%nat -> price "close" ob' d = follow Across m (price "close" ob d))
      by (intros; apply (price_turn _ _ _ _ _ _ _ _ _ TO "close" "close" cl); [apply TO; inn|lia]).
  Lemma t_bb p q : turns (cBB p q).
  Proof. intros T TO ORD EH. apply (band_flip o raw raw' b b' ob ob' m op h l cl v _ W W' E T TO ORD "upper_band" "lower_band"); auto; inn. Qed.
  Lemma t_pch p : turns (cPCH p).
  Proof. intros T TO ORD EH. apply (band_flip o raw raw' b b' ob ob' m op h l cl v _ W W' E T TO ORD "highest_high" "lowest_low"); auto; inn. Qed.
  Lemma t_obv : turns cOBV.
  Proof. intros T TO ORD EH. apply (three_flip o raw raw' b b' ob ob' m op h l cl v _ W W' E T TO ORD "obv" Sell Buy); auto; inn. Qed.
  Lemma t_adl : turns cADL.
  Proof.
    pair adl_answers. all: close T TO; pose proof (follow_reversing Opposed m ltac:(discriminate)) as R; pose proof (follow_reversing Across m ltac:(discriminate)) as A.
    all: pose proof (AT _ T TO ORD "adl" "adl" Opposed 1 ltac:(inn) (le_n 1)) as X.
    all: rewrite ?(under_r _ R _ _ 0 0 X), ?(over_r _ R _ _ 0 0 X) by lev.
    all: rewrite (both_r _ A _ _ _ _ (CL 1%nat (le_n 1)) (CL 2%nat (le_S _ _ (le_n 1)))), (both_r _ A _ _ _ _ (CL 2%nat (le_S _ _ (le_n 1))) (CL 1%nat (le_n 1))); tauto.
  Qed.
  Ltac sides := pose proof (follow_reversing Opposed m ltac:(discriminate)) as RO; pose proof (follow_reversing Rest m ltac:(discriminate)) as RR;
    pose proof (follow_reversing Rest_below m ltac:(discriminate)) as RB; pose proof (follow_reversing Across m ltac:(discriminate)) as RA.
  Lemma t_cci p : turns (cCCI p).
  Proof.
    pair (cci_answers p). all: sides; pose proof (AT _ T TO ORD "cci" "cci" Opposed 1 ltac:(inn) (le_n 1)) as X.
    - apply (under_r _ RO); [exact X|lev].
    - apply (over_r _ RO); [exact X|lev].
  Qed.
  Lemma t_dmi : turns cDMI.
  Proof.
    pair dmi_answers. all: unfold crossed_above, crossed_below; rewrite !(AT _ T TO ORD "+di" "-di" Same), !(AT _ T TO ORD "-di" "+di" Same), (AT _ T TO ORD "adxr" "adxr" Same) by (inn; lia).
    all: cbn [follow]; tauto.
  Qed.
  Lemma t_tema p : turns (cTEMA p).
  Proof.
    pair (tema_answers p). all: sides; close T TO; rewrite (AT _ T TO ORD "tema" "tema" Across), CL by (inn; lia); apply (less_r _ RA).
  Qed.
  Lemma t_macd : turns cMACD.
  Proof.
    pair macd_answers. all: sides; pose proof (fun d => AT _ T TO ORD "macd" "macd" Opposed d ltac:(inn)) as X; pose proof (fun d => AT _ T TO ORD "signal_line" "signal_line" Opposed d ltac:(inn)) as Y.
    all: rewrite (rose_r _ RO _ _ 0 0 X), (fell_r _ RO _ _ 0 0 X) by lev; rewrite ?(above_r _ RO _ _ _ _ X Y), ?(below_r _ RO _ _ _ _ X Y); tauto.
  Qed.
  Lemma t_qs p : turns (cQS p).
  Proof.
    pair (qstick_answers p). all: sides; pose proof (fun d => AT _ T TO ORD "qstick" "qstick" Opposed d ltac:(inn)) as X; change (level 0) with (follow Opposed m (level 0)) at 1 2.
    all: rewrite !X, !(less_r _ RO) by lia; tauto.
  Qed.
  Lemma t_proj p : turns (cPROJ p).
  Proof.
    pair (proj_answers p). all: sides; pose proof (fun d => AT _ T TO ORD "posc" "posc" Rest d ltac:(inn)) as X; pose proof (fun d => AT _ T TO ORD "trigger_line" "trigger_line" Rest d ltac:(inn)) as Y.
    all: assert (NO : fell_through (ago "posc" ob) (level 85) -> rose_through (ago "posc" ob) (level 15) -> False)
           by (intros [A _] [B _]; pose proof (less_trans _ _ _ A B) as C; vm_compute in C; discriminate).
    all: rewrite (rose_r _ RR _ _ 85 15 X), (fell_r _ RR _ _ 15 85 X) by lev; rewrite !X, !Y, !(less_r _ RR) by lia; tauto.
  Qed.
  Lemma t_so k q d t : turns (cSO k q d t).
  Proof.
    pair (so_answers k q d t). all: destruct EH as [-> EH]; sides; pose proof (fun d => AT _ T TO ORD "%K" "%K" Rest d ltac:(inn)) as X; pose proof (fun d => AT _ T TO ORD "%D" "%D" Rest d ltac:(inn)) as Y.
    all: rewrite !(rose_r _ RR _ _ 80 20 X), !(fell_r _ RR _ _ 20 80 X), !(rose_r _ RR _ _ 80 20 Y), !(fell_r _ RR _ _ 20 80 Y) by lev.
    all: rewrite ?(under_r _ RR _ _ 80 20 (X 1%nat (le_n 1))), ?(over_r _ RR _ _ 20 80 (X 1%nat (le_n 1))) by lev.
    all: rewrite !X, !Y, !(less_r _ RR) by lia; tauto.
  Qed.
  Lemma t_wad : turns cWAD.
  Proof.
    pair wad_answers. all: sides; close T TO; pose proof (fun d => AT _ T TO ORD "wad" "wad" Opposed d ltac:(inn)) as X; cbn [even_handed] in EH.
    all: rewrite ?(lowest_r _ RO _ _ _ X), ?(highest_r _ RO _ _ _ X), ?(lowest_r _ RA _ _ _ CL), ?(highest_r _ RA _ _ _ CL); tauto.
  Qed.
  Lemma t_wr p : turns (cWR p).
  Proof.
    pair (wr_answers p). all: sides; rewrite (rows_same _ _ _ _ _ _ _ _ _ _ _ _ _ _ W W' T TO); pose proof (fun d => AT _ T TO ORD "wr" "wr" Rest_below d ltac:(inn)) as X.
    all: rewrite ?(rose_r _ RB _ _ (-50) (-50) X), ?(fell_r _ RB _ _ (-50) (-50) X) by lev.
    all: apply and_iff_compat_r; split; intros (d & D & A & B); exists d; (split; [exact D|]); (split; [|intros e G; specialize (B e G); intro Z; apply B; revert Z]).
    all: first [revert A|idtac]. 
    all: rewrite ?(at_under_r _ RB _ _ (-20) (-80) (X d ltac:(lia))), ?(at_over_r _ RB _ _ (-80) (-20) (X d ltac:(lia))) by lev; try tauto.
    all: rewrite ?(at_under_r _ RB _ _ (-20) (-80) (X e ltac:(lia))), ?(at_over_r _ RB _ _ (-80) (-20) (X e ltac:(lia))) by lev; tauto.
  Qed.
  Lemma t_mi : turns cMI.
  Proof.
    intros T TO ORD EH. pose proof (rows_same _ _ _ _ _ _ _ _ _ _ _ _ _ _ W W' T TO) as RS. revert T TO ORD EH. pair mi_answers. all: rewrite RS; sides.
    all: assert (CE : forall d, (1 <= d)%nat -> price "9_ema" ob' d = follow Across m (price "9_ema" ob d)).
    1,3: intros d D; unfold price; destruct TO as (DD & _ & _ & _ & F & _); rewrite DD; specialize (F ltac:(inn)); destruct (Nat.lt_ge_cases (days_given ob - d) (days_given ob)) as [G|G];
      [|rewrite !given_out; [reflexivity|lia|lia]];
      pose proof (faces_less m (days_given ob - d) (days_given ob - 1) ob ob' "close" "close" cl ltac:(lia) F) as [K K'];
      rewrite (mass_average o raw b ob W _ cl (proj1 T) K), (mass_average o raw' b' ob' W' _ _ (proj2 T) K'); cbn [follow]; rewrite from_sub;
      apply (f_equal (from 8 (days_given ob - d))), (f_equal Fin), (ema_mir m); intro; reflexivity.
    all: pose proof (fun d => AT _ T TO ORD "mi" "mi" Same d ltac:(inn)) as X; cbn [follow] in X.
    all: rewrite !CE, (less_r _ RA) by lia; apply and_iff_compat_r.
    all: split; intros (d & D & A & B); exists d; (split; [exact D|]); (split; [first [rewrite <- X by lia|rewrite X by lia]; exact A|]); intros e G; specialize (B e G); first [rewrite <- X by lia|rewrite X by lia]; exact B.
  Qed.
  Lemma t_mp p : turns (cMP p).
  Proof.
    intros T TO ORD EH. pose proof (rows_same _ _ _ _ _ _ _ _ _ _ _ _ _ _ W W' T TO) as RS. sides.
    assert (CE : forall d, (1 <= d)%nat -> price "close_ema" ob' d = follow Across m (price "close_ema" ob d)).
    { intros d D; unfold price; destruct TO as (DD & _ & _ & _ & F & _); rewrite DD; specialize (F ltac:(inn)); destruct (Nat.lt_ge_cases (days_given ob - d) (days_given ob)) as [G|G];
      [|rewrite !given_out; [reflexivity|lia|lia]];
      pose proof (faces_less m (days_given ob - d) (days_given ob - 1) ob ob' "close" "close" cl ltac:(lia) F) as [K K'];
      rewrite (median_average o raw b ob W p _ cl (proj1 T) K), (median_average o raw' b' ob' W' p _ _ (proj2 T) K'); cbn [follow]; rewrite from_sub;
      apply (f_equal (from _ (days_given ob - d))), (f_equal Fin), (ema_mir m); intro; reflexivity. }
    pose proof (fun d => AT _ T TO ORD "mp" "mp" Across d ltac:(inn)) as X.
    eapply flip; [|exact RS|exact (mp_answers p (first_works _ _ _ _ _ _ _ _ W T) EH)|apply (mp_answers p (second_works _ _ _ _ _ _ _ _ W' T)); rewrite RS; exact EH|..]; [auto|..].
    - exact (above_r _ RA _ _ _ _ CE X).
    - exact (below_r _ RA _ _ _ _ CE X).
  Qed.
  Lemma t_cmf p : turns (cCMF p).
  Proof.
    intros T TO ORD EH. pose proof (rows_same _ _ _ _ _ _ _ _ _ _ _ _ _ _ W W' T TO) as RS. sides. close T TO.
    pose proof (first_works _ _ _ _ _ _ _ _ W T) as FW. pose proof (second_works _ _ _ _ _ _ _ _ W' T) as SW.
    destruct (Nat.eq_dec (days_shown ob) 0) as [Z|NZ].
    { intros s G. rewrite (no_days _ _ _ _ _ FW Z ltac:(eauto)) in G. injection G as <-. apply (no_days _ _ _ _ _ SW); [congruence|eauto]. }
    assert (D : days_shown ob = days_given ob) by (apply (shown_rows o (cCMF p) raw b ob W), T).
    assert (K : price "close" ob 2 <> NaN).
    { unfold price. destruct TO as (_ & _ & _ & _ & F & _). destruct (F ltac:(inn)) as [K _]. rewrite K by lia. discriminate. }
    pose proof (fun d => AT _ T TO ORD "cmf" "cmf" Opposed d ltac:(inn)) as X.
    eapply flip; [|exact RS|exact (cmf_answers p FW K)|apply (cmf_answers p SW); rewrite CL by lia; destruct (price "close" ob 2); [congruence|discriminate..]|..]; [auto|..].
    - rewrite !X, !CL, !(less_r _ RO), !(less_r _ RA) by lia. tauto.
    - rewrite !X, !CL, !(less_r _ RO), !(less_r _ RA) by lia. tauto.
  Qed.
  Lemma t_co : turns cCO.
  Proof.
    intros T TO ORD EH. pose proof (rows_same _ _ _ _ _ _ _ _ _ _ _ _ _ _ W W' T TO) as RS. sides. close T TO.
    pose proof (first_works _ _ _ _ _ _ _ _ W T) as FW. pose proof (second_works _ _ _ _ _ _ _ _ W' T) as SW.
    destruct (Nat.eq_dec (days_shown ob) 0) as [Z|NZ].
    { intros s G. rewrite (no_days _ _ _ _ _ FW Z ltac:(eauto)) in G. injection G as <-. apply (no_days _ _ _ _ _ SW); [congruence|eauto]. }
    assert (D : days_shown ob = days_given ob) by (apply (shown_rows o cCO raw b ob W), T).
    set (f := fun d => cl (days_given ob - d)%nat).
    assert (K : latest (price "close" ob) 90 f).
    { intros d G. unfold price. destruct TO as (_ & _ & _ & _ & F & _). destruct (F ltac:(inn)) as [K _]. apply K. lia. }
    assert (K' : latest (price "close" ob') 90 (fun d => m - f d)) by (intros d G; rewrite CL, (K d G) by lia; reflexivity).
    pose proof (fun d => AT _ T TO ORD "co" "co" Opposed d ltac:(inn)) as X.
    assert (M : mean_of (fun d => m - f d) 90 = m - mean_of f 90).
    { unfold mean_of, mean. rewrite (total_mir m (fun j => f (S j)) (fun j => m - f (S j)) 90) by (intro; reflexivity). generalize (total (fun j => f (S j)) 90). intro t. field. apply nq_nonzero. lia. }
    eapply flip; [|exact RS|exact (co_answers f FW K)|exact (co_answers _ SW K')|..]; [auto|..].
    - rewrite M, (under_r _ RO _ _ 0 0 (X 1%nat (le_n 1))) by lev. rewrite !X, !(less_r _ RO) by lia.
      assert (Q : m - mean_of f 90 < m - f 1%nat <-> f 1%nat < mean_of f 90) by (generalize (mean_of f 90); intro; split; intro; qlra). rewrite Q. tauto.
    - rewrite M, (over_r _ RO _ _ 0 0 (X 1%nat (le_n 1))) by lev. rewrite !X, !(less_r _ RO) by lia.
      assert (Q : m - f 1%nat < m - mean_of f 90 <-> mean_of f 90 < f 1%nat) by (generalize (mean_of f 90); intro; split; intro; qlra). rewrite Q. tauto.
  Qed.
  Lemma t_pb p : turns (cPB p).
  Proof.
    intros T TO ORD EH. pose proof (rows_same _ _ _ _ _ _ _ _ _ _ _ _ _ _ W W' T TO) as RS. close T TO.
    pose proof (first_works _ _ _ _ _ _ _ _ W T) as FW. pose proof (second_works _ _ _ _ _ _ _ _ W' T) as SW.
    pose proof (AT _ T TO ORD "upper_band" "lower_band" Across 1 ltac:(inn) (le_n 1)) as U. pose proof (AT _ T TO ORD "lower_band" "upper_band" Across 1 ltac:(inn) (le_n 1)) as L.
    assert (D : days_shown ob = days_given ob) by (apply (shown_rows o (cPB p) raw b ob W), T).
    assert (OUT : ago "upper_band" ob 1 = NaN \/ ago "lower_band" ob 1 = NaN \/ price "close" ob 1 = NaN -> forall s, get_ti_signal ob = Ok s -> get_ti_signal ob' = Ok (opposite s)).
    { intros M s G. rewrite (pb_missing p FW M) in G. injection G as <-. apply (pb_missing p SW). rewrite U, L, CL by lia. destruct M as [->|[->| ->]]; auto. }
    destruct (Nat.eq_dec (days_given ob) 0) as [Z|NZ]; [apply OUT; left; unfold ago; apply shown_out; lia|].
    pose proof TO as (_ & _ & FH & FL & FC & _). destruct (FH ltac:(inn)) as [H _]. destruct (FL ltac:(inn)) as [LO _]. destruct (FC ltac:(inn)) as [C _].
    destruct (projection_bands_shown o raw b ob W p (days_given ob - 1) h l (proj1 T) H LO) as [HU HL].
    assert (EU : ago "upper_band" ob 1 = shown "upper_band" ob (days_given ob - 1)) by (unfold ago; rewrite D; reflexivity).
    assert (EL : ago "lower_band" ob 1 = shown "lower_band" ob (days_given ob - 1)) by (unfold ago; rewrite D; reflexivity).
    rewrite <- EU in HU. rewrite <- EL in HL. unfold from in HU, HL. destruct (_ <? _)%nat; [apply OUT; auto|].
    assert (PC : price "close" ob 1 = Fin (cl (days_given ob - 1)%nat)) by (apply C; lia).
    cbn [even_handed] in EH. rewrite HL in U. rewrite HU in L. rewrite HU, HL in EH. cbn [less follow nsub nneg nadd] in U, L, EH.
    revert HU HL U L EH PC. generalize (r4 (highest_projection h (nat_arg p) (days_given ob - 1))) (r4 (lowest_projection l (nat_arg p) (days_given ob - 1))) (cl (days_given ob - 1)%nat).
    intros u w x HU HL U L EH PC.
    eapply flip; [|exact RS|exact (pb_answers p u w x FW HU HL PC)|eapply (pb_answers p _ _ _ SW U L); rewrite CL, PC by lia; reflexivity|..]; [auto|..].
    - split; [intro A; split|intros [A _]]; qlra.
    - split; [intros [A _]|intro A; split]; qlra.
  Qed.

  Theorem reversed c : turns c.
  Proof.
    destruct c; try (intros _ _ _ []; fail).
    all: first [apply t_cmo|apply t_dpo|apply t_emv|apply t_imi|apply t_ko|apply t_lrs|apply t_rsi|apply t_rvi|apply t_smi|apply t_swi|apply t_lri|apply t_tsf|apply t_wc|apply t_ws|apply t_psar
      |apply t_bb|apply t_pch|apply t_obv|apply t_adl|apply t_cci|apply t_dmi|apply t_tema|apply t_macd|apply t_qs|apply t_proj|apply t_so|apply t_wad|apply t_wr|apply t_mi|apply t_mp|apply t_cmf|apply t_co|apply t_pb].
  Qed.

  Lemma stay n sa A sb B A' B' : (sa = Buy /\ sb = Sell) \/ (sa = Sell /\ sb = Buy) -> days_shown ob' = days_shown ob ->
    answers ob n sa A sb B -> answers ob' n sa A' sb B' -> (A' <-> A) -> (B' <-> B) -> forall s, get_ti_signal ob = Ok s -> get_ti_signal ob' = Ok s.
  Proof.
    intros S D [H1 H2] [H1' H2'] AB BA s G. rewrite D in *. destruct (Nat.lt_ge_cases (days_shown ob) n) as [L|L].
    - rewrite (H1 L) in G. injection G as <-. apply H1', L.
    - specialize (H2 L) as (a1 & b1 & c1). specialize (H2' L) as (a2 & b2 & c2).
      destruct S as [[-> ->]|[-> ->]]; destruct s; tauto.
  Qed.
  Theorem unchanged c : twice c o raw raw' b b' ob ob' -> turned_over c m ob ob' op h l cl v -> c = cMFI \/ (exists p q, c = cVCH p q) ->
    forall s, get_ti_signal ob = Ok s -> get_ti_signal ob' = Ok s.
  Proof.
    intros T TO CC. pose proof (rows_same _ _ _ _ _ _ _ _ _ _ _ _ _ _ W W' T TO) as RS.
    pose proof (first_works _ _ _ _ _ _ _ _ W T) as FW. pose proof (second_works _ _ _ _ _ _ _ _ W' T) as SW.
    destruct CC as [->|(p & q & ->)].
    - pose proof (fun d => AT cMFI T TO ltac:(intros; exact I) "mfi" "mfi" Same d ltac:(inn)) as X; cbn [follow] in X.
      eapply stay; [|exact RS|exact (mfi_answers FW)|exact (mfi_answers SW)|..]; [auto|..]; rewrite !X by lia; tauto.
    - pose proof (fun d => AT (cVCH p q) T TO ltac:(intros; exact I) "vch" "vch" Same d ltac:(inn)) as X; cbn [follow] in X.
      eapply stay; [|exact RS|exact (three_answers (cVCH p q) "vch" Buy Sell eq_refl FW)|exact (three_answers (cVCH p q) "vch" Buy Sell eq_refl SW)|..]; [auto|..]; unfold rising3, falling3; rewrite !X by lia; tauto.
  Qed.
End Every.

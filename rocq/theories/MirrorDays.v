(** * MirrorDays: the signals of every day, as a simulation asks for them, on a market turned upside down. *)
From Coq Require Import ZArith QArith Qcanon Bool List String PeanoNat Lia Sorted Permutation.
From Verif Require Import Num NumFacts RoundFacts Pandas Sim Frame FrameSpec FrameProofs SimSpec SimProofs SimLemmas SimLimit Ind Signal Api IndSpec SeriesFacts Lengths Causal IndFacts Shape ApiSpec ApiCheck ApiProofs ApiLemmas RangeSpec Cells RangeFacts RangeMore Publish RangeApi ValueSpec ValueFacts ValueMore Recur ValueApi CumulApi.
From Verif Require Import FormulaSpec Starts Formula Formula2 Formula3 Formula4 Line Formula5 Formula6 FormulaApi FlatFacts IdentFacts IdentApi SignalSpec SignalApi SignalApi2 SignalApi3 MirrorSpec MirrorFacts MirrorApi MirrorApi2 MirrorApi3 MirrorSar MirrorAll MirrorSignal OneWaySpec OneWay OneWayApi AdviceSpec AdviceApi QuietSpec QuietSim QuietApi BooksSpec Books BooksApi TurnSpec TurnSim TurnApi.
Import ListNotations.
Open Scope list_scope. Open Scope string_scope. Open Scope Qc_scope.
Notation price := SignalSpec.price.

(** averages of the close that two indicators keep among their input *)
Definition kept (c : ctor) : list string := match c with cMI => ["9_ema"] | cMP _ => ["close_ema"] | _ => [] end.
(** two objects to ask for a signal, of which the second shows the mirrored values *)
Record facing_objects (o : oracle) (raw raw' : rawframe) (b b' : bool) (m : Qc) (c : ctor) (ob ob' : obj) : Prop := {
  fo_first : working o c raw b ob;
  fo_second : working o c raw' b' ob';
  fo_days : days_shown ob' = days_shown ob;
  fo_some : (0 < days_shown ob)%nat;
  fo_ago : forall name' name w, In (name', name, w) (mirror_table c) -> forall d, (1 <= d)%nat -> ago name' ob' d = follow w m (ago name ob d);
  fo_kept : forall name, In name (kept c) -> forall d, (1 <= d)%nat -> price name ob' d = follow Across m (price name ob d);
  fo_close : In "close" (required (asked c)) -> forall d, (1 <= d)%nat -> price "close" ob' d = follow Across m (price "close" ob d) /\ price "close" ob d <> NaN /\ exists q, price "close" ob d = Fin q;
  fo_bands : forall p, c = cPB p -> (ago "upper_band" ob 1 = NaN \/ exists u, ago "upper_band" ob 1 = Fin u) /\ (ago "lower_band" ob 1 = NaN \/ exists u, ago "lower_band" ob 1 = Fin u) }.

Section Every.
  Variables (o : oracle) (raw raw' : rawframe) (b b' : bool) (ob ob' : obj) (m : Qc).
  Definition turns c := facing_objects o raw raw' b b' m c ob ob' -> even_handed c ob -> forall s, get_ti_signal ob = Ok s -> get_ti_signal ob' = Ok (opposite s).
  Notation AT T := (fo_ago _ _ _ _ _ _ _ _ _ T).
  Notation RSF T := (fo_days _ _ _ _ _ _ _ _ _ T).
  Notation FWF T := (fo_first _ _ _ _ _ _ _ _ _ T).
  Notation SWF T := (fo_second _ _ _ _ _ _ _ _ _ T).

  Lemma level_turn c name up su down sd w : facing_objects o raw raw' b b' m c ob ob' -> level_rule c = Some (name, up, su, down, sd) -> In (name, name, w) (mirror_table c) -> w <> Same ->
    level up = follow w m (level down) -> level down = follow w m (level up) -> (su = Buy /\ sd = Sell) \/ (su = Sell /\ sd = Buy) ->
    forall s, get_ti_signal ob = Ok s -> get_ti_signal ob' = Ok (opposite s).
  Proof.
    intros T L I N U D S. pose proof (follow_reversing w m N) as R. eapply flip; [exact S|exact (RSF T)|exact (level_answers c name up su down sd L (FWF T))|exact (level_answers c name up su down sd L (SWF T))|..].
    - apply (rose_r _ R); [intros; apply (AT T); auto|exact U].
    - apply (fell_r _ R); [intros; apply (AT T); auto|exact D].
  Qed.
  Lemma line_turn c name sa sb : facing_objects o raw raw' b b' m c ob ob' -> line_rule c = Some (name, sa, sb) -> In (name, name, Across) (mirror_table c) -> In "close" (required (asked c)) ->
    forall s, get_ti_signal ob = Ok s -> get_ti_signal ob' = Ok (opposite s).
  Proof.
    intros T L I C. pose proof (follow_reversing Across m ltac:(discriminate)) as R.
    eapply flip; [|exact (RSF T)|exact (line_answers c name sa sb L (FWF T))|exact (line_answers c name sa sb L (SWF T))|..].
    - clear - L. destruct c; try discriminate; injection L as <- <- <-; auto.
    - apply (above_r _ R); intros; [apply (fo_close _ _ _ _ _ _ _ _ _ T C); auto|apply (AT T); auto].
    - apply (below_r _ R); intros; [apply (fo_close _ _ _ _ _ _ _ _ _ T C); auto|apply (AT T); auto].
  Qed.
  Lemma band_turn c up low : facing_objects o raw raw' b b' m c ob ob' -> band_rule c = Some (up, low) -> In (up, low, Across) (mirror_table c) -> In (low, up, Across) (mirror_table c) -> In "close" (required (asked c)) ->
    ~ less (ago up ob 1) (ago low ob 1) -> forall s, get_ti_signal ob = Ok s -> get_ti_signal ob' = Ok (opposite s).
  Proof.
    intros T L I J C O. pose proof (follow_reversing Across m ltac:(discriminate)) as R. pose proof (proj1 (fo_close _ _ _ _ _ _ _ _ _ T C 1 (le_n 1))) as CL.
    eapply flip; [right; split; reflexivity|exact (RSF T)|exact (band_answers c up low L (FWF T))|exact (band_answers c up low L (SWF T))|..];
      rewrite CL, (AT T up low Across I 1), ?(AT T low up Across J 1) by lia; rewrite !(less_r _ R).
    - split; [|tauto]. intro A. split; [exact A|]. intro X. apply O. eapply less_trans; eauto.
    - split; [tauto|]. intro A. split; [exact A|]. intro X. apply O. eapply less_trans; eauto.
  Qed.
  Lemma three_turn c name sa sb : facing_objects o raw raw' b b' m c ob ob' -> three_rule c = Some (name, sa, sb) -> In (name, name, Opposed) (mirror_table c) ->
    forall s, get_ti_signal ob = Ok s -> get_ti_signal ob' = Ok (opposite s).
  Proof.
    intros T L I. pose proof (follow_reversing Opposed m ltac:(discriminate)) as R.
    eapply flip; [|exact (RSF T)|exact (three_answers c name sa sb L (FWF T))|exact (three_answers c name sa sb L (SWF T))|..].
    - clear - L. destruct c; try discriminate; injection L as <- <- <-; auto.
    - unfold rising3, falling3. rewrite !(AT T name name Opposed) by (auto; lia). rewrite !(less_r _ R). tauto.
    - unfold rising3, falling3. rewrite !(AT T name name Opposed) by (auto; lia). rewrite !(less_r _ R). tauto.
  Qed.

  Ltac levels := intros T _; eapply (level_turn _ _ _ _ _ _ _ T);
    [reflexivity|cbn [mirror_table In]; eauto|discriminate|cbn [follow]; lev|cbn [follow]; lev|auto].
  Ltac lines := intros T _; eapply (line_turn _ _ _ _ T);
    [reflexivity|cbn [mirror_table In]; auto|cbn [asked required In]; auto 8].
  Tactic Notation "pair" uconstr(X) := intros T EH; eapply flip; [|exact (RSF T)|refine (X (FWF T))|refine (X (SWF T))|..]; [auto|..]; cbv zeta.
  Lemma t_cmo p : turns (cCMO p). Proof. levels. Qed.
  Lemma t_emv p : turns (cEMV p). Proof. levels. Qed.
  Lemma t_imi p : turns (cIMI p). Proof. levels. Qed.
  Lemma t_ko : turns cKO. Proof. levels. Qed.
  Lemma t_lrs p : turns (cLRS p). Proof. levels. Qed.
  Lemma t_rsi p : turns (cRSI p). Proof. levels. Qed.
  Lemma t_rvi p : turns (cRVI p). Proof. levels. Qed.
  Lemma t_smi p q r : turns (cSMI p q r). Proof. levels. Qed.
  Lemma t_swi : turns cSWI. Proof. levels. Qed.
  Lemma t_lri p : turns (cLRI p). Proof. lines. Qed.
  Lemma t_tsf p : turns (cTSF p). Proof. lines. Qed.
  Lemma t_wc : turns cWC. Proof. lines. Qed.
  Lemma t_ws p : turns (cWS p). Proof. lines. Qed.
  Lemma t_psar : turns cPSAR. Proof. lines. Qed.
  Ltac inn := cbn [mirror_table In asked required String.eqb Ascii.eqb Bool.eqb]; auto 8.
  Ltac close T := let F := fresh "CL" in
    assert (F : forall d, (1 <= d)%nat -> price "close" ob' d = follow Across m (price "close" ob d))
      by (intros; apply (fo_close _ _ _ _ _ _ _ _ _ T); [inn|lia]).
  Lemma t_bb p q : turns (cBB p q).
  Proof. intros T EH. apply (band_turn _ "upper_band" "lower_band" T); auto; inn. Qed.
  Lemma t_pch p : turns (cPCH p).
  Proof. intros T EH. apply (band_turn _ "highest_high" "lowest_low" T); auto; inn. Qed.
  Lemma t_obv : turns cOBV.
  Proof. intros T EH. apply (three_turn _ "obv" Sell Buy T); auto; inn. Qed.
  Lemma t_adl : turns cADL.
  Proof.
    pair adl_answers. all: close T; pose proof (follow_reversing Opposed m ltac:(discriminate)) as R; pose proof (follow_reversing Across m ltac:(discriminate)) as A.
    all: pose proof (AT T "adl" "adl" Opposed ltac:(inn) 1%nat (le_n 1)) as X.
    all: rewrite ?(under_r _ R _ _ 0 0 X), ?(over_r _ R _ _ 0 0 X) by lev.
    all: rewrite (both_r _ A _ _ _ _ (CL 1%nat (le_n 1)) (CL 2%nat (le_S _ _ (le_n 1)))), (both_r _ A _ _ _ _ (CL 2%nat (le_S _ _ (le_n 1))) (CL 1%nat (le_n 1))); tauto.
  Qed.
  Ltac sides := pose proof (follow_reversing Opposed m ltac:(discriminate)) as RO; pose proof (follow_reversing Rest m ltac:(discriminate)) as RR;
    pose proof (follow_reversing Rest_below m ltac:(discriminate)) as RB; pose proof (follow_reversing Across m ltac:(discriminate)) as RA.
  Lemma t_cci p : turns (cCCI p).
  Proof.
    pair (cci_answers p). all: sides; pose proof (AT T "cci" "cci" Opposed ltac:(inn) 1%nat (le_n 1)) as X.
    - apply (under_r _ RO); [exact X|lev].
    - apply (over_r _ RO); [exact X|lev].
  Qed.
  Lemma t_dmi : turns cDMI.
  Proof.
    pair dmi_answers. all: unfold crossed_above, crossed_below; rewrite !(AT T "+di" "-di" Same), !(AT T "-di" "+di" Same), (AT T "adxr" "adxr" Same) by (inn; lia).
    all: cbn [follow]; tauto.
  Qed.
  Lemma t_tema p : turns (cTEMA p).
  Proof.
    pair (tema_answers p). all: sides; close T; rewrite (AT T "tema" "tema" Across), CL by (inn; lia); apply (less_r _ RA).
  Qed.
  Lemma t_macd : turns cMACD.
  Proof.
    pair macd_answers. all: sides; pose proof (fun d => AT T "macd" "macd" Opposed ltac:(inn) d) as X; pose proof (fun d => AT T "signal_line" "signal_line" Opposed ltac:(inn) d) as Y.
    all: rewrite (rose_r _ RO _ _ 0 0 X), (fell_r _ RO _ _ 0 0 X) by lev; rewrite ?(above_r _ RO _ _ _ _ X Y), ?(below_r _ RO _ _ _ _ X Y); tauto.
  Qed.
  Lemma t_qs p : turns (cQS p).
  Proof.
    pair (qstick_answers p). all: sides; pose proof (fun d => AT T "qstick" "qstick" Opposed ltac:(inn) d) as X; change (level 0) with (follow Opposed m (level 0)) at 1 2.
    all: rewrite !X, !(less_r _ RO) by lia; tauto.
  Qed.
  Lemma t_proj p : turns (cPROJ p).
  Proof.
    pair (proj_answers p). all: sides; pose proof (fun d => AT T "posc" "posc" Rest ltac:(inn) d) as X; pose proof (fun d => AT T "trigger_line" "trigger_line" Rest ltac:(inn) d) as Y.
    all: assert (NO : fell_through (ago "posc" ob) (level 85) -> rose_through (ago "posc" ob) (level 15) -> False)
           by (intros [A _] [B _]; pose proof (less_trans _ _ _ A B) as C; vm_compute in C; discriminate).
    all: rewrite (rose_r _ RR _ _ 85 15 X), (fell_r _ RR _ _ 15 85 X) by lev; rewrite !X, !Y, !(less_r _ RR) by lia; tauto.
  Qed.
  Lemma t_so k q d t : turns (cSO k q d t).
  Proof.
    pair (so_answers k q d t). all: destruct EH as [-> EH]; sides; pose proof (fun d => AT T "%K" "%K" Rest ltac:(inn) d) as X; pose proof (fun d => AT T "%D" "%D" Rest ltac:(inn) d) as Y.
    all: rewrite !(rose_r _ RR _ _ 80 20 X), !(fell_r _ RR _ _ 20 80 X), !(rose_r _ RR _ _ 80 20 Y), !(fell_r _ RR _ _ 20 80 Y) by lev.
    all: rewrite ?(under_r _ RR _ _ 80 20 (X 1%nat (le_n 1))), ?(over_r _ RR _ _ 20 80 (X 1%nat (le_n 1))) by lev.
    all: rewrite !X, !Y, !(less_r _ RR) by lia; tauto.
  Qed.
  Lemma t_wad : turns cWAD.
  Proof.
    pair wad_answers. all: sides; close T; pose proof (fun d => AT T "wad" "wad" Opposed ltac:(inn) d) as X; cbn [even_handed] in EH.
    all: rewrite ?(lowest_r _ RO _ _ _ X), ?(highest_r _ RO _ _ _ X), ?(lowest_r _ RA _ _ _ CL), ?(highest_r _ RA _ _ _ CL); tauto.
  Qed.
  Lemma t_wr p : turns (cWR p).
  Proof.
    pair (wr_answers p). all: sides; rewrite (RSF T); pose proof (fun d => AT T "wr" "wr" Rest_below ltac:(inn) d) as X.
    all: rewrite ?(rose_r _ RB _ _ (-50) (-50) X), ?(fell_r _ RB _ _ (-50) (-50) X) by lev.
    all: apply and_iff_compat_r; split; intros (d & D & A & B); exists d; (split; [exact D|]); (split; [|intros e G; specialize (B e G); intro Z; apply B; revert Z]).
    all: first [revert A|idtac]. 
    all: rewrite ?(at_under_r _ RB _ _ (-20) (-80) (X d ltac:(lia))), ?(at_over_r _ RB _ _ (-80) (-20) (X d ltac:(lia))) by lev; try tauto.
    all: rewrite ?(at_under_r _ RB _ _ (-20) (-80) (X e ltac:(lia))), ?(at_over_r _ RB _ _ (-80) (-20) (X e ltac:(lia))) by lev; tauto.
  Qed.
  Lemma t_mi : turns cMI.
  Proof.
    intros T EH. pose proof (RSF T) as RS. revert T EH. pair mi_answers. all: rewrite RS; sides.
    all: pose proof (fo_kept _ _ _ _ _ _ _ _ _ T "9_ema" ltac:(cbn; auto)) as CE.
    all: pose proof (fun d => AT T "mi" "mi" Same ltac:(inn) d) as X; cbn [follow] in X.
    all: rewrite !CE, (less_r _ RA) by lia; apply and_iff_compat_r.
    all: split; intros (d & D & A & B); exists d; (split; [exact D|]); (split; [first [rewrite <- X by lia|rewrite X by lia]; exact A|]); intros e G; specialize (B e G); first [rewrite <- X by lia|rewrite X by lia]; exact B.
  Qed.
  Lemma t_mp p : turns (cMP p).
  Proof.
    intros T EH. pose proof (RSF T) as RS. sides. pose proof (fo_kept _ _ _ _ _ _ _ _ _ T "close_ema" ltac:(cbn; auto)) as CE.
    pose proof (fun d => AT T "mp" "mp" Across ltac:(inn) d) as X.
    eapply flip; [|exact RS|exact (mp_answers p (FWF T) EH)|apply (mp_answers p (SWF T)); rewrite RS; exact EH|..]; [auto|..].
    - exact (above_r _ RA _ _ _ _ CE X).
    - exact (below_r _ RA _ _ _ _ CE X).
  Qed.
  Lemma t_cmf p : turns (cCMF p).
  Proof.
    intros T EH. pose proof (RSF T) as RS. sides. close T. pose proof (FWF T) as FW. pose proof (SWF T) as SW.
    assert (K : price "close" ob 2 <> NaN) by (apply (fo_close _ _ _ _ _ _ _ _ _ T); [inn|lia]).
    pose proof (fun d => AT T "cmf" "cmf" Opposed ltac:(inn) d) as X.
    eapply flip; [|exact RS|exact (cmf_answers p FW K)|apply (cmf_answers p SW); rewrite CL by lia; destruct (price "close" ob 2); [congruence|discriminate..]|..]; [auto|..].
    - rewrite !X, !CL, !(less_r _ RO), !(less_r _ RA) by lia. tauto.
    - rewrite !X, !CL, !(less_r _ RO), !(less_r _ RA) by lia. tauto.
  Qed.
  Lemma t_co : turns cCO.
  Proof.
    intros T EH. pose proof (RSF T) as RS. sides. close T. pose proof (FWF T) as FW. pose proof (SWF T) as SW.
    set (f := fun d => match price "close" ob d with Fin q => q | _ => 0 end).
    assert (K : latest (price "close" ob) 90 f).
    { intros d G. unfold f. destruct (fo_close _ _ _ _ _ _ _ _ _ T ltac:(inn) d ltac:(lia)) as (_ & _ & q & ->). reflexivity. }
    assert (K' : latest (price "close" ob') 90 (fun d => m - f d)) by (intros d G; rewrite CL, (K d G) by lia; reflexivity).
    pose proof (fun d => AT T "co" "co" Opposed ltac:(inn) d) as X.
    assert (M : mean_of (fun d => m - f d) 90 = m - mean_of f 90).
    { unfold mean_of, mean. rewrite (total_mir m (fun j => f (S j)) (fun j => m - f (S j)) 90) by (intro; reflexivity). generalize (total (fun j => f (S j)) 90). intro t. field. apply nq_nonzero. lia. }
    eapply flip; [|exact RS|exact (co_answers f FW K)|exact (co_answers _ SW K')|..]; [auto|..].
    - rewrite M, (under_r _ RO _ _ 0 0 (X 1%nat (le_n 1))) by lev. rewrite !X, !(less_r _ RO) by lia.
      assert (Q : m - mean_of f 90 < m - f 1%nat <-> f 1%nat < mean_of f 90) by (generalize (mean_of f 90); intro; split; intro; qlra). rewrite Q. tauto.
    - rewrite M, (over_r _ RO _ _ 0 0 (X 1%nat (le_n 1))) by lev. rewrite !X, !(less_r _ RO) by lia.
      assert (Q : m - f 1%nat < m - mean_of f 90 <-> mean_of f 90 < f 1%nat) by (generalize (mean_of f 90); intro; split; intro; qlra). rewrite Q. tauto.
  Qed.
  Lemma t_pb p : turns (cPB p).
  Proof.
    intros T EH. pose proof (RSF T) as RS. close T. pose proof (FWF T) as FW. pose proof (SWF T) as SW.
    pose proof (AT T "upper_band" "lower_band" Across ltac:(inn) 1%nat (le_n 1)) as U. pose proof (AT T "lower_band" "upper_band" Across ltac:(inn) 1%nat (le_n 1)) as L.
    assert (OUT : ago "upper_band" ob 1 = NaN \/ ago "lower_band" ob 1 = NaN \/ price "close" ob 1 = NaN -> forall s, get_ti_signal ob = Ok s -> get_ti_signal ob' = Ok (opposite s)).
    { intros M s G. rewrite (pb_missing p FW M) in G. injection G as <-. apply (pb_missing p SW). rewrite U, L, CL by lia. destruct M as [->|[->| ->]]; auto. }
    destruct (fo_bands _ _ _ _ _ _ _ _ _ T p eq_refl) as [[HU|[u HU]] [HL|[w HL]]]; [apply OUT; auto..|].
    destruct (fo_close _ _ _ _ _ _ _ _ _ T ltac:(inn) 1%nat (le_n 1)) as (_ & _ & x & PC).
    cbn [even_handed] in EH. rewrite HL in U. rewrite HU in L. rewrite HU, HL in EH. cbn [less follow nsub nneg nadd] in U, L, EH.
    eapply flip; [|exact RS|exact (pb_answers p u w x FW HU HL PC)|eapply (pb_answers p _ _ _ SW U L); rewrite CL, PC by lia; reflexivity|..]; [auto|..].
    - split; [intro A; split|intros [A _]]; qlra.
    - split; [intros [A _]|intro A; split]; qlra.
  Qed.

  Lemma turned_signal c : is_dpo (asked c) = false -> turns c.
  Proof.
    intro ND. destruct c; try (intros _ []; fail); try discriminate ND.
    all: first [apply t_cmo|apply t_emv|apply t_imi|apply t_ko|apply t_lrs|apply t_rsi|apply t_rvi|apply t_smi|apply t_swi|apply t_lri|apply t_tsf|apply t_wc|apply t_ws|apply t_psar
      |apply t_bb|apply t_pch|apply t_obv|apply t_adl|apply t_cci|apply t_dmi|apply t_tema|apply t_macd|apply t_qs|apply t_proj|apply t_so|apply t_wad|apply t_wr|apply t_mi|apply t_mp|apply t_cmf|apply t_co|apply t_pb].
  Qed.
End Every.

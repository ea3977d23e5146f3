(** * ScriptFacts: the simulation of all indicators. *)
From Coq Require Import ZArith QArith Qcanon Bool String Ascii List PeanoNat Lia Permutation.
From Verif Require Import Num Pandas Sim Frame FrameSpec FrameProofs Ind Signal Api ApiSpec ApiCheck ApiProofs ApiLemmas DocSpec DocFacts Call CallSpec CallFacts Script ScriptSpec.
Import ListNotations.
Open Scope list_scope. Open Scope string_scope.

(** ** labels *)
Lemma lower_labels_nth l t j s : lower_labels l = Some t -> nth_error l j = Some (LStr s) -> nth_error t j = Some (lower s).
Proof.
  revert t j. induction l as [|[x|z] l IH]; intros t j H E; cbn in H; try discriminate; [destruct j; discriminate E|].
  destruct (lower_labels l) as [u|]; [|discriminate]. injection H as <-. destruct j as [|j]; cbn in *; [congruence|auto].
Qed.
Lemma lower_labels_len l t : lower_labels l = Some t -> List.length t = List.length l.
Proof.
  revert t. induction l as [|[x|z] l IH]; intros t H; cbn in H; try discriminate; [injection H as <-; reflexivity|].
  destruct (lower_labels l) as [u|]; [|discriminate]. injection H as <-. cbn. rewrite IH; reflexivity.
Qed.
Lemma all_str_lower f : all_str f -> lower_labels (r_labels f) = Some (str_labels f).
Proof.
  intro H. unfold str_labels. destruct (lower_labels (r_labels f)) eqn:E; [reflexivity|]. exfalso. unfold all_str in H.
  revert H E. generalize (r_labels f). induction l as [|[x|z] l IH]; intros H E; cbn in E; [discriminate| |].
  - destruct (lower_labels l); [discriminate|]. apply IH; auto. intros y I. apply H. right. exact I.
  - destruct (H (LOther z)) as (s & X); [left; reflexivity|discriminate].
Qed.
Lemma lower_labels_again l t : lower_labels l = Some t -> lower_labels (map LStr t) = Some t.
Proof.
  revert t. induction l as [|[x|z] l IH]; intros t H; cbn in H; try discriminate; [injection H as <-; reflexivity|].
  destruct (lower_labels l) as [u|]; [|discriminate]. injection H as <-. cbn. rewrite (IH u eq_refl), lower_idem. reflexivity.
Qed.

(** the same data under lowered labels *)
Definition lowered (f : rawframe) : rawframe := mkRaw (r_datetime f) (map LStr (str_labels f)) (r_numeric f) (r_rows f).
Lemma lowered_labels f : all_str f -> str_labels (lowered f) = str_labels f.
Proof. intro A. unfold str_labels at 1. cbn [lowered r_labels]. rewrite (lower_labels_again _ _ (all_str_lower _ A)). reflexivity. Qed.
Lemma lowered_twice f : all_str f -> lowered (lowered f) = lowered f.
Proof. intro A. unfold lowered at 1. rewrite (lowered_labels f A). reflexivity. Qed.
Lemma lowered_validate f req b : all_str f -> snd (validate (RFrame (lowered f)) req b) = snd (validate (RFrame f) req b).
Proof.
  intro A. unfold validate. cbn [lowered r_datetime r_labels r_numeric r_rows]. rewrite (lower_labels_again _ _ (all_str_lower _ A)), (all_str_lower _ A).
  destruct (r_datetime f); [|reflexivity]. cbn [negb].
  assert (E : match map LStr (str_labels f) with [] => true | _ => false end = match r_labels f with [] => true | _ => false end).
  { pose proof (lower_labels_len _ _ (all_str_lower _ A)) as L. destruct (str_labels f), (r_labels f); cbn in L; try lia; reflexivity. }
  rewrite E. destruct (_ || _); reflexivity.
Qed.
Lemma lowered_construct o c f fill : all_str f -> snd (construct o c (RFrame (lowered f)) fill) = snd (construct o c (RFrame f) fill).
Proof.
  intro A. unfold construct. destruct (check c) as [i|e]; [|reflexivity]. destruct fill; try reflexivity.
  pose proof (lowered_validate f (required i) b A) as V.
  destruct (validate (RFrame (lowered f)) (required i) b), (validate (RFrame f) (required i) b). cbn [snd] in *. rewrite V. reflexivity.
Qed.
Lemma construct_leaves o c f fill : all_str f ->
  fst (construct o c (RFrame f) fill) = RFrame f \/ fst (construct o c (RFrame f) fill) = RFrame (lowered f).
Proof.
  intro A. destruct (construct_caller o c f fill) as (l & -> & [->| ->]); [left; destruct f; reflexivity|right; reflexivity].
Qed.
Lemma lowered_market f : market_data f -> market_data (lowered f).
Proof.
  intros [W D A N C M]. split; cbn [lowered r_datetime r_labels]; auto.
  - destruct W as [W1 W2]. pose proof (lower_labels_len _ _ (all_str_lower _ A)) as L.
    split; cbn [lowered r_numeric r_labels r_rows]; rewrite map_length, L; auto.
  - intros l I. cbn in I. apply in_map_iff in I as (s & <- & _). eauto.
  - rewrite lowered_labels; auto.
  - apply In_nth_error in C as (j & C). apply (lower_labels_nth _ _ _ _ (all_str_lower _ A)) in C.
    apply nth_error_In in C. apply in_map_iff. exists "close". auto.
  - intros n I. unfold numeric_column. rewrite lowered_labels; auto. apply M, I.
Qed.

(** ** df[["close"]] *)
Lemma select_one {A B} (p : A -> bool) (labels : list A) (l : list B) k a d : List.length l = List.length labels ->
  nth_error labels k = Some a -> p a = true -> (forall j b, nth_error labels j = Some b -> p b = true -> j = k) ->
  select (map p labels) l = [nth k l d].
Proof.
  revert l k. induction labels as [|x labels IH]; intros [|y l] k L E P U; cbn in L; try lia; [destruct k; discriminate E|].
  cbn [map select]. destruct (p x) eqn:X.
  - pose proof (U 0%nat x eq_refl X) as <-. cbn [nth].
    assert (Z : select (map p labels) l = []); [|rewrite Z; reflexivity].
    assert (Q : forall b, In b labels -> p b = false).
    { intros b I. destruct (p b) eqn:B1; auto. apply In_nth_error in I as (j & I). pose proof (U (S j) b I B1). discriminate. }
    clear - Q. revert l. induction labels as [|z labels IH]; intro l; [destruct l; reflexivity|]. cbn.
    rewrite (Q z (or_introl eq_refl)). destruct l; [reflexivity|]. apply IH. intros x0 I. apply Q. right. exact I.
  - destruct k as [|k]; [cbn in E; congruence|]. cbn [nth]. apply IH; auto.
    intros j b I B1. pose proof (U (S j) b I B1). lia.
Qed.
Lemma close_label df : market_data df -> exists k, position "close" (str_labels df) = Some k /\
  nth_error (r_labels df) k = Some (LStr "close") /\
  forall j b, nth_error (r_labels df) j = Some b -> is_close b = true -> j = k.
Proof.
  intros [W D A N C M]. pose proof (all_str_lower _ A) as L.
  assert (U : forall j b, nth_error (r_labels df) j = Some b -> is_close b = true -> nth_error (str_labels df) j = Some "close").
  { intros j b E I. destruct b as [s|z]; [|discriminate]. cbn in I. apply String.eqb_eq in I. subst s.
    exact (lower_labels_nth _ _ _ _ L E). }
  apply In_nth_error in C as (k & C). pose proof (U k _ C eq_refl) as K.
  assert (KL : (k < List.length (str_labels df))%nat) by (apply nth_error_Some; congruence).
  exists k. split; [|split; auto].
  - pose proof (position_NoDup (str_labels df) k N KL) as P. rewrite (nth_error_nth _ _ _ K) in P. exact P.
  - intros j b E I. apply (proj1 (NoDup_nth_error _) N); [apply nth_error_Some; rewrite (U j b E I); discriminate|].
    rewrite (U j b E I), K. reflexivity.
Qed.
Lemma close_only_market df : market_data df -> close_only df = Ok (closing_prices df).
Proof.
  intro MD. destruct (close_label df MD) as (k & P & E & U). destruct MD as [W D A N C M].
  unfold close_only. assert (X : existsb is_close (r_labels df) = true) by (apply existsb_exists; exists (LStr "close"); auto).
  rewrite X. unfold closing_prices, raw_cells. rewrite P, D. destruct W as [W1 W2]. f_equal. f_equal. f_equal.
  - rewrite (select_one is_close (r_labels df) (r_labels df) k (LStr "close") (LOther 0)) by auto.
    rewrite (nth_error_nth _ _ _ E). reflexivity.
  - rewrite (select_one is_close (r_labels df) (r_numeric df) k (LStr "close") false) by auto.
    destruct (M "close") as (_ & k' & P' & Q); [cbn; auto 6|]. rewrite P in P'. injection P' as <-. rewrite Q. reflexivity.
  - rewrite map_map. apply map_ext_in. intros r I. cbn [fst snd].
    rewrite (select_one is_close (r_labels df) (snd r) k (LStr "close") NaN) by auto. reflexivity.
Qed.
Lemma closing_lowered df : all_str df -> closing_prices (lowered df) = closing_prices df.
Proof. intro A. unfold closing_prices, raw_cells. rewrite lowered_labels by auto. reflexivity. Qed.
Lemma closing_usable df : market_data df -> r_rows df <> [] -> usable_close (dates df) (closing_prices df).
Proof.
  intros MD NE. destruct (close_label df MD) as (k & P & _).
  unfold closing_prices. eexists. split; [reflexivity|]. split.
  - eexists. split; [reflexivity|]. cbn [r_datetime r_rows r_labels r_numeric]. unfold raw_cells. rewrite P. split; [auto|].
    split; [destruct (r_rows df); [contradiction|discriminate]|]. split; [discriminate|].
    split; [intros l [<-|[]]; eauto|]. split; [intros c [<-|[]]; split; [reflexivity|exists 0%nat; split; reflexivity]|].
    cbn. constructor.
  - unfold dates. cbn [r_rows]. unfold raw_cells. rewrite P, !map_map. apply Permutation_refl.
Qed.

(** ** calls on the lowered data *)
Lemma setting_data k v kw : setting k (given k [] (("input_data", AData v) :: kw)) "input_data" = AData v.
Proof. reflexivity. Qed.
Lemma new_lowered o k kw df : all_str df ->
  match new o k [] (("input_data", AData (RFrame (lowered df))) :: kw), new o k [] (("input_data", AData (RFrame df)) :: kw) with
  | Ok (_, r), Ok (_, r') => r = r'
  | Err e, Err e' => e = e'
  | _, _ => False
  end.
Proof.
  intro A.
  assert (G : forall v, proper k [] (("input_data", AData v) :: kw) <-> proper k [] (("input_data", AData (RFrame df)) :: kw)) by (intro v; reflexivity).
  destruct (proper_dec k [] (("input_data", AData (RFrame df)) :: kw)) as [P|P].
  - pose proof (proj2 (G (RFrame (lowered df))) P) as P'.
    destruct (call_settings o k _ _ P) as (c & -> & E). destruct (call_settings o k _ _ P') as (c' & -> & E').
    assert (Q : parts c' = parts c).
    { rewrite E, E'. f_equal. apply map_ext_in. intros n I. unfold setting, given. cbn [documented_names combine app lookup].
      destruct (String.eqb_spec n "input_data") as [->|X]; [|reflexivity].
      exfalso. pose proof (names_nodup k) as N. unfold documented_names in N. inversion N; subst. apply H1, in_or_app. auto. }
    apply parts_inj in Q. subst c'.
    assert (S : setting k (given k [] (("input_data", AData (RFrame (lowered df))) :: kw)) "fill_missing_values"
              = setting k (given k [] (("input_data", AData (RFrame df)) :: kw)) "fill_missing_values") by reflexivity.
    rewrite S, !setting_data. cbn [as_data].
    destruct (construct o c (RFrame (lowered df)) _) as [v r] eqn:E1, (construct o c (RFrame df) _) as [v' r'] eqn:E2.
    pose proof (lowered_construct o c df (as_val (setting k (given k [] (("input_data", AData (RFrame df)) :: kw)) "fill_missing_values")) A) as L.
    rewrite E1, E2 in L. exact L.
  - rewrite !call_improper; auto.
Qed.
Lemma new_caller o k kw df v r : all_str df -> new o k [] (("input_data", AData (RFrame df)) :: kw) = Ok (v, r) ->
  v = RFrame df \/ v = RFrame (lowered df).
Proof.
  intros A H. destruct (proper_dec k [] (("input_data", AData (RFrame df)) :: kw)) as [P|P]; [|rewrite call_improper in H; [discriminate|auto]].
  destruct (call_settings o k _ _ P) as (c & E & _). rewrite E, setting_data in H. cbn [as_data] in H.
  match type of H with Ok (construct _ _ _ ?fill) = _ => pose proof (construct_leaves o c df fill A) as Q; destruct (construct o c (RFrame df) fill) end.
  injection H as <- <-. exact Q.
Qed.

(** ** one execution *)
Lemma execute_lowered o k df info kw : market_data df ->
  snd (execute o k (lowered df) info kw) = snd (execute o k df info kw).
Proof.
  intro MD. unfold execute. rewrite (close_only_market df MD), (close_only_market _ (lowered_market df MD)).
  rewrite closing_lowered by apply MD.
  pose proof (new_lowered o k (map (fun p => (fst p, AVal (snd p))) kw) df (md_names _ MD)) as N.
  destruct (new o k [] (("input_data", AData (RFrame (lowered df))) :: _)) as [[v r]|e],
           (new o k [] (("input_data", AData (RFrame df)) :: _)) as [[v' r']|e']; try contradiction; [|subst; reflexivity].
  subst r'. destruct r; reflexivity.
Qed.
Lemma execute_caller o k df info kw : market_data df ->
  fst (execute o k df info kw) = RFrame df \/ fst (execute o k df info kw) = RFrame (lowered df).
Proof.
  intro MD. unfold execute. destruct (close_only df) as [cv|e]; [|auto].
  destruct (new o k [] _) as [[v r]|e] eqn:E; [|auto]. apply new_caller in E; [|apply MD]. destruct r; exact E.
Qed.
Lemma execute_reports o df k info kw rp : market_data df -> snd (execute o k df info kw) = Ok rp -> reports o df (k, (info, kw)) rp.
Proof.
  intros MD H. unfold execute in H. rewrite (close_only_market df MD) in H.
  destruct (new o k [] _) as [[v r]|e] eqn:E; [|discriminate]. destruct r as [ob|e]; [|discriminate]. cbn [snd] in H.
  destruct (snd (get_ti_simulation ob (closing_prices df) VNone (VFloat (D 15 10)))) as [[st sts]|e] eqn:S; [|discriminate].
  injection H as <-. exists v, ob, st. auto.
Qed.

(** ** the loop *)
Definition same_market (df : rawframe) (v : rawval) : Prop := v = RFrame df \/ v = RFrame (lowered df).
Lemma run_step o k info kw l df v : market_data df -> same_market df v ->
  exists v', same_market df v' /\
  run_calls o ((k, (info, kw)) :: l) v =
  match snd (execute o k df info kw) with
  | Err e => ([], Some e)
  | Ok rp => let (rps, e) := run_calls o l v' in (rp :: rps, e)
  end.
Proof.
  intros MD [->| ->]; cbn [run_calls].
  - pose proof (execute_caller o k df info kw MD) as C. destruct (execute o k df info kw) as [v' r]. cbn [fst snd] in *.
    exists v'. split; [exact C|]. destruct r; reflexivity.
  - pose proof (execute_caller o k (lowered df) info kw (lowered_market df MD)) as C.
    rewrite <- (execute_lowered o k df info kw MD).
    destruct (execute o k (lowered df) info kw) as [v' r]. cbn [fst snd] in *.
    exists v'. split; [|destruct r; reflexivity]. rewrite lowered_twice in C by apply MD. unfold same_market. tauto.
Qed.
Lemma run_calls_spec o l df v : market_data df -> same_market df v ->
  exists n, (n <= List.length l)%nat /\
    Forall2 (reports o df) (firstn n l) (fst (run_calls o l v)) /\
    match snd (run_calls o l v) with
    | None => n = List.length l
    | Some e => exists k info kw, nth_error l n = Some (k, (info, kw)) /\ snd (execute o k df info kw) = Err e
    end.
Proof.
  intros MD. revert v. induction l as [|(k, (info, kw)) l IH]; intros v SM; [exists 0%nat; cbn; auto|].
  destruct (run_step o k info kw l df v MD SM) as (v' & S' & ->).
  destruct (snd (execute o k df info kw)) as [rp|e] eqn:E.
  - destruct (IH v' S') as (n & L & F & T). exists (S n). destruct (run_calls o l v') as [rps x]. cbn [fst snd] in *.
    split; [cbn; lia|]. split; [cbn [firstn]; constructor; auto; apply execute_reports; auto|].
    destruct x as [e|]; [exact T|cbn; lia].
  - exists 0%nat. cbn [fst snd firstn]. split; [cbn; lia|]. split; [constructor|]. exists k, info, kw. auto.
Qed.

(** ** which executions fail *)
Lemma iat_err s i e : iat s i = Err e -> e = IndexErr.
Proof. unfold iat, get. destruct (ineg s i); congruence. Qed.
Lemma range_signal_err r s inp ti e : signal_of (iRI r s) inp ti = Err e -> e = IndexErr.
Proof.
  cbn [signal_of]. unfold guard. destruct (Nat.ltb _ _); [discriminate|].
  repeat (match goal with |- bind (iat ?s ?i) _ = _ -> _ => let H := fresh in destruct (iat s i) eqn:H; cbn [bind]; [|intro X; injection X as <-; exact (iat_err _ _ _ H)] end).
  destruct (lt3 _ _ _); [discriminate|]. destruct (lt3 _ _ _); [|discriminate].
  match goal with |- bind (iat ?s ?i) _ = _ -> _ => let H := fresh in destruct (iat s i) eqn:H; cbn [bind]; [|intro X; injection X as <-; exact (iat_err _ _ _ H)] end.
  discriminate.
Qed.
Lemma rounds_err full i n cur st ob' e : rounds full i n cur st = (ob', Err e) -> exists j, get_ti_signal (limited j full) = Err e.
Proof.
  revert i cur st. induction n as [|n IH]; intros i cur st H; cbn [rounds] in H; [discriminate|].
  destruct (get_ti_signal (limited i full)) as [sg|x] eqn:E; [eauto|]. injection H as _ <-. eauto.
Qed.

Definition ctor_for (call : klass * (option string * list (string * pyval))) : ctor :=
  let '(k, (_, kw)) := call in
  body k (fun n => match lookup n kw with Some v => v | None => match documented_default k n with Some v => v | None => VNone end end).
Lemma call_made o k info kw v : In (k, (info, kw)) all_calls ->
  new o k [] (("input_data", AData v) :: map (fun p => (fst p, AVal (snd p))) kw) = Ok (construct o (ctor_for (k, (info, kw))) v (VBool true)).
Proof.
  intro I. vm_compute in I. repeat (destruct I as [E|I]; [injection E as <- <- <-; reflexivity|]). destruct I.
Qed.
Definition market_columns : list string := ["open"; "high"; "low"; "close"; "volume"].
Lemma calls_fine : forallb (fun call => let c := ctor_for call in
    forallb (fun p => p_type p && p_range p) (documented_params c) &&
    forallb (fun n => mem n market_columns) (documented_inputs c) &&
    Nat.leb (min_rows (asked c)) 55 &&
    match asked c with iRI _ _ => true | i => sim_safe i end) all_calls = true.
Proof. vm_compute. reflexivity. Qed.
Lemma execute_market o k info kw df : market_data df -> (55 <= List.length (r_rows df))%nat -> In (k, (info, kw)) all_calls ->
  (exists rp, snd (execute o k df info kw) = Ok rp) \/ (k = kRI /\ snd (execute o k df info kw) = Err IndexErr).
Proof.
  intros MD R I. pose proof (proj1 (forallb_forall _ _) calls_fine _ I) as F. cbv zeta in F.
  apply andb_prop in F as [F SS]. apply andb_prop in F as [F MR]. apply andb_prop in F as [PO DI].
  assert (NE : r_rows df <> []) by (destruct (r_rows df); [cbn in R; lia|discriminate]).
  assert (PK : params_ok (ctor_for (k, (info, kw)))).
  { intros p J. rewrite forallb_forall in PO. specialize (PO p J). apply andb_prop in PO. exact PO. }
  destruct (proj2 (construct_succeeds o (ctor_for (k, (info, kw))) df true PK)) as (ob & H).
  { split; [apply MD|]. split; [intro E; pose proof (md_close _ MD) as C; rewrite E in C; destruct C|]. split; [apply MD|].
    split; [intros n J; apply (md_columns _ MD); rewrite forallb_forall in DI; apply mem_In, DI, J|].
    split; [apply NoDup_filter, MD|]. split; [auto|]. apply Nat.leb_le in MR. lia. }
  unfold execute. rewrite (close_only_market df MD), (call_made o k info kw (RFrame df) I).
  destruct (construct o (ctor_for (k, (info, kw))) (RFrame df) (VBool true)) as [v r] eqn:E. cbn [snd] in H. subst r. cbn [snd].
  assert (H : snd (construct o (ctor_for (k, (info, kw))) (RFrame df) (VBool true)) = Ok ob) by (rewrite E; reflexivity).
  assert (OI : ob_ind ob = asked (ctor_for (k, (info, kw)))).
  { apply check_accepts in PK as (i & CK). rewrite (construct_ind _ _ _ _ _ _ CK H). apply check_asked, CK. }
  pose proof (closing_usable df MD NE) as U.
  destruct (sim_safe (ob_ind ob)) eqn:SF.
  - left. destruct (construct_simulation_args o _ df true ob (closing_prices df) VNone (VFloat (D 15 10)) (md_wf _ MD) H SF) as ((A & _) & _ & _).
    destruct (A (conj U eq_refl)) as ((st & sts) & ->). eexists. reflexivity.
  - assert (RI : exists r s, ob_ind ob = iRI r s).
    { rewrite OI in *. destruct (asked (ctor_for (k, (info, kw)))); cbn in SF, SS; try discriminate; eauto. congruence. }
    destruct RI as (r & s & RI).
    destruct (snd (get_ti_simulation ob (closing_prices df) VNone (VFloat (D 15 10)))) as [[st sts]|e] eqn:S; [left; eexists; reflexivity|].
    right. split.
    + rewrite OI in RI. clear - RI. unfold ctor_for in RI. destruct k; cbn in RI; try discriminate RI. reflexivity.
    + f_equal. pose proof (construct_sound _ _ _ _ _ (md_wf _ MD) H) as SO.
      unfold get_ti_simulation in S. destruct (sim_init (index (ob_input ob)) (closing_prices df) VNone (VFloat (D 15 10))) as [v' q] eqn:Q.
      destruct q as [st|e'].
      * destruct (rounds ob 0 _ ob st) as [ob' [st'|e']] eqn:RR; [discriminate|]. cbn [snd] in S. injection S as <-.
        apply rounds_err in RR as (j & G). unfold get_ti_signal, limited in G. cbn [ob_ind ob_input ob_ti] in G. rewrite RI in G.
        exact (range_signal_err _ _ _ _ _ G).
      * exfalso. assert (SI : Sorted.StronglySorted Z.le (index (ob_input ob))) by apply SO.
        destruct (construct_data_shape _ _ _ _ _ (md_wf _ MD) H) as (_ & _ & _ & _ & PE & _).
        apply (usable_close_perm _ _ (closing_prices df) PE) in U. apply usable_close_iff in U as (f & V & IX); auto.
        assert (X : snd (sim_init (index (ob_input ob)) (closing_prices df) VNone (VFloat (D 15 10))) = Ok (sim_start (icol 0 f) None (D 15 10))).
        { apply sim_init_ok; [exact SI|]. exists f, None, (D 15 10). auto. }
        rewrite Q in X. discriminate.
Qed.

(** ** all simulations *)
Lemma ri_place n c : nth_error all_calls n = Some c -> fst c = kRI -> n = 41%nat.
Proof.
  intros H E. assert (L : (n < 62)%nat) by (change 62%nat with (List.length all_calls); apply nth_error_Some; congruence).
  assert (G : forallb (fun n => match nth_error all_calls n with Some (kRI, _) => Nat.eqb n 41 | _ => true end) (seq 0 62) = true) by (vm_compute; reflexivity).
  rewrite forallb_forall in G. specialize (G n (proj2 (in_seq 62 0 n) (conj (Nat.le_0_l n) L))). rewrite H in G.
  destruct c as [k ?]. cbn in E. subst k. apply Nat.eqb_eq, G.
Qed.
Lemma run_all_market o df : market_data df -> (55 <= List.length (r_rows df))%nat ->
  (snd (run_all o df) = None /\ Forall2 (reports o df) all_calls (fst (run_all o df))) \/
  (snd (run_all o df) = Some IndexErr /\ Forall2 (reports o df) before_ri (fst (run_all o df))).
Proof.
  intros MD R. destruct (run_calls_spec o all_calls df (RFrame df) MD (or_introl eq_refl)) as (n & L & F & T). fold (run_all o df) in F, T.
  destruct (snd (run_all o df)) as [e|].
  - right. destruct T as (k & info & kw & N & X).
    destruct (execute_market o k info kw df MD R (nth_error_In _ _ N)) as [(rp & Q)|[-> Q]]; [congruence|].
    rewrite X in Q. injection Q as ->. apply ri_place in N; [|reflexivity]. subst n. split; [reflexivity|exact F].
  - left. subst n. split; [reflexivity|]. rewrite firstn_all in F. exact F.
Qed.
Lemma Forall2_in {A B} (R : A -> B -> Prop) l m a : Forall2 R l m -> In a l -> exists b, In b m /\ R a b.
Proof. induction 1; cbn; [tauto|]. intros [<-|I]; [eauto|]. destruct (IHForall2 I) as (b & J & Q). eauto. Qed.
Lemma run_all_rows o df : market_data df -> snd (run_all o df) = None -> (55 <= List.length (r_rows df))%nat.
Proof.
  intros MD E. destruct (run_calls_spec o all_calls df (RFrame df) MD (or_introl eq_refl)) as (n & L & F & T). fold (run_all o df) in F, T.
  rewrite E in T. subst n. rewrite firstn_all in F.
  assert (I : In (kKO, (None, [])) all_calls) by (vm_compute; repeat first [left; reflexivity|right]).
  destruct (Forall2_in _ _ _ _ F I) as (rp & _ & (v & ob & st & N & _)).
  rewrite (call_made o kKO None [] (RFrame df) I) in N. injection N as N.
  destruct (proj1 (construct_succeeds o (ctor_for (kKO, (None, []))) df true (plain_params kKO))) as (_ & _ & _ & _ & _ & _ & M).
  - exists ob. exact (f_equal snd N).
  - exact M.
Qed.

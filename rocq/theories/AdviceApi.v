(** * AdviceApi: the values an advice rests on, for objects the user gets and for the simulation. *)
From Coq Require Import ZArith QArith Qcanon Bool List String PeanoNat Lia Permutation.
From Verif Require Import Num NumFacts Pandas Sim SimSpec SimProofs SimLemmas Frame FrameSpec FrameProofs Ind Signal Api IndSpec SeriesFacts IndFacts ApiSpec Shape ApiProofs ApiLemmas RangeSpec ValueSpec FormulaSpec SignalSpec SignalApi SignalFacts SignalApi2 SteadySig OneWaySpec OneWay OneWayApi AdviceSpec AdviceFacts.
Import ListNotations.
Open Scope list_scope. Open Scope string_scope. Open Scope nat_scope.

Lemma there_last (s : series) n d : List.length s = n -> there s d -> (1 <= d <= n) /\ nth (n - d) s NaN <> NaN.
Proof.
  intros L (x & E & N). unfold iat, ineg, get in E. destruct ((1 <=? d) && (d <=? List.length s))%bool eqn:B; [|discriminate].
  apply andb_true_iff in B as [B1 B2]. apply Nat.leb_le in B1, B2. injection E as E. rewrite <- L. split; [lia|congruence].
Qed.
Lemma there_ago st n d : sound st -> In n (ti_names (ob_ind st)) -> there (col n (ob_ti st)) d -> (1 <= d <= days_shown st) /\ ago n st d <> NaN.
Proof. intros S I T. exact (there_last _ _ d (len_ti st n S I) T). Qed.
Lemma there_price st n d : sound st -> In n (required (ob_ind st)) -> there (col n (ob_input st)) d -> (1 <= d <= days_given st) /\ SignalSpec.price n st d <> NaN.
Proof. intros S I T. exact (there_last _ _ d (len_in st n S I) T). Qed.
Lemma looks_known i n d : In (n, d) (looks_at i) -> In n (ti_names i).
Proof.
  destruct i; cbn [looks_at on_days flat_map map List.app]; intro H; repeat (destruct H as [H|H]; [injection H as <- <-; vm_compute; tauto|]); destruct H.
Qed.
Lemma closes_known i d : In d (looks_at_closes i) -> In "close" (required i).
Proof. destruct i; cbn [looks_at_closes In]; intro H; try contradiction; vm_compute; tauto. Qed.

Section Advice.
  Variable o : oracle. Variable raw : rawframe. Variable b : bool. Variable st : obj.
  Lemma perf_rests c m t s : working o c raw b st -> asked c = iPRF m t -> get_ti_signal st = Ok s -> s <> Hold -> there (col "prf" (ob_ti st)) 1.
  Proof.
    intros W E H N. destruct (working_sound _ _ _ _ _ W) as [S EI]. rewrite E in EI. unfold get_ti_signal in H. rewrite EI in H. cbn [signal_of] in H.
    assert (X : icol 0 (ob_ti st) = col "prf" (ob_ti st)) by (destruct S as [C _]; rewrite EI in C; destruct m; cbn in C; unfold icol, col; rewrite C; reflexivity).
    rewrite X in H. opened H; known_cells; cell.
  Qed.
  Lemma advice_rests c s : working o c raw b st -> get_ti_signal st = Ok s -> s <> Hold ->
    (forall n d, In (n, d) (looks_at (asked c)) -> d <= days_shown st /\ ago n st d <> NaN) /\ (forall d, In d (looks_at_closes (asked c)) -> d <= days_given st /\ SignalSpec.price "close" st d <> NaN).
  Proof.
    intros W H N. destruct (working_sound _ _ _ _ _ W) as [S E].
    assert (A : Forall (fun e => there (col (fst e) (ob_ti st)) (snd e)) (looks_at (asked c)) /\ Forall (there (col "close" (ob_input st))) (looks_at_closes (asked c))).
    { destruct (asked c) eqn:AC; try (apply (rests _ (ob_input st) (ob_ti st) s); [rewrite <- E; exact H|exact N|discriminate]).
      split; [|constructor]. constructor; [|constructor]. exact (perf_rests c _ _ s W AC H N). }
    destruct A as [A B]. rewrite Forall_forall in A, B. rewrite <- E in *. split.
    - intros n d I. destruct (there_ago st n d S (looks_known _ _ _ I) (A _ I)) as [X Y]. split; [lia|exact Y].
    - intros d I. destruct (there_price st "close" d S (closes_known _ _ I) (B _ I)) as [X Y]. split; [lia|exact Y].
  Qed.
  Lemma nothing_advised c s : working o c raw b st -> deaf c = false -> nothing_shown st -> get_ti_signal st = Ok s -> s = Hold.
  Proof.
    intros W D NS H. destruct (working_sound _ _ _ _ _ W) as [S E].
    assert (X : s <> Hold -> False).
    { intro N. assert (T : exists n, In n (ti_names (asked c)) /\ there (col n (ob_ti st)) 1).
      { destruct (asked c) eqn:AC; try (apply (rests_some _ (ob_input st) (ob_ti st) s); [rewrite <- E; exact H|exact N|discriminate..|discriminate]).
        - destruct c; cbn in AC, D; try discriminate; try (destruct (known_ma _); discriminate).
        - exists "prf". split; [destruct m; vm_compute; tauto|]. exact (perf_rests c _ _ s W AC H N).
        - destruct c; cbn in AC, D; discriminate. }
      destruct T as (n & I & T). rewrite <- E in I. destruct (there_ago st n 1 S I T) as [_ Y]. apply Y, NS. unfold get_ti_data. destruct S as [-> _]. exact I. }
    destruct s; auto; exfalso; apply X; discriminate.
  Qed.
End Advice.

(** ** the simulation *)
Lemma day_hold m f P d p : exists r, snd (day m f P d p Hold) = (d ++ [r])%list /\ x_signal r = Some Hold /\ x_action r = Some ANone.
Proof. destruct (nil_or d) as [->|N]; [cbn; eexists; split; [reflexivity|]; cbn; auto|]. rewrite day_ne by auto. unfold day_next. cbn. eexists. split; [reflexivity|]. cbn. auto. Qed.
Lemma days_hold m f ds : Forall2 (fun x r => snd x = Hold -> x_signal r = Some Hold /\ x_action r = Some ANone) ds (snd (SimProofs.days m f ds)).
Proof.
  induction ds as [|x ds IH] using rev_ind; [constructor|]. rewrite days_app. cbn [fold_left].
  destruct (day_row m f (fst (SimProofs.days m f ds)) (snd (SimProofs.days m f ds)) (fst x) (snd x)) as (r & E & _). rewrite E. apply Forall2_app; [exact IH|]. constructor; [|constructor].
  intro H. rewrite H in E. destruct (day_hold m f (fst (SimProofs.days m f ds)) (snd (SimProofs.days m f ds)) (fst x)) as (r' & E' & R). rewrite E' in E. apply app_inj_tail in E as [_ <-]. exact R.
Qed.
Lemma simulate_hold c m f sgs i : List.length sgs <= List.length c -> i < List.length sgs -> nth i sgs Hold = Hold ->
  x_signal (nth i (data (simulate c m f sgs)) simrow0) = Some Hold /\ x_action (nth i (data (simulate c m f sgs)) simrow0) = Some ANone.
Proof.
  intros L H G. rewrite simulate_general by auto.
  assert (LC : List.length (combine (firstn (List.length sgs) c) sgs) = List.length sgs) by (rewrite combine_length, firstn_length; lia).
  rewrite app_nth1 by (rewrite days_length, LC; auto).
  pose proof (Forall2_nth _ _ _ i (NaN, Hold) simrow0 (days_hold m f (combine (firstn (List.length sgs) c) sgs))) as Q.
  rewrite combine_nth in Q by (rewrite firstn_length; lia). cbn [fst snd] in Q. apply Q; [rewrite LC; exact H|exact G].
Qed.
Lemma limited_last o c raw b ob k n : wf_raw raw -> NoDup (dates raw) -> snd (construct o c (RFrame raw) (VBool b)) = Ok ob -> is_dpo (ob_ind ob) = false -> k < days_given ob ->
  ago n (limited k ob) 1 = shown n ob k.
Proof.
  intros W N H D K. destruct (construct_data_shape _ _ _ _ _ W H) as (_ & _ & _ & _ & E & _). pose proof (construct_sound _ _ _ _ _ W H) as (_ & _ & _ & SS & _ & _ & TI & _). specialize (TI (not_dpo _ D)).
  assert (NI : NoDup (index (ob_ti ob))) by (rewrite TI; apply (Permutation_NoDup (Permutation_sym E)); auto). rewrite <- TI in SS.
  assert (LT : List.length (rows (ob_ti ob)) = days_given ob) by (unfold days_given; rewrite <- (len_index (ob_ti ob)), TI, len_index; reflexivity).
  assert (DS : days_shown (limited k ob) = S k) by (unfold days_shown, get_ti_data, limited; cbn [ob_ti]; unfold upto; cbn [rows]; apply kept_rows; auto; unfold row in *; lia).
  unfold ago. rewrite DS. replace (S k - 1) with k by lia. unfold shown, limited. cbn [ob_ti]. unfold get_ti_data. cbn [ob_ti]. apply upto_cell; [exact SS|]. unfold days_shown, get_ti_data, limited in DS. cbn [ob_ti] in DS. rewrite DS. lia.
Qed.
Lemma no_trade o c raw b ob cv me fa st sts k : wf_raw raw -> NoDup (dates raw) -> snd (construct o c (RFrame raw) (VBool b)) = Ok ob -> is_dpo (ob_ind ob) = false -> deaf c = false ->
  snd (get_ti_simulation ob cv me fa) = Ok (st, sts) -> k < days_given ob -> (forall n, In n (cols (get_ti_data ob)) -> shown n ob k = NaN) ->
  x_signal (nth k (data st) simrow0) = Some Hold /\ x_action (nth k (data st) simrow0) = Some ANone.
Proof.
  intros W N H D F HS K NS. pose proof (construct_sound _ _ _ _ _ W H) as SO. destruct (simulation_inv _ _ _ _ _ _ SO HS) as (cl & m & x & sgs & AR & -> & L & _ & P).
  assert (LT : List.length (rows (ob_ti ob)) = days_given ob) by (rewrite ti_shorter by (auto using not_dpo); unfold days_given; apply len_index).
  apply simulate_hold; [rewrite (start_len _ _ _ _ _ _ _ AR), L, ti_shorter; auto using not_dpo|lia|].
  apply (nothing_advised o raw b (limited k ob) c); [split; [exact W|exists ob; split; [exact H|right; exists k; reflexivity]]|exact F| |apply P; lia].
  intros n I. rewrite (limited_last o c raw b ob k n W N H D K). apply NS. exact I.
Qed.

From Coq Require Import ZArith QArith Qcanon Bool List String PeanoNat Lia Sorted Permutation.
From Verif Require Import Num NumFacts Pandas Sim SimSpec SimProofs SimLemmas Frame FrameSpec FrameProofs Ind Signal Api IndSpec SeriesFacts Lengths Causal IndFacts Shape ApiSpec ApiCheck ApiProofs.
Import ListNotations.
Open Scope list_scope. Open Scope string_scope.

(** ** only the required columns matter *)
Definition same_cols (cs : list string) (f g : frame) : Prop := forall c, In c cs -> col c f = col c g.
Lemma fill_same c f g : wf f -> wf g -> StronglySorted Z.le (index f) -> StronglySorted Z.le (index g) ->
  col c f = col c g -> col c (fill_missing f) = col c (fill_missing g).
Proof. intros. rewrite !fill_col by auto. rewrite H3. reflexivity. Qed.
Lemma ti_cols_same o i f g : wf f -> wf g -> StronglySorted Z.le (index f) -> index f = index g ->
  same_cols (required i) f g -> ti_cols o i f = ti_cols o i g.
Proof.
  intros W W' S E H. assert (S' : StronglySorted Z.le (index g)) by (rewrite <- E; auto).
  assert (FS : forall c, In c (required i) -> col c (fill_missing f) = col c (fill_missing g)) by (intros; apply fill_same; auto).
  unfold same_cols in H.
  destruct i; cbn [required In] in *; cbn [ti_cols]; unfold adl_of;
    repeat match goal with
    | [ |- context [col ?c f] ] => rewrite (H c) by tauto
    | [ |- context [col ?c (fill_missing f)] ] => rewrite (FS c) by tauto
    end; try reflexivity.
Qed.
Lemma ti_index_eq i f g : index f = index g -> ti_index i f = ti_index i g.
Proof.
  intro E. destruct i; cbn [ti_index]; auto. unfold ti_index. rewrite ?E. rewrite <- !len_index, ?E. reflexivity.
Qed.
Lemma calc_same o i f g inp ti inp' ti' : wf f -> wf g -> StronglySorted Z.le (index f) -> index f = index g ->
  same_cols (required i) f g -> calc o i f = Ok (inp, ti) -> calc o i g = Ok (inp', ti') -> ti = ti'.
Proof.
  intros W W' S E H A B. apply calc_ok in A as [A _]. apply calc_ok in B as [B _].
  apply (f_equal snd) in A. apply (f_equal snd) in B. cbn [snd] in A, B. subst.
  rewrite (ti_cols_same o i f g) by auto. rewrite (ti_index_eq i f g) by auto. reflexivity.
Qed.
Lemma col_add_other c n s f : c <> n -> length s = length (rows f) -> wf f -> col c (add_col n s f) = col c f.
Proof.
  intros N L W. unfold col. cbn [cols add_col].
  assert (P : forall l, position c (l ++ [n])%list = position c l).
  { induction l as [|x l IH]; cbn; [destruct (String.eqb_spec c n); congruence|]. rewrite IH. reflexivity. }
  rewrite P. destruct (position c (cols f)) as [k|] eqn:Q; auto. cbn [rows add_col]. rewrite map_map. cbn [snd].
  assert (LK : (k < length (cols f))%nat) by (apply position_lt in Q; auto).
  revert s L. unfold wf, rect in W. induction (rows f) as [|r l IH]; intros [|x s] L; try discriminate; auto.
  cbn [combine map fst snd]. f_equal; [|apply IH; [intros; apply W; right; auto|cbn in L; lia]].
  apply app_nth1. rewrite (W r) by (left; auto). exact LK.
Qed.
Lemma col_add_new n s f : ~ In n (cols f) -> length s = length (rows f) -> wf f -> col n (add_col n s f) = s.
Proof.
  intros N L W. unfold col. cbn [cols add_col].
  assert (P : position n (cols f ++ [n])%list = Some (length (cols f))).
  { clear -N. revert N. induction (cols f) as [|x l IH]; intro N; cbn; [rewrite String.eqb_refl; reflexivity|].
    destruct (String.eqb_spec n x); [exfalso; apply N; left; auto|]. rewrite IH; [reflexivity|intro; apply N; right; auto]. }
  rewrite P. cbn [rows add_col]. rewrite map_map. cbn [snd].
  revert s L. unfold wf, rect in W. induction (rows f) as [|r l IH]; intros [|x s] L; try discriminate; auto.
  cbn [combine map fst snd]. f_equal; [|apply IH; [intros; apply W; right; auto|cbn in L; lia]].
  rewrite app_nth2; rewrite (W r) by (left; auto); [rewrite Nat.sub_diag; reflexivity|lia].
Qed.
(** columns of the input data the signal reads *)
Definition read_by_signal (i : ind) : list string :=
  (required i ++ match i with iMI => ["9_ema"] | iMP _ => ["close_ema"] | _ => [] end)%list.
Lemma icol0 f : cols f = ["close"] -> icol 0 f = col "close" f.
Proof. intro E. unfold icol, col. rewrite E. reflexivity. Qed.
Lemma signal_same i f g ti : wf f -> wf g -> StronglySorted Z.le (index f) -> index f = index g ->
  same_cols (read_by_signal i) f g -> i <> iATR -> (forall p, i <> iTP p) ->
  (forall p, i = iSD p -> cols f = ["close"] /\ cols g = ["close"]) ->
  signal_of i f ti = signal_of i g ti.
Proof.
  intros W W' S E H NA NT SDc. unfold same_cols in H.
  assert (S' : StronglySorted Z.le (index g)) by (rewrite <- E; auto).
  assert (CF : col "close" f = col "close" g -> col "close" (fill_missing f) = col "close" (fill_missing g)) by (intro; apply fill_same; auto).
  assert (RL : length (rows f) = length (rows g)) by (rewrite <- !len_index; congruence).
  destruct i; try congruence; cbn [signal_of]; rewrite ?RL; try reflexivity;
    try (rewrite ?CF, (H "close") by (try apply H; cbn; tauto); reflexivity).
  - rewrite (H "9_ema") by (cbn; tauto). reflexivity.
  - rewrite (H "close_ema") by (cbn; tauto). reflexivity.
  - destruct (SDc p eq_refl). rewrite !icol0, (H "close") by (auto; cbn; tauto). reflexivity.
  - rewrite CF by (apply H; cbn; tauto). reflexivity.
Qed.

Lemma SS_perm_eq (a b : list Z) : StronglySorted Z.le a -> StronglySorted Z.le b -> Permutation a b -> a = b.
Proof.
  intro Sa. revert b. induction Sa as [|x a Sa IH F]; intros b Sb P.
  - apply Permutation_nil in P. subst. reflexivity.
  - destruct b as [|y b]; [apply Permutation_sym, Permutation_nil in P; discriminate|].
    inversion Sb as [|? ? Sb' F']; subst.
    assert (Hy : In y (x :: a)) by (eapply Permutation_in; [symmetry; exact P|left; auto]).
    assert (Hx : In x (y :: b)) by (eapply Permutation_in; [exact P|left; auto]).
    rewrite Forall_forall in F, F'.
    assert (x = y).
    { destruct Hy as [?|Hy]; auto. destruct Hx as [?|Hx]; auto. pose proof (F _ Hy). pose proof (F' _ Hx). lia. }
    subst y. apply Permutation_cons_inv in P. f_equal. auto.
Qed.



Lemma single_col raw b f : snd (validate (RFrame raw) ["close"] b) = Ok f -> cols f = ["close"].
Proof.
  intro V. pose proof (validate_cols _ _ _ _ V) as C. pose proof (validated_cols_nodup _ _ _ _ V) as N.
  destruct (cols f) as [|x [|y l]].
  - exfalso. apply (C "close"). left; auto.
  - f_equal. assert (H : In x ["close"]) by (apply C; left; auto). destruct H as [<-|[]]; auto.
  - exfalso. assert (H : In x ["close"]) by (apply C; left; auto). assert (H' : In y ["close"]) by (apply C; right; left; auto).
    destruct H as [<-|[]]. destruct H' as [<-|[]]. inversion N; subst. apply H1. left; auto.
Qed.

Lemma same_after i f g : good_input i f -> good_input i g -> index f = index g ->
  same_cols (required i) f g -> incl (cols f) (required i) -> incl (cols g) (required i) ->
  same_cols (read_by_signal i) (input_after i f) (input_after i g).
Proof.
  intros G G' E H I I'. pose proof (good_wf _ _ G) as W. pose proof (good_wf _ _ G') as W'.
  assert (LR : length (rows f) = length (rows g)) by (rewrite <- !len_index; congruence).
  intros c Hc. unfold read_by_signal in Hc. apply in_app_iff in Hc.
  destruct i; cbn [input_after] in *; try (destruct Hc as [Hc|Hc]; [apply H; exact Hc|destruct Hc]).
  - assert (LL : length (ewm 9 9 (col "close" f)) = length (rows f)) by (rewrite len_ewm; apply len_col; apply G; cbn; tauto).
    assert (LL' : length (ewm 9 9 (col "close" g)) = length (rows g)) by (rewrite len_ewm; apply len_col; apply G'; cbn; tauto).
    destruct Hc as [Hc|Hc].
    + assert (c <> "9_ema") by (intros ->; cbn in Hc; intuition discriminate). rewrite !col_add_other by auto. apply H; auto.
    + destruct Hc as [<-|[]]. rewrite !col_add_new; auto.
      * rewrite (H "close") by (cbn; tauto). reflexivity.
      * intro X. apply I' in X. cbn in X. intuition discriminate.
      * intro X. apply I in X. cbn in X. intuition discriminate.
  - assert (LL : length (ewm p p (col "close" f)) = length (rows f)) by (rewrite len_ewm; apply len_col; apply G; cbn; tauto).
    assert (LL' : length (ewm p p (col "close" g)) = length (rows g)) by (rewrite len_ewm; apply len_col; apply G'; cbn; tauto).
    destruct Hc as [Hc|Hc].
    + assert (c <> "close_ema") by (intros ->; cbn in Hc; intuition discriminate). rewrite !col_add_other by auto. apply H; auto.
    + destruct Hc as [<-|[]]. rewrite !col_add_new; auto.
      * rewrite (H "close") by (cbn; tauto). reflexivity.
      * intro X. apply I' in X. cbn in X. intuition discriminate.
      * intro X. apply I in X. cbn in X. intuition discriminate.
Qed.

Record agree (ob ob' : obj) : Prop := {
  ag_ind : ob_ind ob' = ob_ind ob;
  ag_ti : ob_ti ob' = ob_ti ob;
  ag_idx : index (ob_input ob') = index (ob_input ob);
  ag_cols : same_cols (read_by_signal (ob_ind ob)) (ob_input ob) (ob_input ob');
  ag_sd : forall p, ob_ind ob = iSD p -> cols (ob_input ob) = ["close"] /\ cols (ob_input ob') = ["close"] }.

Lemma construct_same o c raw raw' b ob ob' i : wf_raw raw -> wf_raw raw' ->
  check c = Ok i -> same_data (required i) raw raw' ->
  snd (construct o c (RFrame raw) (VBool b)) = Ok ob -> snd (construct o c (RFrame raw') (VBool b)) = Ok ob' ->
  agree ob ob'.
Proof.
  intros W W' CK [D S] H H'.
  pose proof (construct_sound _ _ _ _ _ W H) as SO. pose proof (construct_sound _ _ _ _ _ W' H') as SO'.
  apply construct_inv in H as (i0 & raw0 & b0 & f & CK0 & Q & B & V & K & EI). injection Q as <-. injection B as <-.
  apply construct_inv in H' as (i' & raw1 & b' & f' & CK' & Q' & B' & V' & K' & EI'). injection Q' as <-. injection B' as <-.
  rewrite CK in CK0. injection CK0 as <-. rewrite CK in CK'. injection CK' as <-.
  assert (G : good_input i f) by (exact (validated_good _ _ _ _ W V)).
  assert (G' : good_input i f') by (exact (validated_good _ _ _ _ W' V')).
  assert (IE : index f = index f').
  { pose proof (validated_index _ _ _ _ V) as P. pose proof (validated_index _ _ _ _ V') as P'. rewrite D in P.
    apply SS_perm_eq; [apply G|apply G'|]. etransitivity; [exact P|symmetry; exact P']. }
  assert (SC : same_cols (required i) f f').
  { intros x Hx. destruct (validate_only_required raw raw' (required i) b f f' x) as [_ E]; auto. }
  assert (I1 : forall g raw, snd (validate (RFrame raw) (required i) b) = Ok g -> incl (cols g) (required i)).
  { intros g r Vg x Hx. apply (validate_cols _ _ _ _ Vg); auto. }
  split.
  - congruence.
  - symmetry. apply (calc_same o i f f' (ob_input ob) (ob_ti ob) (ob_input ob') (ob_ti ob')); auto.
    + exact (good_wf _ _ G).
    + exact (good_wf _ _ G').
    + apply G.
  - rewrite (calc_input_index _ _ _ _ _ G' K'), (calc_input_index _ _ _ _ _ G K). auto.
  - rewrite EI. apply calc_ok in K as [K _]. apply calc_ok in K' as [K' _].
    apply (f_equal fst) in K. apply (f_equal fst) in K'. cbn [fst] in K, K'. rewrite K, K'.
    apply same_after; eauto.
  - intros p Hp. rewrite EI in Hp. subst i. rewrite Hp in *. cbn [required] in *.
    apply calc_ok in K as [K _]. apply calc_ok in K' as [K' _].
    apply (f_equal fst) in K. apply (f_equal fst) in K'. cbn [fst input_after] in K, K'. rewrite K, K'.
    split; eapply single_col; eauto.
Qed.


Lemma col_upto t f c : StronglySorted Z.le (index f) -> col c (upto t f) = firstn (length (filter (fun d => Z.leb d t) (index f))) (col c f).
Proof. intro S. rewrite upto_prefix by auto. rewrite <- len_index, index_upto. apply col_fprefix. Qed.
Lemma agree_limited k ob ob' : sound ob -> sound ob' -> agree ob ob' -> agree (limited k ob) (limited k ob').
Proof.
  intros S S' [A B C D E]. split; cbn [limited ob_ind ob_ti ob_input]; auto.
  - rewrite B. reflexivity.
  - rewrite !index_upto, C. reflexivity.
  - intros c Hc. rewrite !col_upto, C by (first [apply S|apply S']). rewrite D by auto. reflexivity.
Qed.
Lemma agree_signal ob ob' : sound ob -> sound ob' -> agree ob ob' -> order_sensitive (ob_ind ob) = false ->
  get_ti_signal ob' = get_ti_signal ob.
Proof.
  intros S S' [A B C D E] N. unfold get_ti_signal. rewrite A, B. symmetry. apply signal_same; auto.
  - apply S.
  - apply S'.
  - apply S.
  - intro X. rewrite X in N. discriminate.
  - intros p X. rewrite X in N. discriminate.
Qed.
Lemma rounds_agree full full' n : (forall k, get_ti_signal (limited k full') = get_ti_signal (limited k full)) ->
  forall i cur cur' st, snd (rounds full' i n cur' st) = snd (rounds full i n cur st).
Proof.
  intro H. induction n as [|n IH]; intros i cur cur' st; [reflexivity|]. cbn [rounds]. rewrite H.
  destruct (get_ti_signal (limited i full)); auto.
Qed.
Lemma agree_simulation ob ob' cv me fa : sound ob -> sound ob' -> agree ob ob' -> order_sensitive (ob_ind ob) = false ->
  snd (get_ti_simulation ob' cv me fa) = snd (get_ti_simulation ob cv me fa).
Proof.
  intros S S' A N. unfold get_ti_simulation. rewrite (ag_idx _ _ A), (ag_ti _ _ A).
  destruct (sim_init _ _ _ _) as [v' [st|e]]; [|reflexivity].
  assert (R : snd (rounds ob' 0 (length (rows (ob_ti ob))) ob' st) = snd (rounds ob 0 (length (rows (ob_ti ob))) ob st)).
  { apply rounds_agree. intro k. apply agree_signal; auto using limited_sound, agree_limited. }
  destruct (rounds ob' _ _ _ _) as [x r], (rounds ob _ _ _ _) as [x' r']. cbn in R. subst r'.
  destruct r; reflexivity.
Qed.

(** ** the simulation *)
Lemma safe_signal ob : sound ob -> sim_safe (ob_ind ob) = true -> exists s, get_ti_signal ob = Ok s.
Proof.
  intros S H. apply sound_signal; auto.
  - intros r s E. rewrite E in H. discriminate.
  - intros E. rewrite E in H. discriminate.
Qed.
Lemma safe_limited k ob : sound ob -> sim_safe (ob_ind ob) = true -> exists s, get_ti_signal (limited k ob) = Ok s.
Proof. intros S H. apply safe_signal; auto using limited_sound. Qed.

Definition start_args (idx : list Z) (cv : rawval) (me fa : pyval) (c : list num) (m : option num) (x : num) : Prop :=
  exists f, snd (validate cv ["close"] true) = Ok f /\ index f = idx /\
    check_max_exposure me = Ok m /\ check_factor fa = Ok x /\ c = icol 0 f.

Lemma simulation_inv ob cv me fa st stats : sound ob -> snd (get_ti_simulation ob cv me fa) = Ok (st, stats) ->
  exists c m x sgs, start_args (index (ob_input ob)) cv me fa c m x /\ st = simulate c m x sgs /\
    length sgs = length (rows (ob_ti ob)) /\ stats = statistics st /\
    forall k, (k < length sgs)%nat -> get_ti_signal (limited k ob) = Ok (nth k sgs Hold).
Proof.
  intros S H. unfold get_ti_simulation in H.
  destruct (sim_init _ _ _ _) as [v' r] eqn:I. destruct r as [st0|e]; [|discriminate].
  assert (I' : snd (sim_init (index (ob_input ob)) cv me fa) = Ok st0) by (rewrite I; auto).
  apply sim_init_ok in I' as (f & m & x & V & IX & M & X & ->); [|apply S].
  destruct (rounds ob 0 _ ob _) as [ob' r] eqn:R. destruct r as [st'|e]; [|discriminate]. injection H as <- <-.
  apply rounds_inv in R as (sgs & -> & L & P).
  exists (icol 0 f), m, x, sgs. split; [exists f; auto|]. split; [reflexivity|]. split; [auto|]. split; [auto|].
  intros k Hk. apply P. lia.
Qed.
Lemma simulation_exists ob cv me fa c m x : sound ob -> sim_safe (ob_ind ob) = true ->
  start_args (index (ob_input ob)) cv me fa c m x ->
  exists st, snd (get_ti_simulation ob cv me fa) = Ok (st, statistics st).
Proof.
  intros S SS (f & V & IX & M & X & ->). unfold get_ti_simulation.
  assert (I' : snd (sim_init (index (ob_input ob)) cv me fa) = Ok (sim_start (icol 0 f) m x)).
  { apply sim_init_ok; [apply S|]. exists f, m, x. auto. }
  destruct (sim_init _ _ _ _) as [v' r]. cbn in I'. subst r.
  destruct (rounds_ok ob (length (rows (ob_ti ob))) (fun k => safe_limited k ob S SS) 0 ob (sim_start (icol 0 f) m x))
    as (sgs & ob' & -> & _). cbn [snd]. eauto.
Qed.
Lemma simulation_rejects ob cv me fa e : snd (sim_init (index (ob_input ob)) cv me fa) = Err e ->
  get_ti_simulation ob cv me fa = (ob, fst (sim_init (index (ob_input ob)) cv me fa), Err e).
Proof. unfold get_ti_simulation. destruct (sim_init _ _ _ _) as [v' r]. cbn. intros ->. reflexivity. Qed.

Lemma simulation_keeps ob cv me fa : sound ob -> sim_safe (ob_ind ob) = true ->
  fst (fst (get_ti_simulation ob cv me fa)) = ob.
Proof.
  intros S SS. unfold get_ti_simulation. destruct (sim_init _ _ _ _) as [v' [st|e]]; [|reflexivity].
  destruct (rounds_ok ob (length (rows (ob_ti ob))) (fun k => safe_limited k ob S SS) 0 ob st)
    as (sgs & ob' & -> & _). reflexivity.
Qed.
Lemma simulation_keeps_ok ob cv me fa r : snd (get_ti_simulation ob cv me fa) = Ok r ->
  fst (fst (get_ti_simulation ob cv me fa)) = ob.
Proof.
  unfold get_ti_simulation. destruct (sim_init _ _ _ _) as [v' [st|e]]; [|reflexivity].
  destruct (rounds ob 0 _ ob st) as [ob' [st'|e]]; [reflexivity|]. intro H. cbn in H. discriminate H.
Qed.
Lemma simulation_keeps_rejected ob cv me fa e : snd (sim_init (index (ob_input ob)) cv me fa) = Err e ->
  fst (fst (get_ti_simulation ob cv me fa)) = ob.
Proof. intro H. rewrite (simulation_rejects _ _ _ _ _ H). reflexivity. Qed.

(** C15 *)
Lemma start_len idx cv me fa c m x : start_args idx cv me fa c m x -> length c = length idx.
Proof. intros (f & V & IX & M & X & ->). rewrite len_icol, <- len_index, IX. reflexivity. Qed.
Lemma ti_shorter ob : sound ob -> ((forall p, ob_ind ob <> iDPO p) -> length (rows (ob_ti ob)) = length (index (ob_input ob))).
Proof. intros S H. rewrite <- len_index. f_equal. apply S. auto. Qed.
Lemma not_dpo i : is_dpo i = false -> forall p, i <> iDPO p.
Proof. intros H p ->. discriminate. Qed.

Lemma simulation_signals ob cv me fa st stats k : sound ob -> is_dpo (ob_ind ob) = false ->
  snd (get_ti_simulation ob cv me fa) = Ok (st, stats) -> (k < length (rows (ob_ti ob)))%nat ->
  exists s, get_ti_signal (trunc (nth k (index (ob_ti ob)) 0%Z) ob) = Ok s /\ x_signal (nth k (data st) simrow0) = Some s.
Proof.
  intros S D H Hk. destruct (simulation_inv _ _ _ _ _ _ S H) as (c & m & x & sgs & A & -> & L & _ & P).
  exists (nth k sgs Hold). rewrite <- limited_trunc by (auto using not_dpo). split; [apply P; lia|].
  apply (simulate_rows c m x sgs k); [|lia].
  rewrite (start_len _ _ _ _ _ _ _ A), L, ti_shorter; auto using not_dpo.
Qed.
Lemma simulation_live o c raw b ob cv me fa st stats k ob' : wf_raw raw ->
  snd (construct o c (RFrame raw) (VBool b)) = Ok ob ->
  looks_ahead (ob_ind ob) = false -> causal_hyp (ob_ind ob) b raw ->
  snd (get_ti_simulation ob cv me fa) = Ok (st, stats) ->
  (k < length (dates raw))%nat ->
  snd (construct o c (RFrame (until (nth k (sort_z (dates raw)) 0%Z) raw)) (VBool b)) = Ok ob' ->
  exists s, get_ti_signal ob' = Ok s /\ x_signal (nth k (data st) simrow0) = Some s.
Proof.
  intros W H LA CH HS Hk H'.
  pose proof (construct_sound _ _ _ _ _ W H) as S.
  assert (D : is_dpo (ob_ind ob) = false) by (destruct (ob_ind ob); cbn in *; congruence).
  assert (IX : index (ob_ti ob) = sort_z (dates raw)).
  { assert (X := S). destruct X as (_ & _ & _ & SO & _ & _ & TI & _). rewrite TI by (apply not_dpo; auto).
    pose proof H as H0.
    apply construct_inv in H0 as (i & raw0 & b0 & f & CK & Q & B & V & K & EI). injection Q as <-. injection B as <-.
    rewrite (calc_input_index _ _ _ _ _ (validated_good _ _ _ _ W V) K) in *.
    pose proof (validated_index _ _ _ _ V) as P.
    apply SS_perm_eq; auto.
    - unfold sort_z. pose proof (index_sort_sorted (mkFrame [] (map (fun z => (z, [])) (dates raw)))) as Q.
      exact Q.
    - rewrite P. unfold sort_z. rewrite sort_rows_perm. rewrite map_map. cbn. rewrite map_id. reflexivity. }
  rewrite <- IX in H'.
  destruct (construct_until _ _ _ _ _ _ _ W H H' LA CH) as (A1 & A2 & A3).
  assert (E : ob' = trunc (nth k (index (ob_ti ob)) 0%Z) ob) by (destruct ob'; unfold trunc; cbn in *; congruence).
  rewrite E. eapply simulation_signals; eauto.
  rewrite <- len_index, IX. unfold sort_z. rewrite map_length. rewrite (Permutation_length (sort_rows_perm _)), map_length. auto.
Qed.

(** C16 *)
Lemma run_rounds_close sgs : forall i st, close (run_rounds i sgs st) = close st.
Proof.
  induction sgs as [|sg sgs IH]; intros i st; [reflexivity|]. cbn [run_rounds]. rewrite IH.
  destruct i as [|i]; [reflexivity|]. cbn [run_round]. unfold process_signal.
  destruct sg; [destruct (over_limit _ _)| |destruct (over_limit _ _)]; reflexivity.
Qed.
Lemma simulation_covers ob cv me fa st stats : sound ob -> is_dpo (ob_ind ob) = false ->
  snd (get_ti_simulation ob cv me fa) = Ok (st, stats) ->
  length (data st) = length (index (ob_input ob)) /\
  forall k, (k < length (data st))%nat ->
    x_signal (nth k (data st) simrow0) <> None /\ x_action (nth k (data st) simrow0) <> None /\
    x_stock (nth k (data st) simrow0) = nth k (close st) NaN.
Proof.
  intros S D H. destruct (simulation_inv _ _ _ _ _ _ S H) as (c & m & x & sgs & A & -> & L & _ & P).
  pose proof (start_len _ _ _ _ _ _ _ A) as LC. pose proof (ti_shorter ob S (not_dpo _ D)) as LT.
  assert (LE : length (data (simulate c m x sgs)) = length (index (ob_input ob))) by (rewrite simulate_len by lia; auto).
  split; [auto|]. intros k Hk.
  destruct (simulate_rows c m x sgs k) as (X1 & [a X2] & X3); try lia. rewrite X1, X2, X3. repeat split; try discriminate.
  unfold simulate. rewrite run_rounds_close. reflexivity.
Qed.

(** ** C24 *)

Lemma usable_close_iff idx cv : StronglySorted Z.le idx ->
  usable_close idx cv <-> exists f, snd (validate cv ["close"] true) = Ok f /\ index f = idx.
Proof.
  intro S. split.
  - intros (raw & -> & A & P). apply (validate_accepts _ _ true) in A as [f V]. exists f. split; auto.
    apply SS_perm_eq; auto.
    + exact (validate_sorted _ _ _ _ V).
    + rewrite (validated_index _ _ _ _ V). exact P.
  - intros (f & V & <-). assert (A : acceptable cv ["close"]) by (apply (validate_accepts _ _ true); eauto).
    pose proof A as (raw & -> & _). exists raw. split; auto. split; auto. symmetry. exact (validated_index _ _ _ _ V).
Qed.
Lemma args_checked me fa : 
  (do m <- check_max_exposure me; do x <- check_factor fa; Ok (m, x)) =
  match first_fault (sim_params me fa) with
  | Some e => Err e
  | None => Ok (match me with VNone => None | _ => Some (as_number me) end, as_number fa)
  end.
Proof.
  unfold sim_params, check_max_exposure, check_factor.
  assert (F1 : match number_of fa with
     | Some x => if nltb x (F 1) then Err (WrongValue "short_exposure_factor") else Ok x
     | None => Err (WrongType "short_exposure_factor") end =
     if is_number fa then if nltb (as_number fa) (F 1) then Err (WrongValue "short_exposure_factor") else Ok (as_number fa)
     else Err (WrongType "short_exposure_factor")) by (destruct fa as [ |[]| | | | ]; reflexivity).
  rewrite F1. cbn [first_fault p_type p_range p_name].
  destruct me as [z|[]|x|s| | ]; cbn [number_of is_number as_number num_of_bool negb bind]; auto;
  destruct (is_number fa); cbn [negb]; try (destruct (nltb (as_number fa) (F 1)); cbn [negb]);
  try (destruct (nleb _ _); reflexivity); reflexivity.
Qed.
Lemma sim_args_outcome ob cv me fa : sound ob -> sim_safe (ob_ind ob) = true ->
  (usable_close (index (ob_input ob)) cv /\ first_fault (sim_params me fa) = None
     <-> exists r, snd (get_ti_simulation ob cv me fa) = Ok r) /\
  (~ usable_close (index (ob_input ob)) cv -> snd (get_ti_simulation ob cv me fa) = Err (NotValidSim "close_values")) /\
  (usable_close (index (ob_input ob)) cv -> forall e, first_fault (sim_params me fa) = Some e ->
     snd (get_ti_simulation ob cv me fa) = Err e).
Proof.
  intros S SS. assert (SI : StronglySorted Z.le (index (ob_input ob))) by apply S.
  pose proof (args_checked me fa) as AC.
  assert (R3 : usable_close (index (ob_input ob)) cv -> forall e, first_fault (sim_params me fa) = Some e ->
     snd (get_ti_simulation ob cv me fa) = Err e).
  { intros U e E. apply usable_close_iff in U as (f & V & I); auto. rewrite E in AC.
    assert (X : snd (sim_init (index (ob_input ob)) cv me fa) = Err e).
    { unfold sim_init. destruct (validate cv ["close"] true) as [v' r]. cbn in V. subst r. cbn [snd].
      rewrite sort_z_id by auto. assert (Z : zlist_eqb (index f) (index (ob_input ob)) = true) by (apply zlist_eqb_eq; auto).
      rewrite Z. cbn [negb]. destruct (check_max_exposure me) as [m|e']; cbn [bind] in *; [|congruence].
      destruct (check_factor fa) as [x|e']; cbn [bind] in *; congruence. }
    rewrite (simulation_rejects _ _ _ _ _ X). reflexivity. }
  split; [split|split; [|exact R3]].
  - intros [U E]. rewrite E in AC. apply usable_close_iff in U as (f & V & I); auto.
    destruct (check_max_exposure me) as [m|e'] eqn:CM; cbn [bind] in *; [|congruence].
    destruct (check_factor fa) as [x|e'] eqn:CF; cbn [bind] in *; [|congruence].
    destruct (simulation_exists ob cv me fa (icol 0 f) m x) as [st H]; auto; [exists f; auto|]. eauto.
  - intros [[st stats] H]. destruct (simulation_inv _ _ _ _ _ _ S H) as (c & m & x & sgs & (f & V & I & M & X & E) & _).
    split; [apply usable_close_iff; eauto|]. rewrite M, X in AC. cbn [bind] in AC.
    destruct (first_fault _); [discriminate|reflexivity].
  - intros U. assert (X : snd (sim_init (index (ob_input ob)) cv me fa) = Err (NotValidSim "close_values")).
    { unfold sim_init. destruct (validate cv ["close"] true) as [v' r] eqn:V. cbn [snd].
      destruct r as [f|]; auto. rewrite sort_z_id by auto. destruct (zlist_eqb _ _) eqn:Z; auto.
      exfalso. apply U. apply usable_close_iff; auto. exists f. rewrite V. split; auto. apply zlist_eqb_eq; auto. }
    rewrite (simulation_rejects _ _ _ _ _ X). reflexivity.
Qed.

(** ** C10 *)
Lemma filter_date_none (l : list row) t : ~ In t (map fst l) -> filter (fun r : row => Z.eqb (fst r) t) l = [].
Proof.
  induction l as [|r l IH]; intro H; [reflexivity|]. cbn. cbn in H.
  destruct (Z.eqb_spec (fst r) t); [exfalso; apply H; auto|apply IH; tauto].
Qed.
Lemma filter_date_one (l : list row) r : NoDup (map fst l) -> In r l -> filter (fun x : row => Z.eqb (fst x) (fst r)) l = [r].
Proof.
  induction l as [|x l IH]; intros N H; [destruct H|]. cbn in *. inversion N; subst. destruct H as [->|H].
  - rewrite Z.eqb_refl. f_equal. apply filter_date_none; auto.
  - destruct (Z.eqb_spec (fst x) (fst r)) as [E|E]; [exfalso; apply H2; rewrite E; apply in_map; auto|]. apply IH; auto.
Qed.
Lemma value_row ob t l : NoDup (index (ob_ti ob)) ->
  get_ti_value ob (DAt t) = TVRow l <-> In (t, l) (rows (get_ti_data ob)).
Proof.
  intro N. unfold get_ti_value, get_ti_data. split.
  - destruct (filter _ (rows (ob_ti ob))) as [|r [|r' q]] eqn:E; try discriminate. intro H. injection H as <-.
    assert (I : In r (filter (fun r : row => Z.eqb (fst r) t) (rows (ob_ti ob)))) by (rewrite E; left; auto).
    apply filter_In in I as [I J]. apply Z.eqb_eq in J. rewrite <- J. destruct r; auto.
  - intro H. pose proof (filter_date_one (rows (ob_ti ob)) (t, l) N H) as E. cbn [fst] in E. rewrite E. reflexivity.
Qed.
Lemma value_none ob t : get_ti_value ob (DAt t) = TVNone <-> ~ In t (index (get_ti_data ob)).
Proof.
  unfold get_ti_value, get_ti_data. split.
  - intros H I. apply in_map_iff in I as (r & <- & I).
    assert (J : In r (filter (fun x : row => Z.eqb (fst x) (fst r)) (rows (ob_ti ob)))) by (apply filter_In; split; auto; apply Z.eqb_refl).
    destruct (filter _ _) as [|? [|? ?]]; [destruct J|discriminate|discriminate].
  - intro H. rewrite filter_date_none by exact H. reflexivity.
Qed.
Lemma value_last ob rs r : rows (get_ti_data ob) = (rs ++ [r])%list -> get_ti_value ob DNotGiven = TVRow (snd r).
Proof. unfold get_ti_value, get_ti_data. intros ->. rewrite rev_app_distr. reflexivity. Qed.
Lemma value_last_none ob : rows (get_ti_data ob) = [] <-> get_ti_value ob DNotGiven = TVNone.
Proof.
  unfold get_ti_value, get_ti_data. split; [intros ->; reflexivity|].
  destruct (rev (rows (ob_ti ob))) eqn:E; [|discriminate]. intros _.
  rewrite <- (rev_involutive (rows (ob_ti ob))), E. reflexivity.
Qed.

(** ** C11 *)
Lemma construct_shape o c raw b ob : wf_raw raw -> snd (construct o c (RFrame raw) (VBool b)) = Ok ob ->
  cols (ob_ti ob) = documented_columns (ob_ind ob) /\ wf (ob_ti ob) /\
  StronglySorted Z.le (index (ob_ti ob)) /\
  (is_dpo (ob_ind ob) = false -> Permutation (index (ob_ti ob)) (dates raw)) /\
  (forall p, ob_ind ob = iDPO p -> exists k, index (ob_ti ob) = firstn k (index (ob_input ob)) /\ k = (length (dates raw) - S (p / 2))%nat) /\
  Permutation (index (ob_input ob)) (dates raw).
Proof.
  intros W H. pose proof (construct_sound _ _ _ _ _ W H) as SO.
  apply construct_inv in H as (i & raw0 & b0 & f & CK & Q & B & V & K & EI). injection Q as <-. injection B as <-.
  pose proof (validated_good _ _ _ _ W V) as G.
  pose proof (calc_input_index _ _ _ _ _ G K) as II. pose proof (calc_index _ _ _ _ _ K) as IT.
  pose proof (validated_index _ _ _ _ V) as P.
  assert (SI : StronglySorted Z.le (index f)) by apply G.
  split; [|split; [|split; [|split; [|split]]]].
  - destruct SO as [SO _]. rewrite SO. apply ti_names_documented.
  - apply calc_ok in K as [K _]. apply (f_equal snd) in K. cbn [snd] in K. rewrite K. intros r Hr. apply mk_ti_wf in Hr. exact Hr.
  - rewrite IT. destruct i; cbn [ti_index]; auto. apply SS_firstn; auto.
  - intro D. rewrite IT, ti_index_same; [exact P|]. rewrite <- EI. apply not_dpo; auto.
  - intros p Hp. rewrite EI in Hp. subst i. exists (length (dates raw) - S (p / 2))%nat. split; auto.
    rewrite IT, II, Hp. cbn [ti_index]. f_equal. rewrite <- len_index, (Permutation_length P). reflexivity.
  - rewrite II. exact P.
Qed.

(** ** look-ahead indicators *)
Lemma shift_back_head m k s : (m + k <= length s)%nat -> firstn m (shift_back k s) = firstn m (skipn k s).
Proof.
  intro L. unfold shift_back. rewrite firstn_firstn, Nat.min_l by lia.
  rewrite firstn_app. rewrite skipn_length. replace (m - (length s - k))%nat with 0%nat by lia. cbn [firstn].
  apply app_nil_r.
Qed.
Lemma shift_back_prefix k n s : (n <= length s)%nat -> firstn (n - k) (shift_back k (firstn n s)) = firstn (n - k) (shift_back k s).
Proof.
  intro L. destruct (Nat.le_gt_cases n k) as [H|H].
  - replace (n - k)%nat with 0%nat by lia. reflexivity.
  - rewrite !shift_back_head by (rewrite ?firstn_length; lia).
    rewrite skipn_firstn_comm, firstn_firstn, Nat.min_id. reflexivity.
Qed.
Lemma dpo_prefix p n c : (n <= length c)%nat ->
  firstn (n - S (p / 2)) (dpo p (firstn n c)) = firstn (n - S (p / 2)) (dpo p c).
Proof.
  intro L. unfold dpo, sround, ssub. rewrite <- !smap_firstn, <- !szip_firstn.
  unfold roll_mean. rewrite rolling_firstn, shift_back_prefix by (rewrite len_rolling; auto).
  rewrite firstn_firstn, Nat.min_l by lia. reflexivity.
Qed.
Lemma mk_ti_firstn_col idx name s : (length idx <= length s)%nat ->
  mk_ti idx [(name, s)] = mk_ti idx [(name, firstn (length idx) s)].
Proof.
  intro L. unfold mk_ti. cbn [map fst]. f_equal. apply map_ext_in. intros [j t] H. cbn. do 2 f_equal.
  apply in_combine_l in H. apply in_seq in H. symmetry. apply firstn_nth_lt. lia.
Qed.

Lemma filter_len {A} (p : A -> bool) l : (length (filter p l) <= length l)%nat.
Proof. induction l as [|x l IH]; cbn; auto. destruct (p x); cbn; lia. Qed.
Lemma construct_until_dpo o v raw b ob ob' t : wf_raw raw ->
  snd (construct o (cDPO v) (RFrame raw) (VBool b)) = Ok ob ->
  snd (construct o (cDPO v) (RFrame (until t raw)) (VBool b)) = Ok ob' ->
  (b = true -> first_day_complete ["close"] raw) ->
  ob_ti ob' = fprefix (length (rows (ob_ti ob'))) (ob_ti ob).
Proof.
  intros W H H' CH.
  apply construct_inv in H as (i & raw0 & b0 & f & CK & Q & B & V & K & EI). injection Q as <-. injection B as <-.
  apply construct_inv in H' as (i' & raw' & b' & f' & CK' & Q' & B' & V' & K' & EI'). injection Q' as <-. injection B' as <-.
  rewrite CK in CK'. injection CK' as <-.
  assert (D : exists p, i = iDPO p).
  { cbn [check] in CK. apply bind_ok in CK as (p & _ & E). injection E as <-. eauto. }
  destruct D as [p ->]. cbn [required] in *.
  assert (G : good_input (iDPO p) f) by (exact (validated_good _ (iDPO p) _ _ W V)).
  assert (E : f' = upto t f) by (eapply validate_until; [exact W| |exact V|exact V']; auto).
  assert (S : StronglySorted Z.le (index f)) by apply G.
  set (n := length (rows (upto t f))).
  assert (E' : f' = fprefix n f) by (rewrite E; apply upto_prefix; auto).
  assert (LC : length (col "close" f) = length (rows f)) by (apply len_col, G; cbn; auto).
  assert (LN : (n <= length (rows f))%nat) by (unfold n; cbn; apply filter_len).
  apply calc_ok in K as [K _]. apply calc_ok in K' as [K' _]. apply (f_equal snd) in K. apply (f_equal snd) in K'.
  cbn [snd ti_index ti_cols] in K, K'.
  assert (LT : length (rows (ob_ti ob')) = (n - Datatypes.S (p / 2))%nat).
  { rewrite K', E', mk_ti_rows_len, index_fprefix, len_rows_fprefix, firstn_length, firstn_length, len_index. lia. }
  rewrite LT, K, K', E'. rewrite len_rows_fprefix, index_fprefix, Nat.min_l by auto.
  set (m := (n - Datatypes.S (p / 2))%nat). rewrite firstn_firstn, Nat.min_l by (unfold m; lia).
  rewrite <- mk_ti_prefix. cbn [map fst snd]. rewrite firstn_firstn, Nat.min_l by (unfold m; lia).
  assert (LM : length (firstn m (index f)) = m) by (rewrite firstn_length, len_index; unfold m; lia).
  rewrite mk_ti_firstn_col; rewrite LM.
  - rewrite col_fprefix. unfold m at 2. rewrite dpo_prefix by lia. reflexivity.
  - unfold dpo, sround, ssub, smap. rewrite map_length, len_szip, len_shift_back. unfold roll_mean. rewrite len_rolling.
    rewrite col_fprefix, firstn_length. unfold m. lia.
Qed.


Lemma mk_ti_finite idx name s : length s = length idx -> all_finite (mk_ti idx [(name, s)]) ->
  Forall (fun x => isfin x = true) s.
Proof.
  intros L H. rewrite Forall_forall. intros x Hx. apply (In_nth _ _ NaN) in Hx as (j & Hj & <-).
  assert (I : In (nth j idx 0%Z, [nth j s NaN]) (rows (mk_ti idx [(name, s)]))).
  { unfold mk_ti. cbn [rows]. apply in_map_iff. exists (j, nth j idx 0%Z). split; [reflexivity|].
    replace (j, nth j idx 0%Z) with (nth j (combine (seq 0 (length idx)) idx) (0%nat, 0%Z)).
    - apply nth_In. rewrite combine_length, seq_length. lia.
    - rewrite combine_nth by apply seq_length. f_equal. rewrite seq_nth by lia. reflexivity. }
  apply (H _ _ I). left. reflexivity.
Qed.
Lemma len_adl c v h l n : length c = n -> length v = n -> length h = n -> length l = n -> length (adl c v h l) = n.
Proof. intros. apply ln_adl; auto. Qed.

Lemma construct_until_adl o raw b ob ob' t : wf_raw raw ->
  snd (construct o cADL (RFrame raw) (VBool b)) = Ok ob ->
  snd (construct o cADL (RFrame (until t raw)) (VBool b)) = Ok ob' ->
  (b = true -> first_day_complete (required iADL) raw) -> all_finite (ob_ti ob) ->
  ob_ti ob' = upto t (ob_ti ob).
Proof.
  intros W H H' CH AF.
  apply construct_inv in H as (i & raw0 & b0 & f & CK & Q & B & V & K & EI). injection Q as <-. injection B as <-.
  apply construct_inv in H' as (i' & raw' & b' & f' & CK' & Q' & B' & V' & K' & EI'). injection Q' as <-. injection B' as <-.
  injection CK as <-. injection CK' as <-.
  assert (G : good_input iADL f) by (exact (validated_good _ iADL _ _ W V)).
  assert (E : f' = upto t f) by (eapply validate_until; [exact W| |exact V|exact V']; auto).
  assert (SI : StronglySorted Z.le (index f)) by apply G.
  set (n := length (rows (upto t f))).
  assert (E' : f' = fprefix n f) by (rewrite E; apply upto_prefix; auto).
  pose proof (calc_index _ _ _ _ _ K) as IT.
  apply calc_ok in K as [K _]. apply calc_ok in K' as [K' _]. apply (f_equal snd) in K. apply (f_equal snd) in K'.
  cbn [snd ti_index ti_cols] in K, K'.
  assert (LC : forall c, In c (required iADL) -> length (col c f) = length (index f)).
  { intros c Hc. rewrite len_index. apply len_col, G; auto. }
  assert (FIN : Forall (fun x => isfin x = true) (adl_of f)).
  { apply mk_ti_finite with (idx := index f) (name := "adl"); [|rewrite K in AF; exact AF].
    unfold adl_of. apply len_adl; apply LC; cbn; tauto. }
  rewrite (upto_like t f (ob_ti ob)); auto. fold n.
  rewrite K', K, E'. unfold adl_of. rewrite !col_fprefix, adl_firstn by exact FIN. rewrite index_fprefix.
  rewrite <- mk_ti_prefix. reflexivity.
Qed.

(** ** the flag is lost in indicators built on other indicators *)
Lemma ti_cols_fill o i f : wf f -> ignores_flag i = true -> ti_cols o i (fill_missing f) = ti_cols o i f.
Proof.
  intros W H. destruct i; try discriminate H; cbn [ti_cols]; rewrite ?fill_idem by auto; try reflexivity.
  destruct t; try discriminate H. cbn [ma]. reflexivity.
Qed.
Lemma index_fill f : StronglySorted Z.le (index f) -> index (fill_missing f) = index f.
Proof. intro S. rewrite fill_missing_dates, sort_index_id by auto. reflexivity. Qed.
Lemma construct_flag o c raw ob ob' : wf_raw raw ->
  snd (construct o c (RFrame raw) (VBool false)) = Ok ob -> snd (construct o c (RFrame raw) (VBool true)) = Ok ob' ->
  ignores_flag (ob_ind ob) = true -> ob_ti ob' = ob_ti ob.
Proof.
  intros W H H' IG.
  apply construct_inv in H as (i & raw0 & b0 & f & CK & Q & B & V & K & EI). injection Q as <-. injection B as <-.
  apply construct_inv in H' as (i' & raw' & b' & f' & CK' & Q' & B' & V' & K' & EI'). injection Q' as <-. injection B' as <-.
  rewrite CK in CK'. injection CK' as <-. rewrite EI in IG.
  pose proof (validated_good _ _ _ _ W V) as G.
  assert (E : f' = fill_missing f).
  { pose proof (validate_out _ _ _ _ V) as A. pose proof (validate_out _ _ _ _ V') as A'. cbv zeta in A, A'. rewrite <- A in A'. exact A'. }
  apply calc_ok in K as [K _]. apply calc_ok in K' as [K' _]. apply (f_equal snd) in K. apply (f_equal snd) in K'.
  cbn [snd] in K, K'. rewrite K, K', E, ti_cols_fill by (auto; exact (good_wf _ _ G)).
  f_equal. apply ti_index_eq. apply index_fill. apply G.
Qed.

Lemma construct_until_co o raw b ob ob' t oba : wf_raw raw ->
  snd (construct o cCO (RFrame raw) (VBool b)) = Ok ob ->
  snd (construct o cCO (RFrame (until t raw)) (VBool b)) = Ok ob' ->
  first_day_complete (required iCO) raw ->
  snd (construct o cADL (RFrame raw) (VBool true)) = Ok oba -> all_finite (ob_ti oba) ->
  ob_ti ob' = upto t (ob_ti ob).
Proof.
  intros W H H' CH HA AF.
  apply construct_inv in H as (i & raw0 & b0 & f & CK & Q & B & V & K & EI). injection Q as <-. injection B as <-.
  apply construct_inv in H' as (i' & raw' & b' & f' & CK' & Q' & B' & V' & K' & EI'). injection Q' as <-. injection B' as <-.
  apply construct_inv in HA as (ia & rawa & ba & fa & CKa & Qa & Ba & Va & Ka & EIa). injection Qa as <-. injection Ba as <-.
  injection CK as <-. injection CK' as <-. injection CKa as <-.
  assert (G : good_input iCO f) by (exact (validated_good _ iCO _ _ W V)).
  assert (Ga : good_input iADL fa) by (exact (validated_good _ iADL _ _ W Va)).
  assert (E : f' = upto t f) by (eapply validate_until; [exact W| |exact V|exact V']; auto).
  assert (SI : StronglySorted Z.le (index f)) by apply G.
  assert (SC : starts_complete f) by (eapply starts_complete_validated; [exact W|exact CH|exact V]).
  set (n := length (rows (upto t f))).
  assert (E' : f' = fprefix n f) by (rewrite E; apply upto_prefix; auto).
  assert (EA : fill_missing f = fa).
  { pose proof (validate_out _ _ _ _ V) as A. pose proof (validate_out _ _ _ _ Va) as A'. cbv zeta in A, A'.
    change (required iADL) with (required iCO) in A'. destruct b.
    - rewrite <- A in A'. subst fa. rewrite A. apply fill_idem.
      destruct (validate_fill_both _ _ _ V) as [f0 V0]. pose proof (validate_out _ _ _ _ V0) as A0. cbv zeta in A0.
      rewrite <- A0. exact (validate_wf _ _ _ _ W V0).
    - rewrite <- A in A'. congruence. }
  pose proof (calc_index _ _ _ _ _ K) as IT. pose proof (good_wf _ _ G) as WF.
  apply calc_ok in K as [K _]. apply calc_ok in K' as [K' _]. apply calc_ok in Ka as [Ka _].
  apply (f_equal snd) in K. apply (f_equal snd) in K'. apply (f_equal snd) in Ka.
  cbn [snd ti_index ti_cols] in K, K', Ka.
  assert (FIN : Forall (fun x => isfin x = true) (adl_of fa)).
  { apply mk_ti_finite with (idx := index fa) (name := "adl"); [|rewrite Ka in AF; exact AF].
    unfold adl_of. apply len_adl; rewrite len_index; apply len_col, Ga; cbn; tauto. }
  rewrite (upto_like t f (ob_ti ob)); auto. fold n.
  rewrite K', K, E'. rewrite EA in *. unfold adl_of in *. rewrite !fill_col_prefix, EA, adl_firstn, co_firstn by auto.
  rewrite index_fprefix, <- mk_ti_prefix. reflexivity.
Qed.

(** ** constructor-level forms *)
Lemma construct_perm o c dt labels numeric (rs rs' : list row) fill :
  NoDup (map fst rs) -> Permutation rs rs' ->
  snd (construct o c (RFrame (mkRaw dt labels numeric rs)) fill)
  = snd (construct o c (RFrame (mkRaw dt labels numeric rs')) fill).
Proof.
  intros N P. unfold construct. destruct (check c) as [i|e]; [|reflexivity]. destruct fill; try reflexivity.
  pose proof (validate_perm dt labels numeric rs rs' (required i) b N P) as E.
  destruct (validate (RFrame (mkRaw dt labels numeric rs)) _ _), (validate (RFrame (mkRaw dt labels numeric rs')) _ _).
  cbn in *. rewrite E. reflexivity.
Qed.
Lemma construct_same_data o c i raw raw' b ob ob' : wf_raw raw -> wf_raw raw' ->
  check c = Ok i -> same_data (required i) raw raw' ->
  snd (construct o c (RFrame raw) (VBool b)) = Ok ob -> snd (construct o c (RFrame raw') (VBool b)) = Ok ob' ->
  get_ti_data ob' = get_ti_data ob /\ forall d, get_ti_value ob' d = get_ti_value ob d.
Proof.
  intros W W' CK S H H'. destruct (construct_same o c raw raw' b ob ob' i W W' CK S H H') as [A B C D E].
  split; [exact B|]. intro d. unfold get_ti_value. rewrite B. reflexivity.
Qed.
Lemma construct_ind o c v fill ob i : check c = Ok i -> snd (construct o c v fill) = Ok ob -> ob_ind ob = i.
Proof.
  intros CK H. apply construct_inv in H as (i' & raw & b & f & CK' & _ & _ & _ & _ & EI). congruence.
Qed.
Lemma construct_same_signals o c i raw raw' b ob ob' : wf_raw raw -> wf_raw raw' ->
  check c = Ok i -> same_data (required i) raw raw' ->
  snd (construct o c (RFrame raw) (VBool b)) = Ok ob -> snd (construct o c (RFrame raw') (VBool b)) = Ok ob' ->
  order_sensitive i = false ->
  get_ti_signal ob' = get_ti_signal ob /\
  forall cv me fa, snd (get_ti_simulation ob' cv me fa) = snd (get_ti_simulation ob cv me fa).
Proof.
  intros W W' CK S H H' N. pose proof (construct_same o c raw raw' b ob ob' i W W' CK S H H') as A.
  pose proof (construct_sound _ _ _ _ _ W H) as SO. pose proof (construct_sound _ _ _ _ _ W' H') as SO'.
  rewrite <- (construct_ind _ _ _ _ _ _ CK H) in N.
  split; [apply agree_signal; auto|intros; apply agree_simulation; auto].
Qed.
Lemma construct_caller o c raw fill : exists labels,
  fst (construct o c (RFrame raw) fill) = RFrame (mkRaw (r_datetime raw) labels (r_numeric raw) (r_rows raw)) /\
  (labels = r_labels raw \/ labels = map LStr (str_labels raw)).
Proof.
  assert (K : exists labels, RFrame raw = RFrame (mkRaw (r_datetime raw) labels (r_numeric raw) (r_rows raw)) /\
     (labels = r_labels raw \/ labels = map LStr (str_labels raw))) by (exists (r_labels raw); destruct raw; auto).
  unfold construct. destruct (check c) as [i|e]; [|exact K]. destruct fill; try exact K.
  pose proof (validate_caller raw (required i) b) as V. destruct (validate _ _ _). exact V.
Qed.
Lemma simulation_caller ob raw me fa : exists labels,
  snd (fst (get_ti_simulation ob (RFrame raw) me fa)) = RFrame (mkRaw (r_datetime raw) labels (r_numeric raw) (r_rows raw)) /\
  (labels = r_labels raw \/ labels = map LStr (str_labels raw)).
Proof.
  pose proof (validate_caller raw ["close"] true) as V. unfold get_ti_simulation, sim_init.
  destruct (validate _ _ _) as [v' r]. cbn [fst] in V.
  match goal with [ |- context [match ?x with Ok _ => _ | Err _ => _ end] ] => destruct x as [st|e] end; [|exact V].
  destruct (rounds _ _ _ _ _) as [ob' [st'|e]]; exact V.
Qed.
Lemma construct_input_kept o c raw ob col : wf_raw raw ->
  snd (construct o c (RFrame raw) (VBool false)) = Ok ob -> In col (required (ob_ind ob)) ->
  Permutation (cells col (ob_input ob)) (raw_cells col raw).
Proof.
  intros W H I. 
  apply construct_inv in H as (i & raw0 & b0 & f & CK & Q & B & V & K & EI). injection Q as <-. injection B as <-.
  rewrite EI in I. pose proof (validated_good _ _ _ _ W V) as G.
  rewrite <- (validate_false_cells _ _ _ _ W I V). unfold cells. rewrite (calc_input_index _ _ _ _ _ G K).
  assert (E : Frame.col col (ob_input ob) = Frame.col col f); [|rewrite E; reflexivity].
  apply calc_ok in K as [K _]. apply (f_equal fst) in K. cbn [fst] in K. rewrite K.
  assert (LC : length (Frame.col "close" f) = length (rows f) \/ ~ In "close" (required i)).
  { destruct (in_dec string_dec "close" (required i)); [left; apply len_col, G; auto|auto]. }
  destruct i; cbn [input_after]; auto; (apply col_add_other;
    [intros ->; cbn in I; intuition discriminate|rewrite len_ewm; destruct LC as [LC|LC]; [exact LC|exfalso; apply LC; cbn; tauto]|exact (good_wf _ _ G)]).
Qed.
Lemma check_error c e : (forall l s, c <> cVOSC l s) ->
  check c = Err e <-> first_fault (documented_params c) = Some e.
Proof.
  intro N. rewrite check_spec by auto. unfold outcome. destruct (first_fault _); split; intro H; congruence.
Qed.
Lemma construct_bad_args o c v fill e : check c = Err e -> construct o c v fill = (v, Err e).
Proof. unfold construct. intros ->. reflexivity. Qed.
Lemma construct_bad_flag o c v fill i : check c = Ok i -> is_bool fill = false ->
  construct o c v fill = (v, Err (WrongType "fill_missing_values")).
Proof. unfold construct. intros ->. destruct fill; try reflexivity. discriminate. Qed.
Lemma construct_calc o c i raw b f : check c = Ok i -> snd (validate (RFrame raw) (required i) b) = Ok f ->
  snd (construct o c (RFrame raw) (VBool b)) = do it <- calc o i f; Ok (mkObj i (fst it) (snd it)).
Proof. intros CK V. unfold construct. rewrite CK. destruct (validate _ _ _) as [v' r]. cbn in *. rewrite V. reflexivity. Qed.
Lemma validated_len raw req b f : snd (validate (RFrame raw) req b) = Ok f -> length (rows f) = length (r_rows raw).
Proof.
  intro V. apply validated_index in V. apply Permutation_length in V. unfold dates in V. rewrite map_length in V.
  rewrite <- len_index. exact V.
Qed.
Lemma construct_not_enough o c i raw b f : check c = Ok i -> snd (validate (RFrame raw) (required i) b) = Ok f ->
  (length (r_rows raw) < min_rows i)%nat <->
  exists name shown, snd (construct o c (RFrame raw) (VBool b)) = Err (NotEnough name shown (length (r_rows raw))).
Proof.
  intros CK V. rewrite (construct_calc _ _ _ _ _ _ CK V). rewrite <- (validated_len _ _ _ _ V).
  rewrite (calc_error o i f); [|apply accepted_valid; exists c; auto|exact (validated_nonempty _ _ _ _ V)].
  split; intros (nm & sh & E); exists nm, sh.
  - rewrite E. reflexivity.
  - destruct (calc o i f); cbn in E; congruence.
Qed.
Lemma construct_completes o c i raw b f : check c = Ok i -> snd (validate (RFrame raw) (required i) b) = Ok f ->
  (min_rows i <= length (r_rows raw))%nat ->
  exists ob, snd (construct o c (RFrame raw) (VBool b)) = Ok ob.
Proof.
  intros CK V L. rewrite (construct_calc _ _ _ _ _ _ CK V).
  destruct (calc_fine o i f) as (inp & ti & E).
  - apply accepted_valid; exists c; auto.
  - exact (validated_nonempty _ _ _ _ V).
  - rewrite (validated_len _ _ _ _ V). auto.
  - rewrite E. cbn. eauto.
Qed.
Lemma validate_no_notenough v req b name shown got : snd (validate v req b) <> Err (NotEnough name shown got).
Proof.
  destruct v as [raw|]; [|cbn; discriminate]. unfold validate. destruct (r_datetime raw); [|cbn; discriminate].
  cbn [negb]. destruct (_ || _); [cbn; discriminate|]. destruct (lower_labels _) as [l|]; [|cbn; discriminate]. cbn [snd].
  assert (A : forall req, check_required req l (r_numeric raw) <> Err (NotEnough name shown got)).
  { induction req0 as [|x q IH]; cbn [check_required]; [discriminate|].
    destruct (position x l); [|discriminate]. destruct (Nat.leb _ _); [discriminate|]. destruct (nth _ _ _); [apply IH|discriminate]. }
  assert (B : forall todo dropped, check_drops req todo dropped <> Err (NotEnough name shown got)).
  { induction todo as [|x q IH]; intro dr; cbn [check_drops]; [discriminate|].
    destruct (mem x req); auto. destruct (mem x dr); [discriminate|auto]. }
  specialize (A req). specialize (B l []). destruct (check_required _ _ _); cbn [bind]; [|intro E; congruence].
  destruct (check_drops _ _ _); cbn [bind]; [discriminate|intro E; congruence].
Qed.
Lemma construct_shown o c i raw b name shown got : check c = Ok i -> i <> iATR ->
  snd (construct o c (RFrame raw) (VBool b)) = Err (NotEnough name shown got) -> shown = min_rows i.
Proof.
  intros CK N H. unfold construct in H. rewrite CK in H.
  pose proof (validate_no_notenough (RFrame raw) (required i) b name shown got) as NV.
  destruct (validate _ _ _) as [v' r]. cbn [snd] in *. destruct r as [f|e]; cbn [bind] in H; [|congruence].
  eapply calc_shown with (o := o) (f := f) (name := name) (got := got); auto.
  - apply accepted_valid. exists c; auto.
  - destruct (calc o i f); cbn in H; congruence.
Qed.
Lemma construct_data_shape o c raw b ob : wf_raw raw -> snd (construct o c (RFrame raw) (VBool b)) = Ok ob ->
  cols (get_ti_data ob) = documented_columns (ob_ind ob) /\
  (forall r, In r (rows (get_ti_data ob)) -> length (snd r) = length (documented_columns (ob_ind ob))) /\
  StronglySorted Z.le (index (get_ti_data ob)) /\
  (is_dpo (ob_ind ob) = false -> Permutation (index (get_ti_data ob)) (dates raw)) /\
  Permutation (index (ob_input ob)) (dates raw) /\
  (forall p, ob_ind ob = iDPO p ->
     index (get_ti_data ob) = firstn (length (dates raw) - S (p / 2)) (index (ob_input ob))).
Proof.
  intros W H. destruct (construct_shape _ _ _ _ _ W H) as (A & B & C & D & E & F).
  unfold get_ti_data. repeat split; auto.
  - intros r Hr. rewrite <- A. apply B; auto.
  - intros p Hp. destruct (E p Hp) as (k & E1 & ->). exact E1.
Qed.
Lemma construct_value o c raw b ob : wf_raw raw -> NoDup (dates raw) ->
  snd (construct o c (RFrame raw) (VBool b)) = Ok ob ->
  (forall t l, get_ti_value ob (DAt t) = TVRow l <-> In (t, l) (rows (get_ti_data ob))) /\
  (forall t, get_ti_value ob (DAt t) = TVNone <-> ~ In t (index (get_ti_data ob))) /\
  (forall t l, get_ti_value ob (DAt t) = TVRow l -> length l = length (documented_columns (ob_ind ob))).
Proof.
  intros W N H. destruct (construct_data_shape _ _ _ _ _ W H) as (A & B & C & D & E & F).
  assert (NI : NoDup (index (ob_ti ob))).
  { assert (NI : NoDup (index (ob_input ob))) by (apply (Permutation_NoDup (Permutation_sym E)); auto).
    destruct (is_dpo (ob_ind ob)) eqn:DP.
    - destruct (ob_ind ob) as [ | | | | | | |p| | | | | | | | | | | | | | | | | | | | | | | | | | | | | | | | | | | | | | | | | | | | | | | | | ] eqn:EI; try discriminate DP.
      unfold get_ti_data in F. rewrite (F p eq_refl).
      rewrite <- (firstn_skipn (length (dates raw) - S (p / 2)) (index (ob_input ob))) in NI.
      revert NI. generalize (skipn (length (dates raw) - S (p / 2)) (index (ob_input ob))). clear.
      generalize (firstn (length (dates raw) - S (p / 2)) (index (ob_input ob))).
      induction l as [|x l IH]; intros q NI; [constructor|]. inversion NI; subst. constructor; [|eauto].
      intro I. apply H1. apply in_or_app. auto.
    - apply (Permutation_NoDup (Permutation_sym (D eq_refl))); auto. }
  split; [intros; apply value_row; auto|]. split; [intros; apply value_none|].
  intros t l Hl. apply value_row in Hl; auto. apply (B _ Hl).
Qed.
Lemma construct_latest o c raw b ob : wf_raw raw -> snd (construct o c (RFrame raw) (VBool b)) = Ok ob ->
  (forall l, get_ti_value ob DNotGiven = TVRow l <->
     exists rs t, rows (get_ti_data ob) = (rs ++ [(t, l)])%list /\ forall d, In d (index (get_ti_data ob)) -> (d <= t)%Z) /\
  (get_ti_value ob DNotGiven = TVNone <-> rows (get_ti_data ob) = []) /\
  get_ti_value ob DBad = TVNone.
Proof.
  intros W H. destruct (construct_data_shape _ _ _ _ _ W H) as (_ & _ & S & _).
  split; [|split; [|reflexivity]].
  - intro l. split.
    + unfold get_ti_value, get_ti_data in *. destruct (rev (rows (ob_ti ob))) as [|r q] eqn:R; [discriminate|].
      intro E. injection E as <-. assert (RR : rows (ob_ti ob) = (rev q ++ [r])%list).
      { rewrite <- (rev_involutive (rows (ob_ti ob))), R. reflexivity. }
      exists (rev q), (fst r). split; [destruct r; exact RR|]. intros d Hd. unfold index in *. rewrite RR in *.
      rewrite map_app in *. cbn [map] in *. apply in_app_iff in Hd as [Hd|[<-|[]]]; [|lia].
      revert S Hd. match goal with |- context [In d ?m] => generalize m end. clear. intro m. induction m as [|x m IH]; intros S Hd; [destruct Hd|].
      inversion S; subst. destruct Hd as [<-|Hd]; [|apply IH; auto].
      rewrite Forall_forall in H2. apply H2. apply in_or_app. right. left. reflexivity.
    + intros (rs & t & E & _). apply (value_last ob rs (t, l) E).
  - symmetry. apply value_last_none.
Qed.
Lemma construct_signal o c raw b ob : wf_raw raw -> snd (construct o c (RFrame raw) (VBool b)) = Ok ob ->
  (forall r s, ob_ind ob <> iRI r s) -> (ob_ind ob = iMP 1 -> length (r_rows raw) <> 1%nat) ->
  exists s, get_ti_signal ob = Ok s.
Proof.
  intros W H N M. apply sound_signal; auto.
  - eapply construct_sound; eauto.
  - intro E. specialize (M E). destruct (construct_data_shape _ _ _ _ _ W H) as (_ & _ & _ & D & _).
    rewrite E in D. specialize (D eq_refl). apply Permutation_length in D. unfold get_ti_data, dates in D.
    rewrite len_index, map_length in D. intro Q. apply M. exact (eq_trans (eq_sym D) Q).
Qed.
Lemma construct_signal_limited o c raw b ob k : wf_raw raw -> snd (construct o c (RFrame raw) (VBool b)) = Ok ob ->
  sim_safe (ob_ind ob) = true -> exists s, get_ti_signal (limited k ob) = Ok s.
Proof. intros W H S. apply safe_limited; auto. eapply construct_sound; eauto. Qed.
Lemma construct_until_data o c raw b ob ob' t : wf_raw raw ->
  snd (construct o c (RFrame raw) (VBool b)) = Ok ob ->
  snd (construct o c (RFrame (until t raw)) (VBool b)) = Ok ob' ->
  looks_ahead (ob_ind ob) = false -> causal_hyp (ob_ind ob) b raw ->
  get_ti_data ob' = upto t (get_ti_data ob).
Proof. intros W H H' LA CH. apply (construct_until o c raw b ob ob' t W H H' LA CH). Qed.
Lemma construct_simulation_keeps o c raw b ob cv me fa : wf_raw raw -> snd (construct o c (RFrame raw) (VBool b)) = Ok ob ->
  sim_safe (ob_ind ob) = true -> fst (fst (get_ti_simulation ob cv me fa)) = ob.
Proof. intros W H S. apply simulation_keeps; auto. eapply construct_sound; eauto. Qed.
Lemma construct_simulation_rejected o c raw b ob cv me fa : wf_raw raw ->
  snd (construct o c (RFrame raw) (VBool b)) = Ok ob ->
  ~ (usable_close (index (ob_input ob)) cv /\ first_fault (sim_params me fa) = None) ->
  fst (fst (get_ti_simulation ob cv me fa)) = ob.
Proof.
  intros W H N. pose proof (construct_sound _ _ _ _ _ W H) as S.
  destruct (snd (sim_init (index (ob_input ob)) cv me fa)) as [st|e] eqn:I; [|eapply simulation_keeps_rejected; eauto].
  exfalso. apply N. assert (SI : StronglySorted Z.le (index (ob_input ob))) by apply S.
  apply sim_init_ok in I as (f & m & x & V & IX & M & X & _); auto. split.
  - apply usable_close_iff; eauto.
  - pose proof (args_checked me fa) as AC. rewrite M, X in AC. cbn [bind] in AC. destruct (first_fault _); [discriminate|reflexivity].
Qed.
Lemma construct_simulation_covers o c raw b ob cv me fa st stats : wf_raw raw ->
  snd (construct o c (RFrame raw) (VBool b)) = Ok ob -> is_dpo (ob_ind ob) = false ->
  snd (get_ti_simulation ob cv me fa) = Ok (st, stats) ->
  length (data st) = length (dates raw) /\
  forall k, (k < length (data st))%nat ->
    x_signal (nth k (data st) simrow0) <> None /\ x_action (nth k (data st) simrow0) <> None /\
    x_stock (nth k (data st) simrow0) = nth k (close st) NaN.
Proof.
  intros W H D HS. pose proof (construct_sound _ _ _ _ _ W H) as S.
  destruct (simulation_covers _ _ _ _ _ _ S D HS) as [A B]. split; auto. rewrite A.
  destruct (construct_data_shape _ _ _ _ _ W H) as (_ & _ & _ & _ & E & _). apply Permutation_length; auto.
Qed.
Lemma usable_close_perm a b cv : Permutation a b -> usable_close a cv <-> usable_close b cv.
Proof.
  intro P. split; intros (raw & -> & A & Q); exists raw; split; auto; split; auto.
  - rewrite Q. auto.
  - rewrite Q. symmetry. auto.
Qed.
Lemma construct_simulation_args o c raw b ob cv me fa : wf_raw raw -> snd (construct o c (RFrame raw) (VBool b)) = Ok ob ->
  sim_safe (ob_ind ob) = true ->
  (usable_close (dates raw) cv /\ first_fault (sim_params me fa) = None
     <-> exists r, snd (get_ti_simulation ob cv me fa) = Ok r) /\
  (~ usable_close (dates raw) cv -> snd (get_ti_simulation ob cv me fa) = Err (NotValidSim "close_values")) /\
  (usable_close (dates raw) cv -> forall e, first_fault (sim_params me fa) = Some e ->
     snd (get_ti_simulation ob cv me fa) = Err e).
Proof.
  intros W H SS. pose proof (construct_sound _ _ _ _ _ W H) as S.
  destruct (construct_data_shape _ _ _ _ _ W H) as (_ & _ & _ & _ & E & _).
  rewrite <- (usable_close_perm _ _ cv E). apply sim_args_outcome; auto.
Qed.
Lemma median_price_never_simulates o raw b ob cv me fa r : wf_raw raw -> NoDup (dates raw) ->
  snd (construct o (cMP (VInt 1)) (RFrame raw) (VBool b)) = Ok ob ->
  snd (get_ti_simulation ob cv me fa) <> Ok r.
Proof.
  intros W N H HS. destruct r as [st stats]. pose proof (construct_sound _ _ _ _ _ W H) as S.
  destruct (simulation_inv _ _ _ _ _ _ S HS) as (cc & m & x & sgs & _ & _ & L & _ & P).
  destruct (construct_data_shape _ _ _ _ _ W H) as (A & _ & SO & D & E & _).
  assert (EI : ob_ind ob = iMP 1) by (apply (construct_ind o (cMP (VInt 1)) (RFrame raw) (VBool b)); auto).
  rewrite EI in D, A. specialize (D eq_refl). unfold get_ti_data in *.
  assert (NE : (0 < length (rows (ob_ti ob)))%nat).
  { rewrite <- len_index, (Permutation_length D). unfold dates. rewrite map_length.
    apply construct_inv in H as (i & raw0 & b0 & f & CK & Q & B & V & K & _). injection Q as <-. injection B as <-.
    pose proof (validated_len _ _ _ _ V) as VL. pose proof (validated_nonempty _ _ _ _ V) as VN.
    refine (eq_ind _ (fun n => (0 < n)%nat) _ _ VL). destruct (rows f); [congruence|cbn; lia]. }
  assert (NI : NoDup (index (ob_ti ob))) by (apply (Permutation_NoDup (Permutation_sym D)); auto).
  specialize (P 0%nat ltac:(lia)). unfold get_ti_signal, limited in P. cbn [ob_ind ob_input ob_ti] in P. rewrite EI in P.
  assert (LI : index (ob_input ob) = index (ob_ti ob)).
  { symmetry. apply S. rewrite EI. intros q. discriminate. }
  rewrite LI in P. rewrite (upto_nth (ob_ti ob) 0) in P by auto.
  rewrite <- LI in P. rewrite (upto_nth (ob_input ob) 0) in P by (rewrite ?LI; auto; rewrite <- len_index, LI, len_index; auto).
  cbn [signal_of] in P. unfold guard in P. rewrite len_rows_fprefix, Nat.min_l in P by lia.
  change (Nat.ltb 1 1) with false in P. cbv iota in P. unfold line_cross in P.
  assert (L1 : length (col "close_ema" (fprefix 1 (ob_input ob))) = 1%nat).
  { rewrite col_fprefix, firstn_length. rewrite len_col.
    - rewrite <- len_index, LI, len_index. lia.
    - apply S in EI. exact EI. }
  destruct (col "close_ema" (fprefix 1 (ob_input ob))) as [|y [|z q]]; try discriminate L1. cbn in P. discriminate P.
Qed.

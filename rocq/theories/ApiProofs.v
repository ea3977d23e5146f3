From Coq Require Import ZArith QArith Qcanon Bool List String PeanoNat Lia Sorted Permutation.
From Verif Require Import Num NumFacts Pandas Sim SimSpec SimProofs SimLemmas Frame FrameSpec FrameProofs Ind Signal Api IndSpec SeriesFacts Causal IndFacts Shape ApiSpec.
Import ListNotations.
Open Scope list_scope. Open Scope string_scope.

(** ** what a constructed object is made of *)
Lemma construct_inv o c v fill ob : snd (construct o c v fill) = Ok ob ->
  exists i raw b f, check c = Ok i /\ v = RFrame raw /\ fill = VBool b /\
    snd (validate v (required i) b) = Ok f /\ calc o i f = Ok (ob_input ob, ob_ti ob) /\ ob_ind ob = i.
Proof.
  unfold construct. destruct (check c) as [i|e]; [|discriminate].
  destruct fill as [ |b| | | | ]; try discriminate.
  destruct (validate v (required i) b) as [v' r] eqn:E. cbn [snd]. intro H.
  apply bind_ok in H as (f & -> & H). apply bind_ok in H as ([a t] & H1 & H). injection H as <-.
  destruct v as [raw|]; [|discriminate].
  exists i, raw, b, f. rewrite E. cbn [snd ob_input ob_ti ob_ind fst]. repeat split; auto.
Qed.
Lemma construct_ok o c i raw b f inp ti : check c = Ok i -> snd (validate (RFrame raw) (required i) b) = Ok f ->
  calc o i f = Ok (inp, ti) -> snd (construct o c (RFrame raw) (VBool b)) = Ok (mkObj i inp ti).
Proof.
  intros H V K. unfold construct. rewrite H. destruct (validate _ _ _) as [v' r]. cbn in V |- *. rewrite V. cbn [bind].
  rewrite K. reflexivity.
Qed.

Lemma validated_good raw i b f : wf_raw raw -> snd (validate (RFrame raw) (required i) b) = Ok f -> good_input i f.
Proof.
  intros W V. split; [|split].
  - intros c H. apply (validate_cols _ _ _ _ V). auto.
  - exact (validate_wf _ _ _ _ W V).
  - exact (validate_sorted _ _ _ _ V).
Qed.
Lemma validated_index raw req b f : snd (validate (RFrame raw) req b) = Ok f -> Permutation (index f) (dates raw).
Proof.
  intro V. apply validate_out in V. subst f. cbv zeta.
  assert (P : Permutation (index (sort_index (drop_cols req (str_labels raw) (r_rows raw)))) (dates raw)).
  { unfold index, dates. cbn. etransitivity; [apply Permutation_map, sort_rows_perm|]. rewrite map_map. reflexivity. }
  destruct b; [|exact P]. rewrite fill_missing_dates, sort_index_idem. exact P.
Qed.
Lemma validated_nonempty raw req b f : snd (validate (RFrame raw) req b) = Ok f -> rows f <> [].
Proof.
  intros V E. pose proof (validated_index _ _ _ _ V) as P. unfold index in P. rewrite E in P. cbn in P.
  apply Permutation_nil in P.
  assert (A : acceptable (RFrame raw) req) by (apply (validate_accepts _ _ b); eauto).
  destruct A as (f' & Q & _ & N & _). injection Q as <-. apply N. unfold dates in P. destruct (r_rows raw); [reflexivity|discriminate].
Qed.

Lemma ti_index_same i f : (forall p, i <> iDPO p) -> ti_index i f = index f.
Proof. intro N. destruct i; try reflexivity. exfalso; eapply N; reflexivity. Qed.
Lemma calc_index o i f inp ti : calc o i f = Ok (inp, ti) -> index ti = ti_index i f.
Proof. intro K. apply calc_ok in K as [Q _]. injection Q as -> ->. apply mk_ti_index. Qed.
Lemma calc_cols o i f inp ti : calc o i f = Ok (inp, ti) -> cols ti = ti_names i.
Proof. intro K. apply calc_ok in K as [Q _]. injection Q as -> ->. rewrite mk_ti_cols. apply ti_cols_names. Qed.
Lemma ti_names_documented i : ti_names i = documented_columns i.
Proof. destruct i; try reflexivity; [destruct t|destruct m]; reflexivity. Qed.

Lemma index_add_col name s f : (length (rows f) <= length s)%nat -> index (add_col name s f) = index f.
Proof.
  unfold index, add_col. cbn. rewrite map_map. cbn [fst]. revert s.
  induction (rows f) as [|r l IH]; intros [|x s] H; cbn in *; try reflexivity; try lia. f_equal. apply IH. lia.
Qed.
Lemma input_after_index i f : good_input i f -> index (input_after i f) = index f.
Proof.
  intros (R & W & S). destruct i; cbn [input_after]; try reflexivity; apply index_add_col; rewrite len_ewm, len_col by (apply R; cbn; tauto); lia.
Qed.
Lemma calc_input_index o i f inp ti : good_input i f -> calc o i f = Ok (inp, ti) -> index inp = index f.
Proof. intros G K. apply calc_ok in K as [Q _]. injection Q as -> ->. apply input_after_index; auto. Qed.
Lemma add_col_wf name s f : wf f -> wf (add_col name s f).
Proof.
  intros W r H. cbn in *. apply in_map_iff in H as ([x y] & <- & H). cbn. rewrite !app_length. f_equal.
  apply W. eapply in_combine_l; eauto.
Qed.
Lemma calc_input_wf o i f inp ti : good_input i f -> calc o i f = Ok (inp, ti) -> wf inp.
Proof.
  intros G K. apply calc_ok in K as [Q _]. injection Q as -> ->. pose proof (good_wf _ _ G).
  destruct i; cbn [input_after]; auto using add_col_wf.
Qed.
Lemma calc_input_cols o i f inp ti c : calc o i f = Ok (inp, ti) -> In c (cols f) -> In c (cols inp).
Proof.
  intros K. apply calc_ok in K as [Q _]. injection Q as -> ->.
  destruct i; cbn [input_after add_col cols]; auto; intro; apply in_or_app; auto.
Qed.
Lemma min_rows_needs i : (1 <= min_rows i)%nat -> match needs i with Some (_, _, k) => k = min_rows i | None => min_rows i = 1%nat end.
Proof. destruct i; cbn; auto. destruct t; auto. Qed.

(** C09 *)
Lemma valid_min i : valid i -> (1 <= min_rows i)%nat.
Proof. destruct i; cbn; try lia. destruct t; intros; lia. Qed.
Lemma calc_error o i f : valid i -> rows f <> [] ->
  (length (rows f) < min_rows i)%nat <-> exists name shown, calc o i f = Err (NotEnough name shown (length (rows f))).
Proof.
  intros V N. pose proof (min_rows_needs i (valid_min i V)) as M. unfold calc.
  assert (P : (1 <= length (rows f))%nat) by (destruct (rows f); [congruence|cbn; lia]).
  destruct (needs i) as [[[nm sh] k]|].
  - subst k. destruct (Nat.ltb_spec (length (rows f)) (min_rows i)); cbn; split; try lia; try discriminate; eauto.
    intros (? & ? & H'). discriminate.
  - rewrite M. split; [lia|]. intros (? & ? & H). discriminate.
Qed.
Lemma calc_fine o i f : valid i -> rows f <> [] -> (min_rows i <= length (rows f))%nat ->
  exists inp ti, calc o i f = Ok (inp, ti).
Proof.
  intros V N L. pose proof (min_rows_needs i (valid_min i V)) as M. unfold calc.
  destruct (needs i) as [[[nm sh] k]|].
  - subst k. destruct (Nat.ltb_spec (length (rows f)) (min_rows i)); [lia|]. cbn. eauto.
  - cbn. eauto.
Qed.
Lemma calc_shown o i f name shown got : valid i -> i <> iATR -> calc o i f = Err (NotEnough name shown got) -> shown = min_rows i.
Proof.
  intros V N. pose proof (min_rows_needs i (valid_min i V)) as M. unfold calc.
  assert (S : forall nm sh k, needs i = Some (nm, sh, k) -> sh = k).
  { intros nm sh k. destruct i; cbn; intro H; try discriminate H; try (injection H as _ <- <-; reflexivity).
    - congruence.
    - destruct t; injection H as _ <- <-; reflexivity. }
  destruct (needs i) as [[[nm sh] k]|]; [|discriminate].
  destruct (Nat.ltb _ _); [|discriminate]. cbn. intro H. injection H as <- <- <-. rewrite <- M. eapply S; eauto.
Qed.
(** ** the data as known on day t *)
Lemma insert_filter (p : Z -> bool) r l : StronglySorted row_le l ->
  filter (fun x => p (fst x)) (insert r l)
  = if p (fst r) then insert r (filter (fun x => p (fst x)) l) else filter (fun x => p (fst x)) l.
Proof.
  induction 1 as [|x l S IH F].
  - cbn. destruct (p (fst r)); reflexivity.
  - cbn [insert]. destruct (Z.leb (fst r) (fst x)) eqn:E.
    + cbn [filter]. destruct (p (fst r)) eqn:P; [|reflexivity].
      destruct (p (fst x)) eqn:Q; cbn [insert]; [rewrite E; reflexivity|].
      assert (A : forall y, In y (filter (fun x => p (fst x)) l) -> Z.leb (fst r) (fst y) = true).
      { intros y Hy. apply filter_In in Hy as [Hy _]. rewrite Forall_forall in F. apply F in Hy. unfold row_le in Hy.
        apply Z.leb_le in E. apply Z.leb_le. lia. }
      destruct (filter (fun x => p (fst x)) l) as [|y t]; [reflexivity|]. cbn [insert]. rewrite A by (left; auto). reflexivity.
    + cbn [filter]. destruct (p (fst x)) eqn:Q; rewrite IH; destruct (p (fst r)); cbn [insert]; rewrite ?E; reflexivity.
Qed.
Lemma sort_filter (p : Z -> bool) l : sort_rows (filter (fun x => p (fst x)) l) = filter (fun x => p (fst x)) (sort_rows l).
Proof.
  induction l as [|r l IH]; [reflexivity|]. cbn [filter sort_rows fold_right]. fold (sort_rows l).
  rewrite insert_filter by apply sort_rows_sorted. destruct (p (fst r)); cbn [sort_rows fold_right]; fold (sort_rows (filter (fun x => p (fst x)) l)); rewrite IH; reflexivity.
Qed.
Lemma filter_map_fst (p : Z -> bool) (g : row -> row) l : (forall r, fst (g r) = fst r) ->
  filter (fun x => p (fst x)) (map g l) = map g (filter (fun x => p (fst x)) l).
Proof. intro H. induction l as [|r l IH]; [reflexivity|]. cbn. rewrite H. destruct (p (fst r)); cbn; rewrite IH; reflexivity. Qed.

Lemma fill_prefix n f : wf f -> StronglySorted Z.le (index f) -> starts_complete f ->
  fill_missing (fprefix n f) = fprefix n (fill_missing f).
Proof.
  intros W S C. apply frame_ext.
  - apply fill_missing_wf, wf_fprefix, W.
  - apply wf_fprefix, fill_missing_wf, W.
  - reflexivity.
  - rewrite fill_missing_dates, index_fprefix, fill_missing_dates, !sort_index_id by auto using sorted_fprefix.
    apply index_fprefix.
  - intros k Hk. change (cols (fill_missing (fprefix n f))) with (cols f) in Hk.
    rewrite icol_fprefix, !fill_missing_icol, !sort_index_id by auto using sorted_fprefix, wf_fprefix.
    rewrite icol_fprefix, len_rows_fprefix.
    assert (L : length (icol k f) = length (rows f)) by apply len_icol.
    rewrite <- L, <- firstn_length. apply seq_map_firstn. intros i Hi Hl. cbn [Nat.add].
    apply nearest_firstn; auto.
    unfold icol, starts_complete in *. destruct (rows f) as [|r l] eqn:E; [cbn in Hl; lia|]. cbn [map nth].
    apply isnan_false, C, nth_In. rewrite (W r) by (rewrite E; left; auto). auto.
Qed.

Lemma upto_like t f g : StronglySorted Z.le (index f) -> index f = index g ->
  upto t g = fprefix (length (rows (upto t f))) g.
Proof.
  intros S E. rewrite (upto_prefix t g) by (rewrite <- E; auto). f_equal.
  assert (L : forall h, length (rows (upto t h)) = length (filter (fun d => Z.leb d t) (index h))).
  { intro h. cbn. unfold index. induction (rows h) as [|r l IH]; [reflexivity|]. cbn. destruct (Z.leb _ _); cbn; congruence. }
  rewrite !L, E. reflexivity.
Qed.
Lemma select_filter (p : string -> bool) l : select (map p l) l = filter p l.
Proof. induction l as [|x l IH]; [reflexivity|]. cbn. destruct (p x); cbn; congruence. Qed.
Lemma NoDup_count (l : list string) : (forall c, In c l -> (count_label c l <= 1)%nat) -> NoDup l.
Proof.
  unfold count_label. induction l as [|x l IH]; intro H; [constructor|]. constructor.
  - intro I. specialize (H x (or_introl eq_refl)). cbn in H. rewrite String.eqb_refl in H. cbn in H.
    assert (A : In x (filter (String.eqb x) l)) by (apply filter_In; split; [auto|apply String.eqb_refl]).
    destruct (filter (String.eqb x) l); [inversion A|cbn in H; lia].
  - apply IH. intros c Hc. specialize (H c (or_intror Hc)). cbn in H. destruct (String.eqb c x); cbn in H; lia.
Qed.
Lemma count_filter c (p : string -> bool) l : (count_label c (filter p l) <= count_label c l)%nat.
Proof.
  unfold count_label. induction l as [|x l IH]; [auto|]. cbn. destruct (p x); cbn; destruct (String.eqb c x); cbn; lia.
Qed.
Lemma validated_cols_nodup raw req b f : snd (validate (RFrame raw) req b) = Ok f -> NoDup (cols f).
Proof.
  intro V. assert (A : acceptable (RFrame raw) req) by (apply (validate_accepts _ _ b); eauto).
  destruct A as (raw' & Q & _ & _ & _ & AS & RO & ND). injection Q as <-.
  apply validate_out in V. cbv zeta in V.
  assert (E : cols f = filter (fun c => mem c req) (str_labels raw)).
  { subst f. destruct b; cbn [fill_missing sort_index drop_cols cols]; apply select_filter. }
  rewrite E. apply NoDup_count. intros c Hc. apply filter_In in Hc as [_ Hc]. apply mem_In in Hc.
  destruct (RO c Hc) as [Q _]. rewrite <- Q. apply count_filter.
Qed.
Lemma position_NoDup (l : list string) k : NoDup l -> (k < length l)%nat -> position (nth k l "") l = Some k.
Proof.
  intro N. revert k. induction N as [|x l Hx N IH]; intros k Hk; [cbn in Hk; lia|].
  destruct k as [|k]; cbn [nth position]; [rewrite String.eqb_refl; reflexivity|]. cbn in Hk.
  destruct (String.eqb_spec (nth k l "") x) as [E|E]; [exfalso; apply Hx; rewrite <- E; apply nth_In; lia|].
  rewrite IH by lia. reflexivity.
Qed.
Lemma starts_complete_false raw req f0 : wf_raw raw -> first_day_complete req raw ->
  snd (validate (RFrame raw) req false) = Ok f0 -> starts_complete f0.
Proof.
  intros W C VF.
  assert (S0 : StronglySorted Z.le (index f0)) by exact (validate_sorted _ _ _ _ VF).
  assert (W0 : wf f0) by exact (validate_wf _ _ _ _ W VF).
  unfold starts_complete. destruct (rows f0) as [|r l] eqn:ER; [exact I|]. intros x Hx.
    destruct (In_nth _ _ NaN Hx) as (k & Hk & Ex). rewrite (W0 r) in Hk by (rewrite ER; left; auto).
    set (cn := nth k (cols f0) "").
    assert (Hc : In cn (cols f0)) by (apply nth_In; auto).
    assert (Hr : In cn req) by (apply (validate_cols _ _ _ _ VF); auto).
    assert (P := validate_false_cells _ _ _ _ W Hr VF).
    assert (NDc : position cn (cols f0) = Some k) by (apply position_NoDup; [eapply validated_cols_nodup; eauto|auto]).
    apply (C cn (fst r) x Hr).
    - eapply Permutation_in; [exact P|]. unfold cells, col, index. rewrite NDc, ER. cbn. rewrite Ex. left. reflexivity.
    - intros d' Hd. pose proof (validated_index _ _ _ _ VF) as PI.
      apply Permutation_sym in PI. eapply Permutation_in in Hd; [|exact PI].
      unfold index in Hd, S0. rewrite ER in Hd, S0. cbn in Hd, S0. inversion S0; subst. destruct Hd as [<-|Hd]; [lia|].
      rewrite Forall_forall in H2. apply H2; auto.
Qed.
Lemma starts_complete_fill f : wf f -> StronglySorted Z.le (index f) -> starts_complete f -> starts_complete (fill_missing f).
Proof.
  intros W S C. unfold starts_complete. destruct (rows (fill_missing f)) as [|r l] eqn:E; [exact I|]. intros x Hx.
  pose proof (fill_missing_wf f W) as WF.
  destruct (In_nth _ _ NaN Hx) as (k & Hk & Ex). rewrite (WF r) in Hk by (rewrite E; left; auto).
  change (cols (fill_missing f)) with (cols f) in Hk.
  pose proof (fill_missing_icol f k W Hk) as IC. rewrite sort_index_id in IC by auto.
  unfold icol at 1 in IC. rewrite E in IC. cbn [map] in IC.
  unfold starts_complete in C. destruct (rows f) as [|r0 l0] eqn:E0; [discriminate|]. cbn [length seq map] in IC.
  apply (f_equal (hd NaN)) in IC. cbn [hd] in IC. rewrite Ex in IC. rewrite IC.
  unfold icol. rewrite E0. assert (N : nth k (snd r0) NaN <> NaN).
  { apply C, nth_In. rewrite (W r0) by (rewrite E0; left; auto). auto. }
  rewrite nearest_present; cbn [map nth]; auto using isnan_false. cbn; lia.
Qed.
Lemma starts_complete_validated raw req b f : wf_raw raw -> first_day_complete req raw ->
  snd (validate (RFrame raw) req b) = Ok f -> starts_complete f.
Proof.
  intros W C V. destruct b; [|eapply starts_complete_false; eauto].
  destruct (validate_fill_both _ _ _ V) as [f0 V0].
  apply validate_out in V. pose proof (validate_out _ _ _ _ V0) as E0. cbv zeta in V, E0. rewrite <- E0 in V. subst f.
  apply starts_complete_fill.
  - exact (validate_wf _ _ _ _ W V0).
  - exact (validate_sorted _ _ _ _ V0).
  - eapply starts_complete_false; eauto.
Qed.
Lemma validate_until raw req b f f' t : wf_raw raw ->
  (b = true -> first_day_complete req raw) ->
  snd (validate (RFrame raw) req b) = Ok f -> snd (validate (RFrame (until t raw)) req b) = Ok f' ->
  f' = upto t f.
Proof.
  intros W C V V'. 
  assert (VF : exists f0, snd (validate (RFrame raw) req false) = Ok f0)
    by (apply validate_accepts; apply (validate_accepts _ _ b); eauto).
  destruct VF as [f0 VF]. pose proof (validate_out _ _ _ _ VF) as E0. cbv zeta in E0.
  apply validate_out in V, V'. cbv zeta in V, V'.
  change (str_labels (until t raw)) with (str_labels raw) in V'.
  assert (U : sort_index (drop_cols req (str_labels raw) (r_rows (until t raw))) = upto t f0).
  { rewrite E0. unfold sort_index, drop_cols, upto, until. cbn [cols rows r_rows]. f_equal.
    rewrite <- (sort_filter (fun d => Z.leb d t)), (filter_map_fst (fun d => Z.leb d t)) by reflexivity. reflexivity. }
  rewrite U in V'. rewrite <- E0 in V. destruct b; [|subst; reflexivity].
  assert (S0 : StronglySorted Z.le (index f0)) by exact (validate_sorted _ _ _ _ VF).
  assert (W0 : wf f0) by exact (validate_wf _ _ _ _ W VF).
  assert (SC : starts_complete f0) by (eapply starts_complete_false; eauto).
  assert (E : upto t f0 = fprefix (length (rows (upto t f0))) f0) by (apply upto_prefix; auto).
  subst f f'. rewrite E, fill_prefix by auto. symmetry. apply upto_like; auto. rewrite fill_missing_dates, sort_index_id; auto.
Qed.

(** ** no look-ahead, for constructed objects *)

Lemma construct_until o c raw b ob ob' t : wf_raw raw ->
  snd (construct o c (RFrame raw) (VBool b)) = Ok ob ->
  snd (construct o c (RFrame (until t raw)) (VBool b)) = Ok ob' ->
  looks_ahead (ob_ind ob) = false -> causal_hyp (ob_ind ob) b raw ->
  ob_ind ob' = ob_ind ob /\ ob_input ob' = upto t (ob_input ob) /\ ob_ti ob' = upto t (ob_ti ob).
Proof.
  intros W H H' LA CH.
  apply construct_inv in H as (i & raw0 & b0 & f & CK & Q & B & V & K & EI). injection Q as <-. injection B as <-.
  apply construct_inv in H' as (i' & raw' & b' & f' & CK' & Q' & B' & V' & K' & EI'). injection Q' as <-. injection B' as <-.
  rewrite CK in CK'. injection CK' as <-. rewrite EI in *. split; [auto|].
  assert (G : good_input i f) by (eapply validated_good; eauto).
  assert (E : f' = upto t f) by (eapply validate_until; [exact W| |exact V|exact V']; intro; apply CH; auto).
  assert (S : StronglySorted Z.le (index f)) by apply G.
  set (n := length (rows (upto t f))).
  assert (E' : f' = fprefix n f) by (rewrite E; apply upto_prefix; auto).
  rewrite E' in K'.
  destruct (calc_prefix o i n f (ob_input ob) (ob_ti ob) (ob_input ob') (ob_ti ob')) as [A1 A2]; auto.
  - apply accepted_valid. exists c. auto.
  - eapply good_wf; eauto.
  - intro N. eapply starts_complete_validated; [exact W| |exact V]. apply CH; auto.
  - rewrite A1, A2. split; symmetry; apply upto_like; auto.
    + symmetry. eapply calc_input_index; eauto.
    + rewrite (calc_index _ _ _ _ _ K). symmetry. apply ti_index_same. intros p ->. discriminate.
Qed.

(** ** objects whose parts fit together *)
Definition sound (ob : obj) : Prop :=
  cols (ob_ti ob) = ti_names (ob_ind ob) /\
  (forall c, In c (required (ob_ind ob)) -> In c (cols (ob_input ob))) /\
  wf (ob_input ob) /\ StronglySorted Z.le (index (ob_input ob)) /\
  (ob_ind ob = iMI -> In "9_ema" (cols (ob_input ob))) /\
  (forall p, ob_ind ob = iMP p -> In "close_ema" (cols (ob_input ob))) /\
  ((forall p, ob_ind ob <> iDPO p) -> index (ob_ti ob) = index (ob_input ob)) /\
  valid (ob_ind ob).

Lemma construct_sound o c raw b ob : wf_raw raw -> snd (construct o c (RFrame raw) (VBool b)) = Ok ob -> sound ob.
Proof.
  intros W H. apply construct_inv in H as (i & raw0 & b0 & f & CK & Q & B & V & K & EI). injection Q as <-. injection B as <-.
  assert (G : good_input i f) by (eapply validated_good; eauto).
  unfold sound. rewrite EI. repeat split.
  - eapply calc_cols; eauto.
  - intros x Hx. eapply calc_input_cols; eauto. apply G; auto.
  - eapply calc_input_wf; eauto.
  - rewrite (calc_input_index _ _ _ _ _ G K). apply G.
  - intros ->. apply calc_ok in K as [Q _]. injection Q as -> _. cbn. apply in_or_app; cbn; auto.
  - intros p ->. apply calc_ok in K as [Q _]. injection Q as -> _. cbn. apply in_or_app; cbn; auto.
  - intro N. rewrite (calc_input_index _ _ _ _ _ G K), (calc_index _ _ _ _ _ K). apply ti_index_same; auto.
  - apply accepted_valid. exists c; auto.
Qed.
Lemma index_upto t f : index (upto t f) = filter (fun d => Z.leb d t) (index f).
Proof. unfold index. cbn. induction (rows f) as [|r l IH]; [reflexivity|]. cbn. destruct (Z.leb _ _); cbn; congruence. Qed.
Lemma SS_filter (l : list Z) (p : Z -> bool) : StronglySorted Z.le l -> StronglySorted Z.le (filter p l).
Proof.
  induction 1 as [|x l S IH F]; [constructor|]. cbn. destruct (p x); auto. constructor; auto.
  rewrite Forall_forall in *. intros y Hy. apply filter_In in Hy as [Hy _]. auto.
Qed.
Definition trunc (t : Z) (ob : obj) : obj := mkObj (ob_ind ob) (upto t (ob_input ob)) (upto t (ob_ti ob)).
Lemma trunc_sound t ob : sound ob -> sound (trunc t ob).
Proof.
  intros (A & B & C & D & E & F & G & H). unfold sound, trunc. cbn [ob_ind ob_input ob_ti]. repeat split; auto.
  - intros r Hr. cbn in Hr. apply filter_In in Hr as [Hr _]. apply C; auto.
  - rewrite index_upto. apply SS_filter; auto.
  - intro N. rewrite !index_upto. f_equal. auto.
Qed.
Lemma limited_sound k ob : sound ob -> sound (limited k ob).
Proof.
  intros (A & B & C & D & E & F & G & H). unfold sound, limited. cbn [ob_ind ob_input ob_ti]. repeat split; auto.
  - intros r Hr. cbn in Hr. apply filter_In in Hr as [Hr _]. apply C; auto.
  - rewrite index_upto. apply SS_filter; auto.
  - intro N. rewrite !index_upto. rewrite G by auto. reflexivity.
Qed.
Lemma sound_signal ob : sound ob -> (forall r s, ob_ind ob <> iRI r s) ->
  (ob_ind ob = iMP 1 -> length (rows (ob_ti ob)) <> 1%nat) ->
  exists s, get_ti_signal ob = Ok s.
Proof.
  intros (A & B & C & D & E & F & G & H) N P. unfold get_ti_signal. apply signal_total; auto.
  intro M. rewrite <- !len_index. rewrite G by auto. reflexivity.
Qed.

(** ** strictly increasing dates *)
Lemma strict_upto (l : list Z) k : StronglySorted Z.le l -> NoDup l -> (k < length l)%nat ->
  filter (fun d => Z.leb d (nth k l 0%Z)) l = firstn (S k) l.
Proof.
  intros S N. revert k. induction S as [|x l S IH F]; intros k Hk; [cbn in Hk; lia|].
  inversion N; subst. rewrite Forall_forall in F. destruct k as [|k].
  - cbn [nth firstn filter]. rewrite Z.leb_refl. f_equal.
    assert (A : forall m, incl m l -> filter (fun d => Z.leb d x) m = []).
    { induction m as [|y m IHm]; [reflexivity|]. intros I. cbn. assert (Hy : In y l) by (apply I; left; auto).
      destruct (Z.leb_spec y x); [|apply IHm; intros z Hz; apply I; right; auto].
      pose proof (F y Hy). assert (y = x) by lia. subst. contradiction. }
    apply A. apply incl_refl.
  - cbn [nth filter]. cbn in Hk. assert (In (nth k l 0%Z) l) by (apply nth_In; lia).
    destruct (Z.leb_spec x (nth k l 0%Z)); [|pose proof (F _ H); lia]. rewrite IH by (auto; lia). reflexivity.
Qed.
Lemma upto_nth f k : StronglySorted Z.le (index f) -> NoDup (index f) -> (k < length (rows f))%nat ->
  upto (nth k (index f) 0%Z) f = fprefix (S k) f.
Proof.
  intros S N H. rewrite upto_prefix by auto. f_equal.
  rewrite <- len_index, index_upto, strict_upto by (auto; rewrite len_index; auto).
  rewrite firstn_length, len_index. lia.
Qed.
Lemma limited_trunc ob k : sound ob -> (forall p, ob_ind ob <> iDPO p) ->
  limited k ob = trunc (nth k (index (ob_ti ob)) 0%Z) ob.
Proof. intros (A & B & C & D & E & F & G & H) N. unfold limited, trunc. rewrite G by auto. reflexivity. Qed.

(** ** the loop of the simulation *)
Lemma rounds_ok full n : (forall k, exists s, get_ti_signal (limited k full) = Ok s) -> forall i cur st,
  exists sgs ob', rounds full i n cur st = (ob', Ok (run_rounds i sgs st)) /\ length sgs = n /\
    forall k, (k < n)%nat -> get_ti_signal (limited (i + k) full) = Ok (nth k sgs Hold).
Proof.
  intro H. induction n as [|n IH]; intros i cur st.
  - exists [], cur. repeat split; cbn; auto. intros; lia.
  - cbn [rounds]. destruct (H i) as [s Hs]. rewrite Hs.
    destruct (IH (S i) (limited i full) (run_round i s st)) as (sgs & ob' & E & L & P).
    exists (s :: sgs), ob'. split; [exact E|]. split; [cbn; auto|].
    intros [|k] Hk; [rewrite Nat.add_0_r; exact Hs|]. rewrite Nat.add_succ_r. apply P. lia.
Qed.
Lemma rounds_inv full n : forall i cur st ob' st', rounds full i n cur st = (ob', Ok st') ->
  exists sgs, st' = run_rounds i sgs st /\ length sgs = n /\
    forall k, (k < n)%nat -> get_ti_signal (limited (i + k) full) = Ok (nth k sgs Hold).
Proof.
  induction n as [|n IH]; intros i cur st ob' st' H; cbn [rounds] in H.
  - injection H as <- <-. exists []. repeat split; auto. intros; lia.
  - destruct (get_ti_signal (limited i full)) as [s|] eqn:Hs; [|discriminate].
    destruct (IH _ _ _ _ _ H) as (sgs & E & L & P). exists (s :: sgs). split; [exact E|]. split; [cbn; auto|].
    intros [|k] Hk; [rewrite Nat.add_0_r; exact Hs|]. rewrite Nat.add_succ_r. apply P. lia.
Qed.
Lemma rounds_err full n : forall i cur st ob' e, rounds full i n cur st = (ob', Err e) ->
  exists k, (i <= k < i + n)%nat /\ ob' = limited k full /\ get_ti_signal (limited k full) = Err e.
Proof.
  induction n as [|n IH]; intros i cur st ob' e H; cbn [rounds] in H; [discriminate|].
  destruct (get_ti_signal (limited i full)) as [s|e'] eqn:Hs.
  - destruct (IH _ _ _ _ _ H) as (k & L & P). exists k. split; [lia|auto].
  - injection H as <- <-. exists i. repeat split; auto; lia.
Qed.

(** ** simulation rows, for any prices *)
Definition row_of (sg : signal) (p : num) (r : simrow) : Prop :=
  x_signal r = Some sg /\ (exists a, x_action r = Some a) /\ x_stock r = p.
Lemma day_row m f P d p sg : exists r, snd (day m f P d p sg) = (d ++ [r])%list /\ row_of sg p r.
Proof.
  unfold row_of. destruct (nil_or d) as [->|N].
  - cbn. eexists. split; [reflexivity|]. cbn. eauto.
  - rewrite day_ne by auto. unfold day_next.
    destruct sg; [destruct (over_limit _ _)| |destruct (over_limit _ _)]; cbn; eexists; (split; [reflexivity|]); cbn; eauto.
Qed.
Lemma days_rows m f ds : Forall2 (fun x r => row_of (snd x) (fst x) r) ds (snd (SimProofs.days m f ds)).
Proof.
  induction ds as [|x ds IH] using rev_ind; [constructor|]. rewrite days_app. cbn [fold_left].
  destruct (day_row m f (fst (SimProofs.days m f ds)) (snd (SimProofs.days m f ds)) (fst x) (snd x)) as (r & -> & R).
  apply Forall2_app; auto.
Qed.
Lemma Forall2_nth {A B} (R : A -> B -> Prop) a b i x y : Forall2 R a b -> (i < length a)%nat -> R (nth i a x) (nth i b y).
Proof. intro H. revert i. induction H; intros [|i] Hi; cbn in *; try lia; auto. apply IHForall2. lia. Qed.
Lemma simulate_rows c m f sgs i : (length sgs <= length c)%nat -> (i < length sgs)%nat ->
  row_of (nth i sgs Hold) (nth i c NaN) (nth i (data (simulate c m f sgs)) simrow0).
Proof.
  intros L H. rewrite simulate_general by auto.
  assert (LC : length (combine (firstn (length sgs) c) sgs) = length sgs) by (rewrite combine_length, firstn_length; lia).
  rewrite app_nth1 by (rewrite days_length, LC; auto).
  pose proof (Forall2_nth _ _ _ i (NaN, Hold) simrow0 (days_rows m f (combine (firstn (length sgs) c) sgs))) as Q.
  rewrite combine_nth in Q by (rewrite firstn_length; lia). cbn [fst snd] in Q.
  rewrite firstn_nth_lt in Q by auto. apply Q. rewrite LC. auto.
Qed.
Lemma simulate_len c m f sgs : (length sgs <= length c)%nat -> length (data (simulate c m f sgs)) = length c.
Proof.
  intro L. rewrite simulate_general by auto. rewrite app_length, days_length, combine_length, firstn_length, repeat_length. lia.
Qed.

(** ** validation of the simulation arguments *)
Lemma zlist_eqb_eq a b : zlist_eqb a b = true <-> a = b.
Proof.
  revert b; induction a as [|x a IH]; intros [|y b]; cbn; try (split; [discriminate|discriminate]); try tauto.
  rewrite andb_true_iff, Z.eqb_eq, IH. split; [intros [-> ->]; auto|intro H; injection H; auto].
Qed.
Lemma sort_z_id l : StronglySorted Z.le l -> sort_z l = l.
Proof.
  intro S. unfold sort_z. rewrite sort_rows_le_sorted.
  - rewrite map_map. cbn. apply map_id.
  - rewrite map_map. cbn. rewrite map_id. auto.
Qed.
Lemma sim_init_ok idx cv me fa st : StronglySorted Z.le idx ->
  snd (sim_init idx cv me fa) = Ok st <->
  exists f m x, snd (validate cv ["close"] true) = Ok f /\ index f = idx /\
    check_max_exposure me = Ok m /\ check_factor fa = Ok x /\ st = sim_start (icol 0 f) m x.
Proof.
  intro S. unfold sim_init. destruct (validate cv ["close"] true) as [v' r] eqn:V. cbn [snd].
  destruct r as [f|e]; [|split; [discriminate|intros (?&?&?&Q&_); discriminate]].
  rewrite sort_z_id by auto. split.
  - intro H. destruct (zlist_eqb (index f) idx) eqn:Z; [|discriminate]. apply zlist_eqb_eq in Z. cbn [negb] in H.
    apply bind_ok in H as (m & M & H). apply bind_ok in H as (x & X & H). injection H as <-.
    exists f, m, x. repeat split; auto. unfold sim_start. rewrite len_icol, <- len_index, Z. reflexivity.
  - intros (f' & m & x & Q & I & M & X & ->). injection Q as <-. subst idx.
    assert (Z : zlist_eqb (index f) (index f) = true) by (apply zlist_eqb_eq; auto). rewrite Z. cbn [negb].
    rewrite M. cbn [bind]. rewrite X. cbn [bind]. unfold sim_start. rewrite len_icol, len_index. reflexivity.
Qed.

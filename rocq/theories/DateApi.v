(** * DateApi: constructed objects and simulations under renumbered dates. *)
From Coq Require Import ZArith QArith Qcanon Bool List String PeanoNat Lia.
From Verif Require Import Num Pandas Frame FrameSpec FrameProofs Sim Ind Signal Api IndSpec IndFacts ApiSpec ApiProofs DateSpec DateFacts.
Import ListNotations.
Open Scope list_scope.

Section Redated.
  Variables (to : Z -> Z) (ds : list Z).
  Hypothesis UP : keeps_order to ds.
  Let P (t : Z) := In t ds.
  Lemma raw_in raw : incl (dates raw) ds -> raw_ok P (RFrame raw).
  Proof. intro I. cbn. apply Forall_forall. intros r R. apply I. unfold dates. apply in_map, R. Qed.
  Lemma dated_in o c raw b ob : wf_raw raw -> incl (dates raw) ds -> snd (construct o c (RFrame raw) (VBool b)) = Ok ob ->
    dated P ob /\ (List.length (rows (ob_ti ob)) <= List.length (rows (ob_input ob)))%nat.
  Proof.
    intros W I H. apply construct_inv in H as (i & raw0 & b0 & f & CK & Q & B & V & K & EI). injection Q as <-. injection B as <-.
    assert (G : good_input i f) by (eapply validated_good; eauto). pose proof (proj2 (validate_re P to UP (RFrame raw) (required i) b (raw_in raw I)) f V) as GF.
    assert (LE : incl (ti_index i f) (index f) /\ (List.length (ti_index i f) <= List.length (index f))%nat).
    { unfold ti_index. destruct i; try (split; [apply incl_refl|apply le_n]). split; [|rewrite firstn_length; lia].
      intros x X. rewrite <- (firstn_skipn (List.length (rows f) - S (p / 2))). apply in_or_app. left. exact X. }
    pose proof (calc_index _ _ _ _ _ K) as T. pose proof (calc_input_index _ _ _ _ _ G K) as S. apply ok_fst in GF. rewrite Forall_forall in GF. fold (index f) in GF. split; [split|].
    - apply ok_fst. fold (index (ob_input ob)). rewrite S. apply Forall_forall. exact GF.
    - apply ok_fst. fold (index (ob_ti ob)). rewrite T. apply Forall_forall. intros x X. apply GF, LE, X.
    - rewrite <- !len_index, S, T. apply LE.
  Qed.
End Redated.

Theorem same_values to raw o c b ob : wf_raw raw -> keeps_order to (dates raw) -> snd (construct o c (RFrame raw) (VBool b)) = Ok ob ->
  exists ob', snd (construct o c (RFrame (redated to raw)) (VBool b)) = Ok ob' /\
    cols (get_ti_data ob') = cols (get_ti_data ob) /\ index (get_ti_data ob') = map to (index (get_ti_data ob)) /\ map snd (rows (get_ti_data ob')) = map snd (rows (get_ti_data ob)) /\
    get_ti_signal ob' = get_ti_signal ob /\ get_ti_value ob' DNotGiven = get_ti_value ob DNotGiven /\
    forall t, In t (dates raw) -> get_ti_value ob' (DAt (to t)) = get_ti_value ob (DAt t).
Proof.
  intros W U H. set (ds := dates raw) in *. destruct (dated_in to ds U o c raw b ob W (incl_refl _) H) as [D _].
  exists (re_obj to ob). split; [|split; [|split; [|split; [|split; [|split]]]]].
  - pose proof (construct_re (fun t => In t ds) to U o c (RFrame raw) (VBool b) (raw_in ds raw (incl_refl _))) as Q. cbn [re_raw] in Q. rewrite Q, H. reflexivity.
  - reflexivity.
  - apply index_re.
  - unfold get_ti_data, re_obj, re. cbn [ob_ti rows]. rewrite map_map. reflexivity.
  - unfold get_ti_signal. cbn [re_obj ob_ind ob_input ob_ti]. apply (signal_re (fun t => In t ds) to U), D.
  - apply last_value_re.
  - intros t T. apply (value_re (fun t => In t ds) to U); assumption.
Qed.
Theorem same_refusals to raw o c fill e : keeps_order to (dates raw) ->
  (snd (construct o c (RFrame (redated to raw)) fill) = Err e <-> snd (construct o c (RFrame raw) fill) = Err e).
Proof.
  intro U. pose proof (construct_re (fun t => In t (dates raw)) to U o c (RFrame raw) fill (raw_in (dates raw) raw (incl_refl _))) as Q. cbn [re_raw] in Q. rewrite Q.
  destruct (snd (construct o c (RFrame raw) fill)); cbn [okd]; split; congruence.
Qed.
Theorem same_simulation to raw cv o c b ob ob' m x : wf_raw raw -> keeps_order to (dates raw ++ dates cv) ->
  snd (construct o c (RFrame raw) (VBool b)) = Ok ob -> snd (construct o c (RFrame (redated to raw)) (VBool b)) = Ok ob' ->
  snd (get_ti_simulation ob' (RFrame (redated to cv)) m x) = snd (get_ti_simulation ob (RFrame cv) m x).
Proof.
  intros W U H H'. set (ds := dates raw ++ dates cv) in *. assert (I1 : incl (dates raw) ds) by (apply incl_appl, incl_refl). assert (I2 : incl (dates cv) ds) by (apply incl_appr, incl_refl).
  destruct (dated_in to ds U o c raw b ob W I1 H) as [D LE].
  pose proof (construct_re (fun t => In t ds) to U o c (RFrame raw) (VBool b) (raw_in ds raw I1)) as Q. cbn [re_raw] in Q. rewrite Q, H in H'. injection H' as <-.
  exact (simulation_re (fun t => In t ds) to U ob (RFrame cv) m x D LE (raw_in ds cv I2)).
Qed.

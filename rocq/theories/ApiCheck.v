From Coq Require Import ZArith QArith Qcanon Bool List String PeanoNat Lia Sorted.
From Verif Require Import Num NumFacts Pandas Sim Frame FrameSpec FrameProofs Ind Signal Api IndSpec SeriesFacts Causal IndFacts Shape ApiSpec.
Import ListNotations.
Open Scope list_scope. Open Scope string_scope.

Definition outcome {A} (l : list param) (x : A) : res A :=
  match first_fault l with Some e => Err e | None => Ok x end.
Lemma bind_outcome {A B} p (x : A) l (y : B) (f : A -> res B) :
  (p_type p = true -> p_range p = true -> f x = outcome l y) -> bind (outcome [p] x) f = outcome (p :: l) y.
Proof.
  intro H. unfold outcome. cbn [first_fault]. destruct (p_type p); [|reflexivity]. cbn [negb].
  destruct (p_range p); [|reflexivity]. cbn [negb bind]. rewrite H; reflexivity.
Qed.
Lemma int_above_spec low name v : int_above low name v = outcome [int_gt low name v] (nat_arg v).
Proof.
  unfold int_above, int_gt, nat_arg, outcome. destruct v as [z|[]| | | |]; cbn; try reflexivity; destruct (Z.ltb low _); reflexivity.
Qed.
Lemma check_std_spec s : check_std s = outcome [mkParam "std_number" (is_number s) (nltb (F 0) (as_number s))] (as_number s).
Proof. unfold check_std, outcome. destruct s as [z|[]| | | |]; cbn [number_of is_number as_number first_fault p_type p_range p_name negb num_of_bool];
  try reflexivity; destruct (nltb _ _); reflexivity. Qed.
Lemma check_shift_spec s : check_shift s
  = outcome [mkParam "shift" (is_float s) (nltb (F 0) (as_number s) && nltb (as_number s) (F 1))] (as_number s).
Proof.
  unfold check_shift, outcome, gt3, ngtb. destruct s; try reflexivity. cbn [is_float as_number first_fault p_type p_range p_name negb].
  destruct (nltb x (F 1)), (nltb (F 0) x); reflexivity.
Qed.
Lemma check_ma_period_spec p t : check_ma_period p t
  = outcome [int_gt (if String.eqb (as_str t) "time_series" then 1 else 0) "period" p] (nat_arg p).
Proof.
  unfold check_ma_period, outcome, int_gt, nat_arg.
  replace (match t with VStr s => s =? "time_series" | _ => false end) with (as_str t =? "time_series") by (destruct t; reflexivity).
  destruct p as [z|[]| | | |]; cbn [int_of is_int as_int first_fault p_type p_range p_name negb]; try reflexivity;
  destruct (as_str t =? "time_series"); cbn [andb negb]; try reflexivity.
  - destruct (Z.ltb_spec z 2), (Z.ltb_spec 1 z), (Z.ltb_spec 0 z); cbn; try reflexivity; lia.
  - destruct (Z.ltb_spec 0 z); reflexivity.
Qed.
Lemma check_ma_type_spec t : check_ma_type t
  = outcome [one_of ["simple"; "exponential"; "time_series"; "triangular"; "variable"] "ma_type" t]
      (if String.eqb (as_str t) "simple" then MSimple
       else if String.eqb (as_str t) "exponential" then MExponential
       else if String.eqb (as_str t) "time_series" then MTimeSeries
       else if String.eqb (as_str t) "triangular" then MTriangular else MVariable).
Proof.
  unfold check_ma_type, outcome, one_of, mem. destruct t; try reflexivity.
  cbn [as_str is_str existsb first_fault p_type p_range p_name negb].
  repeat (destruct (String.eqb s _); [reflexivity|]). reflexivity.
Qed.
Lemma check_mode_spec m : check_mode m
  = outcome [one_of ["LONG"; "SHORT"] "mode" m] (if String.eqb (as_str m) "LONG" then PLong else Ind.PShort).
Proof.
  unfold check_mode, outcome, one_of, mem. destruct m; try reflexivity.
  cbn [as_str is_str existsb first_fault p_type p_range p_name negb].
  repeat (destruct (String.eqb s _); [reflexivity|]). reflexivity.
Qed.
Lemma check_target_spec (b : bool) t : check_target (if b then PLong else Ind.PShort) t
  = outcome [mkParam "target" (is_number t) (if b then nleb (F 0) (as_number t) else nleb (as_number t) (F 0))] (as_number t).
Proof.
  unfold check_target, outcome, ngeb. destruct t as [z|[]| | | |], b; cbn [number_of is_number as_number first_fault p_type p_range p_name negb num_of_bool];
  try reflexivity; destruct (nleb _ _); reflexivity.
Qed.
Lemma check_slowing_spec s : check_slowing s
  = outcome [mkParam "k_slowing_periods" (is_int s) (Z.eqb (as_int s) 1 || Z.eqb (as_int s) 3)] (nat_arg s).
Proof.
  unfold check_slowing, outcome, nat_arg. destruct s as [z|[]| | | |]; cbn [int_of is_int as_int first_fault p_type p_range p_name negb]; try reflexivity.
  destruct (_ || _); reflexivity.
Qed.
Lemma check_d_method_spec m : check_d_method m
  = outcome [one_of ["simple"; "exponential"] "d_method" m] (if String.eqb (as_str m) "simple" then DSimple else DExponential).
Proof.
  unfold check_d_method, outcome, one_of, mem. destruct m; try reflexivity.
  cbn [as_str is_str existsb first_fault p_type p_range p_name negb].
  repeat (destruct (String.eqb s _); [reflexivity|]). reflexivity.
Qed.
Lemma leb_args l s : is_int l = true -> is_int s = true -> Z.ltb 0 (as_int l) = true -> Z.ltb 0 (as_int s) = true ->
  Nat.leb (nat_arg l) (nat_arg s) = negb (Z.ltb (as_int s) (as_int l)).
Proof.
  unfold nat_arg. intros _ _ A B. apply Z.ltb_lt in A, B.
  destruct (Nat.leb_spec (Z.to_nat (as_int l)) (Z.to_nat (as_int s))), (Z.ltb_spec (as_int s) (as_int l)); try reflexivity; lia.
Qed.
Lemma check_spec c : (forall l s, c <> cVOSC l s) -> check c = outcome (documented_params c) (asked c).
Proof.
  intro N. destruct c; cbn [check documented_params asked]; try reflexivity; unfold one, pos_period;
  try (exfalso; eapply N; reflexivity);
  rewrite ?int_above_spec, ?check_std_spec, ?check_shift_spec, ?check_ma_period_spec, ?check_ma_type_spec,
    ?check_mode_spec, ?check_slowing_spec, ?check_d_method_spec;
  repeat (rewrite check_target_spec || (apply bind_outcome; intros)); try reflexivity.
  rewrite leb_args by (auto; congruence). unfold outcome. cbn. destruct (Z.ltb _ _); reflexivity.
Qed.
Lemma check_vosc l s : check (cVOSC l s)
  = match first_fault [int_gt 0 "long_period" l; int_gt 0 "short_period" s] with
    | Some e => Err e
    | None => if Z.ltb (as_int s) (as_int l) then Ok (asked (cVOSC l s)) else Err (WrongValue "long_period ")
    end.
Proof.
  cbn [check asked]. rewrite !int_above_spec. unfold outcome. cbn [first_fault p_type p_range p_name int_gt].
  destruct (is_int l) eqn:A; [|reflexivity]. cbn [negb]. destruct (Z.ltb 0 (as_int l)) eqn:B; [|reflexivity]. cbn [negb bind].
  destruct (is_int s) eqn:C; [|reflexivity]. cbn [negb]. destruct (Z.ltb 0 (as_int s)) eqn:E; [|reflexivity]. cbn [negb bind].
  rewrite leb_args by auto. destruct (Z.ltb (as_int s) (as_int l)); reflexivity.
Qed.
Lemma fault_none l : first_fault l = None <-> (forall p, In p l -> p_type p = true /\ p_range p = true).
Proof.
  induction l as [|p l IH]; cbn; [split; [intros _ p []|reflexivity]|].
  destruct (p_type p) eqn:A, (p_range p) eqn:B; cbn.
  - rewrite IH. split; [intros H q [<-|Hq]; auto|auto].
  - split; [discriminate|]. intro H. destruct (H p (or_introl eq_refl)). congruence.
  - split; [discriminate|]. intro H. destruct (H p (or_introl eq_refl)). congruence.
  - split; [discriminate|]. intro H. destruct (H p (or_introl eq_refl)). congruence.
Qed.
Lemma check_accepts c : (exists i, check c = Ok i) <-> params_ok c.
Proof.
  unfold params_ok. rewrite <- fault_none.
  destruct c; try (rewrite check_spec by (intros; discriminate); unfold outcome; destruct (first_fault _); split; intro H; try discriminate; try (destruct H; discriminate); eauto; fail).
  rewrite check_vosc. cbn [documented_params first_fault p_type p_range p_name int_gt].
  destruct (is_int long_period); cbn [negb]; [|split; [intros [? H]|intro H]; discriminate H].
  destruct (Z.ltb 0 (as_int long_period)); cbn [negb]; [|split; [intros [? H]|intro H]; discriminate H].
  destruct (is_int short_period); cbn [negb]; [|split; [intros [? H]|intro H]; discriminate H].
  destruct (Z.ltb 0 (as_int short_period)); cbn [negb]; [|split; [intros [? H]|intro H]; discriminate H].
  destruct (Z.ltb _ _); cbn [negb]; [split; eauto|split; [intros [? H]|intro H]; discriminate H].
Qed.
Lemma check_asked c i : check c = Ok i -> i = asked c.
Proof.
  destruct c; try (rewrite check_spec by (intros; discriminate); unfold outcome; destruct (first_fault _); [discriminate|]; intro H; injection H as <-; reflexivity).
  rewrite check_vosc. destruct (first_fault _); [discriminate|]. destruct (Z.ltb _ _); [|discriminate]. intro H. injection H as <-. reflexivity.
Qed.

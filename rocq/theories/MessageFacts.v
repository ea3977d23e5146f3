(** * MessageFacts: the texts of the exceptions. *)
From Coq Require Import ZArith QArith Qcanon Bool String Ascii List PeanoNat Decimal DecimalString Lia Sorted Permutation.
From Verif Require Import Num NumFacts Pandas Frame FrameSpec FrameProofs Sim Ind Signal Api ApiSpec ApiCheck ApiProofs ApiLemmas DocSpec DocFacts Message MessageSpec.
Import ListNotations.
Open Scope string_scope.

Lemma app_nil s : s ++ "" = s.
Proof. induction s; simpl; congruence. Qed.
Lemma app_assoc_s a b c : (a ++ b) ++ c = a ++ b ++ c.
Proof. induction a; simpl; congruence. Qed.

(** ** characters *)
Fixpoint has (c : ascii) (s : string) : bool :=
  match s with EmptyString => false | String x r => Ascii.eqb x c || has c r end.
Lemma has_app c a b : has c (a ++ b) = has c a || has c b.
Proof. induction a as [|x a IH]; simpl; [reflexivity|]. rewrite IH, orb_assoc. reflexivity. Qed.
(** a text without the character before [s] and [String c r] does not reach over it *)
Lemma prefix_stops p s c r : has c p = false -> prefix p (s ++ String c r) = prefix p s.
Proof.
  revert s. induction p as [|x p IH]; intros s H; [destruct s; reflexivity|]. simpl in H. apply orb_false_iff in H as [H1 H2].
  destruct s as [|y s]; simpl.
  - destruct (ascii_dec x c) as [->|]; [rewrite Ascii.eqb_refl in H1; discriminate|reflexivity].
  - destruct (ascii_dec x y); [apply IH; auto|reflexivity].
Qed.
Lemma prefix_front p s : prefix p s = true -> exists b, s = p ++ b.
Proof.
  revert s. induction p as [|x p IH]; intros s H; [exists s; reflexivity|].
  destruct s as [|y s]; [discriminate|]. simpl in H. destruct (ascii_dec x y) as [->|]; [|discriminate].
  apply IH in H as [b ->]. exists b. reflexivity.
Qed.
Lemma occurs_cons p x s : occurs p s -> occurs p (String x s).
Proof. intros [a [b ->]]. exists (String x a), b. reflexivity. Qed.

(** replacing passes over a text in which the mark does not occur *)
Lemma replace_past old new s c r : has c old = false -> ~ occurs old s ->
  replace_from old new 0 (s ++ String c r) = s ++ replace_from old new 0 (String c r).
Proof.
  intros H. induction s as [|x s IH]; intro N; [reflexivity|].
  change (replace_from old new 0 (String x (s ++ String c r)) = String x (s ++ replace_from old new 0 (String c r))).
  cbn [replace_from]. change (String x (s ++ String c r)) with (String x s ++ String c r).
  rewrite prefix_stops by auto. destruct (prefix old (String x s)) eqn:P.
  - exfalso. apply N. apply prefix_front in P as [b ->]. exists "", b. reflexivity.
  - f_equal. apply IH. intro O. apply N, occurs_cons, O.
Qed.
Lemma replace_over c old new s t : (exists r, t = String c r) -> has c old = false -> ~ occurs old s ->
  replace_from old new 0 (s ++ t) = s ++ replace_from old new 0 t.
Proof. intros [r ->]. apply replace_past. Qed.
Lemma plain_no_mark s p : has "<" s = false -> ~ occurs (String "<" p) s.
Proof.
  intros H [a [b ->]]. rewrite has_app in H. apply orb_false_iff in H as [_ H]. simpl in H. discriminate.
Qed.

Lemma char_missing c p s : has c p = true -> has c s = false -> ~ occurs p s.
Proof. intros H S (a & b & ->). rewrite !has_app, H in S. destruct (has c a); discriminate S. Qed.
Lemma plain_unmarked s : has "_" s = false -> unmarked s.
Proof. intro H. split; apply (char_missing "_"); auto. Qed.

(** ** numbers are written with digits *)
Lemma digits_plain u : has "<" (NilEmpty.string_of_uint u) = false.
Proof. induction u; simpl; auto. Qed.
Lemma show_z_plain z : has "<" (show_z z) = false.
Proof. unfold show_z. destruct (Z.to_int z); simpl; apply digits_plain. Qed.

(** ** the templates, filled in *)
Lemma wrong_value_says v n s : unmarked v -> has "<" n = false ->
  wrong_value_text v n s = "Wrong value (" ++ v ++ ") for input parameter (" ++ n ++ "). Supported values are (" ++ s ++ ").".
Proof.
  intros [V1 V2] N. unfold wrong_value_text, replace.
  assert (E1 : replace_from "<p_value>" v 0 "Wrong value (<p_value>) for input parameter (<p_name>). Supported values are (<p_supported>)."
               = "Wrong value (" ++ v ++ ") for input parameter (<p_name>). Supported values are (<p_supported>).") by reflexivity.
  rewrite E1.
  assert (E2 : replace_from "<p_name>" n 0 ("Wrong value (" ++ v ++ ") for input parameter (<p_name>). Supported values are (<p_supported>).")
               = "Wrong value (" ++ v ++ ") for input parameter (" ++ n ++ "). Supported values are (<p_supported>).").
  { transitivity ("Wrong value (" ++ replace_from "<p_name>" n 0 (v ++ ") for input parameter (<p_name>). Supported values are (<p_supported>).")); [reflexivity|].
    rewrite (replace_over ")") by (try (eexists; reflexivity); auto). reflexivity. }
  rewrite E2.
  transitivity ("Wrong value (" ++ replace_from "<p_supported>" s 0 (v ++ ") for input parameter (" ++ n ++ "). Supported values are (<p_supported>).")); [reflexivity|].
  f_equal. rewrite (replace_over ")") by (try (eexists; reflexivity); auto). f_equal.
  transitivity (") for input parameter (" ++ replace_from "<p_supported>" s 0 (n ++ "). Supported values are (<p_supported>).")); [reflexivity|].
  f_equal. rewrite (replace_over ")") by (try (eexists; reflexivity); auto; apply plain_no_mark; solve [auto | apply show_z_plain]). reflexivity.
Qed.
Lemma wrong_type_says v n s : unmarked v -> has "<" n = false ->
  wrong_type_text v n s = "Wrong type (" ++ v ++ ") for input parameter (" ++ n ++ "). Supported type is (" ++ s ++ ").".
Proof.
  intros [V1 V2] N. unfold wrong_type_text, replace.
  assert (E1 : replace_from "<p_type>" v 0 "Wrong type (<p_type>) for input parameter (<p_name>). Supported type is (<p_supported>)."
               = "Wrong type (" ++ v ++ ") for input parameter (<p_name>). Supported type is (<p_supported>).") by reflexivity.
  rewrite E1.
  assert (E2 : replace_from "<p_name>" n 0 ("Wrong type (" ++ v ++ ") for input parameter (<p_name>). Supported type is (<p_supported>).")
               = "Wrong type (" ++ v ++ ") for input parameter (" ++ n ++ "). Supported type is (<p_supported>).").
  { transitivity ("Wrong type (" ++ replace_from "<p_name>" n 0 (v ++ ") for input parameter (<p_name>). Supported type is (<p_supported>).")); [reflexivity|].
    rewrite (replace_over ")") by (try (eexists; reflexivity); auto). reflexivity. }
  rewrite E2.
  transitivity ("Wrong type (" ++ replace_from "<p_supported>" s 0 (v ++ ") for input parameter (" ++ n ++ "). Supported type is (<p_supported>).")); [reflexivity|].
  f_equal. rewrite (replace_over ")") by (try (eexists; reflexivity); auto). f_equal.
  transitivity (") for input parameter (" ++ replace_from "<p_supported>" s 0 (n ++ "). Supported type is (<p_supported>).")); [reflexivity|].
  f_equal. rewrite (replace_over ")") by (try (eexists; reflexivity); auto; apply plain_no_mark; solve [auto | apply show_z_plain]). reflexivity.
Qed.
Lemma not_enough_says n r g : has "<" n = false ->
  not_enough_text n r g
  = "Not enough input data for calculating the " ++ n ++ " technical indicator. Minimum required data are ("
    ++ show_nat r ++ "), but (" ++ show_nat g ++ ") found.".
Proof.
  intro N. unfold not_enough_text, replace.
  set (a := "Not enough input data for calculating the "). set (b := " technical indicator. Minimum required data are (").
  assert (E1 : replace_from "<ti_name>" n 0 (a ++ "<ti_name>" ++ b ++ "<req_data_num>), but (<data_num>) found.")
               = a ++ n ++ b ++ "<req_data_num>), but (<data_num>) found.") by reflexivity.
  change "Not enough input data for calculating the <ti_name> technical indicator. Minimum required data are (<req_data_num>), but (<data_num>) found."
    with (a ++ "<ti_name>" ++ b ++ "<req_data_num>), but (<data_num>) found."). rewrite E1.
  assert (E2 : replace_from "<req_data_num>" (show_nat r) 0 (a ++ n ++ b ++ "<req_data_num>), but (<data_num>) found.")
               = a ++ n ++ b ++ show_nat r ++ "), but (<data_num>) found.").
  { transitivity (a ++ replace_from "<req_data_num>" (show_nat r) 0 (n ++ b ++ "<req_data_num>), but (<data_num>) found.")); [reflexivity|].
    f_equal. unfold b. rewrite (replace_over " ") by (try (eexists; reflexivity); auto; apply plain_no_mark; solve [auto | apply show_z_plain]). reflexivity. }
  rewrite E2.
  transitivity (a ++ replace_from "<data_num>" (show_nat g) 0 (n ++ b ++ show_nat r ++ "), but (<data_num>) found.")); [reflexivity|].
  f_equal. unfold b. rewrite (replace_over " ") by (try (eexists; reflexivity); auto; apply plain_no_mark; solve [auto | apply show_z_plain]). f_equal.
  transitivity (b ++ replace_from "<data_num>" (show_nat g) 0 (show_nat r ++ "), but (<data_num>) found.")); [reflexivity|].
  unfold b. f_equal. rewrite (replace_over ")") by (try (eexists; reflexivity); auto; apply plain_no_mark; solve [auto | apply show_z_plain]). reflexivity.
Qed.

(** ** the checks say what the rules say *)
Definition verdict (r : rule) : option complaint :=
  if ru_type_ok r then if ru_range_ok r then None else Some (SaysValue (ru_value r) (ru_name r) (ru_range r))
  else Some (SaysType (ru_value r) (ru_name r) (ru_types r)).
Fixpoint first_verdict (l : list rule) : option complaint :=
  match l with [] => None | r :: l => verdict r <|> first_verdict l end.
Lemma report_verdict T l : unmarked_values T l -> (forall r, In r l -> has "<" (ru_name r) = false) ->
  report T l = option_map (complaint_text T) (first_verdict l).
Proof.
  induction l as [|r l IH]; intros U N; [reflexivity|]. cbn [report first_verdict].
  assert (IH' : report T l = option_map (complaint_text T) (first_verdict l)).
  { apply IH; [intros q Q; apply U; right; auto|intros q Q; apply N; right; auto]. }
  destruct (U r (or_introl eq_refl)) as [U1 U2]. specialize (N r (or_introl eq_refl)).
  unfold verdict. destruct (ru_type_ok r); cbn [negb].
  - destruct (ru_range_ok r); cbn [negb orelse option_map complaint_text]; [exact IH'|].
    rewrite wrong_value_says by auto. reflexivity.
  - cbn [orelse option_map complaint_text]. rewrite wrong_type_says by auto. reflexivity.
Qed.
Lemma say_int_verdict low text name v : text = ">" ++ show_z low -> say_int low name v = verdict (int_over low text name v).
Proof. intros ->. unfold say_int, verdict, int_over. destruct v; reflexivity. Qed.
Lemma say_positive name v : say_int 0 name v = verdict (positive name v).
Proof. apply say_int_verdict. reflexivity. Qed.
Lemma say_over1 name v : say_int 1 name v = verdict (int_over 1 ">1" name v).
Proof. apply say_int_verdict. reflexivity. Qed.
Lemma say_std_verdict s : say_std s = verdict (mkRule "std_number" s (is_number s) "int or float" (nltb (F 0) (as_number s)) ">0").
Proof. unfold say_std, verdict. destruct s as [z|[]| | | |]; reflexivity. Qed.
Lemma say_ma_period_verdict p t : say_ma_period p t
  = verdict (if String.eqb (as_str t) "time_series" then int_over 1 ">1" "period" p else positive "period" p).
Proof.
  unfold say_ma_period.
  replace (match t with VStr s => s =? "time_series" | _ => false end) with (as_str t =? "time_series") by (destruct t; reflexivity).
  unfold verdict, positive, int_over.
  destruct (as_str t =? "time_series"); cbn [andb ru_type_ok ru_range_ok ru_value ru_name ru_types ru_range].
  - destruct p as [z|[]| | | |]; cbn [int_of is_int as_int]; try reflexivity.
    destruct (Z.ltb_spec z 2), (Z.ltb_spec 1 z), (Z.ltb_spec 0 z); try reflexivity; lia.
  - destruct p as [z|[]| | | |]; reflexivity.
Qed.
Lemma say_ma_type_verdict t : say_ma_type t
  = verdict (mkRule "ma_type" t (is_str t) "str" (mem (as_str t) ["simple"; "exponential"; "time_series"; "triangular"; "variable"])
         "'simple', 'exponential', 'time_series', 'triangular' or 'variable'").
Proof. destruct t; reflexivity. Qed.
Lemma say_mode_verdict m : say_mode m = verdict (mkRule "mode" m (is_str m) "str" (mem (as_str m) ["LONG"; "SHORT"]) "'LONG' or 'SHORT'").
Proof. destruct m; reflexivity. Qed.
Lemma say_target_verdict m t : say_mode m = None -> say_target m t
  = verdict (mkRule "target" t (is_number t) "int or float"
         (if String.eqb (as_str m) "LONG" then nleb (F 0) (as_number t) else nleb (as_number t) (F 0))
         ">=0 for mode 'LONG', <=0 for mode 'SHORT'").
Proof.
  unfold say_mode, mem. destruct m as [| | |s| |]; try discriminate. cbn [existsb]. unfold say_target, verdict, ngeb.
  cbn [as_str ru_type_ok ru_range_ok ru_value ru_name ru_types ru_range].
  destruct (String.eqb_spec s "LONG") as [->|].
  - intros _. cbn [String.eqb Ascii.eqb Bool.eqb andb orb]. destruct t as [z|[]| | | |]; cbn [number_of is_number as_number];
    try reflexivity; rewrite ?orb_false_r; reflexivity.
  - destruct (String.eqb_spec s "SHORT") as [->|]; [|discriminate]. intros _. cbn [andb orb].
    destruct t as [z|[]| | | |]; reflexivity.
Qed.
Lemma say_slowing_verdict s : say_slowing s
  = verdict (mkRule "k_slowing_periods" s (is_int s) "int" (Z.eqb (as_int s) 1 || Z.eqb (as_int s) 3) "1 or 3").
Proof. destruct s as [z|[]| | | |]; reflexivity. Qed.
Lemma say_d_method_verdict m : say_d_method m
  = verdict (mkRule "d_method" m (is_str m) "str" (mem (as_str m) ["simple"; "exponential"]) "'simple' or 'exponential'").
Proof. destruct m; reflexivity. Qed.
Lemma int_of_as v x : int_of v = Some x -> as_int v = x.
Proof. destruct v as [|[]| | | |]; cbn; congruence. Qed.
Lemma say_posc_verdict l s : say_int 0 "long_ma" l = None -> say_int 0 "short_ma" s = None ->
  say_posc l s = verdict (mkRule "short_ma" s true "int" (Z.ltb (as_int s) (as_int l)) "long_ma > short_ma").
Proof.
  unfold say_int, say_posc, verdict. cbn [ru_type_ok ru_range_ok ru_value ru_name ru_types ru_range].
  intros A B. destruct (int_of l) as [x|] eqn:X; [|discriminate]. destruct (int_of s) as [y|] eqn:Y; [|discriminate].
  rewrite (int_of_as _ _ X).
  rewrite (int_of_as _ _ Y).
  destruct (Z.leb_spec x y), (Z.ltb_spec y x); try reflexivity; lia.
Qed.
Lemma orelse_none {A} (a : option A) : (a <|> None) = a.
Proof. destruct a; reflexivity. Qed.
Lemma orelse_ext {A} (a b c : option A) : (a = None -> b = c) -> (a <|> b) = (a <|> c).
Proof. destruct a; cbn; auto. Qed.
Lemma positive_wrong name v : is_int v && Z.ltb 0 (as_int v) = false -> exists w, verdict (positive name v) = Some w.
Proof.
  unfold verdict, positive, int_over. cbn. destruct (is_int v); cbn; [intros ->|]; eauto.
Qed.
Lemma says_verdict T c : misreported c = false -> says T c = first_verdict (rules T c).
Proof.
  destruct c; cbn [says rules first_verdict misreported]; unfold say_period;
  rewrite ?say_positive, ?say_over1, ?say_std_verdict, ?say_ma_period_verdict, ?say_ma_type_verdict, ?say_mode_verdict,
    ?say_slowing_verdict, ?say_d_method_verdict, ?orelse_none; try reflexivity; intro M.
  - apply (positive_wrong "period") in M as [w ->]. reflexivity.
  - apply orelse_ext. intro N. rewrite say_target_verdict by (rewrite say_mode_verdict; auto). reflexivity.
  - apply orelse_ext. intro A. apply orelse_ext. intro B. rewrite say_posc_verdict by (rewrite say_positive; auto). reflexivity.
  - apply andb_false_iff in M as [M|M].
    + apply (positive_wrong "long_period") in M as [w ->]. reflexivity.
    + apply (positive_wrong "short_period") in M as [w ->]. destruct (verdict _); reflexivity.
Qed.
Lemma rule_names T c r : In r (rules T c) -> has "<" (ru_name r) = false.
Proof.
  destruct c; cbn [rules In]; try tauto; intros H;
  repeat (destruct H as [H|H]; [subst r; try reflexivity; destruct (String.eqb _ _); reflexivity|]); destruct H.
Qed.
Lemma parameters_report T o c v fill s : unmarked_values T (rules T c) -> misreported c = false ->
  report T (rules T c) = Some s -> construct_text T o c v fill = Some s.
Proof.
  intros U M R. rewrite (report_verdict T (rules T c) U (rule_names T c)) in R. unfold construct_text.
  rewrite (says_verdict T c M). destruct (first_verdict (rules T c)); [|discriminate]. cbn in *. congruence.
Qed.

(** ** the rules are the documented parameters *)
Definition as_param (r : rule) : param := mkParam (ru_name r) (ru_type_ok r) (ru_range_ok r).
Lemma rules_params T c : map as_param (rules T c) = documented_params c.
Proof.
  destruct c; try reflexivity. cbn [rules map documented_params].
  destruct (String.eqb _ _); reflexivity.
Qed.
Lemma report_first_fault T l : report T l = None <-> first_fault (map as_param l) = None.
Proof.
  induction l as [|r l IH]; [cbn; tauto|]. cbn [report map first_fault as_param p_type p_range p_name].
  destruct (ru_type_ok r); cbn [negb]; [|split; discriminate]. destruct (ru_range_ok r); cbn [negb]; [exact IH|split; discriminate].
Qed.
Lemma report_none T c : report T (rules T c) = None <-> params_ok c.
Proof. rewrite report_first_fault, rules_params. apply fault_none. Qed.
Lemma verdict_none l : first_verdict l = None <-> first_fault (map as_param l) = None.
Proof.
  induction l as [|r l IH]; [cbn; tauto|]. cbn [first_verdict map first_fault as_param p_type p_range p_name]. unfold verdict.
  destruct (ru_type_ok r); cbn [negb orelse]; [|split; discriminate]. destruct (ru_range_ok r); cbn [negb orelse]; [exact IH|split; discriminate].
Qed.
Lemma say_shift_none p s : say_shift p s = None <->
  verdict (mkRule "shift" s (is_float s) "float" (nltb (F 0) (as_number s) && nltb (as_number s) (F 1)) ">0.0 and <1.0") = None.
Proof.
  unfold say_shift, verdict, gt3, ngtb. cbn [ru_type_ok ru_range_ok ru_value ru_name ru_types ru_range].
  destruct s; cbn [is_float as_number]; try (split; discriminate).
  destruct (nltb x (F 1)), (nltb (F 0) x); cbn [andb]; split; intro H; try discriminate H; reflexivity.
Qed.
Lemma say_vosc_none T l s : say_int 0 "long_period" l = None -> say_int 0 "short_period" s = None ->
  say_vosc T l s = if Z.ltb (as_int s) (as_int l) then None
                   else Some (SaysValue l "long_period " ("> short_period [" ++ py_str T s ++ "]")).
Proof.
  unfold say_int, say_vosc. intros A B. destruct (int_of l) as [x|] eqn:X; [|discriminate]. destruct (int_of s) as [y|] eqn:Y; [|discriminate].
  rewrite (int_of_as _ _ X).
  rewrite (int_of_as _ _ Y).
  destruct (Z.leb_spec x y), (Z.ltb_spec y x); try reflexivity; lia.
Qed.
Lemma orelse_is_none {A} (a b : option A) : (a <|> b) = None <-> a = None /\ b = None.
Proof. destruct a; cbn; split; [discriminate|intros [H _]; exact H|auto|tauto]. Qed.
Lemma says_none T c : says T c = None <-> params_ok c.
Proof.
  assert (E : says T c = None <-> first_verdict (rules T c) = None).
  { destruct c; try (rewrite says_verdict by reflexivity; tauto).
    - cbn [says rules first_verdict]. unfold say_period. rewrite say_positive, !orelse_is_none, say_shift_none. tauto.
    - match goal with |- says T (cVOSC ?a ?b) = None <-> _ => generalize a, b end. intros l s.
      cbn [says rules first_verdict]. rewrite !orelse_is_none.
      destruct (say_int 0 "long_period" l) eqn:A; [rewrite say_positive in A; rewrite A; split; intros [H _]; discriminate|].
      destruct (say_int 0 "short_period" s) eqn:B; [rewrite say_positive in B; rewrite B; split; intros [_ [H _]]; discriminate|].
      rewrite (say_vosc_none T l s A B). rewrite say_positive in A, B. rewrite A, B. unfold verdict.
      cbn [ru_type_ok ru_range_ok]. destruct (Z.ltb _ _); [tauto|]. split; intros (_ & _ & H); [discriminate H|destruct H as [H _]; discriminate H]. }
  rewrite E, verdict_none, rules_params. apply fault_none.
Qed.
Lemma params_check c : params_ok c -> check c = Ok (asked c).
Proof. intro P. apply check_accepts in P as [i H]. rewrite H. rewrite (check_asked _ _ H). reflexivity. Qed.
Lemma text_when_ok T o c v fill : params_ok c ->
  construct_text T o c v fill
  = match fill with
    | VBool b =>
        match snd (validate v (required (asked c)) b) with
        | Err _ => validate_text T (class_name (asked c)) v (required (asked c))
        | Ok f => match calc o (asked c) f with
                  | Err (NotEnough name shown got) => Some (not_enough_text name shown got)
                  | _ => None
                  end
        end
    | _ => Some (wrong_type_text (py_type T fill) "fill_missing_values" "bool")
    end.
Proof. intro P. unfold construct_text. rewrite (proj2 (says_none T c) P), (params_check c P). reflexivity. Qed.
Lemma flag_report T o c v fill : params_ok c -> is_bool fill = false -> unmarked (py_type T fill) ->
  construct_text T o c v fill
  = Some ("Wrong type (" ++ py_type T fill ++ ") for input parameter (fill_missing_values). Supported type is (bool).").
Proof.
  intros P B U. rewrite text_when_ok by auto. destruct fill; try discriminate; rewrite wrong_type_says by auto; reflexivity.
Qed.

(** ** too few rows *)
Lemma needs_titles i name shown n : needs i = Some (name, shown, n) -> titles i name /\ has "<" name = false.
Proof.
  unfold titles. destruct i; cbn [needs]; try discriminate; try destruct t; intro H; injection H as <- <- <-; split; vm_compute; reflexivity.
Qed.
Lemma fault_no_notenough l name shown got : first_fault l <> Some (NotEnough name shown got).
Proof.
  induction l as [|q l IH]; cbn [first_fault]; [discriminate|].
  destruct (p_type q); cbn [negb]; [|discriminate]. destruct (p_range q); cbn [negb]; [exact IH|discriminate].
Qed.
Lemma check_no_notenough c name shown got : check c <> Err (NotEnough name shown got).
Proof.
  destruct c as [] eqn:C; try (rewrite check_spec by discriminate; unfold outcome;
    match goal with |- context [first_fault ?l] => pose proof (fault_no_notenough l name shown got); destruct (first_fault l) end; congruence).
  rewrite check_vosc. match goal with |- context [first_fault ?l] => pose proof (fault_no_notenough l name shown got); destruct (first_fault l) end;
  [congruence|]. destruct (Z.ltb _ _); discriminate.
Qed.
Lemma rows_report T o c raw b name shown got :
  snd (construct o c (RFrame raw) (VBool b)) = Err (NotEnough name shown got) ->
  construct_text T o c (RFrame raw) (VBool b)
  = Some ("Not enough input data for calculating the " ++ name ++ " technical indicator. Minimum required data are ("
          ++ show_nat shown ++ "), but (" ++ show_nat got ++ ") found.")
  /\ titles (asked c) name /\ got = List.length (r_rows raw) /\ (asked c <> iATR -> shown = min_rows (asked c)).
Proof.
  intro H. assert (P : params_ok c).
  { apply check_accepts. destruct (check c) as [i|e] eqn:CK; [eauto|]. exfalso. unfold construct in H. rewrite CK in H. cbn in H.
    injection H as ->.
    exact (check_no_notenough c name shown got CK). }
  rewrite text_when_ok by auto.
  pose proof (params_check c P) as CK.
  pose proof (fun N => construct_shown o c _ raw b name shown got CK N H) as SH.
  unfold construct in H. rewrite CK in H.
  pose proof (validate_no_notenough (RFrame raw) (required (asked c)) b name shown got) as NV.
  destruct (validate (RFrame raw) (required (asked c)) b) as [v' r] eqn:V. cbn [snd] in *. destruct r as [f|e]; cbn [bind] in H; [|congruence].
  assert (L : List.length (rows f) = List.length (r_rows raw)) by (apply (validated_len raw (required (asked c)) b f); rewrite V; reflexivity).
  destruct (calc o (asked c) f) as [x|e] eqn:K; cbn [bind] in H; [destruct x; discriminate|]. injection H as ->.
  unfold calc in K. destruct (needs (asked c)) as [[[nm sh] n]|] eqn:NE; [|discriminate].
  destruct (Nat.ltb _ _); [|discriminate]. cbn in K. injection K as -> -> <-.
  apply needs_titles in NE as [T1 T2]. rewrite not_enough_says by auto. auto.
Qed.

(** ** the input data *)
Lemma required_text_names T who raw req : NoDup (str_labels raw) ->
  ~ (forall n, In n req -> numeric_column raw n) ->
  exists n, In n req /\
    ((~ In n (str_labels raw) /\ required_text T who req (str_labels raw) (r_numeric raw) = Some (missing_column who n)) \/
     (In n (str_labels raw) /\ ~ numeric_column raw n /\
      required_text T who req (str_labels raw) (r_numeric raw) = Some (column_not_numeric T n))).
Proof.
  intros N. induction req as [|x r IH]; intro M; [exfalso; apply M; intros n []|]. cbn [required_text].
  destruct (Frame.position x (str_labels raw)) as [k|] eqn:P.
  - assert (I : In x (str_labels raw)) by (apply position_In; eauto).
    assert (C : count_label x (str_labels raw) = 1%nat)
      by (pose proof (count_label_NoDup x _ N); apply count_label_In in I; lia).
    rewrite C. cbn [Nat.leb]. destruct (nth k (r_numeric raw) false) eqn:Q.
    + destruct IH as (n & A & B).
      * intro H. apply M. intros n [<-|H']; auto. split; eauto.
      * exists n. split; [right; auto|auto].
    + exists x. split; [left; auto|]. right. split; [auto|]. split; [|reflexivity].
      intros (_ & k' & E & E'). rewrite P in E. injection E as <-. congruence.
  - exists x. split; [left; auto|]. left. split; [|reflexivity]. apply position_None. auto.
Qed.
Lemma validate_text_column T who raw req : r_datetime raw = true -> r_rows raw <> [] -> r_labels raw <> [] -> all_str raw ->
  validate_text T who (RFrame raw) req = required_text T who req (str_labels raw) (r_numeric raw).
Proof.
  intros D R L A. unfold validate_text, str_labels. rewrite D. cbn [negb].
  destruct (r_rows raw); [congruence|]. destruct (lower_labels (r_labels raw)) eqn:E.
  - destruct (r_labels raw); [congruence|]. reflexivity.
  - exfalso. revert E A. clear. unfold all_str. induction (r_labels raw) as [|x l IH]; cbn [lower_labels]; [discriminate|].
    intros E A. destruct (A x (or_introl eq_refl)) as [s ->]. destruct (lower_labels l); [discriminate|]. apply IH; auto. intros y Y. apply A. right; auto.
Qed.
Lemma input_type_report T o c b : params_ok c -> unmarked (t_not_frame T) ->
  construct_text T o c RNotFrame (VBool b)
  = Some ("Wrong type (" ++ t_not_frame T ++ ") for input parameter (input_data). Supported type is (pd.DataFrame).").
Proof.
  intros P U. rewrite text_when_ok by auto. cbn [validate snd validate_text]. rewrite wrong_type_says by auto. reflexivity.
Qed.
Lemma input_index_report T o c raw b : params_ok c -> r_datetime raw = false ->
  construct_text T o c (RFrame raw) (VBool b)
  = Some ("Invalid input_data index type. It was expected `pd.DatetimeIndex` but `" ++ t_index T ++ "` was found.").
Proof. intros P D. rewrite text_when_ok by auto. unfold validate, validate_text. rewrite D. reflexivity. Qed.
Lemma input_empty_report T o c raw b : params_ok c -> r_datetime raw = true -> r_rows raw = [] \/ r_labels raw = [] ->
  construct_text T o c (RFrame raw) (VBool b) = Some "The input_data cannot be an empty pandas.DataFrame.".
Proof.
  intros P D E. rewrite text_when_ok by auto. unfold validate, validate_text. rewrite D. cbn [negb].
  replace (match r_rows raw with [] => true | _ :: _ => false end || match r_labels raw with [] => true | _ :: _ => false end)
    with true; [reflexivity|]. destruct E as [-> | ->]; [reflexivity|rewrite orb_true_r; reflexivity].
Qed.
Lemma input_column_report T o c raw b : params_ok c -> r_datetime raw = true -> r_rows raw <> [] -> r_labels raw <> [] ->
  all_str raw -> NoDup (str_labels raw) -> ~ (forall n, In n (documented_inputs c) -> numeric_column raw n) ->
  exists n, In n (documented_inputs c) /\
    ((~ In n (str_labels raw) /\
      construct_text T o c (RFrame raw) (VBool b) = Some (missing_column (class_name (asked c)) n)) \/
     (In n (str_labels raw) /\ ~ numeric_column raw n /\
      construct_text T o c (RFrame raw) (VBool b) = Some (column_not_numeric T n))).
Proof.
  intros P D R L A N M. rewrite text_when_ok by auto.
  assert (V : snd (validate (RFrame raw) (required (asked c)) b) = Err ValueErr).
  { apply (proj2 (validate_rejects (RFrame raw) (required (asked c)) b) raw eq_refl); auto.
    intro C. apply M. intros n I. apply C, inputs_required, I. }
  rewrite V. rewrite validate_text_column by auto.
  destruct (required_text_names T (class_name (asked c)) raw (required (asked c)) N) as (n & I & H).
  - intro C. apply M. intros n I. apply C, inputs_required, I.
  - exists n. split; [apply inputs_required; auto|exact H].
Qed.

(** ** a text exactly when the constructor refuses *)
Lemma text_refused T o c v fill s : construct_text T o c v fill = Some s -> exists e, snd (construct o c v fill) = Err e.
Proof.
  intro H. destruct (snd (construct o c v fill)) as [ob|e] eqn:E; [exfalso|eauto].
  apply construct_inv in E as (i & raw & b & f & CK & -> & -> & V & K & _).
  assert (P : params_ok c) by (apply check_accepts; eauto). pose proof (check_asked _ _ CK) as ->.
  rewrite text_when_ok in H by auto. rewrite V, K in H. discriminate.
Qed.

(** ** the simulation *)
Lemma sim_verdict me fa : (say_max_exposure me <|> say_factor fa) = first_verdict (sim_rules me fa).
Proof.
  unfold sim_rules, first_verdict, say_max_exposure, say_factor, verdict. cbn [ru_type_ok ru_range_ok ru_value ru_name ru_types ru_range].
  rewrite orelse_none.
  assert (A : forall x (a b : option complaint), (if negb x then a else b) = (if x then b else a)) by (intros []; reflexivity).
  assert (F1 : match number_of fa with Some x => if nltb x (F 1) then Some (SaysValue fa "short_exposure_factor" ">=1.0") else None
               | None => Some (SaysType fa "short_exposure_factor" "int or float") end
             = if is_number fa then if negb (nltb (as_number fa) (F 1)) then None else Some (SaysValue fa "short_exposure_factor" ">=1.0")
               else Some (SaysType fa "short_exposure_factor" "int or float")).
  { rewrite A. destruct fa as [z|[]| | | |]; reflexivity. }
  rewrite F1. destruct me as [z|[]| | | |]; cbn [number_of is_number as_number]; rewrite ?A; reflexivity.
Qed.
Lemma sim_rules_params me fa : map as_param (sim_rules me fa) = sim_params me fa.
Proof. reflexivity. Qed.
Lemma sort_z_perm l : Permutation (sort_z l) l.
Proof. unfold sort_z. rewrite sort_rows_perm. rewrite map_map. cbn. rewrite map_id. reflexivity. Qed.
Lemma sort_z_sorted l : StronglySorted Z.le (sort_z l).
Proof. unfold sort_z. exact (index_sort_sorted (mkFrame [] (map (fun z => (z, [])) l))). Qed.
Lemma index_same idx raw f : snd (validate (RFrame raw) ["close"] true) = Ok f ->
  zlist_eqb (index f) (sort_z idx) = true <-> Permutation (dates raw) idx.
Proof.
  intro V. rewrite zlist_eqb_eq. pose proof (validated_index _ _ _ _ V) as I. split.
  - intro E. rewrite <- I, E. apply sort_z_perm.
  - intro P. apply SS_perm_eq; [exact (validate_sorted _ _ _ _ V)|apply sort_z_sorted|]. rewrite I, P. symmetry. apply sort_z_perm.
Qed.
Lemma sim_parameters_report T idx cv me fa : usable_close idx cv -> unmarked_values T (sim_rules me fa) ->
  sim_text T idx cv me fa = report T (sim_rules me fa).
Proof.
  intros U M. rewrite report_verdict; [|auto|intros r [<-|[<-|[]]]; reflexivity].
  destruct U as (cr & -> & A & P). apply (validate_accepts _ _ true) in A as [f V].
  unfold sim_text. rewrite V. rewrite (proj2 (index_same idx cr f V) P). cbn [negb]. rewrite sim_verdict.
  destruct (first_verdict _); reflexivity.
Qed.
Lemma sim_dates_report T idx raw me fa : acceptable (RFrame raw) ["close"] -> ~ Permutation (dates raw) idx ->
  sim_text T idx (RFrame raw) me fa
  = Some "Not valid input data for simulation, input argument: close_values. Index of the `close_values` DataFrame should be the same as the index of the `input_data` argument in the indicator's constructor.".
Proof.
  intros A P. apply (validate_accepts _ _ true) in A as [f V]. unfold sim_text. rewrite V.
  destruct (zlist_eqb (index f) (sort_z idx)) eqn:E; [apply (index_same idx raw f V) in E; contradiction|]. reflexivity.
Qed.
Lemma sim_type_report T idx me fa : unmarked (t_not_frame T) -> ~ occurs "input_data" (t_not_frame T) ->
  sim_text T idx RNotFrame me fa
  = Some ("Not valid input data for simulation, input argument: close_values. Wrong type (" ++ t_not_frame T
          ++ ") for input parameter (close_values). Supported type is (pd.DataFrame).").
Proof.
  intros U O. unfold sim_text. cbn [validate snd validate_text]. rewrite wrong_type_says by auto. unfold replace, not_valid_text.
  transitivity (Some ("Not valid input data for simulation, input argument: close_values. " ++
    "Wrong type (" ++ replace_from "input_data" "close_values" 0 (t_not_frame T ++ ") for input parameter (input_data). Supported type is (pd.DataFrame)."))); [reflexivity|].
  rewrite (replace_over ")") by (try (eexists; reflexivity); auto). reflexivity.
Qed.
Lemma sim_index_report T idx raw me fa : r_datetime raw = false -> ~ occurs "input_data" (t_index T) ->
  sim_text T idx (RFrame raw) me fa
  = Some ("Not valid input data for simulation, input argument: close_values. Invalid close_values index type. It was expected `pd.DatetimeIndex` but `"
          ++ t_index T ++ "` was found.").
Proof.
  intros D O. unfold sim_text, validate, validate_text. rewrite D. cbn [negb snd]. unfold replace, not_valid_text.
  transitivity (Some ("Not valid input data for simulation, input argument: close_values. " ++
    "Invalid close_values index type. It was expected `pd.DatetimeIndex` but `" ++ replace_from "input_data" "close_values" 0 (t_index T ++ "` was found."))); [reflexivity|].
  rewrite (replace_over "`") by (try (eexists; reflexivity); auto). reflexivity.
Qed.
Lemma sim_empty_report T idx raw me fa : r_datetime raw = true -> r_rows raw = [] \/ r_labels raw = [] ->
  sim_text T idx (RFrame raw) me fa
  = Some "Not valid input data for simulation, input argument: close_values. The close_values cannot be an empty pandas.DataFrame.".
Proof.
  intros D E. unfold sim_text, validate, validate_text. rewrite D. cbn [negb].
  replace (match r_rows raw with [] => true | _ :: _ => false end || match r_labels raw with [] => true | _ :: _ => false end)
    with true; [reflexivity|]. destruct E as [-> | ->]; [reflexivity|rewrite orb_true_r; reflexivity].
Qed.
Lemma sim_column_report T idx raw me fa : r_datetime raw = true -> r_rows raw <> [] -> r_labels raw <> [] ->
  all_str raw -> NoDup (str_labels raw) -> ~ occurs "input_data" (t_dtype T "close") ->
  (~ In "close" (str_labels raw) -> sim_text T idx (RFrame raw) me fa
    = Some "Not valid input data for simulation, input argument: close_values. Required column `close` for the technical indicator `TradingSimulation` does not exist in the close_values  pandas.DataFrame.") /\
  (In "close" (str_labels raw) -> ~ numeric_column raw "close" -> sim_text T idx (RFrame raw) me fa
    = Some ("Not valid input data for simulation, input argument: close_values. The close_values pandas.DataFrame must hold columns of numeric type, but column `close` is of type `"
            ++ t_dtype T "close" ++ "`.")).
Proof.
  intros D R L A N O.
  assert (V : ~ numeric_column raw "close" -> snd (validate (RFrame raw) ["close"] true) = Err ValueErr).
  { intro C. apply (proj2 (validate_rejects (RFrame raw) ["close"] true) raw eq_refl); auto. intro H. apply C. apply H. left. reflexivity. }
  assert (G : ~ numeric_column raw "close" -> ~ (forall n, In n ["close"] -> numeric_column raw n)).
  { intros C H. apply C, H. left; reflexivity. }
  split; intro I; [assert (C : ~ numeric_column raw "close") by (intros (_ & k & E & _); apply I, position_In; eauto)|intro C];
  unfold sim_text; rewrite (V C), validate_text_column by auto;
  destruct (required_text_names T "TradingSimulation" raw ["close"] N (G C)) as (n & [<-|[]] & [(NI & ->)|(NI & _ & ->)]); try contradiction.
  - reflexivity.
  - unfold column_not_numeric, replace, not_valid_text.
    transitivity (Some ("Not valid input data for simulation, input argument: close_values. The close_values pandas.DataFrame must hold columns of numeric type, but column `close` is of type `"
            ++ replace_from "input_data" "close_values" 0 (t_dtype T "close" ++ "`."))); [reflexivity|].
    rewrite (replace_over "`") by (try (eexists; reflexivity); auto). reflexivity.
Qed.
Lemma sim_text_refused T idx cv me fa s : sim_text T idx cv me fa = Some s -> exists e, snd (sim_init idx cv me fa) = Err e.
Proof.
  unfold sim_text, sim_init. destruct (validate cv ["close"] true) as [v' [f|e]]; cbn [snd]; [|eauto].
  destruct (negb _); [eauto|]. rewrite sim_verdict. pose proof (args_checked me fa) as C.
  assert (F : first_verdict (sim_rules me fa) <> None -> first_fault (sim_params me fa) <> None).
  { intros F E. apply F. apply verdict_none. exact E. }
  destruct (first_verdict (sim_rules me fa)); [|discriminate]. intros _. specialize (F ltac:(discriminate)).
  destruct (first_fault (sim_params me fa)) as [e|]; [|congruence].
  destruct (check_max_exposure me) as [m|e']; cbn [bind] in *; [|eauto]. destruct (check_factor fa) as [x|e']; cbn [bind] in *; [discriminate|eauto].
Qed.

(** ** the two wrong sentences *)
Lemma envelopes_report T o p s v fill : misreported (cENV p s) = true -> ~ params_ok (cENV p s) ->
  unmarked (py_str T p) -> unmarked (py_type T p) ->
  construct_text T o (cENV p s) v fill
  = Some (if is_float s
          then "Wrong value (" ++ py_str T p ++ ") for input parameter (shift). Supported values are (>0.0 and <1.0)."
          else "Wrong type (" ++ py_type T p ++ ") for input parameter (shift). Supported type is (float).").
Proof.
  intros M P U1 U2. unfold construct_text. cbn [says]. unfold say_period. rewrite say_positive. cbn in M. apply andb_true_iff in M as [M1 M2].
  assert (E : verdict (positive "period" p) = None) by (unfold verdict, positive, int_over; cbn; rewrite M1, M2; reflexivity).
  rewrite E. cbn [orelse].
  assert (N : say_shift p s <> None).
  { intro S. apply P. apply (says_none T). cbn [says]. unfold say_period. rewrite say_positive, E. exact S. }
  unfold say_shift in *. destruct s; cbn [is_float]; try (cbn [complaint_text]; rewrite wrong_type_says by auto; reflexivity).
  destruct (gt3 _ _ _); [congruence|]. cbn [complaint_text]. rewrite wrong_value_says by auto. reflexivity.
Qed.
Lemma volume_oscillator_report T o l s v fill : misreported (cVOSC l s) = true -> ~ params_ok (cVOSC l s) -> unmarked (py_str T l) ->
  construct_text T o (cVOSC l s) v fill
  = Some ("Wrong value (" ++ py_str T l ++ ") for input parameter (long_period ). Supported values are (> short_period [" ++ py_str T s ++ "]).").
Proof.
  intros M P U. unfold construct_text. cbn [says]. cbn in M. apply andb_true_iff in M as [M1 M2].
  apply andb_true_iff in M1 as [A1 A2], M2 as [B1 B2].
  assert (E1 : say_int 0 "long_period" l = None) by (rewrite say_positive; unfold verdict, positive, int_over; cbn; rewrite A1, A2; reflexivity).
  assert (E2 : say_int 0 "short_period" s = None) by (rewrite say_positive; unfold verdict, positive, int_over; cbn; rewrite B1, B2; reflexivity).
  assert (N : say_vosc T l s <> None).
  { intro S. apply P. apply (says_none T). cbn [says]. rewrite E1, E2. exact S. }
  rewrite E1, E2. cbn [orelse]. rewrite (say_vosc_none T l s E1 E2) in N |- *. destruct (Z.ltb (as_int s) (as_int l)); [congruence|].
  cbn [complaint_text]. rewrite wrong_value_says by auto. rewrite !app_assoc_s. reflexivity.
Qed.
Lemma sim_text_raises T ob cv me fa s : sim_text T (index (ob_input ob)) cv me fa = Some s ->
  exists e, snd (get_ti_simulation ob cv me fa) = Err e.
Proof.
  intro H. apply sim_text_refused in H as [e H]. exists e. rewrite (simulation_rejects _ _ _ _ _ H). reflexivity.
Qed.

(** * PropsFrame: what the library does with the caller's DataFrame.
    Constructor-level statements (all indicators) are in PropsApi. *)
From Coq Require Import ZArith QArith Qcanon Bool List String PeanoNat Permutation Sorted.
From Verif Require Import Num Pandas Frame FrameSpec FrameProofs.
Import ListNotations.
Open Scope list_scope. Open Scope string_scope.

Definition n1 := F 1. Definition n2 := F 2. Definition n3 := F 3.
(** three days out of order, mixed case, an extra text column, a gap *)
Definition ex_raw : rawframe :=
  mkRaw true [LStr "Close"; LStr "Note"; LStr "VOLUME"] [true; false; true]
    [(30%Z, [F 13; NaN; NaN]); (10%Z, [NaN; NaN; F 5]); (20%Z, [F 12; NaN; F 6])].

(** ** C03 *)
Theorem C03_accepted_iff v req fill :
  (exists g, snd (validate v req fill) = Ok g)
  <-> exists f, v = RFrame f /\ r_datetime f = true /\ r_rows f <> [] /\ r_labels f <> [] /\ all_str f /\
      (forall c, In c req -> count_label c (str_labels f) = 1%nat /\
         exists k, position c (str_labels f) = Some k /\ nth k (r_numeric f) false = true) /\
      NoDup (filter (fun c => negb (mem c req)) (str_labels f)).
Proof. exact (validate_accepts v req fill). Qed.
Print Assumptions C03_accepted_iff.

Theorem C03_documented_errors v req fill :
  (v = RNotFrame -> snd (validate v req fill) = Err (WrongType "input_data")) /\
  (forall f, v = RFrame f ->
    (r_datetime f = false -> snd (validate v req fill) = Err TypeErr) /\
    (r_datetime f = true -> r_rows f = [] \/ r_labels f = [] -> snd (validate v req fill) = Err ValueErr) /\
    (r_datetime f = true -> r_rows f <> [] -> all_str f -> NoDup (str_labels f) ->
       ~ (forall c, In c req -> count_label c (str_labels f) = 1%nat /\
           exists k, position c (str_labels f) = Some k /\ nth k (r_numeric f) false = true) ->
       snd (validate v req fill) = Err ValueErr)).
Proof. exact (validate_rejects v req fill). Qed.
Print Assumptions C03_documented_errors.

Example C03_case : snd (validate (RFrame ex_raw) ["close"; "volume"] false)
  = Ok (mkFrame ["close"; "volume"] [(10%Z, [NaN; F 5]); (20%Z, [F 12; F 6]); (30%Z, [F 13; NaN])]).
Proof. vm_compute. reflexivity. Qed.
Example C03_case_missing : snd (validate (RFrame ex_raw) ["high"] true) = Err ValueErr.
Proof. reflexivity. Qed.

(** a frame whose required columns are all present and numeric is rejected when
    two other columns share a label, with an undocumented KeyError *)
Theorem C03_duplicate_labels_refuted : exists f req fill,
  r_datetime f = true /\ r_rows f <> [] /\ all_str f /\
  (forall c, In c req -> exists k, position c (str_labels f) = Some k /\ nth k (r_numeric f) false = true) /\
  snd (validate (RFrame f) req fill) = Err KeyErr.
Proof.
  exists (mkRaw true [LStr "close"; LStr "x"; LStr "X"] [true; true; true] [(1%Z, [F 1; F 2; F 3])]), ["close"], true.
  repeat split; try discriminate.
  - intros l [<-|[<-|[<-|[]]]]; eauto.
  - intros c [<-|[]]. exists 0%nat. split; reflexivity.
Qed.
Print Assumptions C03_duplicate_labels_refuted.

(** ** C04 *)
Theorem C04_callers_data_untouched f req fill : exists labels,
  fst (validate (RFrame f) req fill)
  = RFrame (mkRaw (r_datetime f) labels (r_numeric f) (r_rows f))
  /\ (labels = r_labels f \/ labels = map LStr (str_labels f)).
Proof. exact (validate_caller f req fill). Qed.
Print Assumptions C04_callers_data_untouched.

(** ... but the caller's column labels are replaced by their lower case *)
Theorem C04_labels_untouched_refuted : exists f req fill, fst (validate (RFrame f) req fill) <> RFrame f.
Proof. exists ex_raw, ["close"], true. vm_compute. discriminate. Qed.
Print Assumptions C04_labels_untouched_refuted.

(** ** C05 *)
Theorem C05_fill f req g g0 c : wf_raw f -> In c req ->
  snd (validate (RFrame f) req false) = Ok g0 -> snd (validate (RFrame f) req true) = Ok g ->
  index g = index g0 /\ col c g = map (nearest (col c g0)) (seq 0 (List.length (index g0))).
Proof. exact (validate_fill f req g g0 c). Qed.
Print Assumptions C05_fill.

Theorem C05_present_cells_kept s i :
  (i < List.length s)%nat -> nth i s NaN <> NaN -> nearest s i = nth i s NaN.
Proof. exact (fun H N => nearest_present s i (isnan_false _ N) H). Qed.
Print Assumptions C05_present_cells_kept.

Theorem C05_missing_only_if_column_empty s i :
  nearest s i = NaN <-> (forall x, In x s -> x = NaN).
Proof. exact (nearest_missing s i). Qed.
Print Assumptions C05_missing_only_if_column_empty.

Theorem C05_filling_again_changes_nothing f : wf f -> fill_missing (fill_missing f) = fill_missing f.
Proof. exact (fill_idem f). Qed.
Print Assumptions C05_filling_again_changes_nothing.

Example C05_case : snd (validate (RFrame ex_raw) ["close"; "volume"] true)
  = Ok (mkFrame ["close"; "volume"] [(10%Z, [F 12; F 5]); (20%Z, [F 12; F 6]); (30%Z, [F 13; F 6])]).
Proof. vm_compute. reflexivity. Qed.
Example C05_case_nearest : map (nearest [NaN; F 1; NaN; NaN; F 2; NaN]) (seq 0 6) = [F 1; F 1; F 1; F 1; F 2; F 2].
Proof. reflexivity. Qed.

(** ** C06 *)
Theorem C06_sorted v req fill g : snd (validate v req fill) = Ok g -> StronglySorted Z.le (index g).
Proof. exact (validate_sorted v req fill g). Qed.
Print Assumptions C06_sorted.

Theorem C06_rows_stay_together f req g c : wf_raw f -> In c req ->
  snd (validate (RFrame f) req false) = Ok g -> Permutation (cells c g) (raw_cells c f).
Proof. exact (validate_false_cells f req g c). Qed.
Print Assumptions C06_rows_stay_together.

Theorem C06_columns_kept f req fill g : snd (validate (RFrame f) req fill) = Ok g ->
  forall c, In c (cols g) <-> In c req.
Proof. exact (validate_cols f req fill g). Qed.
Print Assumptions C06_columns_kept.

Example C06_case : raw_cells "volume" ex_raw = [(30%Z, NaN); (10%Z, F 5); (20%Z, F 6)] /\ wf_raw ex_raw.
Proof. split; [reflexivity|]. split; [reflexivity|]. intros r [<-|[<-|[<-|[]]]]; reflexivity. Qed.

(** ** C01, C02 at the level of validation *)
Theorem C01_validated_data_ignores_row_order dt labels numeric (rs rs' : list row) req fill :
  NoDup (map fst rs) -> Permutation rs rs' ->
  snd (validate (RFrame (mkRaw dt labels numeric rs)) req fill)
  = snd (validate (RFrame (mkRaw dt labels numeric rs')) req fill).
Proof. exact (validate_perm dt labels numeric rs rs' req fill). Qed.
Print Assumptions C01_validated_data_ignores_row_order.

Example C01_case : NoDup (map fst (r_rows ex_raw)) /\ Permutation (r_rows ex_raw) (rev (r_rows ex_raw)).
Proof.
  split; [repeat constructor; simpl; intuition discriminate|apply Permutation_rev].
Qed.

Theorem C02_validated_data_ignores_other_columns f f' req fill g g' c :
  wf_raw f -> wf_raw f' -> In c req ->
  map fst (r_rows f) = map fst (r_rows f') -> raw_cells c f = raw_cells c f' ->
  snd (validate (RFrame f) req fill) = Ok g -> snd (validate (RFrame f') req fill) = Ok g' ->
  index g = index g' /\ col c g = col c g'.
Proof. exact (validate_only_required f f' req fill g g' c). Qed.
Print Assumptions C02_validated_data_ignores_other_columns.

Example C02_case :
  let f' := mkRaw true [LStr "volume"; LStr "CLOSE"] [true; true]
              [(30%Z, [NaN; F 13]); (10%Z, [F 5; NaN]); (20%Z, [F 6; F 12])] in
  raw_cells "close" ex_raw = raw_cells "close" f' /\ r_labels f' <> r_labels ex_raw.
Proof. split; [reflexivity|discriminate]. Qed.

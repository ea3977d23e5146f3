(** * FrameSpec: the words used in the statements about input data. *)
From Coq Require Import ZArith QArith Qcanon Bool List String PeanoNat Permutation Sorted.
From Verif Require Import Num Pandas Frame.
Import ListNotations.
Open Scope list_scope.

(** every row has one cell per column *)
Definition rect (n : nat) (l : list row) : Prop := forall r, In r l -> List.length (snd r) = n.
Definition wf_raw (f : rawframe) : Prop :=
  List.length (r_numeric f) = List.length (r_labels f) /\ rect (List.length (r_labels f)) (r_rows f).
Definition wf (f : frame) : Prop := rect (List.length (cols f)) (rows f).

(** what a missing cell is replaced by: the closest present cell looking back,
    else the closest present cell looking ahead *)
Definition nearest (s : series) (i : nat) : num :=
  hd NaN (rev (present (firstn (S i) s)) ++ present (skipn (S i) s)).

(** the lowered labels, when all labels are strings *)
Definition str_labels (f : rawframe) : list string :=
  match lower_labels (r_labels f) with Some l => l | None => [] end.
Definition all_str (f : rawframe) : Prop := forall l, In l (r_labels f) -> exists s, l = LStr s.

(** column c of a raw frame, as (date, value) pairs *)
Definition raw_cells (c : string) (f : rawframe) : list (Z * num) :=
  match position c (str_labels f) with
  | Some k => map (fun r => (fst r, nth k (snd r) NaN)) (r_rows f)
  | None => []
  end.
Definition cells (c : string) (f : frame) : list (Z * num) := combine (index f) (col c f).

Definition req_ok (req labels : list string) (numeric : list bool) : Prop :=
  forall c, In c req -> count_label c labels = 1%nat /\
    exists k, position c labels = Some k /\ nth k numeric false = true.
(** input the library accepts for the required columns [req] *)
Definition acceptable (v : rawval) (req : list string) : Prop :=
  exists f, v = RFrame f /\ r_datetime f = true /\ r_rows f <> [] /\ r_labels f <> [] /\ all_str f /\
    req_ok req (str_labels f) (r_numeric f) /\
    NoDup (filter (fun c => negb (mem c req)) (str_labels f)).

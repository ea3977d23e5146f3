(** * DateSpec: words used in the statements about renumbered dates. *)
From Coq Require Import ZArith List.
From Verif Require Import Frame ApiSpec.
Import ListNotations.

(** the same rows under other dates *)
Definition redated (to : Z -> Z) (raw : rawframe) : rawframe :=
  mkRaw (r_datetime raw) (r_labels raw) (r_numeric raw) (map (fun r => (to (fst r), snd r)) (r_rows raw)).
(** earlier stays earlier, among the dates in use *)
Definition keeps_order (to : Z -> Z) (ds : list Z) : Prop :=
  forall x y, In x ds -> In y ds -> (x < y)%Z -> (to x < to y)%Z.

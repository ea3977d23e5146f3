(** * PropsDoc: which inputs a constructor accepts, in the words of the documentation. *)
From Coq Require Import ZArith QArith Qcanon Bool List String PeanoNat Lia.
From Verif Require Import Num Pandas Sim Frame FrameSpec Ind Signal Api ApiSpec DocSpec DocFacts PropsApi.
Import ListNotations.
Open Scope list_scope. Open Scope string_scope.

(** ** C69 The documented input columns are necessary and sufficient *)
Theorem C69_constructor_succeeds_iff o c raw b : params_ok c ->
  (exists ob, snd (construct o c (RFrame raw) (VBool b)) = Ok ob) <->
  r_datetime raw = true /\ r_labels raw <> [] /\ all_str raw /\
  (forall n, In n (documented_inputs c) -> numeric_column raw n) /\
  NoDup (filter (fun n => negb (mem n (documented_inputs c))) (str_labels raw)) /\
  r_rows raw <> [] /\ (min_rows (asked c) <= List.length (r_rows raw))%nat.
Proof. exact (construct_succeeds o c raw b). Qed.
Print Assumptions C69_constructor_succeeds_iff.
Theorem C69_column_missing o c raw b : params_ok c -> r_datetime raw = true -> r_rows raw <> [] -> all_str raw -> NoDup (str_labels raw) ->
  ~ (forall n, In n (documented_inputs c) -> numeric_column raw n) ->
  snd (construct o c (RFrame raw) (VBool b)) = Err ValueErr.
Proof. exact (construct_column_missing o c raw b). Qed.
Print Assumptions C69_column_missing.

Definition without_close (n : nat) : rawframe :=
  mkRaw true [LStr "HIGH"; LStr "Low"] [true; true] (map (fun k => (Z.of_nat k, [F (10 + Z.of_nat k); F (5 + Z.of_nat (k mod 3))])) (seq 1 n)).
Example C69_case : params_ok (cVCH (VInt 3) (VInt 2)) /\ documented_inputs (cVCH (VInt 3) (VInt 2)) = ["high"; "low"] /\
  (forall n, In n ["high"; "low"] -> numeric_column (without_close 6) n) /\
  made ora0 (cVCH (VInt 3) (VInt 2)) (without_close 6) true <> None /\ made ora0 (cRVI (VInt 2)) (without_close 12) true <> None.
Proof.
  split; [intros p [<-|[<-|[]]]; split; reflexivity|]. split; [reflexivity|]. split.
  - intros n [<-|[<-|[]]]; (split; [reflexivity|eexists; split; reflexivity]).
  - split; vm_compute; discriminate.
Qed.
Example C69_case_missing : all_str (without_close 6) /\ NoDup (str_labels (without_close 6)) /\ ~ numeric_column (without_close 6) "close" /\
  snd (construct ora0 (cWR (VInt 2)) (RFrame (without_close 6)) (VBool true)) = Err ValueErr.
Proof.
  split; [intros l [<-|[<-|[]]]; eauto|]. split; [repeat constructor; cbn; intuition discriminate|]. split; [|vm_compute; reflexivity].
  intros [H _]. discriminate H.
Qed.

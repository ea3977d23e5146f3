(** * IdleSpec: a day left out. *)
From Coq Require Import List.
Import ListNotations.

(** the list without its k-th entry *)
Definition leave_out {A} (k : nat) (l : list A) : list A := firstn k l ++ skipn (S k) l.

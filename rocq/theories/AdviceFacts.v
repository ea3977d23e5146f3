(** * AdviceFacts: an advice is given only if the cells the rule compares are there. *)
From Coq Require Import ZArith QArith Qcanon Bool List String PeanoNat Lia.
From Verif Require Import Num NumFacts Pandas Sim Frame FrameSpec Ind Signal Api IndSpec ApiSpec Shape ApiProofs RangeSpec ValueSpec FormulaSpec SignalSpec SignalApi SignalFacts SignalApi2 AdviceSpec.
Import ListNotations.
Open Scope list_scope. Open Scope string_scope. Open Scope nat_scope.

Lemma lt_there x y : nltb x y = true -> x <> NaN /\ y <> NaN.
Proof. destruct x, y; cbn; intro H; try discriminate; split; discriminate. Qed.
Lemma le_there x y : nleb x y = true -> x <> NaN /\ y <> NaN.
Proof. destruct x, y; cbn; intro H; try discriminate; split; discriminate. Qed.
Lemma eq_there x y : neqb x y = true -> x <> NaN /\ y <> NaN.
Proof. destruct x, y; cbn; intro H; try discriminate; split; discriminate. Qed.
Lemma sub_there x y : nsub x y <> NaN -> x <> NaN /\ y <> NaN.
Proof. destruct x, y; cbn; intro H; try (elim H; reflexivity); split; discriminate. Qed.
Lemma mul_there x y : nmul x y <> NaN -> x <> NaN /\ y <> NaN.
Proof. destruct x, y; cbn; intro H; try (elim H; reflexivity); split; discriminate. Qed.
Lemma pymax_there x y : pymax x y <> NaN -> x <> NaN.
Proof. destruct x; intro H; try discriminate. elim H. destruct y; reflexivity. Qed.
Lemma pymin_there x y : pymin x y <> NaN -> x <> NaN.
Proof. destruct x; intro H; try discriminate. elim H. destruct y; reflexivity. Qed.

(** what a true condition says about the cells in it *)
Ltac known_cells :=
  repeat match goal with
  | H : (_ && _)%bool = true |- _ => apply andb_true_iff in H; destruct H
  | H : (_ || _)%bool = true |- _ => apply orb_true_iff in H; destruct H
  | H : lt3 _ _ _ = true |- _ => unfold lt3 in H
  | H : gt3 _ _ _ = true |- _ => unfold gt3 in H
  | H : ngtb _ _ = true |- _ => unfold ngtb in H
  | H : ngeb _ _ = true |- _ => unfold ngeb in H
  | H : nltb _ _ = true |- _ => apply lt_there in H; destruct H
  | H : nleb _ _ = true |- _ => apply le_there in H; destruct H
  | H : neqb _ _ = true |- _ => apply eq_there in H; destruct H
  | H : nsub _ _ <> NaN |- _ => apply sub_there in H; destruct H
  | H : nmul _ _ <> NaN |- _ => apply mul_there in H; destruct H
  | H : pymax _ _ <> NaN |- _ => apply pymax_there in H
  | H : pymin _ _ <> NaN |- _ => apply pymin_there in H
  end.
(** take the reads and the conditions of a rule apart *)
Ltac opened H :=
  unfold dema_signal, mom_signal, guard, level_cross, line_cross, three, case2 in H; cbv zeta in H;
  repeat first
  [ match type of H with bind ?x _ = Ok _ => let E := fresh "RD" in destruct x eqn:E; cbn [bind] in H; [|discriminate] end
  | match type of H with (if ?b then _ else _) = Ok _ => let E := fresh "CD" in destruct b eqn:E end
  | match type of H with Ok (if ?b then _ else _) = Ok _ => let E := fresh "CD" in destruct b eqn:E end
  | match type of H with Ok (match ?b with _ => _ end) = Ok _ => let E := fresh "CD" in destruct b eqn:E end ];
  try (injection H as <-; congruence).

Definition there (s : series) (d : nat) : Prop := exists x, iat s d = Ok x /\ x <> NaN.
Ltac cell := match goal with H : iat ?s ?d = Ok ?x |- there ?s ?d => exists x; split; [exact H|assumption] end.
Lemma rests i inp ti s : signal_of i inp ti = Ok s -> s <> Hold -> (forall m t, i <> iPRF m t) ->
  Forall (fun e => there (col (fst e) ti) (snd e)) (looks_at i) /\ Forall (there (col "close" inp)) (looks_at_closes i).
Proof.
  intros H N NP. destruct i; cbn [signal_of looks_at looks_at_closes on_days flat_map map List.app] in *; opened H; try (exfalso; eapply NP; reflexivity); known_cells;
    (split; repeat (constructor; cbn [fst snd]; [try cell|]); try constructor).
Qed.

(** at least one of the cells of the last day is there *)
Lemma rests_some i inp ti s : signal_of i inp ti = Ok s -> s <> Hold -> i <> iMI -> i <> iWAD -> (forall m t, i <> iPRF m t) ->
  exists n, In n (ti_names i) /\ there (col n ti) 1.
Proof.
  intros H N M W NP. destruct (looks_at i) as [|e l] eqn:L.
  - destruct i; cbn [looks_at on_days flat_map map List.app] in L; try discriminate L; try congruence; clear L; cbn [signal_of] in H; opened H; known_cells;
      match goal with |- exists n, In n ?l /\ _ => let l' := eval vm_compute in l in change l with l' end;
      first [ exists "upper_band"; split; [cbn; tauto|cell] | exists "lower_band"; split; [cbn; tauto|cell] | exists "highest_high"; split; [cbn; tauto|cell] | exists "lowest_low"; split; [cbn; tauto|cell]
            | exists "rl_61.8"; split; [cbn; tauto|cell] | exists "rl_50.0"; split; [cbn; tauto|cell] | exists "rl_38.2"; split; [cbn; tauto|cell] | exists "rl_23.6"; split; [cbn; tauto|cell]
            | exists "%K"; split; [cbn; tauto|cell] | exists "%D"; split; [cbn; tauto|cell] ].
  - destruct (rests i inp ti s H N NP) as [R _]. rewrite L in R. inversion R as [|x y R1 R2]; subst. exists (fst e).
    destruct i; cbn [looks_at on_days flat_map map List.app] in L; try discriminate L; injection L as <- <-; cbn [fst snd] in *; (split; [try (vm_compute; tauto)|exact R1]).
Qed.

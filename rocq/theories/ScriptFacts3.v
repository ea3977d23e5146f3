(** * ScriptFacts3: a name that is typed twice. *)
From Coq Require Import ZArith QArith Qcanon Bool String Ascii List PeanoNat Lia.
From Verif Require Import Num Pandas Frame Sim Ind Signal Api Call Script ScriptSpec ScriptFacts ScriptFacts2.
Import ListNotations.
Open Scope list_scope. Open Scope string_scope.

Lemma split_named x : forall m t l, split_eq x = (m, t :: l) -> exists y, x = typed m y.
Proof.
  induction x as [|a x IH]; intros m t l H; cbn [split_eq] in H; [discriminate|]. destruct (split_eq x) as [h r] eqn:E.
  destruct (Ascii.eqb_spec a "=") as [->|N].
  - injection H as <- _ _. exists x. reflexivity.
  - injection H as <- ->. destruct (IH h t l eq_refl) as [y ->]. exists y. reflexivity.
Qed.
Lemma dict_set_twice {A} n (a b : A) l : dict_set n b (dict_set n a l) = dict_set n b l.
Proof.
  induction l as [|(m, q) l IH]; cbn; [rewrite String.eqb_refl; reflexivity|]. destruct (String.eqb_spec n m) as [->|N]; cbn; [rewrite String.eqb_refl; reflexivity|].
  apply String.eqb_neq in N. rewrite N, IH. reflexivity.
Qed.
Lemma dict_set_swap {A} n m (a b : A) l : n <> m -> In n (map fst l) -> dict_set m b (dict_set n a l) = dict_set n a (dict_set m b l).
Proof.
  intro N. induction l as [|(q, z) l IH]; cbn; [tauto|]. intro I. destruct (String.eqb_spec n q) as [->|X].
  - cbn. destruct (String.eqb_spec m q) as [->|Y]; [congruence|]. cbn. rewrite String.eqb_refl. reflexivity.
  - cbn. destruct (String.eqb_spec m q) as [->|Y]; cbn.
    + apply String.eqb_neq in X. rewrite X. reflexivity.
    + destruct (String.eqb_spec n q); [contradiction|]. rewrite IH; [reflexivity|]. destruct I; [congruence|assumption].
Qed.
Lemma typed_args_later n t v b c : no_equals n -> no_equals t -> typed_value t = Ok v -> (forall x y, In x b -> x <> typed n y) ->
  forall kw, In n (map fst kw) -> typed_args (b ++ typed n t :: c) kw = typed_args (b ++ c) (dict_set n v kw).
Proof.
  intros N T V. induction b as [|x b IH]; intros B kw I.
  - cbn [app]. rewrite typed_args_one, V by assumption. reflexivity.
  - cbn [app typed_args]. destruct (split_eq x) as [m [|q l]] eqn:E; [reflexivity|]. destruct (typed_value q) as [z|]; [|reflexivity]. cbn [bind].
    assert (X : n <> m). { intros ->. destruct (split_named x m q l E) as [y Y]. exact (B x y (or_introl eq_refl) Y). }
    rewrite dict_set_swap by assumption. apply IH; [intros; apply B; right; assumption|]. apply dict_set_keys. right. exact I.
Qed.
Lemma typed_args_prefix a r r' : (forall kw, typed_args r kw = typed_args r' kw) -> forall kw, typed_args (a ++ r) kw = typed_args (a ++ r') kw.
Proof.
  intro H. induction a as [|x a IH]; intro kw; [apply H|]. cbn [app typed_args]. destruct (split_eq x) as [m [|q l]]; [reflexivity|]. destruct (typed_value q); [|reflexivity]. apply IH.
Qed.
Lemma last_counts o s a n t v t' v' b c df : no_equals n -> written t v -> written t' v' -> (forall x y, In x b -> x <> n ++ "=" ++ y) ->
  run_single o (s :: a ++ (n ++ "=" ++ t) :: b ++ (n ++ "=" ++ t') :: c) df = run_single o (s :: a ++ (n ++ "=" ++ t') :: b ++ c) df.
Proof.
  intros N T T' B. unfold run_single. rewrite (typed_args_prefix a (typed n t :: b ++ typed n t' :: c) (typed n t' :: b ++ c)); [reflexivity|].
  intro kw. rewrite !typed_args_one by (auto; eapply written_no_equals; eassumption). rewrite (written_typed _ _ T), (written_typed _ _ T'). cbn [bind].
  rewrite (typed_args_later n t' v'); auto.
  - rewrite dict_set_twice. reflexivity.
  - eapply written_no_equals; eassumption.
  - apply written_typed. exact T'.
  - apply dict_set_keys. left. reflexivity.
Qed.

(** * DocFacts: a constructor succeeds exactly on the inputs its documentation asks for. *)
From Coq Require Import ZArith QArith Qcanon Bool List String PeanoNat Lia Sorted Permutation.
From Verif Require Import Num NumFacts Pandas Sim Frame FrameSpec FrameProofs Ind Signal Api IndSpec SeriesFacts ApiSpec ApiCheck ApiProofs ApiLemmas DocSpec.
Import ListNotations.
Open Scope list_scope. Open Scope string_scope.

Lemma inputs_required c n : In n (documented_inputs c) <-> In n (required (asked c)).
Proof. destruct c; cbn [documented_inputs asked required In]; tauto. Qed.
Lemma mem_inputs c n : mem n (documented_inputs c) = mem n (required (asked c)).
Proof. apply eq_true_iff_eq. rewrite !mem_In. apply inputs_required. Qed.

Lemma construct_succeeds o c raw b : params_ok c ->
  (exists ob, snd (construct o c (RFrame raw) (VBool b)) = Ok ob) <->
  r_datetime raw = true /\ r_labels raw <> [] /\ all_str raw /\
  (forall n, In n (documented_inputs c) -> numeric_column raw n) /\
  NoDup (filter (fun n => negb (mem n (documented_inputs c))) (str_labels raw)) /\
  r_rows raw <> [] /\ (min_rows (asked c) <= List.length (r_rows raw))%nat.
Proof.
  intro P. apply check_accepts in P as (i & CK). pose proof (check_asked _ _ CK) as ->.
  assert (FI : forall l, filter (fun n => negb (mem n (documented_inputs c))) l = filter (fun n => negb (mem n (required (asked c)))) l)
    by (intro l; apply filter_ext; intro n; rewrite mem_inputs; reflexivity).
  pose proof (validate_accepts (RFrame raw) (required (asked c)) b) as VA. split.
  - intros (ob & H). apply construct_inv in H as (i & raw0 & b0 & f & CK' & Q & B & V & K & E). injection Q as <-. injection B as <-.
    rewrite CK in CK'. injection CK' as <-. destruct (proj1 VA (ex_intro _ f V)) as (f' & E' & D & R & L & A & C & N). injection E' as <-.
    split; [auto|]. split; [auto|]. split; [auto|]. split; [intros n I; apply C, inputs_required, I|]. split; [rewrite FI; exact N|]. split; [auto|].
    destruct (Nat.le_gt_cases (min_rows (asked c)) (List.length (r_rows raw))) as [G|G]; auto.
    apply (construct_not_enough o c _ raw b f CK V) in G as (nm & sh & G).
    assert (X : snd (construct o c (RFrame raw) (VBool b)) = Ok ob) by (rewrite (construct_ok _ _ _ _ _ _ _ _ CK V K); destruct ob; cbn in *; subst; reflexivity).
    rewrite X in G. discriminate.
  - intros (D & L & A & C & N & R & M).
    destruct (proj2 VA) as (f & V).
    { exists raw. split; [auto|]. split; [auto|]. split; [auto|]. split; [auto|]. split; [auto|]. split; [|rewrite <- FI; exact N]. intros n I. apply C, inputs_required, I. }
    exact (construct_completes o c _ raw b f CK V M).
Qed.
Lemma construct_column_missing o c raw b : params_ok c -> r_datetime raw = true -> r_rows raw <> [] -> all_str raw -> NoDup (str_labels raw) ->
  ~ (forall n, In n (documented_inputs c) -> numeric_column raw n) ->
  snd (construct o c (RFrame raw) (VBool b)) = Err ValueErr.
Proof.
  intros P D R A N M. apply check_accepts in P as (i & CK). pose proof (check_asked _ _ CK) as ->.
  pose proof (proj2 (validate_rejects (RFrame raw) (required (asked c)) b) raw eq_refl) as (_ & _ & V).
  specialize (V D R A N). unfold construct. rewrite CK. destruct (validate (RFrame raw) (required (asked c)) b) as [v' r] eqn:E. cbn [snd] in *. rewrite V.
  - reflexivity.
  - intro C. apply M. intros n I. apply C, inputs_required, I.
Qed.

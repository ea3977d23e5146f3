(** * Shape: every column has one cell per row; when a signal can be computed. *)
From Coq Require Import ZArith QArith Qcanon Bool List String PeanoNat Lia Sorted.
From Verif Require Import Num NumFacts Pandas Sim Frame FrameSpec FrameProofs Ind Signal Api IndSpec SeriesFacts Lengths Causal IndFacts.
Import ListNotations.
Open Scope list_scope.

Lemma len_fill_col f c : wf f -> StronglySorted Z.le (index f) -> length (col c (fill_missing f)) = length (col c f).
Proof. intros. rewrite fill_col by auto. rewrite map_length. apply seq_length. Qed.
Lemma good_wf i f : good_input i f -> wf f.
Proof. intros (_ & W & _). exact W. Qed.

Definition enough (i : ind) (n : nat) : Prop :=
  match needs i with Some (_, _, k) => (k <= n)%nat | None => True end.

Lemma ti_cols_len o i f c s : good_input i f -> enough i (length (rows f)) ->
  In (c, s) (ti_cols o i f) -> length s = length (rows f).
Proof.
  intros G K H. destruct G as (R & W & S). unfold enough in K.
  assert (L : forall c, In c (required i) -> length (col c f) = length (rows f)) by (intros; apply len_col; auto).
  assert (LF : forall c, In c (required i) -> length (col c (fill_missing f)) = length (rows f))
    by (intros; rewrite len_fill_col by auto; auto).
  destruct i; cbn [ti_cols required needs] in *;
  repeat match goal with
  | Q : In _ (_ :: _) |- _ => destruct Q as [Q|Q]; [apply (f_equal snd) in Q; cbn [snd] in Q; rewrite <- Q; clear Q|]
  | Q : In _ [] |- _ => destruct Q
  end;
  try (pose proof (L "close"%string ltac:(cbn; tauto)));
  try (pose proof (L "high"%string ltac:(cbn; tauto)));
  try (pose proof (L "low"%string ltac:(cbn; tauto)));
  try (pose proof (L "open"%string ltac:(cbn; tauto)));
  try (pose proof (L "volume"%string ltac:(cbn; tauto)));
  try (pose proof (LF "close"%string ltac:(cbn; tauto)));
  try (pose proof (LF "high"%string ltac:(cbn; tauto)));
  try (pose proof (LF "low"%string ltac:(cbn; tauto)));
  try (pose proof (LF "volume"%string ltac:(cbn; tauto)));
  clear L LF; unfold adl_of in *;
  try (apply ln_atr; auto; lia); auto 40 with len.
Qed.

Lemma lookup_In name cs s : lookup name cs = Some s -> In (name, s) cs.
Proof.
  induction cs as [|[n t] r IH]; [discriminate|]. cbn. destruct (String.eqb name n) eqn:E.
  - intro H. injection H as ->. apply String.eqb_eq in E as ->. auto.
  - auto.
Qed.

(** column [name] of the indicator data *)
Lemma ti_col o i f inp ti name s : good_input i f -> calc o i f = Ok (inp, ti) ->
  (forall p, i <> iDPO p) -> lookup name (ti_cols o i f) = Some s -> col name ti = s.
Proof.
  intros G H N L. apply calc_ok in H as [E K]. injection E as -> ->.
  assert (I : ti_index i f = index f) by (destruct i; try reflexivity; exfalso; eapply N; reflexivity).
  rewrite I. apply col_mk_ti_all; auto. rewrite len_index.
  eapply ti_cols_len; eauto. eapply lookup_In; eauto.
Qed.
Lemma ti_len o i f inp ti : calc o i f = Ok (inp, ti) -> length (rows ti) = length (ti_index i f).
Proof. intros H. apply calc_ok in H as [E K]. injection E as -> ->. apply mk_ti_rows_len. Qed.

(** ** positional reads *)
Lemma iat_ok s k : (1 <= k <= length s)%nat -> exists x, iat s k = Ok x.
Proof.
  intros [A B]. unfold iat, ineg. apply Nat.leb_le in A, B. rewrite A, B. cbn. eauto.
Qed.
Lemma iat_at s k : (1 <= k <= length s)%nat -> iat s k = Ok (nth (length s - k) s NaN).
Proof. intros [A B]. unfold iat, ineg. apply Nat.leb_le in A, B. rewrite A, B. reflexivity. Qed.

Lemma len_removelast {A} (l : list A) : length (removelast l) = (length l - 1)%nat.
Proof.
  induction l as [|x l IH]; [reflexivity|]. destruct l; [reflexivity|].
  change (removelast (x :: a :: l)) with (x :: removelast (a :: l)). cbn [length] in *. rewrite IH. lia.
Qed.

Ltac reads N :=
  repeat match goal with
  | |- context [bind (iat ?s ?k) _] =>
      let H := fresh in let E := fresh in let x := fresh "v" in
      assert (E : length s = N) by (auto 40 with len);
      assert (H : exists x, iat s k = Ok x) by (apply iat_ok; rewrite E; lia);
      clear E; destruct H as [x H]; rewrite H; cbn [bind]
  | |- context [guard ?k ?t _] => unfold guard; destruct (Nat.ltb_spec (length (rows t)) k); [eexists; reflexivity|]
  | |- context [level_cross _ _ _ _ _] => unfold level_cross
  | |- context [line_cross _ _ _ _] => unfold line_cross
  | |- context [three _ _ _] => unfold three
  | |- context [case2 _ _ _ _] => unfold case2
  | |- exists _, Ok _ = Ok _ => eexists; reflexivity
  end.


(** ** when a signal can be computed *)
Definition ti_names (i : ind) : list string := map fst (ti_cols (mkOracle (fun q => q) (fun _ => [])) i (mkFrame [] [])).
Lemma ti_cols_names o i f : map fst (ti_cols o i f) = ti_names i.
Proof. destruct i; reflexivity. Qed.

Open Scope string_scope.
Lemma signal_total i inp ti :
  cols ti = ti_names i ->
  (forall c, In c (required i) -> In c (cols inp)) ->
  wf inp -> StronglySorted Z.le (index inp) ->
  (i = iMI -> In "9_ema" (cols inp)) ->
  (forall p, i = iMP p -> In "close_ema" (cols inp)) ->
  ((forall p, i <> iDPO p) -> length (rows inp) = length (rows ti)) ->
  (forall r s, i <> iRI r s) ->
  valid i ->
  (i = iMP 1 -> length (rows ti) <> 1%nat) ->
  exists s, signal_of i inp ti = Ok s.
Proof.
  intros T C W S MI MP L RI V P1.
  remember (length (rows ti)) as N eqn:EN.
  assert (TC : forall c, In c (cols ti) -> length (col c ti) = N) by (intros; rewrite EN; apply len_col; auto).
  assert (CI : forall c, In c (required i) -> length (col c inp) = length (rows inp)) by (intros; apply len_col; auto).
  assert (IT : length (icol 0 ti) = N) by (rewrite EN; apply len_icol).
  assert (II : length (icol 0 inp) = length (rows inp)) by apply len_icol.
  rewrite T in TC.
  destruct i; cbn [ti_names ti_cols map fst required valid] in *;
  try (exfalso; eapply RI; reflexivity);
  try (assert (LL : length (rows inp) = N) by (apply L; intros; discriminate); rewrite ?LL in *);
  repeat match type of TC with forall c, In c (?x :: ?l) -> _ =>
    let X := fresh "TX" in let Y := fresh in
    pose proof (TC x (or_introl eq_refl)) as X;
    assert (Y : forall c, In c l -> length (col c ti) = N) by (intros; apply TC; right; assumption);
    clear TC; rename Y into TC end;
  repeat match type of CI with forall c, In c (?x :: ?l) -> _ =>
    let X := fresh "CX" in let Y := fresh in
    pose proof (CI x (or_introl eq_refl)) as X;
    assert (Y : forall c, In c l -> length (col c inp) = N) by (intros; apply CI; right; assumption);
    clear CI; rename Y into CI end;
  clear C RI; unfold signal_of; cbv zeta; unfold guard in *; rewrite <- ?EN.
  all: try (destruct (Nat.ltb_spec N 1); [eexists; reflexivity|]);
    try (destruct (Nat.ltb_spec N 2); [eexists; reflexivity|]);
    try (destruct (Nat.ltb_spec N 3); [eexists; reflexivity|]);
    try (destruct (Nat.ltb_spec N 4); [eexists; reflexivity|]);
    try (destruct (Nat.ltb_spec N 10); [eexists; reflexivity|]);
    try (destruct (Nat.ltb_spec N 30); [eexists; reflexivity|]);
    try (destruct (Nat.ltb_spec N 90); [eexists; reflexivity|]);
    try (destruct (Nat.ltb_spec N 255); [eexists; reflexivity|]).
  all: try (reads N; fail).
  - unfold dema_signal. reads N.
  - pose proof (len_col _ _ (MI eq_refl)) as ME. rewrite LL in ME.
    destruct (bulge _); [reads N|eexists; reflexivity].
  - pose proof (len_col _ _ (MP p eq_refl)) as ME. rewrite LL in ME.
    destruct (Nat.ltb_spec N p); [eexists; reflexivity|].
    assert (N = 1%nat -> p <> 1%nat) by (intros A ->; apply P1; auto).
    assert (2 <= N)%nat by lia. reads N.
  - unfold mom_signal. rewrite TX. destruct (Nat.ltb_spec N 9); [eexists; reflexivity|]. reads N.
  - rewrite LL. destruct (Nat.ltb_spec N p); [eexists; reflexivity|].
    destruct (Nat.ltb_spec N 1); [eexists; reflexivity|]. reads N.
  - rewrite LL. assert (CF : length (col "close" (fill_missing inp)) = N) by (rewrite len_fill_col by auto; auto).
    reads N. destruct (lt3 _ _ _).
    + destruct (Nat.ltb_spec N 5); [eexists; reflexivity|]. unfold dema_signal. reads N.
    + destruct (gt3 _ _ _); [|eexists; reflexivity].
      destruct (Nat.ltb_spec N 12); [eexists; reflexivity|].
      unfold mom_signal. assert (LM : length (mom 12 (col "close" (fill_missing inp))) = N) by auto with len.
      rewrite LM. destruct (Nat.ltb_spec N 9); [eexists; reflexivity|]. reads N.
  - rewrite LL. destruct (Nat.ltb_spec N 30); [eexists; reflexivity|]. reads N.
Qed.

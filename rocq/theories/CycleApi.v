(** * CycleApi: running totals and recursive averages on a market that repeats itself. *)
From Coq Require Import ZArith QArith Qcanon Bool List String PeanoNat Lia.
From Verif Require Import Num NumFacts Pandas Sim Frame FrameSpec Ind Signal Api IndSpec ApiSpec RangeSpec Publish ValueSpec ValueFacts ValueApi CumulApi FormulaSpec FormulaApi SignalSpec SignalApi OneWaySpec OneWayApi MirrorSpec SwaySpec SwayFacts FadeApi Cells RepeatSpec RepeatApi.
Import ListNotations.
Open Scope list_scope. Open Scope string_scope. Open Scope Qc_scope.
Notation near := SwaySpec.near.

(** ** the lines *)
Lemma nq_0 : nq 0 = 0. Proof. apply Qc_is_canon. reflexivity. Qed.
Lemma nq_one_more n : nq (S n) = nq n + 1. Proof. change (nq (S n)) with (qnat (S n)). rewrite qnat_S. change (qnat n) with (nq n). ring. Qed.
Section Lines.
  Variables (c v : nat -> Qc) (p K : nat).
  Hypothesis PC : forall j, (j + p <= K)%nat -> c (j + p)%nat = c j. Hypothesis PV : forall j, (j + p <= K)%nat -> v (j + p)%nat = v j.
  Lemma obv_cycle k : (k + p <= K)%nat -> obv_line c v (k + p) = obv_line c v k + obv_line c v p.
  Proof.
    induction k as [|k IH]; cbn [Nat.add]; intro L; [cbn [obv_line]; ring|]. cbn [obv_line]. rewrite IH by lia. rewrite (PC k) by lia.
    change (S (k + p)) with (S k + p)%nat. rewrite (PC (S k)), (PV (S k)) by lia. ring.
  Qed.
  Lemma pvt_cycle k : (k + p <= K)%nat -> pvt_line c v (k + p) = pvt_line c v k + pvt_line c v p.
  Proof.
    induction k as [|k IH]; cbn [Nat.add]; intro L; [cbn [pvt_line]; ring|]. cbn [pvt_line]. rewrite IH by lia. rewrite (PC k) by lia.
    change (S (k + p)) with (S k + p)%nat. rewrite (PC (S k)), (PV (S k)) by lia. ring.
  Qed.
  Lemma index_cycle q k : (k + p <= K)%nat -> index_line q c v (k + p) = index_line q c v k * (index_line q c v p / zq 1000).
  Proof.
    induction k as [|k IH]; cbn [Nat.add]; intro L; [cbn [index_line]; field; discriminate|]. cbn [index_line]. cbv zeta. rewrite IH by lia. rewrite (PC k), (PV k) by lia.
    change (S (k + p)) with (S k + p)%nat. rewrite (PC (S k)), (PV (S k)) by lia. destruct (q (v k) (v (S k))); ring.
  Qed.
  Lemma obv_cycles t k : (k + t * p <= K)%nat -> obv_line c v (k + t * p) = obv_line c v k + nq t * obv_line c v p.
  Proof.
    induction t as [|t IH]; cbn [Nat.mul]; intro L; [rewrite Nat.add_0_r; rewrite nq_0; ring|].
    replace (k + (p + t * p))%nat with (k + t * p + p)%nat in * by lia. rewrite obv_cycle, IH by lia. rewrite nq_one_more. ring.
  Qed.
  Lemma pvt_cycles t k : (k + t * p <= K)%nat -> pvt_line c v (k + t * p) = pvt_line c v k + nq t * pvt_line c v p.
  Proof.
    induction t as [|t IH]; cbn [Nat.mul]; intro L; [rewrite Nat.add_0_r; rewrite nq_0; ring|].
    replace (k + (p + t * p))%nat with (k + t * p + p)%nat in * by lia. rewrite pvt_cycle, IH by lia. rewrite nq_one_more. ring.
  Qed.
  Lemma index_cycles q t k : (k + t * p <= K)%nat -> index_line q c v (k + t * p) = index_line q c v k * (index_line q c v p / zq 1000) ^ t.
  Proof.
    induction t as [|t IH]; cbn [Nat.mul]; intro L; [rewrite Nat.add_0_r; cbn [Qcpower]; ring|].
    replace (k + (p + t * p))%nat with (k + t * p + p)%nat in * by lia. rewrite index_cycle, IH by lia. cbn [Qcpower]. ring.
  Qed.
End Lines.

Lemma given_there x ob j q : given x ob j = Fin q -> (j < days_given ob)%nat.
Proof.
  unfold given, cell_at, days_given. intro E. destruct (Nat.lt_ge_cases j (List.length (rows (ob_input ob)))) as [L|L]; [exact L|]. exfalso.
  rewrite nth_overflow in E; [discriminate E|]. unfold col. destruct (position x (cols (ob_input ob))); [rewrite map_length; exact L|cbn; lia].
Qed.
Lemma repeats_known p ob x K f : repeats p ob -> In x (required (ob_ind ob)) -> known (given x ob) K f -> forall j, (j + p <= K)%nat -> f (j + p)%nat = f j.
Proof.
  intros R I KN j L. pose proof (KN (j + p)%nat L) as A. pose proof (KN j ltac:(lia)) as B. rewrite (R x j I) in A by (eapply given_there; eauto). congruence.
Qed.
Lemma known_less x K k f : known x K f -> (k <= K)%nat -> known x k f.
Proof. intros H L j J. apply H. lia. Qed.

(** ** the indicators *)
Section Totals.
  Variables (o : oracle) (raw : rawframe) (b : bool) (ob : obj) (p t k : nat) (cx vx : nat -> Qc).
  Hypothesis W : wf_raw raw. Hypothesis R : repeats p ob.
  Notation made c := (snd (construct o c (RFrame raw) (VBool b)) = Ok ob).
  Notation K := (k + t * p)%nat.
  Hypothesis KC : known (given "close" ob) K cx. Hypothesis KV : known (given "volume" ob) K vx.
  Lemma long_enough : (1 <= t)%nat -> (p <= K)%nat.
  Proof. intro T. clear - T. destruct t; [lia|]. cbn [Nat.mul]. lia. Qed.
  Lemma obv_repeats : (1 <= t)%nat -> made cOBV -> exists a g, shown "obv" ob k = Fin a /\ shown "obv" ob p = Fin g /\ shown "obv" ob K = Fin (a + nq t * g).
  Proof.
    intros T H. pose proof (long_enough T) as LE. pose proof (ind_asked o raw b ob W cOBV H) as E. exists (obv_line cx vx k), (obv_line cx vx p).
    assert (PC := repeats_known p ob "close" K cx R ltac:(rewrite E; cbn; auto) KC). assert (PV := repeats_known p ob "volume" K vx R ltac:(rewrite E; cbn; auto) KV).
    rewrite (obv_shown_line o raw b ob W k cx vx H), (obv_shown_line o raw b ob W p cx vx H), (obv_shown_line o raw b ob W K cx vx H) by (eauto using known_less; eapply known_less; eauto; lia).
    rewrite (obv_cycles cx vx p K PC PV) by lia. auto.
  Qed.
  Hypothesis NZ : forall j, (j < K)%nat -> cx j <> 0.
  Lemma pvt_repeats : made cPVT -> shown "pvt" ob K = Fin (r4 (pvt_line cx vx k + nq t * pvt_line cx vx p)).
  Proof.
    intro H. pose proof (ind_asked o raw b ob W cPVT H) as E.
    assert (PC := repeats_known p ob "close" K cx R ltac:(rewrite E; cbn; auto) KC). assert (PV := repeats_known p ob "volume" K vx R ltac:(rewrite E; cbn; auto) KV).
    rewrite (pvt_shown_line o raw b ob W K cx vx H) by (try (eapply known_less; eauto; lia); intros; apply NZ; lia).
    rewrite (pvt_cycles cx vx p K PC PV) by lia. reflexivity.
  Qed.
  Lemma nvi_repeats : made cNVI -> let line := index_line (fun before now => qltb now before) cx vx in shown "nvi" ob K = Fin (r4 (line k * (line p / zq 1000) ^ t)).
  Proof.
    intro H. pose proof (ind_asked o raw b ob W cNVI H) as E. cbv zeta.
    assert (PC := repeats_known p ob "close" K cx R ltac:(rewrite E; cbn; auto) KC). assert (PV := repeats_known p ob "volume" K vx R ltac:(rewrite E; cbn; auto) KV).
    rewrite (nvi_shown_line o raw b ob W K cx vx H) by auto. rewrite (index_cycles cx vx p K PC PV) by lia. reflexivity.
  Qed.
  Lemma pvi_repeats : made cPVI -> let line := index_line (fun before now => qltb before now) cx vx in shown "pvi" ob K = Fin (r4 (line k * (line p / zq 1000) ^ t)).
  Proof.
    intro H. pose proof (ind_asked o raw b ob W cPVI H) as E. cbv zeta.
    assert (PC := repeats_known p ob "close" K cx R ltac:(rewrite E; cbn; auto) KC). assert (PV := repeats_known p ob "volume" K vx R ltac:(rewrite E; cbn; auto) KV).
    rewrite (pvi_shown_line o raw b ob W K cx vx H) by auto. rewrite (index_cycles cx vx p K PC PV) by lia. reflexivity.
  Qed.
End Totals.

(** ** averages that settle *)
Lemma settles o raw b ob c p t k m lo w cl name a q u : wf_raw raw -> snd (construct o c (RFrame raw) (VBool b)) = Ok ob -> repeats p ob -> In "close" (required (ob_ind ob)) ->
  known (given "close" ob) (k + t * p) cl -> inside lo w (k + t * p) cl -> In (name, a, q, u) (remains c m) -> (a + m <= k)%nat ->
  near (q * w + units4 u) (shown name ob k) (shown name ob (k + t * p)).
Proof.
  intros W H R IC KC IN I M. pose proof (repeats_known p ob "close" _ cl R IC KC) as PC.
  assert (Q : forall s j, (j + s * p <= k + t * p)%nat -> cl (j + s * p)%nat = cl j).
  { induction s as [|s IH]; intros j L; cbn [Nat.mul] in *; [f_equal; lia|]. replace (j + (p + s * p))%nat with (j + s * p + p)%nat in * by lia. rewrite PC by lia. apply IH. lia. }
  refine (past_fades o raw raw b b ob ob k (k + t * p) m lo w cl cl W W _ KC _ _ IN _ _ c name a q u _ I _ _); try lia.
  - eapply known_less; eauto. lia.
  - intros j J. replace (k + t * p - j)%nat with (k - j + t * p)%nat by lia. symmetry. apply Q. lia.
  - intros j J. apply IN. lia.
  - split; exact H.
Qed.

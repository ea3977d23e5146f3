(** * QuietSim: without a limit every trade of a simulation stands for itself. *)
From Coq Require Import ZArith QArith Qcanon Bool List PeanoNat Lia.
From Verif Require Import Num NumFacts RoundFacts Pandas Sim Frame SimSpec SimProofs SimLemmas Ind Signal Api RangeFacts QuietSpec.
Import ListNotations.
Open Scope Qc_scope.

Section Same.
  Variables (d d' : list simrow) (i : nat).
  Hypothesis PR : forall k, (k <= i)%nat -> price d' k = price d k.
  Lemma profitable_one j k : act d' j = act d j -> (j <= i)%nat -> (k <= i)%nat -> profitable d' j k = profitable d j k.
  Proof. intros A J K. unfold profitable. rewrite A, !PR by lia. reflexivity. Qed.
  Lemma open_one j k : act d' j = act d j -> (k <= i)%nat -> still_open d' j k = still_open d j k.
  Proof.
    intros A K. unfold still_open. destruct (Nat.leb_spec j k) as [L|L]; [|rewrite !andb_false_r; reflexivity]. rewrite A. f_equal.
    assert (G : forall l, (forall x, In x l -> (x <= i)%nat) -> forallb (fun k0 => negb (profitable d' j k0)) l = forallb (fun k0 => negb (profitable d j k0)) l).
    { induction l as [|x l IH]; intro H; [reflexivity|]. cbn. rewrite profitable_one, IH; auto; [intros y Y; apply H; right; exact Y|lia|apply H; left; reflexivity]. }
    apply G. intros x X. apply in_seq in X. lia.
  Qed.
  Lemma closed_one j k : act d' j = act d j -> (k <= i)%nat -> closed_on d' j k = closed_on d j k.
  Proof. intros A K. unfold closed_on. destruct (Nat.ltb_spec j k) as [L|L]; [|reflexivity]. rewrite open_one, profitable_one by (auto; lia). reflexivity. Qed.
  Lemma profit_one j k : act d' j = act d j -> (j <= i)%nat -> (k <= i)%nat -> profit d' j k = profit d j k.
  Proof. intros A J K. unfold profit. rewrite A, !PR by lia. reflexivity. Qed.
  Lemma exposure_one f j : act d' j = act d j -> (j <= i)%nat -> opened_exposure f d' j = opened_exposure f d j.
  Proof. intros A J. unfold opened_exposure. rewrite A, PR by lia. reflexivity. Qed.
End Same.
Lemma open_none d j k : act d j = ANone -> still_open d j k = false.
Proof. intro A. unfold still_open. rewrite A. reflexivity. Qed.
Lemma closed_none d j k : act d j = ANone -> closed_on d j k = false.
Proof. intro A. unfold closed_on. rewrite open_none by exact A. rewrite andb_false_r. reflexivity. Qed.
Lemma sum_days_plus n g h : sum_days n (fun j => g j + h j) = sum_days n g + sum_days n h.
Proof. induction n as [|n IH]; [unfold sum_days; cbn; ring|]. rewrite !sum_days_S, IH. ring. Qed.
Lemma count_days_plus n (p q r : nat -> bool) : (forall j, (j < n)%nat -> (if p j then 1 else 0) = (if q j then 1 else 0) + (if r j then 1 else 0))%nat -> count_days n p = (count_days n q + count_days n r)%nat.
Proof. induction n as [|n IH]; intro H; [reflexivity|]. rewrite !count_days_S, IH by (intros j J; apply H; lia). specialize (H n ltac:(lia)). lia. Qed.

(** without a limit every signal but that of the first day is followed *)
Definition followed (i : nat) (s : signal) : action := match i with O => ANone | S _ => match s with Buy => ALong | Sell => AShort | Hold => ANone end end.
Lemma free_act ps f sgs i : 1 <= f -> (length sgs <= length ps)%nat -> (i < length sgs)%nat ->
  act (data (simulate (map Fin ps) None (Fin f) sgs)) i = followed i (nth i sgs Hold).
Proof. intros F L H. destruct i as [|i]; [apply sp_act0; auto|]. rewrite (sp_act ps None f sgs F L) by lia. cbn [fits followed]. destruct (nth (S i) sgs Hold); reflexivity. Qed.

Section Divided.
  Variables (ps : list Qc) (f : Qc) (sgs a b : list signal) (i : nat).
  Hypothesis F : 1 <= f.
  Hypothesis L : (length sgs <= length ps)%nat.
  Hypothesis I : (i < length sgs)%nat.
  Hypothesis DV : divided sgs a b.
  Notation st s := (simulate (map Fin ps) None (Fin f) s).
  Notation D s := (data (st s)).
  Lemma la : (length a <= length ps)%nat. Proof. destruct DV as (E & _). lia. Qed.
  Lemma lb : (length b <= length ps)%nat. Proof. destruct DV as (_ & E & _). lia. Qed.
  Lemma ia : (i < length a)%nat. Proof. destruct DV as (E & _). lia. Qed.
  Lemma ib : (i < length b)%nat. Proof. destruct DV as (_ & E & _). lia. Qed.
  Lemma price_a k : (k <= i)%nat -> price (D sgs) k = price (D a) k.
  Proof. intro K. pose proof ia. pose proof la. rewrite !(sp_price ps None f) by (auto; lia). reflexivity. Qed.
  Lemma price_b k : (k <= i)%nat -> price (D sgs) k = price (D b) k.
  Proof. intro K. pose proof ib. pose proof lb. rewrite !(sp_price ps None f) by (auto; lia). reflexivity. Qed.
  Lemma followed_hold j : followed j Hold = ANone. Proof. destruct j; reflexivity. Qed.
  Lemma acts j : (j <= i)%nat -> (act (D sgs) j = act (D a) j /\ act (D b) j = ANone) \/ (act (D sgs) j = act (D b) j /\ act (D a) j = ANone).
  Proof.
    intro J. pose proof ia. pose proof la. pose proof ib. pose proof lb. rewrite !free_act by (auto; lia). destruct DV as (_ & _ & H5). destruct (H5 j) as [[E1 E2]|[E1 E2]]; rewrite E1, E2; [left|right]; split; auto using followed_hold.
  Qed.
  Lemma sum_exposure : spec_exposure f (D sgs) i = spec_exposure f (D a) i + spec_exposure f (D b) i.
  Proof.
    unfold spec_exposure, spec_exposure_before. rewrite <- sum_days_plus. apply sum_days_ext. intros j J. destruct (acts j ltac:(lia)) as [[E N]|[E N]].
    - rewrite (open_one (D a) (D sgs) i price_a), (exposure_one (D a) (D sgs) i price_a), (open_none (D b) j i N) by (auto; lia). ring.
    - rewrite (open_one (D b) (D sgs) i price_b), (exposure_one (D b) (D sgs) i price_b), (open_none (D a) j i N) by (auto; lia). ring.
  Qed.
  Lemma sum_earnings : spec_earnings (D sgs) i = spec_earnings (D a) i + spec_earnings (D b) i.
  Proof.
    unfold spec_earnings. rewrite <- sum_days_plus. apply sum_days_ext. intros k K. rewrite <- sum_days_plus. apply sum_days_ext. intros j J. destruct (acts j ltac:(lia)) as [[E N]|[E N]].
    - rewrite (closed_one (D a) (D sgs) i price_a), (profit_one (D a) (D sgs) i price_a), (closed_none (D b) j k N) by (auto; lia). ring.
    - rewrite (closed_one (D b) (D sgs) i price_b), (profit_one (D b) (D sgs) i price_b), (closed_none (D a) j k N) by (auto; lia). ring.
  Qed.
  Lemma sum_longs : open_longs (D sgs) i = (open_longs (D a) i + open_longs (D b) i)%nat.
  Proof.
    apply count_days_plus. intros j J. destruct (acts j ltac:(lia)) as [[E N]|[E N]].
    - rewrite (open_one (D a) (D sgs) i price_a), (open_none (D b) j i N), E by (auto; lia). cbn [andb]. lia.
    - rewrite (open_one (D b) (D sgs) i price_b), (open_none (D a) j i N), E by (auto; lia). cbn [andb]. lia.
  Qed.
  Lemma sum_shorts : open_shorts (D sgs) i = (open_shorts (D a) i + open_shorts (D b) i)%nat.
  Proof.
    apply count_days_plus. intros j J. destruct (acts j ltac:(lia)) as [[E N]|[E N]].
    - rewrite (open_one (D a) (D sgs) i price_a), (open_none (D b) j i N), E by (auto; lia). cbn [andb]. lia.
    - rewrite (open_one (D b) (D sgs) i price_b), (open_none (D a) j i N), E by (auto; lia). cbn [andb]. lia.
  Qed.
  Lemma stand_alone : let r s := row_ (D s) i in
    x_earnings (r sgs) = nadd (x_earnings (r a)) (x_earnings (r b)) /\ x_exposure (r sgs) = nadd (x_exposure (r a)) (x_exposure (r b)) /\
    x_portfolio_value (r sgs) = nadd (x_portfolio_value (r a)) (x_portfolio_value (r b)) /\ x_balance (r sgs) = nadd (x_balance (r a)) (x_balance (r b)) /\
    open_longs (D sgs) i = (open_longs (D a) i + open_longs (D b) i)%nat /\ open_shorts (D sgs) i = (open_shorts (D a) i + open_shorts (D b) i)%nat.
  Proof.
    cbv zeta. pose proof ia. pose proof la. pose proof ib. pose proof lb.
    assert (E : x_earnings (row_ (D sgs) i) = nadd (x_earnings (row_ (D a) i)) (x_earnings (row_ (D b) i))) by (rewrite !(sp_earnings ps None f) by auto; cbn [nadd]; rewrite sum_earnings; reflexivity).
    assert (V : x_portfolio_value (row_ (D sgs) i) = nadd (x_portfolio_value (row_ (D a) i)) (x_portfolio_value (row_ (D b) i))).
    { rewrite !(sp_pv ps None f) by auto. cbn [nadd]. f_equal. rewrite <- price_a, <- price_b, sum_longs, sum_shorts by lia. rewrite <- Qcmult_plus_distr_r. f_equal.
      apply Qc_is_canon. unfold Qcplus, Q2Qc, this. rewrite !Qred_correct. rewrite <- inject_Z_plus. apply inject_Z_injective. lia. }
    split; [exact E|]. split; [rewrite !(sp_exposure ps None f) by auto; cbn [nadd]; rewrite sum_exposure; reflexivity|]. split; [exact V|]. split; [|split; [exact sum_longs|exact sum_shorts]].
    rewrite !(sp_balance ps None f) by auto. rewrite E, V. rewrite !(sp_earnings ps None f), !(sp_pv ps None f) by auto. cbn [nadd]. f_equal. ring.
  Qed.
End Divided.

(** the days on which b signals and a holds *)
Definition rest_of (p : signal * signal) : signal := match fst p with Hold => snd p | _ => Hold end.
Definition other (a b : list signal) : list signal := map rest_of (combine a b).
Lemma other_divided a b : quieter_days a b -> divided b a (other a b).
Proof.
  intros [L Q]. unfold other. split; [exact L|]. split; [rewrite map_length, combine_length; lia|]. intro i. specialize (Q i). destruct (Nat.lt_ge_cases i (length b)) as [I|I].
  - rewrite (nth_indep (map _ _) Hold (rest_of (Hold, Hold))) by (rewrite map_length, combine_length; lia).
    rewrite map_nth, combine_nth by lia. unfold rest_of. cbn [fst snd]. destruct Q as [E|E]; rewrite E; [right; auto|left; destruct (nth i b Hold); auto].
  - rewrite !nth_overflow by (rewrite ?map_length, ?combine_length; lia). left. auto.
Qed.
Lemma fewer_signals ps f a b i : 1 <= f -> (length b <= length ps)%nat -> (i < length b)%nat -> quieter_days a b ->
  let s := simulate (map Fin ps) None (Fin f) a in let s' := simulate (map Fin ps) None (Fin f) b in
  nleb (x_earnings (row_ (data s) i)) (x_earnings (row_ (data s') i)) = true /\
  (open_longs (data s) i <= open_longs (data s') i)%nat /\ (open_shorts (data s) i <= open_shorts (data s') i)%nat /\
  ((forall p, In p ps -> 0 <= p) -> nleb (x_exposure (row_ (data s) i)) (x_exposure (row_ (data s') i)) = true).
Proof.
  intros F L I Q s s'. pose proof (other_divided a b Q) as DV. destruct (stand_alone ps f b a (other a b) i F L I DV) as (E & X & _ & _ & OL & OS).
  assert (LO : (length (other a b) <= length ps)%nat) by (destruct DV as (_ & E2 & _); lia). assert (IO : (i < length (other a b))%nat) by (destruct DV as (_ & E2 & _); lia).
  assert (LA : (length a <= length ps)%nat) by (destruct DV as (E2 & _); lia). assert (IA : (i < length a)%nat) by (destruct DV as (E2 & _); lia).
  fold s s' in E, X, OL, OS. split; [|split; [lia|]; split; [lia|]].
  - rewrite E. unfold s. rewrite !(sp_earnings ps None f) by auto. cbn [nadd]. apply nleb_fin. pose proof (earnings_nonneg (data (simulate (map Fin ps) None (Fin f) (other a b))) i) as G. qlra.
  - intro PN. rewrite X. unfold s. rewrite !(sp_exposure ps None f) by auto. cbn [nadd]. apply nleb_fin.
    pose proof (exposure_nonneg ps None f (other a b) F LO PN i) as G. qlra.
Qed.

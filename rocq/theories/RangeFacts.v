(** * RangeFacts: the ranges of the bounded indicators. *)
From Coq Require Import ZArith QArith Qcanon Bool List String PeanoNat Lia.
From Verif Require Import Num NumFacts Pandas Frame Ind SeriesFacts Lengths IndSpec ApiSpec RangeSpec Cells.
Import ListNotations.
Open Scope list_scope. Open Scope Qc_scope.

Lemma between_nan lo hi : between lo hi NaN. Proof. left. reflexivity. Qed.
Lemma between_fin lo hi q : lo <= q -> q <= hi -> between lo hi (Fin q).
Proof. right. eauto. Qed.
Lemma within_nan lo hi : within lo hi NaN. Proof. left. reflexivity. Qed.
Lemma within_round k lo hi x : within lo hi x -> within lo hi (nround k x).
Proof.
  intros [->|(q & -> & A & B)]; [left; reflexivity|]. right. exists (qround k q). cbn. split; auto.
  split; [apply qround_lower|apply qround_upper]; auto.
Qed.
#[export] Hint Resolve between_nan within_nan : core.

(** a ratio of two finite numbers *)
Lemma ratio_within lo hi a b : 0 <= b -> zq lo * b <= a -> a <= zq hi * b -> within lo hi (ndiv (Fin a) (Fin b)).
Proof.
  intros B L H. cbn. destruct (qeqb_spec b 0) as [->|N].
  - assert (A0 : a = 0) by (apply qc_le_antisym; qlra). subst. cbn. left. reflexivity.
  - right. exists (a / b). split; auto. pose proof (qc_nonneg_neq0_pos b B N).
    split; [apply qcle_div|apply qcdiv_le]; auto.
Qed.
Lemma zq_0 : zq 0 = 0. Proof. apply qc_eq. reflexivity. Qed.
Lemma zq_1 : zq 1 = 1. Proof. apply qc_eq. reflexivity. Qed.
Lemma zq_neg z : zq (- z) = - zq z.
Proof. unfold zq. apply qc_eq. rewrite this_opp, !this_Q2Qc. rewrite inject_Z_opp. reflexivity. Qed.

(** missing, +inf or not negative *)
Definition nnI (x : num) : Prop := match x with NaN | PInf => True | NInf => False | Fin q => 0 <= q end.
(** missing or finite and not negative *)
Definition nn0 (x : num) : Prop := match x with NaN => True | PInf | NInf => False | Fin q => 0 <= q end.
Lemma nn0_nnI x : nn0 x -> nnI x. Proof. destruct x; cbn; auto. Qed.
Lemma nnI_round k x : nnI x -> nnI (nround k x).
Proof. destruct x; cbn; auto. intro H. change 0 with (zq 0) in *. apply (qround_lower k 0). exact H. Qed.
Lemma nnI_add x y : nnI x -> nnI y -> nnI (nadd x y).
Proof. destruct x, y; cbn; auto. intros. qlra. Qed.
Lemma nnI_div x y : nnI x -> nnI y -> nnI (ndiv x y).
Proof.
  destruct x as [| | |a], y as [| | |b]; cbn; auto; try contradiction.
  - intros _ B. destruct (qltb_spec b 0); cbn; auto. qlra.
  - intros _ _. qlra.
  - intros A B. destruct (qeqb_spec b 0).
    + destruct (qeqb_spec a 0); cbn; auto. destruct (qltb_spec 0 a); cbn; auto. apply n0. apply qc_nonneg_neq0_pos; auto.
    + apply qcdiv_nonneg; auto. apply qc_nonneg_neq0_pos; auto.
Qed.
Lemma nnI_nn n : nnI (nn n). Proof. cbn. apply qnat_nonneg. Qed.
Lemma nnI_sum l : Forall nnI l -> nnI (nsum l).
Proof.
  unfold nsum. assert (Z : nnI (Fin 0)) by (cbn; qlra). revert Z. generalize (Fin 0).
  induction l as [|x l IH]; intros a A H; cbn; auto. inversion H; subst. apply IH; auto. apply nnI_add; auto.
Qed.
Lemma Forall_filter {A} (P : A -> Prop) g l : Forall P l -> Forall P (filter g l).
Proof. intro H. rewrite Forall_forall in *. intros x I. apply filter_In in I as [I _]. auto. Qed.
Lemma nnI_mean l : Forall nnI l -> nnI (mean_skip l).
Proof.
  intro H. unfold mean_skip. apply nnI_div; [|apply nnI_nn]. apply nnI_sum. apply Forall_filter. auto.
Qed.
Lemma qnat_ge1 p : (0 < p)%nat -> 1 <= qnat p.
Proof. destruct p; [lia|]. intros _. rewrite qnat_S. pose proof (qnat_nonneg p). qlra. Qed.
Lemma wilder_fin p a x : (0 < p)%nat -> wilder p (Fin a) (Fin x) = Fin (((qnat p - 1) * a + x) / qnat p).
Proof.
  intro P. unfold wilder, nn, nsub. cbn [nneg nadd ndiv]. pose proof (qnat_pos p P).
  destruct (qeqb_spec (qnat p) 0) as [E|N]; [exfalso; exact (qc_pos_neq0 _ H E)|].
  cbn [nadd]. f_equal. field. auto.
Qed.
Lemma nnI_wilder p a x : (0 < p)%nat -> nnI a -> nnI x -> nnI (wilder p a x).
Proof.
  intros P A X. destruct a as [| | |a]; try contradiction; [exact I| |].
  - unfold wilder, nn, nsub. pose proof (qnat_pos p P). destruct x as [| | |x]; cbn in *; auto; destruct (qltb_spec (qnat p) 0); cbn; auto; qlra.
  - destruct x as [| | |x]; try contradiction; [exact I| |].
    + unfold wilder, nn, nsub. pose proof (qnat_pos p P). cbn. destruct (qltb_spec (qnat p) 0); cbn; auto; qlra.
    + rewrite wilder_fin by auto. cbn in *. apply qcdiv_nonneg; [|apply qnat_pos; auto].
      pose proof (qnat_ge1 p P). qnra.
Qed.

(** ** RSI, RMI *)
Lemma rsi_value_within q : nnI q -> within 0 100 (nsub (F 100) (ndiv (F 100) (nadd q (F 1)))).
Proof.
  intros Q. destruct q as [| | |q]; cbn in Q; try contradiction; auto.
  - cbn. right. eexists. split; [reflexivity|]. split; unfold zq; qlra.
  - unfold F. cbn [nadd]. assert (P : 0 < q + Q2Qc (inject_Z 1)) by qlra.
    cbn [ndiv]. destruct (qeqb_spec (q + Q2Qc (inject_Z 1)) 0) as [E|N]; [rewrite E in P; qlra|].
    unfold nsub. cbn [nneg nadd]. right. eexists. split; [reflexivity|].
    assert (A : Q2Qc (inject_Z 100) / (q + Q2Qc (inject_Z 1)) <= zq 100) by (apply qcdiv_le; auto; unfold zq; qlra).
    assert (B : 0 <= Q2Qc (inject_Z 100) / (q + Q2Qc (inject_Z 1))) by (apply qcdiv_nonneg; auto; qlra).
    revert A B. generalize (Q2Qc (inject_Z 100) / (q + Q2Qc (inject_Z 1))). unfold zq. intros x A B. split; qlra.
Qed.
Lemma rsi_up_nn c : Forall nnI (rsi_up c).
Proof.
  apply Forall_of_nth. intros i L. unfold rsi_up in *. rewrite len_from_row in L.
  pose proof L as L'. rewrite len_szip, len_shift, Nat.min_id in L'. rewrite nth_from_row by auto.
  destruct (i <? 1)%nat; [exact I|]. erewrite c_szip by (eauto with len; rewrite ?len_shift; eauto).
  generalize (nth i c NaN) (nth i (shift 1 c) NaN). intros x y. apply nnI_round.
  destruct x as [| | |x], y as [| | |y]; cbn; try qlra; auto. destruct (qltb_spec y x); cbn; qlra.
Qed.
Lemma rsi_dn_nn c : Forall nnI (rsi_dn c).
Proof.
  apply Forall_of_nth. intros i L. unfold rsi_dn in *. rewrite len_from_row in L.
  pose proof L as L'. rewrite len_szip, len_shift, Nat.min_id in L'. rewrite nth_from_row by auto.
  destruct (i <? 1)%nat; [exact I|]. erewrite c_szip by (eauto with len; rewrite ?len_shift; eauto).
  generalize (nth i c NaN) (nth i (shift 1 c) NaN). intros x y. apply nnI_round.
  destruct x as [| | |x], y as [| | |y]; cbn; try qlra; auto. destruct (qltb_spec x y); cbn; qlra.
Qed.
Lemma rsi_smooth_nn p s : (0 < p)%nat -> Forall nnI s -> Forall nnI (rsi_smooth p s).
Proof.
  intros P H. unfold rsi_smooth. apply seeded_all with (Q := nnI); auto.
  - exact I.
  - apply nnI_mean. apply Forall_firstn. auto.
  - intros. apply nnI_round. apply nnI_wilder; auto.
Qed.
Lemma Forall_szip (P Q R : num -> Prop) f a b : (forall x y, P x -> Q y -> R (f x y)) ->
  Forall P a -> Forall Q b -> Forall R (szip f a b).
Proof.
  intros H A. revert b. induction A as [|x a X A IH]; intros b B; [constructor|].
  inversion B; subst; [constructor|]. constructor; [apply H; auto|apply IH; auto].
Qed.
Lemma Forall_smap (P Q : num -> Prop) f s : (forall x, P x -> Q (f x)) -> Forall P s -> Forall Q (smap f s).
Proof. intros H A. apply Forall_forall. intros x I. apply in_map_iff in I as (y & <- & I). rewrite Forall_forall in A. auto. Qed.

Lemma rsi_range p c : (0 < p)%nat -> Forall (within 0 100) (rsi p c).
Proof.
  intro P. unfold rsi. apply Forall_smap with (P := within 0 100); [intros; apply within_round; auto|].
  apply Forall_smap with (P := nnI); [apply rsi_value_within|].
  apply Forall_szip with (P := nnI) (Q := nnI); [apply nnI_div| |];
    apply rsi_smooth_nn; auto using rsi_up_nn, rsi_dn_nn.
Qed.

Lemma nnI_rmi_up x : nnI (if nltb (F 0) x then x else if nleb x (F 0) then F 0 else NaN).
Proof.
  destruct x as [| | |x]; cbn; try qlra; auto. destruct (qltb_spec (Q2Qc (inject_Z 0)) x); cbn; [qlra|].
  destruct (nleb (Fin x) (F 0)); cbn; auto; qlra.
Qed.
Lemma nnI_rmi_dn x : nnI (if nltb x (F 0) then nabs x else if nleb (F 0) x then F 0 else NaN).
Proof.
  destruct x as [| | |x]; cbn; try qlra; auto. destruct (qltb_spec x (Q2Qc (inject_Z 0))); cbn; [apply qabs_nonneg|].
  destruct (nleb (F 0) (Fin x)); cbn; auto; qlra.
Qed.
Lemma rmi_smooth_nn p m s : (0 < p)%nat -> Forall nnI s -> Forall nnI (rmi_smooth p m s).
Proof.
  intros P H. unfold rmi_smooth. apply seeded_all with (Q := nnI); auto.
  - exact I.
  - apply nnI_mean. unfold slice. apply Forall_firstn, Forall_skipn. auto.
  - intros. apply nnI_wilder; auto.
Qed.
Lemma rmi_value_within q : nnI q -> within 0 100 (ndiv (nmul (F 100) q) (nadd q (F 1))).
Proof.
  intros Q. destruct q as [| | |q]; cbn in Q; try contradiction; auto.
  unfold F. cbn [nmul nadd]. apply ratio_within; unfold zq; qlra.
Qed.
Lemma Forall_True s : Forall (fun _ : num => True) s.
Proof. apply Forall_forall. auto. Qed.
Lemma Forall_zip_same (P R : num -> Prop) f g s : (forall x, P x -> R (f (g x) x)) -> Forall P s ->
  Forall R (szip f (smap g s) s).
Proof. intros H A. induction A; cbn; constructor; auto. Qed.
Lemma szip_smap_r f (g h : num -> num) s : szip f (smap g s) (smap h s) = smap (fun x => f (g x) (h x)) s.
Proof. induction s; [reflexivity|]. cbn. f_equal. exact IHs. Qed.
Lemma rmi_range p m c : (0 < p)%nat -> Forall (within 0 100) (rmi p m c).
Proof.
  intro P. unfold rmi, scale, saddc. cbv zeta. apply Forall_smap with (P := within 0 100); [intros; apply within_round; auto|].
  unfold sdiv at 1. rewrite szip_smap_r. apply Forall_smap with (P := nnI); [apply rmi_value_within|].
  apply Forall_szip with (P := nnI) (Q := nnI); [apply nnI_div| |]; apply rmi_smooth_nn; auto;
    unfold rmi_up, rmi_dn; (apply Forall_smap with (P := fun _ => True); [|apply Forall_True]); intros x _;
    [apply nnI_rmi_up|apply nnI_rmi_dn].
Qed.

(** ** sums of rises and falls: CMO, IMI *)
Ltac fincase x := destruct x as [| | |x]; cbn; try discriminate.
Lemma roll_sum_nn w s i n : length s = n -> (i < n)%nat -> Forall nnI s -> nn0 (nth i (roll_sum w s) NaN).
Proof.
  intros L H A. destruct (roll_sum_view w s i n L H) as [->|(-> & W & F)]; [exact I|]. cbn.
  apply wsum_nonneg; auto. intros j J. specialize (F j J). pose proof (Forall_nth_NaN nnI s j I A) as B.
  rewrite F in B. exact B.
Qed.
Lemma drop_neg_nn s : Forall nnI (drop_neg s).
Proof.
  unfold drop_neg. apply Forall_smap with (P := fun _ => True); [|apply Forall_True]. intros x _.
  destruct x as [| | |x]; cbn; try qlra; auto. destruct (qltb_spec x (Q2Qc (inject_Z 0))); cbn; qlra.
Qed.
Lemma roll_sum_fin w s i n : length s = n -> (i < n)%nat ->
  nth i (roll_sum w s) NaN = NaN \/ exists q, nth i (roll_sum w s) NaN = Fin q.
Proof. intros L H. destruct (roll_sum_view w s i n L H) as [->|(-> & _)]; eauto. Qed.
Lemma cmo_value_within u d : nn0 u -> nn0 d -> within (-100) 100 (ndiv (nmul (F 100) (nsub u d)) (nadd u d)).
Proof.
  intros U D. destruct u as [| | |u]; cbn in U; try contradiction; auto.
  destruct d as [| | |d]; cbn in D; try contradiction; auto.
  unfold nsub, F. cbn [nneg nadd nmul]. apply ratio_within; unfold zq; qlra.
Qed.
Lemma imi_value_within u d : nnI u -> nnI d -> within 0 100 (ndiv (nmul (F 100) u) (nadd u d)).
Proof.
  intros U D. destruct u as [| | |u]; cbn in U; try contradiction; auto.
  - destruct d as [| | |d]; cbn in D; try contradiction; left; reflexivity.
  - destruct d as [| | |d]; cbn in D; try contradiction; auto.
    + unfold F. cbn. right. eexists. split; [reflexivity|]. unfold zq. split; qlra.
    + unfold F. cbn [nadd nmul]. apply ratio_within; unfold zq; qlra.
Qed.
Lemma cmo_range p c i : within (-100) 100 (nth i (cmo p c) NaN).
Proof.
  destruct (Nat.lt_ge_cases i (length c)) as [L|L]; [|rewrite nth_overflow; auto; rewrite (ln_cmo p c (length c)); auto].
  remember (length c) as n eqn:E. symmetry in E. unfold cmo. cbv zeta. unfold sround, sdiv, scale, ssub, sadd, sabs. cell.
  apply within_round. apply cmo_value_within.
  - apply (roll_sum_nn p _ i n); lens. apply drop_neg_nn.
  - destruct (roll_sum_fin p (drop_pos (sdiff c)) i n) as [->|(q & ->)]; lens; [exact I|]. cbn. apply qabs_nonneg.
Qed.
Lemma imi_range p a c i : length a = length c -> within 0 100 (nth i (imi p a c) NaN).
Proof.
  intro EL. destruct (Nat.lt_ge_cases i (length c)) as [L|L]; [|rewrite nth_overflow; auto; rewrite (ln_imi p a c (length c)); auto].
  remember (length c) as n eqn:E. symmetry in E. unfold imi. cbv zeta. unfold sround, sdiv, scale, sadd. cell.
  apply within_round. apply imi_value_within; apply nn0_nnI; apply (roll_sum_nn p _ i n); lens; apply drop_neg_nn.
Qed.

(** ** present_le *)
Definition ple (a b : series) : Prop := forall j, present_le (nth j a NaN) (nth j b NaN).
Lemma ple_val a b j x y : ple a b -> nth j a NaN = Fin x -> nth j b NaN = Fin y -> x <= y.
Proof.
  intros P A B. specialize (P j). rewrite A, B in P. destruct P as [P|[P|P]]; try discriminate.
  unfold nleb in P. cbn in P. apply orb_true_iff in P as [P|P]; qb; [apply Qclt_le_weak; auto|subst; apply Qcle_refl].
Qed.
Lemma nsub_fin x y q : nsub x y = Fin q -> exists a b, x = Fin a /\ y = Fin b /\ q = a - b.
Proof.
  destruct x as [| | |a], y as [| | |b]; try discriminate. intro H. apply Fin_inj in H. exists a, b. auto.
Qed.
Lemma nadd_fin x y q : nadd x y = Fin q -> exists a b, x = Fin a /\ y = Fin b /\ q = a + b.
Proof.
  destruct x as [| | |a], y as [| | |b]; try discriminate. intro H. apply Fin_inj in H. exists a, b. auto.
Qed.
Lemma c_ssub a b i n : length a = n -> length b = n -> (i < n)%nat -> nth i (ssub a b) NaN = nsub (nth i a NaN) (nth i b NaN).
Proof. intros. unfold ssub. eapply c_szip; eauto. Qed.
Lemma c_sadd a b i n : length a = n -> length b = n -> (i < n)%nat -> nth i (sadd a b) NaN = nadd (nth i a NaN) (nth i b NaN).
Proof. intros. unfold sadd. eapply c_szip; eauto. Qed.

(** ** Stochastic oscillator *)
Lemma so_k_range k slow h l c i : (0 < k)%nat -> length h = length c -> length l = length c -> ple l c -> ple c h ->
  within 0 100 (nth i (so_k k slow h l c) NaN).
Proof.
  intros K H1 H2 PL PH.
  destruct (Nat.lt_ge_cases i (length c)) as [L|L]; [|rewrite nth_overflow; auto; rewrite (ln_so_k k slow h l c (length c)); auto].
  remember (length c) as n eqn:E. symmetry in E. unfold so_k. cbv zeta. unfold sround, sdiv, scale. cell.
  apply within_round.
  destruct (roll_sum_view slow (ssub c (roll_min k k l)) i n) as [->|(-> & W & A)]; lens.
  destruct (roll_sum_view slow (ssub (roll_max k k h) (roll_min k k l)) i n) as [->|(-> & _ & B)]; lens.
  unfold F. cbn [nmul].
  assert (KEY : forall j, (S i - slow <= j <= i)%nat ->
    0 <= val (ssub c (roll_min k k l)) j /\
    val (ssub c (roll_min k k l)) j <= val (ssub (roll_max k k h) (roll_min k k l)) j).
  { intros j J. specialize (A j J). specialize (B j J). assert (JN : (j < n)%nat) by lia.
    revert A B. generalize (val (ssub c (roll_min k k l)) j) (val (ssub (roll_max k k h) (roll_min k k l)) j). intros x y A B.
    rewrite (c_ssub _ _ j n) in A by lens. rewrite (c_ssub _ _ j n) in B by lens.
    apply nsub_fin in A as (cj & lj & A1 & A2 & ->). apply nsub_fin in B as (hj & lj' & B1 & B2 & ->).
    rewrite A2 in B2. apply Fin_inj in B2 as <-.
    destruct (roll_min_view k l j n) as [N|(m & M & _ & MB & _)]; lens; [congruence|].
    rewrite M in A2. apply Fin_inj in A2 as ->.
    destruct (roll_max_view k h j n) as [N|(m & M' & _ & MB' & _)]; lens; [congruence|].
    rewrite M' in B1. apply Fin_inj in B1 as ->.
    destruct (MB j) as [LJ LB]; [lia|]. destruct (MB' j) as [HJ HB]; [lia|].
    pose proof (ple_val _ _ _ _ _ PL LJ A1). pose proof (ple_val _ _ _ _ _ PH A1 HJ). split; qlra. }
  assert (S0 : 0 <= qsum (wvals (ssub c (roll_min k k l)) slow i)) by (apply wsum_nonneg; auto; intros; apply KEY; auto).
  assert (S1 : qsum (wvals (ssub c (roll_min k k l)) slow i) <= qsum (wvals (ssub (roll_max k k h) (roll_min k k l)) slow i))
    by (apply wsum_le; auto; intros; apply KEY; auto).
  revert S0 S1. generalize (qsum (wvals (ssub c (roll_min k k l)) slow i)) (qsum (wvals (ssub (roll_max k k h) (roll_min k k l)) slow i)).
  intros x y S0 S1. apply ratio_within; unfold zq; qlra.
Qed.
Lemma within_val lo hi x q : within lo hi x -> x = Fin q -> zq lo <= q /\ q <= zq hi.
Proof. intros [->|(r & -> & A & B)] E; [discriminate|]. apply Fin_inj in E as ->. auto. Qed.
Lemma roll_mean_within lo hi w s i n : (0 < w)%nat -> length s = n -> (i < n)%nat ->
  (forall j, within lo hi (nth j s NaN)) -> within lo hi (nth i (roll_mean w s) NaN).
Proof.
  intros W L H A. destruct (roll_mean_view w s i n L H W) as [->|(-> & WI & F)]; auto.
  right. eexists. split; [reflexivity|]. apply wmean_bounds; auto. intros j J. eapply within_val; eauto.
Qed.
Lemma qdot_cons a b x y : qdot (a :: x) (b :: y) = a * b + qdot x y.
Proof. reflexivity. Qed.
Lemma qdot_bounds ws l lo hi : length ws = length l -> (forall w, In w ws -> 0 < w) ->
  (forall x, In x l -> lo <= x /\ x <= hi) -> lo * qsum ws <= qdot ws l /\ qdot ws l <= hi * qsum ws.
Proof.
  revert l; induction ws as [|w ws IH]; intros [|x l] L W X; try discriminate L.
  - cbn. split; qlra.
  - rewrite qdot_cons. change (qsum (w :: ws)) with (w + qsum ws).
    destruct (IH l) as [A B]; [cbn in L; lia|intros; apply W; right; auto|intros; apply X; right; auto|].
    assert (0 < w) by (apply W; left; auto). destruct (X x) as [C D]; [left; auto|]. split; qnra.
Qed.
Lemma qsum_pos l : l <> [] -> (forall x, In x l -> 0 < x) -> 0 < qsum l.
Proof.
  intros N H. destruct l as [|x l]; [congruence|]. change (qsum (x :: l)) with (x + qsum l).
  assert (0 < x) by (apply H; left; auto). assert (0 <= qsum l) by (apply qsum_nonneg; intros; apply Qclt_le_weak; apply H; right; auto). qlra.
Qed.
Lemma roll_wmean_within lo hi ws w s i n : (0 < w)%nat -> length ws = w -> (forall x, In x ws -> 0 < x) -> length s = n -> (i < n)%nat ->
  (forall j, within lo hi (nth j s NaN)) -> within lo hi (nth i (roll_wmean ws w s) NaN).
Proof.
  intros W LW PW L H A. unfold roll_wmean.
  destruct (roll_view w (fun v => match v with [] => NaN | _ => Fin (qdot ws v / qsum ws) end) s i n L H) as [->|(WI & -> & F)]; auto.
  pose proof (wvals_nil s w i W) as NN. 
  assert (E : (match wvals s w i with [] => NaN | _ => Fin (qdot ws (wvals s w i) / qsum ws) end) = Fin (qdot ws (wvals s w i) / qsum ws))
    by (destruct (wvals s w i); [congruence|reflexivity]). rewrite E.
  right. eexists. split; [reflexivity|].
  destruct (qdot_bounds ws (wvals s w i) (zq lo) (zq hi)) as [X Y]; [rewrite len_wvals; auto|auto| |].
  { intros x I. apply in_wvals in I as (j & J & ->); auto. eapply within_val; eauto. }
  assert (0 < qsum ws) by (apply qsum_pos; auto; intros ->; cbn in LW; lia).
  split; [apply qcle_div|apply qcdiv_le]; auto.
Qed.
Lemma so_d_range o k slow d m h l c i : good_window o -> (0 < k)%nat -> (0 < d)%nat -> length h = length c -> length l = length c ->
  ple l c -> ple c h -> within 0 100 (nth i (so_d o k slow d m h l c) NaN).
Proof.
  intros GW K D0 H1 H2 PL PH.
  destruct (Nat.lt_ge_cases i (length c)) as [L|L]; [|rewrite nth_overflow; auto; rewrite (ln_so_d o k slow d m h l c (length c)); auto].
  remember (length c) as n eqn:E. symmetry in E. unfold so_d. cbv zeta. destruct (GW d) as [G1 G2].
  destruct m; unfold sround; cell; apply within_round.
  - apply (roll_mean_within 0 100 d _ i n); lens. intro j. apply so_k_range; auto; congruence.
  - apply (roll_wmean_within 0 100 (o_win o d) d _ i n); lens. intro j. apply so_k_range; auto; congruence.
Qed.

(** ** Williams %R *)
Lemma wr_range p h l c i : (0 < p)%nat -> length h = length c -> length l = length c -> ple l c -> ple c h ->
  within (-100) 0 (nth i (wr p h l c) NaN).
Proof.
  intros K H1 H2 PL PH.
  destruct (Nat.lt_ge_cases i (length c)) as [L|L]; [|rewrite nth_overflow; auto; rewrite (ln_wr p h l c (length c)); auto].
  remember (length c) as n eqn:E. symmetry in E. unfold wr. cbv zeta. unfold sround, scale, sdiv, ssub. cell. apply within_round.
  destruct (roll_max_view p h i n) as [->|(M & -> & _ & MB & _)]; lens.
  destruct (roll_min_view p l i n) as [->|(m & -> & _ & mB & _)]; lens.
  { destruct (nsub (Fin M) (nth i c NaN)); left; reflexivity. }
  destruct (MB i) as [HI HB]; [lia|]. destruct (mB i) as [LI LB]; [lia|].
  assert (CI : nth i c NaN = NaN \/ exists q, nth i c NaN = Fin q).
  { destruct (nth i c NaN) eqn:C; eauto.
    - specialize (PH i). rewrite C, HI in PH. destruct PH as [?|[?|?]]; discriminate.
    - specialize (PL i). rewrite C, LI in PL. destruct PL as [?|[?|?]]; discriminate. }
  destruct CI as [->|(q & C)]; auto. rewrite C.
  pose proof (ple_val _ _ _ _ _ PL LI C). pose proof (ple_val _ _ _ _ _ PH C HI).
  assert (W : within 0 1 (ndiv (nsub (Fin M) (Fin q)) (nsub (Fin M) (Fin m)))).
  { unfold nsub. cbn [nneg nadd]. apply ratio_within; unfold zq; qlra. }
  destruct W as [->|(z & -> & A & B)]; auto. right. exists (zq (-100) * z). split; [reflexivity|].
  unfold zq in *. split; qlra.
Qed.

(** ** Ultimate oscillator *)
Lemma nleb_fin a b : nleb (Fin a) (Fin b) = true <-> a <= b.
Proof.
  unfold nleb. cbn. rewrite orb_true_iff. split.
  - intros [P|P]; qb; [apply Qclt_le_weak; auto|subst; apply Qcle_refl].
  - intro P. destruct (qltb_spec a b) as [L|L]; auto. right. apply qeqb_iff. apply qc_le_antisym; auto. 
    destruct (Qclt_le_dec a b); auto. contradiction.
Qed.
Lemma max_nan2 x y M : max_nan [x; y] = Fin M -> nleb x (Fin M) = true /\ nleb y (Fin M) = true.
Proof.
  unfold max_nan. cbn. unfold npmax. destruct x as [| | |x], y as [| | |y]; cbn; try discriminate.
  - intro H. apply Fin_inj in H as ->. split; [reflexivity|]. apply nleb_fin. apply Qcle_refl.
  - intro H. apply Fin_inj in H as ->. split; [|reflexivity]. apply nleb_fin. apply Qcle_refl.
  - destruct (qltb_spec x y); intro H; apply Fin_inj in H as ->; split; apply nleb_fin; qlra.
Qed.
Lemma min_nan2 x y M : min_nan [x; y] = Fin M -> nleb (Fin M) x = true /\ nleb (Fin M) y = true.
Proof.
  unfold min_nan. cbn. unfold npmin. destruct x as [| | |x], y as [| | |y]; cbn; try discriminate.
  - intro H. apply Fin_inj in H as ->. split; [reflexivity|]. apply nleb_fin. apply Qcle_refl.
  - intro H. apply Fin_inj in H as ->. split; [|reflexivity]. apply nleb_fin. apply Qcle_refl.
  - destruct (qltb_spec y x); intro H; apply Fin_inj in H as ->; split; apply nleb_fin; qlra.
Qed.
Lemma ple_le_fin a b j x M : ple a b -> nth j a NaN = Fin x -> nleb (nth j b NaN) (Fin M) = true -> x <= M.
Proof.
  intros P A B. specialize (P j). rewrite A in P. destruct (nth j b NaN) as [| | |y] eqn:E; try discriminate B.
  - destruct P as [?|[?|?]]; discriminate.
  - apply nleb_fin in B. apply Qcle_trans with y; auto. apply nleb_fin. destruct P as [P|[P|P]]; try discriminate; auto.
Qed.
Lemma ple_fin_le a b j x M : ple a b -> nth j b NaN = Fin x -> nleb (Fin M) (nth j a NaN) = true -> M <= x.
Proof.
  intros P A B. specialize (P j). rewrite A in P. destruct (nth j a NaN) as [| | |y] eqn:E; try discriminate B.
  - destruct P as [?|[?|?]]; discriminate.
  - apply nleb_fin in B. apply Qcle_trans with y; auto. apply nleb_fin. destruct P as [P|[P|P]]; try discriminate; auto.
Qed.
Lemma uo_ratio_range w h l c i n : length h = n -> length l = n -> length c = n -> (i < n)%nat -> ple l c -> ple c h ->
  within 0 1 (nth i (uo_ratio w h l c) NaN).
Proof.
  intros H1 H2 E L PL PH. unfold uo_ratio, sdiv. cell.
  destruct (roll_sum_view w (ssub c (uo_low l c)) i n) as [->|(-> & W & A)]; lens.
  destruct (roll_sum_view w (ssub (uo_high h c) (uo_low l c)) i n) as [->|(-> & _ & B)]; lens.
  assert (KEY : forall j, (S i - w <= j <= i)%nat ->
    0 <= val (ssub c (uo_low l c)) j /\ val (ssub c (uo_low l c)) j <= val (ssub (uo_high h c) (uo_low l c)) j).
  { intros j J. specialize (A j J). specialize (B j J). assert (JN : (j < n)%nat) by lia.
    revert A B. generalize (val (ssub c (uo_low l c)) j) (val (ssub (uo_high h c) (uo_low l c)) j). intros x y A B.
    rewrite (c_ssub _ _ j n) in A by lens. rewrite (c_ssub _ _ j n) in B by lens.
    apply nsub_fin in A as (cj & lj & A1 & A2 & ->). apply nsub_fin in B as (hj & lj' & B1 & B2 & ->).
    rewrite A2 in B2. apply Fin_inj in B2 as <-.
    unfold uo_low, row2 in A2. unfold uo_high, row2 in B1.
    rewrite (c_szip _ _ _ j n) in A2 by lens. rewrite (c_szip _ _ _ j n) in B1 by lens. apply min_nan2 in A2 as [A2 _]. apply max_nan2 in B1 as [B1 _].
    pose proof (ple_fin_le _ _ _ _ _ PL A1 A2). pose proof (ple_le_fin _ _ _ _ _ PH A1 B1). split; qlra. }
  assert (S0 : 0 <= qsum (wvals (ssub c (uo_low l c)) w i)) by (apply wsum_nonneg; auto; intros; apply KEY; auto).
  assert (S1 : qsum (wvals (ssub c (uo_low l c)) w i) <= qsum (wvals (ssub (uo_high h c) (uo_low l c)) w i))
    by (apply wsum_le; auto; intros; apply KEY; auto).
  revert S0 S1. generalize (qsum (wvals (ssub c (uo_low l c)) w i)) (qsum (wvals (ssub (uo_high h c) (uo_low l c)) w i)).
  intros x y S0 S1. apply ratio_within; unfold zq; qlra.
Qed.
Lemma uo_range h l c i : length h = length c -> length l = length c -> ple l c -> ple c h -> within 0 100 (nth i (uo h l c) NaN).
Proof.
  intros H1 H2 PL PH.
  destruct (Nat.lt_ge_cases i (length c)) as [L|L]; [|rewrite nth_overflow; auto; rewrite (ln_uo h l c (length c)); auto].
  remember (length c) as n eqn:E. symmetry in E. unfold uo, sround, sdivc, scale, sadd. cell. apply within_round.
  destruct (uo_ratio_range 7 h l c i n) as [->|(a & -> & A1 & A2)]; auto.
  destruct (uo_ratio_range 14 h l c i n) as [->|(b & -> & B1 & B2)]; auto.
  destruct (uo_ratio_range 28 h l c i n) as [->|(d & -> & D1 & D2)]; auto.
  unfold F. cbn [nmul nadd]. unfold zq in *. apply ratio_within; unfold zq; qlra.
Qed.

(** ** Swing index: clipped *)
Lemma swi_range a h l c i : length a = length c -> length h = length c -> length l = length c ->
  within (-100) 100 (nth i (swi a h l c) NaN).
Proof.
  intros H0 H1 H2.
  destruct (Nat.lt_ge_cases i (length c)) as [L|L]; [|rewrite nth_overflow; auto; rewrite (ln_swi a h l c (length c)); auto].
  remember (length c) as n eqn:E. symmetry in E. unfold swi. cbv zeta. unfold sround.
  rewrite (c_smap _ _ i n) by lens. rewrite (c_smap _ _ i n) by lens. apply within_round.
  match goal with |- context [nth i ?s NaN] => generalize (nth i s NaN) end. intro x.
  destruct x as [| | |x]; cbn; auto.
  - right. eexists. split; [reflexivity|]. unfold zq. split; qlra.
  - right. eexists. split; [reflexivity|]. unfold zq. split; qlra.
  - destruct (qltb_spec (Q2Qc (inject_Z 100)) x); cbn.
    + right. eexists. split; [reflexivity|]. unfold zq. split; qlra.
    + destruct (qltb_spec x (Q2Qc (inject_Z (-100)))); right; eexists; (split; [reflexivity|]); unfold zq; split; qlra.
Qed.

(** ** Chaikin money flow *)
Lemma money_flow_bound v c h l m : 0 <= v ->
  ndiv (nmul (Fin v) (nsub (nsub c l) (nsub h c))) (nsub h l) = Fin m ->
  present_le l c -> present_le c h -> - v <= m /\ m <= v.
Proof.
  intros V H PL PH. unfold present_le in *.
  assert (Z : (exists c' h' l', c = Fin c' /\ h = Fin h' /\ l = Fin l')).
  { destruct c as [| | |c], h as [| | |h], l as [| | |l]; try discriminate H;
      try (destruct PH as [?|[?|?]]; discriminate); try (destruct PL as [?|[?|?]]; discriminate);
      try (exfalso; revert H; cbn; unfold infmul;
        repeat match goal with |- context [if ?b then _ else _] => destruct b; cbn end; discriminate).
    eauto 6. }
  destruct Z as (c' & h' & l' & -> & -> & ->). rename c' into c, h' into h, l' into l.
  destruct PL as [?|[?|PL]]; try discriminate. destruct PH as [?|[?|PH]]; try discriminate.
    apply nleb_fin in PL. apply nleb_fin in PH. revert H. cbn. destruct (qeqb_spec (h + - l) 0) as [Z|N].
    + assert (E1 : h = l) by qlra. assert (E2 : c = l) by (apply qc_le_antisym; qlra). subst.
      intro H. exfalso. revert H.
      match goal with |- context [qeqb ?x 0] => destruct (qeqb_spec x 0) as [Q|Q]; [discriminate|] end.
      exfalso. apply Q. ring.
    + intro H. apply Fin_inj in H. subst m.
      assert (P : 0 < h + - l) by (apply qc_nonneg_neq0_pos; auto; qlra).
      split; [apply qcle_div|apply qcdiv_le]; auto; qnra.
Qed.
Lemma wsum_add_nonneg a b w i : (w <= S i)%nat -> (forall j, (S i - w <= j <= i)%nat -> 0 <= val a j + val b j) ->
  0 <= qsum (wvals a w i) + qsum (wvals b w i).
Proof.
  intros W H. unfold wvals. assert (K : forall j, In j (seq (S i - w) w) -> 0 <= val a j + val b j).
  { intros j J. apply in_seq in J. apply H. lia. }
  revert K. generalize (seq (S i - w) w). intros js. induction js as [|x js IH]; intro K; [cbn; qlra|].
  cbn [map]. change (qsum (val a x :: map (val a) js)) with (val a x + qsum (map (val a) js)).
  change (qsum (val b x :: map (val b) js)) with (val b x + qsum (map (val b) js)).
  assert (0 <= val a x + val b x) by (apply K; left; auto).
  assert (0 <= qsum (map (val a) js) + qsum (map (val b) js)) by (apply IH; intros; apply K; right; auto). qlra.
Qed.
Lemma cmf_range p c v h l i : length v = length c -> length h = length c -> length l = length c -> ple l c -> ple c h ->
  (forall j, present_le (F 0) (nth j v NaN)) -> within (-1) 1 (nth i (cmf p c v h l) NaN).
Proof.
  intros H0 H1 H2 PL PH PV.
  destruct (Nat.lt_ge_cases i (length c)) as [L|L]; [|rewrite nth_overflow; auto; rewrite (ln_cmf p c v h l (length c)); auto].
  remember (length c) as n eqn:E. symmetry in E. unfold cmf, sround, sdiv. cell. apply within_round.
  destruct (roll_sum_view p (money_flow c v h l) i n) as [->|(-> & W & A)]; lens.
  destruct (roll_sum_view p v i n) as [->|(-> & _ & B)]; lens.
  assert (KEY : forall j, (S i - p <= j <= i)%nat -> - val v j <= val (money_flow c v h l) j /\ val (money_flow c v h l) j <= val v j /\ 0 <= val v j).
  { intros j J. specialize (A j J). specialize (B j J). assert (JN : (j < n)%nat) by lia.
    revert A. generalize (val (money_flow c v h l) j). intros m A.
    specialize (PV j). rewrite B in PV. destruct PV as [?|[?|PV]]; try discriminate. apply nleb_fin in PV.
    unfold money_flow, sdiv, smul, ssub in A. revert A. cell. rewrite B. intro A.
    destruct (money_flow_bound (val v j) (nth j c NaN) (nth j h NaN) (nth j l NaN) m) as [X Y]; auto; try qlra. }
  assert (S0 : 0 <= qsum (wvals v p i)) by (apply wsum_nonneg; auto; intros; apply KEY; auto).
  assert (S1 : qsum (wvals (money_flow c v h l) p i) <= qsum (wvals v p i)) by (apply wsum_le; auto; intros; apply KEY; auto).
  assert (S2 : - qsum (wvals v p i) <= qsum (wvals (money_flow c v h l) p i)).
  { pose proof (wsum_add_nonneg v (money_flow c v h l) p i W) as Q. apply Qcle_minus_iff.
    assert (forall j, (S i - p <= j <= i)%nat -> 0 <= val v j + val (money_flow c v h l) j) by (intros j J; destruct (KEY j J); qlra).
    specialize (Q H). qlra. }
  revert S0 S1 S2. generalize (qsum (wvals (money_flow c v h l) p i)) (qsum (wvals v p i)).
  intros x y S0 S1 S2. apply ratio_within; unfold zq; qlra.
Qed.

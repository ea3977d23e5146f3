(** * SimProofs: the simulator meets [SimSpec]. *)
From Coq Require Import ZArith QArith Qcanon Bool List PeanoNat Lia Lqa.
From Verif Require Import Num NumFacts Pandas Frame Sim SimSpec.
Import ListNotations.
Open Scope Qc_scope.

(** ** lists *)
Lemma set_nth_length {A} i (v : A) l : length (set_nth i v l) = length l.
Proof. revert i; induction l as [|x l IH]; intros [|i]; simpl; auto. Qed.
Lemma set_nth_app {A} (v x : A) l r : set_nth (length l) v (l ++ x :: r) = l ++ v :: r.
Proof. induction l; simpl; congruence. Qed.
Lemma nth_app_at {A} (x d : A) l r : nth (length l) (l ++ x :: r) d = x.
Proof. induction l; simpl; auto. Qed.

Lemma qsum_app a b : qsum (a ++ b) = qsum a + qsum b.
Proof. induction a as [|x a IH]; simpl; [ring|]. unfold qsum in *. rewrite IH. ring. Qed.
Lemma qsum_cons x l : qsum (x :: l) = x + qsum l.
Proof. reflexivity. Qed.
Lemma nsum_fin_from l a : fold_left nadd (map Fin l) (Fin a) = Fin (a + qsum l).
Proof.
  revert a; induction l as [|x l IH]; intro a; simpl.
  - f_equal. ring.
  - rewrite IH. f_equal. unfold qsum; simpl. ring.
Qed.
Lemma nsum_fin l : nsum (map Fin l) = Fin (qsum l).
Proof. unfold nsum. rewrite nsum_fin_from. f_equal. ring. Qed.

Lemma qnat_S n : qnat (S n) = qnat n + 1.
Proof.
  apply qc_eq. rewrite this_add. unfold qnat. rewrite !this_Q2Qc, Nat2Z.inj_succ.
  unfold Z.succ. rewrite inject_Z_plus. reflexivity.
Qed.
Lemma qnat_0 : qnat 0 = 0. Proof. reflexivity. Qed.

(** ** the state as seen by one day: only past rows matter *)
Definition pad (c : list num) m f (P : list slot) (D : list simrow) (n : nat) : sim :=
  mkSim c m f (P ++ repeat slot0 n) (D ++ repeat simrow0 n).

Definition day_next (m : option num) (f : num) (P : list slot) (D : list simrow) (p : num) (sg : signal)
  : list slot * list simrow :=
    let prev := last D simrow0 in
    let nl := nnat (count (long_to_close p) P) in
    let ns := nnat (count (short_to_close f p) P) in
    let le := sum_exposure (long_to_close p) P in
    let se := sum_exposure (short_to_close f p) P in
    let earn := nadd (x_earnings prev)
                     (nadd (nsub (nmul nl p) le) (nsub (ndiv se f) (nmul ns p))) in
    let e := nsub (x_exposure prev) (nadd le se) in
    let P1 := map (close_slot f p) P in
    let out a sl e' :=
      let P2 := P1 ++ [sl] in
      let pv := portfolio_value p P2 in
      (P2, D ++ [mkRow (Some sg) (Some a) p e' pv earn (nadd pv earn)]) in
    match sg with
    | Hold => out ANone slot0 e
    | Buy => if over_limit m (nadd e p) then out ANone slot0 e
             else out ALong (mkSlot PLong SOpen p) (nadd e p)
    | Sell => let x := nmul f p in
              if over_limit m (nadd e x) then out ANone slot0 e
              else out AShort (mkSlot PShort SOpen x) (nadd e x)
    end.
Definition day (m : option num) (f : num) (P : list slot) (D : list simrow) (p : num) (sg : signal)
  : list slot * list simrow :=
  match D with
  | [] => ([slot0], [mkRow (Some sg) (Some ANone) p (F 0) (F 0) (F 0) (F 0)])
  | _ => day_next m f P D p sg
  end.
Lemma day_ne m f P D p sg : D <> [] -> day m f P D p sg = day_next m f P D p sg.
Proof. destruct D; [contradiction|reflexivity]. Qed.
Lemma nil_or {A} (l : list A) : l = [] \/ l <> [].
Proof. destruct l; [left|right]; congruence. Qed.

Lemma filter_slot0 p n : p slot0 = false -> filter p (repeat slot0 n) = [].
Proof. intro H. induction n; simpl; auto. rewrite H; auto. Qed.
Lemma count_pad p P n : p slot0 = false -> count p (P ++ repeat slot0 n) = count p P.
Proof. intro H. unfold count. rewrite filter_app, filter_slot0 by auto. rewrite app_nil_r; auto. Qed.
Lemma sum_exposure_pad p P n : p slot0 = false -> sum_exposure p (P ++ repeat slot0 n) = sum_exposure p P.
Proof. intro H. unfold sum_exposure. rewrite filter_app, filter_slot0 by auto. rewrite app_nil_r; auto. Qed.
Lemma close_slot_pad f p n : map (close_slot f p) (repeat slot0 n) = repeat slot0 n.
Proof. induction n; simpl; auto. rewrite IHn. reflexivity. Qed.
Lemma portfolio_value_pad p P n : portfolio_value p (P ++ repeat slot0 n) = portfolio_value p P.
Proof. unfold portfolio_value. rewrite !count_pad by reflexivity. reflexivity. Qed.

Lemma repeat_S_cons {A} (x : A) n : repeat x (S n) = x :: repeat x n.
Proof. reflexivity. Qed.
Lemma snoc_app {A} (l : list A) x r : (l ++ [x]) ++ r = l ++ x :: r.
Proof. rewrite <- app_assoc. reflexivity. Qed.

Lemma last_nth {A} (l : list A) d : l <> [] -> nth (length l - 1) l d = last l d.
Proof.
  intro H. destruct (exists_last H) as [l' [x ->]].
  rewrite app_length, last_last; simpl. replace (length l' + 1 - 1)%nat with (length l') by lia.
  apply nth_app_at.
Qed.

Lemma register_pad c m f P D n sg a sl e earn r :
  length P = length D -> x_earnings r = earn ->
  register (length D) sg a sl e (mkSim c m f (P ++ repeat slot0 (S n)) (D ++ r :: repeat simrow0 n))
  = let pv := portfolio_value (nth (length D) c NaN) (P ++ [sl]) in
    pad c m f (P ++ [sl])
        (D ++ [mkRow (Some sg) (Some a) (nth (length D) c NaN) e pv earn (nadd pv earn)]) n.
Proof.
  intros HL HE. unfold register, row_at, price_at; cbn [close max_exposure factor portfolio data].
  rewrite nth_app_at, HE.
  assert (E1 : set_nth (length D) sl (P ++ repeat slot0 (S n)) = (P ++ [sl]) ++ repeat slot0 n).
  { rewrite <- HL, repeat_S_cons, set_nth_app, snoc_app. reflexivity. }
  rewrite E1, portfolio_value_pad, set_nth_app. unfold pad; cbn zeta. rewrite (snoc_app D). reflexivity.
Qed.

Lemma run_round_pad c m f P D n sg :
  length P = length D ->
  run_round (length D) sg (pad c m f P D (S n))
  = let '(P', D') := day m f P D (nth (length D) c NaN) sg in pad c m f P' D' n.
Proof.
  intro HL. destruct (nil_or D) as [->|Hne].
  - destruct P; [|discriminate]. reflexivity.
  - unfold run_round.
    destruct (length D) as [|k] eqn:EL; [apply length_zero_iff_nil in EL; contradiction|].
    rewrite <- EL in *.
    set (p := nth (length D) c NaN).
    unfold close_open_positions, pad, row_at, price_at; cbn [close max_exposure factor portfolio data].
    fold p.
    assert (Hlast : nth (length D - 1) (D ++ repeat simrow0 (S n)) simrow0 = last D simrow0).
    { rewrite app_nth1 by lia. apply last_nth; auto. }
    rewrite Hlast.
    rewrite repeat_S_cons with (x := simrow0), nth_app_at, set_nth_app.
    rewrite !count_pad by reflexivity. rewrite !sum_exposure_pad by reflexivity.
    rewrite map_app, close_slot_pad.
    set (r' := mkRow _ _ _ _ _ _ _).
    assert (HL' : length (map (close_slot f p) P) = length D) by (rewrite map_length; auto).
    unfold process_signal, row_at, price_at; cbn [close max_exposure factor portfolio data].
    rewrite nth_app_at. fold p.
    rewrite day_ne by auto. unfold day_next.
    change (slot0 :: repeat slot0 n) with (repeat slot0 (S n)).
    destruct sg.
    + cbn [x_exposure r']. destruct (over_limit _ _);
        (erewrite register_pad by (eauto; reflexivity)); reflexivity.
    + erewrite register_pad by (eauto; reflexivity). reflexivity.
    + cbn [x_exposure r']. destruct (over_limit _ _);
        (erewrite register_pad by (eauto; reflexivity)); reflexivity.
Qed.

Definition days m f (ds : list (num * signal)) : list slot * list simrow :=
  fold_left (fun s x => day m f (fst s) (snd s) (fst x) (snd x)) ds ([], []).

Lemma day_length m f P D p sg P' D' :
  length P = length D -> day m f P D p sg = (P', D') ->
  length P' = S (length P) /\ length D' = S (length D).
Proof.
  intros HL H. destruct (nil_or D) as [->|Hne].
  - destruct P; [|discriminate]. inversion H; auto.
  - rewrite day_ne in H by auto. unfold day_next in H. destruct sg; try destruct (over_limit _ _); inversion H;
      rewrite !app_length, ?map_length; simpl; lia.
Qed.

Lemma run_rounds_pad c m f sgs : forall P D n,
  length P = length D ->
  (length sgs <= n)%nat ->
  (length D + length sgs <= length c)%nat ->
  run_rounds (length D) sgs (pad c m f P D n)
  = let '(P', D') := fold_left (fun s x => day m f (fst s) (snd s) (fst x) (snd x))
                       (combine (firstn (length sgs) (skipn (length D) c)) sgs) (P, D) in
    pad c m f P' D' (n - length sgs).
Proof.
  induction sgs as [|sg sgs IH]; intros P D n HL Hn Hc.
  - simpl. f_equal; lia.
  - simpl in Hn, Hc. destruct n as [|n]; [lia|].
    cbn [run_rounds]. rewrite run_round_pad by auto.
    destruct (day m f P D (nth (length D) c NaN) sg) as [P' D'] eqn:E.
    destruct (day_length _ _ _ _ _ _ _ _ HL E) as [HP' HD'].
    rewrite <- HD'. rewrite IH; [|lia..].
    assert (Hsk : skipn (length D) c = nth (length D) c NaN :: skipn (length D') c).
    { rewrite HD'. clear -Hc. revert Hc. generalize (length D). intros k.
      revert c; induction k; intros [|x c] H; simpl in *; try lia; auto. apply IHk. lia. }
    rewrite Hsk. cbn [length firstn combine fold_left fst snd]. rewrite E.
    reflexivity.
Qed.

(** a run from the initial state *)
Definition sim0 (c : list num) m f (n : nat) : sim := pad c m f [] [] n.

Lemma run_sim0 c m f sgs :
  (length sgs <= length c)%nat ->
  let s := days m f (combine (firstn (length sgs) c) sgs) in
  run_rounds 0 sgs (sim0 c m f (length c)) = pad c m f (fst s) (snd s) (length c - length sgs).
Proof.
  intros H s. unfold sim0.
  change 0%nat with (length (@nil simrow)) at 1.
  rewrite run_rounds_pad; simpl; try lia.
  fold (days m f (combine (firstn (length sgs) c) sgs)). fold s. destruct s; reflexivity.
Qed.

(** ** the specification only looks at past rows *)
Lemma row_app d r i : (i < length d)%nat -> row_ (d ++ r) i = row_ d i.
Proof. intro. unfold row_. apply app_nth1; auto. Qed.
Lemma price_app d r i : (i < length d)%nat -> price (d ++ r) i = price d i.
Proof. intro. unfold price. rewrite row_app; auto. Qed.
Lemma act_app d r i : (i < length d)%nat -> act (d ++ r) i = act d i.
Proof. intro. unfold act. rewrite row_app; auto. Qed.
Lemma profitable_app d r j k : (j < length d)%nat -> (k < length d)%nat ->
  profitable (d ++ r) j k = profitable d j k.
Proof. intros. unfold profitable. rewrite act_app, !price_app by auto. reflexivity. Qed.
Lemma still_open_app d r j i : (i < length d)%nat ->
  still_open (d ++ r) j i = still_open d j i.
Proof.
  intros H. unfold still_open.
  destruct (Nat.leb_spec j i) as [L|L].
  2: { rewrite !andb_false_r. reflexivity. }
  rewrite act_app by lia. f_equal.
  apply eq_true_iff_eq. rewrite !forallb_forall. split; intros HH x Hx; specialize (HH x Hx);
    apply in_seq in Hx; rewrite profitable_app in * by lia; auto.
Qed.
Lemma closed_on_app d r j k : (k < length d)%nat -> closed_on (d ++ r) j k = closed_on d j k.
Proof.
  intros H. unfold closed_on. destruct (Nat.ltb_spec j k); auto.
  rewrite still_open_app, profitable_app by lia. reflexivity.
Qed.
Lemma opened_exposure_app f d r j : (j < length d)%nat ->
  opened_exposure f (d ++ r) j = opened_exposure f d j.
Proof. intros. unfold opened_exposure. rewrite act_app, price_app by auto. reflexivity. Qed.
Lemma profit_app d r j k : (j < length d)%nat -> (k < length d)%nat ->
  profit (d ++ r) j k = profit d j k.
Proof. intros. unfold profit. rewrite act_app, !price_app by auto. reflexivity. Qed.

Lemma sum_days_ext n g h : (forall j, (j < n)%nat -> g j = h j) -> sum_days n g = sum_days n h.
Proof.
  intro H. unfold sum_days. f_equal. apply map_ext_in. intros a Ha. apply in_seq in Ha. apply H; lia.
Qed.
Lemma sum_days_S n g : sum_days (S n) g = sum_days n g + g n.
Proof.
  unfold sum_days. rewrite seq_S, map_app, qsum_app. f_equal. cbn. ring.
Qed.
Lemma count_days_ext n g h : (forall j, (j < n)%nat -> g j = h j) -> count_days n g = count_days n h.
Proof.
  intro H. unfold count_days. f_equal. apply filter_ext_in. intros a Ha. apply in_seq in Ha. apply H; lia.
Qed.
Lemma count_days_S n g : count_days (S n) g = (count_days n g + if g n then 1 else 0)%nat.
Proof.
  unfold count_days. rewrite seq_S, filter_app, app_length. simpl. destruct (g n); reflexivity.
Qed.

Lemma spec_exposure_before_app f d r n i : (n <= length d)%nat -> (i < length d)%nat ->
  spec_exposure_before f (d ++ r) n i = spec_exposure_before f d n i.
Proof.
  intros. apply sum_days_ext. intros j Hj. rewrite still_open_app, opened_exposure_app by lia. reflexivity.
Qed.
Lemma spec_exposure_app f d r i : (i < length d)%nat -> spec_exposure f (d ++ r) i = spec_exposure f d i.
Proof. intros. apply spec_exposure_before_app; lia. Qed.
Lemma spec_earnings_app d r i : (i < length d)%nat -> spec_earnings (d ++ r) i = spec_earnings d i.
Proof.
  intros. apply sum_days_ext. intros k Hk. apply sum_days_ext. intros j Hj.
  rewrite closed_on_app, profit_app by lia. reflexivity.
Qed.
Lemma open_longs_app d r i : (i < length d)%nat -> open_longs (d ++ r) i = open_longs d i.
Proof. intros. apply count_days_ext. intros. rewrite still_open_app, act_app by lia. reflexivity. Qed.
Lemma open_shorts_app d r i : (i < length d)%nat -> open_shorts (d ++ r) i = open_shorts d i.
Proof. intros. apply count_days_ext. intros. rewrite still_open_app, act_app by lia. reflexivity. Qed.

(** ** the portfolio array is determined by the rows *)
Definition slot_of (f : Qc) (d : list simrow) (i j : nat) : slot :=
  match act d j with
  | ANone => slot0
  | ALong => mkSlot PLong (if still_open d j i then SOpen else SClosed) (Fin (price d j))
  | AShort => mkSlot PShort (if still_open d j i then SOpen else SClosed) (Fin (f * price d j))
  end.

Lemma still_open_step d j k : (j < S k)%nat ->
  still_open d j (S k) = still_open d j k && negb (profitable d j (S k)).
Proof.
  intro H. unfold still_open.
  destruct (Nat.leb_spec j (S k)); [|lia]. destruct (Nat.leb_spec j k); [|lia].
  rewrite !andb_true_r. replace (S k - j)%nat with (S (k - j)) by lia.
  rewrite seq_S, forallb_app. simpl.
  replace (S (j + (k - j))) with (S k) by lia. rewrite andb_true_r.
  destruct (act d j); reflexivity.
Qed.
Lemma still_open_self d j : still_open d j j = match act d j with ANone => false | _ => true end.
Proof. unfold still_open. rewrite Nat.leb_refl, Nat.sub_diag. simpl. rewrite !andb_true_r. reflexivity. Qed.

Section Step.
Variables (f : Qc) (d : list simrow) (k : nat) (p : Qc).
Hypothesis Hf : 1 <= f.
Hypothesis Hp : price d (S k) = p.

Lemma factor_lt a b : qltb (f * a) (f * b) = qltb a b.
Proof.
  apply eq_true_iff_eq. rewrite !qltb_iff. split; intro H.
  - destruct (qltb_spec a b) as [L|L]; auto. exfalso. apply Qcnot_lt_le in L. qnra.
  - qnra.
Qed.

Lemma long_to_close_slot j : (j < S k)%nat ->
  long_to_close (Fin p) (slot_of f d k j)
  = closed_on d j (S k) && match act d j with ALong => true | _ => false end.
Proof.
  intro H. unfold long_to_close, slot_of, closed_on, is_open, is_long.
  destruct (Nat.ltb_spec j (S k)); [|lia]. replace (S k - 1)%nat with k by lia.
  unfold profitable. rewrite Hp.
  destruct (act d j) eqn:E; simpl; rewrite ?andb_false_r, ?andb_true_r; auto;
    destruct (still_open d j k); simpl; rewrite ?andb_true_r, ?andb_false_r; auto.
Qed.
Lemma short_to_close_slot j : (j < S k)%nat ->
  short_to_close (Fin f) (Fin p) (slot_of f d k j)
  = closed_on d j (S k) && match act d j with AShort => true | _ => false end.
Proof.
  intro H. unfold short_to_close, slot_of, closed_on, is_open, is_short.
  destruct (Nat.ltb_spec j (S k)); [|lia]. replace (S k - 1)%nat with k by lia.
  unfold profitable. rewrite Hp.
  destruct (act d j) eqn:E; simpl; rewrite ?andb_false_r, ?andb_true_r; auto;
    destruct (still_open d j k); simpl; rewrite ?andb_true_r, ?andb_false_r; auto.
  unfold ngtb; simpl. apply factor_lt.
Qed.
Lemma close_slot_slot j : (j < S k)%nat ->
  close_slot (Fin f) (Fin p) (slot_of f d k j) = slot_of f d (S k) j.
Proof.
  intro H. unfold close_slot. rewrite long_to_close_slot, short_to_close_slot by auto.
  unfold slot_of. rewrite still_open_step by auto.
  unfold closed_on. destruct (Nat.ltb_spec j (S k)); [|lia]. replace (S k - 1)%nat with k by lia.
  destruct (act d j) eqn:E; simpl; rewrite ?andb_false_r, ?andb_true_r, ?orb_false_r; auto;
    destruct (still_open d j k), (profitable d j (S k)); reflexivity.
Qed.

(** counts and sums over slots, for any list of earlier days *)
Variable js : list nat.
Hypothesis Hjs : forall j, In j js -> (j < S k)%nat.

Lemma count_map_slots q b :
  (forall j, In j js -> q (slot_of f d k j) = b j) ->
  count q (map (slot_of f d k) js) = length (filter b js).
Proof.
  clear Hjs. unfold count. induction js as [|j r IH]; intro H; simpl; auto.
  rewrite H by (left; auto). destruct (b j); simpl; rewrite IH; auto; intros; apply H; right; auto.
Qed.

Lemma sum_slots q b :
  (forall j, In j js -> q (slot_of f d k j) = b j) ->
  (forall j, In j js -> b j = true -> s_exposure (slot_of f d k j) = Fin (opened_exposure f d j)) ->
  sum_exposure q (map (slot_of f d k) js)
  = Fin (qsum (map (fun j => if b j then opened_exposure f d j else 0) js)).
Proof.
  clear Hjs. intros H1 H2. unfold sum_exposure.
  assert (E : map s_exposure (filter q (map (slot_of f d k) js))
              = map Fin (map (opened_exposure f d) (filter b js))).
  { induction js as [|j r IH]; simpl; auto.
    rewrite H1 by (left; auto). destruct (b j) eqn:Eb; simpl.
    - rewrite H2 by (auto; left; auto). f_equal. apply IH; intros; [apply H1|apply H2]; auto; right; auto.
    - apply IH; intros; [apply H1|apply H2]; auto; right; auto. }
  rewrite E, nsum_fin. f_equal. clear.
  induction js as [|j r IH]; simpl; auto. destruct (b j); simpl; unfold qsum in *; simpl; rewrite <- IH; ring.
Qed.
End Step.

Lemma slot_exposure f d k j : act d j <> ANone ->
  s_exposure (slot_of f d k j) = Fin (opened_exposure f d j).
Proof. unfold slot_of, opened_exposure. destruct (act d j); simpl; congruence. Qed.

Definition earn_at d k j : Qc := if closed_on d j k then profit d j k else 0.

(** long_to_be_closed * price - long_exposure + (short_exposure / f - short_to_be_closed * price) *)
Lemma earnings_identity f d K js : f <> 0 ->
  let bl := fun j => closed_on d j K && match act d j with ALong => true | _ => false end in
  let bs := fun j => closed_on d j K && match act d j with AShort => true | _ => false end in
  (qnat (length (filter bl js)) * price d K
     - qsum (map (fun j => if bl j then opened_exposure f d j else 0) js))
  + (qsum (map (fun j => if bs j then opened_exposure f d j else 0) js) / f
     - qnat (length (filter bs js)) * price d K)
  = qsum (map (earn_at d K) js).
Proof.
  intros Hf bl bs. induction js as [|j r IH].
  - cbn [map filter length]. change (qsum []) with 0. rewrite qnat_0. field. auto.
  - cbn [map filter]. rewrite !qsum_cons, <- IH.
    unfold earn_at, bl, bs, opened_exposure, profit.
    destruct (closed_on d j K) eqn:E; destruct (act d j); cbn [andb length]; rewrite ?qnat_S; field; auto.
Qed.

Lemma exposure_identity f d k js : (forall j, In j js -> (j < S k)%nat) ->
  let bl := fun j => closed_on d j (S k) && match act d j with ALong => true | _ => false end in
  let bs := fun j => closed_on d j (S k) && match act d j with AShort => true | _ => false end in
  qsum (map (fun j => if still_open d j k then opened_exposure f d j else 0) js)
  - (qsum (map (fun j => if bl j then opened_exposure f d j else 0) js)
     + qsum (map (fun j => if bs j then opened_exposure f d j else 0) js))
  = qsum (map (fun j => if still_open d j (S k) then opened_exposure f d j else 0) js).
Proof.
  intros H bl bs. induction js as [|j r IH].
  - cbn [map]. change (qsum []) with 0. ring.
  - assert (Hj : (j < S k)%nat) by (apply H; left; auto).
    cbn [map]. rewrite !qsum_cons, <- IH by (intros; apply H; right; auto).
    rewrite still_open_step by auto. unfold bl, bs, closed_on.
    destruct (Nat.ltb_spec j (S k)); [|lia]. replace (S k - 1)%nat with k by lia.
    destruct (still_open d j k) eqn:E, (profitable d j (S k)) eqn:E2, (act d j) eqn:E3;
      cbn [andb negb]; try ring;
      unfold opened_exposure, profitable in *; rewrite E3 in *; try discriminate; ring.
Qed.

(** ** the invariant *)
Record good (m : option num) (f : Qc) (ds : list (num * signal)) (P : list slot) (d : list simrow) : Prop := {
  g_len : length d = length ds;
  g_port : P = map (slot_of f d (length d - 1)) (seq 0 (length d));
  g_sig : forall i, (i < length d)%nat -> x_signal (row_ d i) = Some (snd (nth i ds (NaN, Hold)));
  g_stock : forall i, (i < length d)%nat -> x_stock (row_ d i) = fst (nth i ds (NaN, Hold));
  g_act0 : act d 0 = ANone;
  g_some : forall i, (i < length d)%nat -> x_action (row_ d i) = Some (act d i);
  g_act : forall i, (0 < i < length d)%nat ->
     let e := spec_exposure_before f d i i in
     act d i = match snd (nth i ds (NaN, Hold)) with
               | Hold => ANone
               | Buy => if fits m (e + price d i) then ALong else ANone
               | Sell => if fits m (e + f * price d i) then AShort else ANone
               end;
  g_exp : forall i, (i < length d)%nat -> x_exposure (row_ d i) = Fin (spec_exposure f d i);
  g_earn : forall i, (i < length d)%nat -> x_earnings (row_ d i) = Fin (spec_earnings d i);
  g_pv : forall i, (i < length d)%nat ->
     x_portfolio_value (row_ d i)
     = Fin (price d i * Q2Qc (inject_Z (Z.of_nat (open_longs d i) - Z.of_nat (open_shorts d i))));
  g_bal : forall i, (i < length d)%nat ->
     x_balance (row_ d i) = nadd (x_portfolio_value (row_ d i)) (x_earnings (row_ d i))
}.

Lemma over_limit_fits m x : over_limit m (Fin x) = negb (fits m x).
Proof. unfold over_limit, fits. destruct m; auto. rewrite negb_involutive. reflexivity. Qed.

Lemma portfolio_value_slots f d i p :
  portfolio_value (Fin p) (map (slot_of f d i) (seq 0 (S i)))
  = Fin (p * Q2Qc (inject_Z (Z.of_nat (open_longs d i) - Z.of_nat (open_shorts d i)))).
Proof.
  unfold portfolio_value.
  assert (EL : count (fun s => is_long s && is_open s) (map (slot_of f d i) (seq 0 (S i))) = open_longs d i).
  { apply count_map_slots. intros j _. unfold slot_of, is_long, is_open.
    destruct (act d j); simpl; rewrite ?andb_false_r, ?andb_true_r; auto; destruct (still_open d j i); auto. }
  assert (ES : count (fun s => is_short s && is_open s) (map (slot_of f d i) (seq 0 (S i))) = open_shorts d i).
  { apply count_map_slots. intros j _. unfold slot_of, is_short, is_open.
    destruct (act d j); simpl; rewrite ?andb_false_r, ?andb_true_r; auto; destruct (still_open d j i); auto. }
  rewrite EL, ES. reflexivity.
Qed.

Lemma nth_snoc {A} (l : list A) x d : nth (length l) (l ++ [x]) d = x.
Proof. apply nth_app_at. Qed.

Lemma good_nil m f : good m f [] [] [].
Proof. constructor; simpl; auto; intros; lia. Qed.

Lemma good_day m f ds P d p sg :
  1 <= f -> good m f ds P d ->
  let s := day m (Fin f) P d (Fin p) sg in
  good m f (ds ++ [(Fin p, sg)]) (fst s) (snd s).
Proof.
  intros Hf G. pose proof (g_len _ _ _ _ _ G) as HL.
  destruct (nil_or d) as [->|Hne].
  - simpl. destruct ds; [|discriminate]. clear G.
    constructor; simpl; auto; try (intros [|i]; intro; [|lia]; reflexivity).
    + intros; lia.
    + intros [|i] ?; [|lia]. cbn. unfold F. f_equal. change (Q2Qc (inject_Z 0)) with 0. ring.
  - set (k := (length d - 1)%nat).
    assert (Hk : length d = S k) by (destruct d; [contradiction|subst k; simpl; lia]).
    (* the new row is some r; show the result for a generic outcome *)
    assert (Hlast : last d simrow0 = row_ d k) by (unfold row_, k; rewrite last_nth; auto).
    set (prev := row_ d k) in *.
    assert (Hpe : x_exposure prev = Fin (spec_exposure f d k)) by (apply (g_exp _ _ _ _ _ G); lia).
    assert (Hpr : x_earnings prev = Fin (spec_earnings d k)) by (apply (g_earn _ _ _ _ _ G); lia).
    pose proof (g_port _ _ _ _ _ G) as HP. fold k in HP. rewrite Hk in HP.
    assert (CORE : forall a e' pv earn bal,
      let r := mkRow (Some sg) (Some a) (Fin p) e' pv earn bal in
      let d' := d ++ [r] in
      price d' (S k) = p /\
      map (close_slot (Fin f) (Fin p)) P = map (slot_of f d' (S k)) (seq 0 (S k)) /\
      nsub (x_exposure prev)
        (nadd (sum_exposure (long_to_close (Fin p)) P) (sum_exposure (short_to_close (Fin f) (Fin p)) P))
        = Fin (spec_exposure_before f d' (S k) (S k)) /\
      nadd (x_earnings prev)
        (nadd (nsub (nmul (nnat (count (long_to_close (Fin p)) P)) (Fin p))
                    (sum_exposure (long_to_close (Fin p)) P))
              (nsub (ndiv (sum_exposure (short_to_close (Fin f) (Fin p)) P) (Fin f))
                    (nmul (nnat (count (short_to_close (Fin f) (Fin p)) P)) (Fin p))))
        = Fin (spec_earnings d' (S k))).
    { intros a e' pv earn bal r d'.
      assert (Hp' : price d' (S k) = p).
      { unfold price, row_, d'. rewrite <- Hk, nth_snoc. reflexivity. }
      assert (HPd : P = map (slot_of f d' k) (seq 0 (S k))).
      { rewrite HP. apply map_ext_in. intros j Hj. apply in_seq in Hj.
        unfold slot_of, d'. rewrite act_app, still_open_app, price_app by lia. reflexivity. }
      assert (Hseq : forall j, In j (seq 0 (S k)) -> (j < S k)%nat) by (intros j Hj; apply in_seq in Hj; lia).
      set (bl := fun j => closed_on d' j (S k) && match act d' j with ALong => true | _ => false end).
      set (bs := fun j => closed_on d' j (S k) && match act d' j with AShort => true | _ => false end).
      assert (Nl : count (long_to_close (Fin p)) P = length (filter bl (seq 0 (S k)))).
      { rewrite HPd. apply count_map_slots. intros j Hj. apply long_to_close_slot; auto. }
      assert (Ns : count (short_to_close (Fin f) (Fin p)) P = length (filter bs (seq 0 (S k)))).
      { rewrite HPd. apply count_map_slots. intros j Hj. apply short_to_close_slot; auto. }
      assert (Sl : sum_exposure (long_to_close (Fin p)) P
                   = Fin (qsum (map (fun j => if bl j then opened_exposure f d' j else 0) (seq 0 (S k))))).
      { rewrite HPd. apply sum_slots. intros j Hj. apply long_to_close_slot; auto.
        intros j Hj Hb. apply slot_exposure. intro C. unfold bl in Hb. rewrite C, andb_false_r in Hb. discriminate. }
      assert (Ss : sum_exposure (short_to_close (Fin f) (Fin p)) P
                   = Fin (qsum (map (fun j => if bs j then opened_exposure f d' j else 0) (seq 0 (S k))))).
      { rewrite HPd. apply sum_slots. intros j Hj. apply short_to_close_slot; auto.
        intros j Hj Hb. apply slot_exposure. intro C. unfold bs in Hb. rewrite C, andb_false_r in Hb. discriminate. }
      split; [exact Hp'|]. split; [|split].
      - rewrite HPd, map_map. apply map_ext_in. intros j Hj. apply close_slot_slot; auto.
      - rewrite Hpe, Sl, Ss. unfold nsub; cbn [nadd nneg]. f_equal.
        unfold spec_exposure_before, sum_days.
        rewrite <- exposure_identity by auto. fold bl bs.
        assert (E : spec_exposure f d k
                = qsum (map (fun j => if still_open d' j k then opened_exposure f d' j else 0) (seq 0 (S k)))).
        { unfold d'. rewrite <- (spec_exposure_app f d [r] k) by lia. reflexivity. }
        rewrite E. reflexivity.
      - rewrite Hpr, Nl, Ns, Sl, Ss.
        assert (Hf0 : f <> 0) by (apply qc_pos_neq0; qlra).
        unfold nnat, nsub; cbn [nmul nadd nneg ndiv].
        destruct (qeqb f 0) eqn:Ef; [qb; contradiction|].
        cbn [nneg nadd]. f_equal.
        unfold spec_earnings at 2. rewrite sum_days_S.
        assert (E : spec_earnings d k = sum_days (S k) (fun k0 => sum_days k0 (fun j => if closed_on d' j k0 then profit d' j k0 else 0))).
        { unfold d'. rewrite <- (spec_earnings_app d [r] k) by lia. reflexivity. }
        rewrite E. f_equal.
        transitivity (qsum (map (earn_at d' (S k)) (seq 0 (S k)))); [|reflexivity].
        rewrite <- (earnings_identity f d' (S k)) by auto. fold bl bs. rewrite Hp'.
        reflexivity. }
    (* generic conclusion for one outcome *)
    assert (OUT : forall a sl e',
      let P1 := map (close_slot (Fin f) (Fin p)) P in
      let pv := portfolio_value (Fin p) (P1 ++ [sl]) in
      let earn := nadd (x_earnings prev)
        (nadd (nsub (nmul (nnat (count (long_to_close (Fin p)) P)) (Fin p))
                    (sum_exposure (long_to_close (Fin p)) P))
              (nsub (ndiv (sum_exposure (short_to_close (Fin f) (Fin p)) P) (Fin f))
                    (nmul (nnat (count (short_to_close (Fin f) (Fin p)) P)) (Fin p)))) in
      let r := mkRow (Some sg) (Some a) (Fin p) e' pv earn (nadd pv earn) in
      let d' := d ++ [r] in
      let eb := spec_exposure_before f d' (S k) (S k) in
      (sl = match a with ANone => slot0 | ALong => mkSlot PLong SOpen (Fin p)
                       | AShort => mkSlot PShort SOpen (Fin (f * p)) end) ->
      e' = Fin (eb + match a with ANone => 0 | ALong => p | AShort => f * p end) ->
      a = match sg with
          | Hold => ANone
          | Buy => if fits m (eb + p) then ALong else ANone
          | Sell => if fits m (eb + f * p) then AShort else ANone
          end ->
      good m f (ds ++ [(Fin p, sg)]) (P1 ++ [sl]) d').
    { intros a sl e' P1 pv earn r d' eb Hsl He' Ha.
      destruct (CORE a e' pv earn (nadd pv earn)) as [Hp' [HP1 [_ Hearn]]].
      fold r in Hp', HP1, Hearn. fold d' in Hp', HP1, Hearn.
      assert (Hrow : row_ d' (S k) = r) by (unfold row_, d'; rewrite <- Hk; apply nth_snoc).
      assert (Hact : act d' (S k) = a) by (unfold act; rewrite Hrow; reflexivity).
      assert (Hsl' : slot_of f d' (S k) (S k) = sl).
      { unfold slot_of. rewrite Hact, still_open_self, Hact, Hp'. rewrite Hsl. destruct a; reflexivity. }
      assert (HPall : P1 ++ [sl] = map (slot_of f d' (S k)) (seq 0 (S (S k)))).
      { rewrite (seq_S (S k)), map_app. simpl plus. unfold P1. rewrite HP1. simpl map at 3. rewrite Hsl'. reflexivity. }
      assert (Hd' : length d' = S (S k)) by (unfold d'; rewrite app_length; simpl; lia).
      assert (Hnds : nth (S k) (ds ++ [(Fin p, sg)]) (NaN, Hold) = (Fin p, sg)) by (rewrite <- Hk, HL; apply nth_snoc).
      assert (Hold' : forall i, (i < length d)%nat -> nth i (ds ++ [(Fin p, sg)]) (NaN, Hold) = nth i ds (NaN, Hold))
        by (intros; apply app_nth1; lia).
      assert (CASES : forall (Q : nat -> Prop), (forall i, (i < length d)%nat -> Q i) -> Q (S k) ->
                 forall i, (i < length d')%nat -> Q i).
      { intros Q H1 H2 i Hi. destruct (Nat.eq_dec i (S k)) as [->|Hn]; [auto|apply H1; lia]. }
      constructor.
      - rewrite Hd', app_length; simpl; lia.
      - rewrite Hd'. replace (S (S k) - 1)%nat with (S k) by lia. exact HPall.
      - apply CASES; intros.
        + unfold d'. rewrite row_app, Hold' by auto. apply (g_sig _ _ _ _ _ G); auto.
        + rewrite Hrow, Hnds. reflexivity.
      - apply CASES; intros.
        + unfold d'. rewrite row_app, Hold' by auto. apply (g_stock _ _ _ _ _ G); auto.
        + rewrite Hrow, Hnds. reflexivity.
      - unfold d'. rewrite act_app by lia. apply (g_act0 _ _ _ _ _ G).
      - apply CASES; intros.
        + unfold d'. rewrite act_app, row_app by auto. apply (g_some _ _ _ _ _ G); auto.
        + rewrite Hrow, Hact. reflexivity.
      - intros i [Hi0 Hi]. destruct (Nat.eq_dec i (S k)) as [->|Hn].
        + rewrite Hact, Hnds, Hp'. fold eb. exact Ha.
        + assert (Hi' : (i < length d)%nat) by lia.
          unfold d'. rewrite act_app, Hold', spec_exposure_before_app, price_app by lia.
          apply (g_act _ _ _ _ _ G); lia.
      - apply CASES; intros.
        + unfold d'. rewrite row_app, spec_exposure_app by auto. apply (g_exp _ _ _ _ _ G); auto.
        + rewrite Hrow. cbn [x_exposure r]. rewrite He'. f_equal.
          unfold spec_exposure, spec_exposure_before. rewrite sum_days_S.
          f_equal. rewrite still_open_self. unfold opened_exposure. rewrite Hact, Hp'. destruct a; reflexivity.
      - apply CASES; intros.
        + unfold d'. rewrite row_app, spec_earnings_app by auto. apply (g_earn _ _ _ _ _ G); auto.
        + rewrite Hrow. cbn [x_earnings r]. exact Hearn.
      - apply CASES; intros.
        + unfold d'. rewrite row_app, open_longs_app, open_shorts_app, price_app by auto. apply (g_pv _ _ _ _ _ G); auto.
        + rewrite Hrow. cbn [x_portfolio_value r]. unfold pv. rewrite HPall, portfolio_value_slots, Hp'. reflexivity.
      - apply CASES; intros.
        + unfold d'. rewrite row_app by auto. apply (g_bal _ _ _ _ _ G); auto.
        + rewrite Hrow. reflexivity. }
    assert (EQ : forall r1 r2, price (d ++ [r1]) (S k) = price (d ++ [r2]) (S k) ->
        spec_exposure_before f (d ++ [r1]) (S k) (S k) = spec_exposure_before f (d ++ [r2]) (S k) (S k)).
    { intros r1 r2 Hr. apply sum_days_ext. intros j Hj.
      rewrite !opened_exposure_app by lia.
      rewrite !still_open_step by lia. rewrite !still_open_app by lia.
      unfold profitable. rewrite !act_app by lia. rewrite Hr, !(price_app d _ j) by lia. reflexivity. }
    rewrite day_ne by auto. unfold day_next. rewrite Hlast.
    set (r1 := mkRow (Some sg) (Some ANone) (Fin p) NaN NaN NaN NaN).
    destruct (CORE ANone NaN NaN NaN NaN) as [Hp1 [_ [He1 _]]]. fold r1 in Hp1, He1.
    rewrite He1.
    assert (EBE : forall r, x_stock r = Fin p ->
       spec_exposure_before f (d ++ [r]) (S k) (S k) = spec_exposure_before f (d ++ [r1]) (S k) (S k)).
    { intros r Hr. apply EQ. unfold price, row_. rewrite <- !Hk, !nth_snoc, Hr. reflexivity. }
    set (eb := spec_exposure_before f (d ++ [r1]) (S k) (S k)) in *.
    cbn [nadd nmul].
    destruct sg; rewrite ?over_limit_fits.
    + destruct (fits m (eb + p)) eqn:EF; cbn [negb fst snd].
      * apply OUT; [reflexivity| |]; rewrite EBE by reflexivity; [reflexivity|rewrite EF; reflexivity].
      * apply OUT; [reflexivity| |]; rewrite EBE by reflexivity; [f_equal; ring|rewrite EF; reflexivity].
    + cbn [fst snd]. apply OUT; [reflexivity| |]; rewrite ?EBE by reflexivity; [f_equal; ring|reflexivity].
    + destruct (fits m (eb + f * p)) eqn:EF; cbn [negb fst snd].
      * apply OUT; [reflexivity| |]; rewrite EBE by reflexivity; [reflexivity|rewrite EF; reflexivity].
      * apply OUT; [reflexivity| |]; rewrite EBE by reflexivity; [f_equal; ring|rewrite EF; reflexivity].
Qed.

Lemma good_days m f ds : 1 <= f -> (forall x, In x ds -> exists p, fst x = Fin p) ->
  good m f ds (fst (days m (Fin f) ds)) (snd (days m (Fin f) ds)).
Proof.
  intros Hf. induction ds as [|x ds IH] using rev_ind; intro Hfin.
  - apply good_nil.
  - unfold days. rewrite fold_left_app. fold (days m (Fin f) ds). simpl.
    destruct (Hfin x) as [p Hp]; [apply in_or_app; right; left; auto|].
    destruct x as [x sg]; simpl in *; subst x.
    apply good_day; auto. apply IH. intros y Hy. apply Hfin. apply in_or_app; auto.
Qed.

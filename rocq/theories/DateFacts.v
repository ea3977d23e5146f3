(** * DateFacts: the model looks at dates only to put them in order. *)
From Coq Require Import ZArith QArith Qcanon Bool List String PeanoNat Lia.
From Verif Require Import Num Pandas Frame Sim Ind Signal Api DateSpec.
Import ListNotations.
Open Scope list_scope.

Section Dates.
  Variables (P : Z -> Prop) (to : Z -> Z).
  Hypothesis UP : forall x y, P x -> P y -> (x < y)%Z -> (to x < to y)%Z.
  Notation re_row := (fun r : row => (to (fst r), snd r)).
  Definition re (f : frame) : frame := mkFrame (cols f) (map re_row (rows f)).
  Notation ok l := (Forall (fun r : row => P (fst r)) l).

  Lemma leb_re x y : P x -> P y -> Z.leb (to x) (to y) = Z.leb x y.
  Proof. intros X Y. destruct (Z.leb_spec x y); destruct (Z.leb_spec (to x) (to y)); auto; [|pose proof (UP y x Y X); lia]. destruct (Z.eq_dec x y) as [->|]; [lia|]. pose proof (UP x y X Y). lia. Qed.
  Lemma eqb_re x y : P x -> P y -> Z.eqb (to x) (to y) = Z.eqb x y.
  Proof.
    intros X Y. destruct (Z.eqb_spec x y) as [->|N]; [apply Z.eqb_refl|]. apply Z.eqb_neq. pose proof (UP x y X Y). pose proof (UP y x Y X). lia.
  Qed.
  Lemma insert_re r l : P (fst r) -> ok l -> insert (re_row r) (map re_row l) = map re_row (insert r l).
  Proof.
    intros R. induction 1 as [|x l X L IH]; [reflexivity|]. cbn [map insert fst]. rewrite leb_re by assumption. destruct (Z.leb _ _); [reflexivity|]. cbn [map]. f_equal. exact IH.
  Qed.
  Lemma insert_ok r l : P (fst r) -> ok l -> ok (insert r l).
  Proof. intros R. induction 1 as [|x l X L IH]; cbn [insert]; [auto|]. destruct (Z.leb _ _); auto. Qed.
  Lemma sort_ok l : ok l -> ok (sort_rows l).
  Proof. induction 1; cbn [sort_rows fold_right]; [constructor|]. apply insert_ok; assumption. Qed.
  Lemma sort_re l : ok l -> sort_rows (map re_row l) = map re_row (sort_rows l).
  Proof.
    induction 1 as [|x l X L IH]; [reflexivity|]. cbn [map sort_rows fold_right]. unfold sort_rows in IH. rewrite IH. apply insert_re; [exact X|]. apply sort_ok, L.
  Qed.
  Lemma ffill_from_re p l : ffill_from p (map re_row l) = map re_row (ffill_from p l).
  Proof. revert p. induction l as [|[t c] l IH]; intro p; [reflexivity|]. cbn [map ffill_from fst snd]. rewrite IH. reflexivity. Qed.
  Lemma ffill_re l : ffill (map re_row l) = map re_row (ffill l).
  Proof. destruct l as [|[t c] l]; [reflexivity|]. cbn [map ffill fst snd]. rewrite ffill_from_re. reflexivity. Qed.
  Lemma bfill_re l : bfill (map re_row l) = map re_row (bfill l).
  Proof. induction l as [|[t c] l IH]; [reflexivity|]. cbn [map bfill fst snd]. rewrite IH. destruct (bfill l) as [|[t' c'] r]; reflexivity. Qed.
  Lemma ffill_from_fst p l : map fst (ffill_from p l) = map fst l.
  Proof. revert p. induction l as [|[t c] l IH]; intro p; [reflexivity|]. cbn [map ffill_from fst]. rewrite IH. reflexivity. Qed.
  Lemma ffill_fst l : map fst (ffill l) = map fst l.
  Proof. destruct l as [|[t c] l]; [reflexivity|]. cbn [map ffill fst]. rewrite ffill_from_fst. reflexivity. Qed.
  Lemma bfill_fst l : map fst (bfill l) = map fst l.
  Proof. induction l as [|[t c] l IH]; [reflexivity|]. cbn [map bfill fst]. rewrite <- IH. destruct (bfill l) as [|[t' c'] r]; reflexivity. Qed.
  Lemma ok_fst l : ok l <-> Forall P (map fst l). Proof. symmetry. apply Forall_map. Qed.
  Definition good (f : frame) := ok (rows f).
  Lemma fill_re f : good f -> fill_missing (re f) = re (fill_missing f).
  Proof. intro G. unfold fill_missing, sort_index, re. cbn [cols rows]. rewrite sort_re, ffill_re, bfill_re by exact G. reflexivity. Qed.
  Lemma sort_index_good f : good f -> good (sort_index f). Proof. apply sort_ok. Qed.
  Lemma fill_good f : good f -> good (fill_missing f).
  Proof. intro G. unfold good, fill_missing, sort_index. cbn [cols rows]. apply ok_fst. rewrite bfill_fst, ffill_fst. apply ok_fst, sort_ok, G. Qed.
  Definition okd {A B} (g : A -> B) (r : res A) : res B := match r with Ok a => Ok (g a) | Err e => Err e end.
  Definition re_raw (v : rawval) : rawval := match v with RFrame raw => RFrame (redated to raw) | RNotFrame => RNotFrame end.
  Definition raw_ok (v : rawval) : Prop := match v with RFrame raw => ok (r_rows raw) | RNotFrame => True end.
  Lemma validate_re v req b : raw_ok v -> snd (validate (re_raw v) req b) = okd re (snd (validate v req b)) /\ (forall f, snd (validate v req b) = Ok f -> good f).
  Proof.
    intro G. destruct v as [raw|]; [|split; [reflexivity|discriminate]]. cbn [re_raw validate raw_ok] in *.
    unfold redated. cbn [r_datetime r_labels r_numeric r_rows]. destruct (r_datetime raw); [|split; [reflexivity|discriminate]]. cbn [negb].
    assert (X : forall l : list row, match map (fun r : row => (to (fst r), snd r)) l with [] => true | _ :: _ => false end = match l with [] => true | _ :: _ => false end) by (intros []; reflexivity).
    rewrite X. clear X. destruct (match r_rows raw with [] => true | _ :: _ => false end || match r_labels raw with [] => true | _ :: _ => false end); [split; [reflexivity|discriminate]|]. destruct (lower_labels (r_labels raw)) as [labels|]; [|split; [reflexivity|discriminate]].
    cbn [snd]. destruct (check_required req labels (r_numeric raw)); [|split; [reflexivity|discriminate]]. cbn [bind].
    destruct (check_drops req labels []); [|split; [reflexivity|discriminate]]. cbn [bind okd].
    cbv zeta. set (g := drop_cols req labels (r_rows raw)). replace (drop_cols req labels (map (fun r : Z * list num => (to (fst r), snd r)) (r_rows raw))) with (re g).
    2:{ unfold re, g, drop_cols. cbn [cols rows]. rewrite !map_map. reflexivity. }
    assert (GG : good g) by (unfold good, g, drop_cols; cbn [rows]; apply ok_fst; rewrite map_map; cbn [fst]; apply ok_fst, G).
    assert (S : sort_index (re g) = re (sort_index g)) by (unfold sort_index, re; cbn [cols rows]; rewrite sort_re by exact GG; reflexivity).
    rewrite S. split.
    - destruct b; [rewrite fill_re by (apply sort_index_good, GG)|]; reflexivity.
    - intros f [= <-]. destruct b; [apply fill_good|]; apply sort_index_good, GG.
  Qed.

  (** ** columns do not hold dates *)
  Lemma col_re name f : col name (re f) = col name f.
  Proof. unfold col. cbn [re cols rows]. destruct (Frame.position name (cols f)); [|reflexivity]. rewrite map_map. reflexivity. Qed.
  Lemma icol_re k f : icol k (re f) = icol k f.
  Proof. unfold icol, re. cbn [rows]. rewrite map_map. reflexivity. Qed.
  Lemma rows_re f : List.length (rows (re f)) = List.length (rows f).
  Proof. unfold re. cbn [rows]. apply map_length. Qed.
  Lemma index_re f : index (re f) = map to (index f).
  Proof. unfold index, re. cbn [rows]. rewrite !map_map. reflexivity. Qed.
  Lemma ti_cols_re o i f : good f -> ti_cols o i (re f) = ti_cols o i f.
  Proof. intro G. unfold ti_cols. rewrite (fill_re f G). unfold adl_of. rewrite !col_re. reflexivity. Qed.
  Lemma mk_ti_re idx cs : mk_ti (map to idx) cs = re (mk_ti idx cs).
  Proof.
    unfold mk_ti, re. cbn [cols rows]. f_equal. rewrite map_length, map_map. generalize (seq 0 (List.length idx)). induction idx as [|x idx IH]; intros [|k ks]; try reflexivity. cbn. f_equal. apply IH.
  Qed.
  Lemma add_col_re name s f : add_col name s (re f) = re (add_col name s f).
  Proof.
    unfold add_col, re. cbn [cols rows]. f_equal. rewrite map_map. revert s. induction (rows f) as [|r l IH]; intros [|x s]; try reflexivity. cbn. f_equal. apply IH.
  Qed.
  Lemma calc_re o i f : good f -> calc o i (re f) = okd (fun p => (re (fst p), re (snd p))) (calc o i f).
  Proof.
    intro G. unfold calc. rewrite rows_re, (ti_cols_re o i f G).
    assert (T : ti_index i (re f) = map to (ti_index i f)) by (unfold ti_index; destruct i; rewrite ?index_re, ?rows_re, ?firstn_map; reflexivity).
    assert (A : input_after i (re f) = re (input_after i f)) by (unfold input_after; destruct i; rewrite ?col_re, ?add_col_re; reflexivity).
    rewrite T, A, mk_ti_re. destruct (needs i) as [[[nm s] n]|]; [|reflexivity]. destruct (Nat.ltb _ _); reflexivity.
  Qed.
  Definition re_obj (ob : obj) : obj := mkObj (ob_ind ob) (re (ob_input ob)) (re (ob_ti ob)).
  Theorem construct_re o c v fill : raw_ok v -> snd (construct o c (re_raw v) fill) = okd re_obj (snd (construct o c v fill)).
  Proof.
    intro G. unfold construct. destruct (check c) as [i|]; [|reflexivity]. destruct fill as [|b| | | |]; try reflexivity.
    pose proof (validate_re v (required i) b G) as [V VG]. destruct (validate v (required i) b) as [v1 r1]. destruct (validate (re_raw v) (required i) b) as [v2 r2]. cbn [snd] in *. subst r2.
    destruct r1 as [f|]; [|reflexivity]. cbn [okd bind]. rewrite (calc_re o i f (VG f eq_refl)). destruct (calc o i f); reflexivity.
  Qed.
  Lemma guard_re k f s : guard k (re f) s = guard k f s. Proof. unfold guard. rewrite rows_re. reflexivity. Qed.
  Theorem signal_re i inp ti : good inp -> signal_of i (re inp) (re ti) = signal_of i inp ti.
  Proof. intro G. unfold signal_of. destruct i; rewrite ?(fill_re inp G); rewrite ?guard_re, ?col_re, ?icol_re, ?rows_re; reflexivity. Qed.

  (** ** the simulation *)
  Definition dated (ob : obj) : Prop := good (ob_input ob) /\ good (ob_ti ob).
  Lemma upto_re t f : P t -> good f -> upto (to t) (re f) = re (upto t f).
  Proof.
    intros T G. unfold upto, re. cbn [cols rows]. f_equal. unfold good in G. induction G as [|r l R L IH]; [reflexivity|]. cbn [map filter fst]. rewrite leb_re by assumption. destruct (Z.leb _ _); [cbn [map]; f_equal|]; exact IH.
  Qed.
  Lemma upto_good t f : good f -> good (upto t f).
  Proof. unfold good, upto. cbn [rows]. induction 1 as [|r l R L IH]; cbn [filter]; [constructor|]. destruct (Z.leb _ _); auto. Qed.
  Lemma nth_index_re i f : (i < List.length (rows f))%nat -> nth i (index (re f)) 0%Z = to (nth i (index f) 0%Z).
  Proof. intro I. rewrite index_re, (nth_indep _ 0%Z (to 0%Z)) by (rewrite map_length; unfold index; rewrite map_length; exact I). apply map_nth. Qed.
  Lemma nth_index_ok i f : good f -> (i < List.length (rows f))%nat -> P (nth i (index f) 0%Z).
  Proof. intros G I. apply (proj1 (ok_fst _)) in G. rewrite Forall_forall in G. apply G, nth_In. unfold index. rewrite map_length. exact I. Qed.
  Lemma limited_re i ob : dated ob -> (i < List.length (rows (ob_ti ob)))%nat -> (i < List.length (rows (ob_input ob)))%nat -> limited i (re_obj ob) = re_obj (limited i ob).
  Proof.
    intros [G1 G2] I1 I2. unfold limited, re_obj. cbn [ob_ind ob_input ob_ti]. rewrite !nth_index_re, !upto_re by (try apply nth_index_ok; assumption). reflexivity.
  Qed.
  Lemma rounds_re full i n cur cur' st : dated full -> (List.length (rows (ob_ti full)) <= List.length (rows (ob_input full)))%nat -> (i + n <= List.length (rows (ob_ti full)))%nat ->
    snd (rounds (re_obj full) i n cur' st) = snd (rounds full i n cur st).
  Proof.
    intros G LE. revert i cur cur' st. induction n as [|n IH]; intros i cur cur' st I; [reflexivity|]. cbn [rounds]. rewrite limited_re by (try assumption; lia).
    unfold get_ti_signal. cbn [re_obj ob_ind ob_input ob_ti]. rewrite signal_re by (apply upto_good, G). destruct (signal_of _ _ _); [|reflexivity]. apply IH. lia.
  Qed.
  Lemma zlist_re a b : Forall P a -> Forall P b -> zlist_eqb (map to a) (map to b) = zlist_eqb a b.
  Proof. intro A. revert b. induction A as [|x a X A IH]; intros b B; destruct B as [|y b Y B]; try reflexivity. cbn [map zlist_eqb]. rewrite eqb_re, IH by assumption. reflexivity. Qed.
  Lemma sort_z_re l : Forall P l -> sort_z (map to l) = map to (sort_z l) /\ Forall P (sort_z l).
  Proof.
    intro L. unfold sort_z. assert (O : ok (map (fun z => (z, [])) l)) by (apply ok_fst; rewrite map_map; cbn [fst]; rewrite map_id; exact L). split; [|apply ok_fst, sort_ok, O].
    replace (map (fun z => (z, [])) (map to l)) with (map re_row (map (fun z : Z => (z, @nil num)) l)) by (rewrite !map_map; reflexivity). rewrite sort_re by exact O. rewrite !map_map. reflexivity.
  Qed.
  Lemma sim_init_re idx v m x : Forall P idx -> raw_ok v -> snd (sim_init (map to idx) (re_raw v) m x) = snd (sim_init idx v m x).
  Proof.
    intros I G. unfold sim_init. pose proof (validate_re v ["close"%string] true G) as [V VG]. destruct (validate v ["close"%string] true) as [v1 r1]. destruct (validate (re_raw v) ["close"%string] true) as [v2 r2]. cbn [snd] in *. subst r2.
    destruct r1 as [f|]; [|reflexivity]. cbn [okd]. destruct (sort_z_re idx I) as [-> S]. rewrite index_re, zlist_re; [|apply ok_fst, (VG f eq_refl)|exact S]. rewrite icol_re, map_length. reflexivity.
  Qed.
  Theorem simulation_re ob v m x : dated ob -> (List.length (rows (ob_ti ob)) <= List.length (rows (ob_input ob)))%nat -> raw_ok v ->
    snd (get_ti_simulation (re_obj ob) (re_raw v) m x) = snd (get_ti_simulation ob v m x).
  Proof.
    intros G LE R. unfold get_ti_simulation. cbn [re_obj ob_input ob_ti]. rewrite index_re.
    pose proof (sim_init_re (index (ob_input ob)) v m x (proj1 (ok_fst _) (proj1 G)) R) as S. destruct (sim_init (index (ob_input ob)) v m x) as [v1 r1]. destruct (sim_init (map to (index (ob_input ob))) (re_raw v) m x) as [v2 r2]. cbn [snd] in S. subst r2.
    destruct r1 as [st|]; [|reflexivity]. rewrite rows_re. pose proof (rounds_re ob 0 (List.length (rows (ob_ti ob))) ob (re_obj ob) st G LE ltac:(lia)) as Q. fold (re_obj ob).
    destruct (rounds ob 0 _ ob st) as [o1 s1]. destruct (rounds (re_obj ob) 0 _ (re_obj ob) st) as [o2 s2]. cbn [snd] in Q. subst s2. destruct s1; reflexivity.
  Qed.
  (** ** getTiValue *)
  Lemma value_re ob t : dated ob -> P t -> get_ti_value (re_obj ob) (DAt (to t)) = get_ti_value ob (DAt t).
  Proof.
    intros [_ G] T. unfold get_ti_value. cbn [re_obj ob_ti]. unfold re. cbn [cols rows].
    assert (F : filter (fun r : row => Z.eqb (fst r) (to t)) (map re_row (rows (ob_ti ob))) = map re_row (filter (fun r : row => Z.eqb (fst r) t) (rows (ob_ti ob)))).
    { unfold good in G. induction G as [|r l R L IH]; [reflexivity|]. cbn [map filter fst]. rewrite eqb_re by assumption. destruct (Z.eqb _ _); [cbn [map]; f_equal|]; exact IH. }
    rewrite F. destruct (filter (fun r : row => Z.eqb (fst r) t) (rows (ob_ti ob))) as [|r [|r2 l]]; reflexivity.
  Qed.
  Lemma last_value_re ob : get_ti_value (re_obj ob) DNotGiven = get_ti_value ob DNotGiven.
  Proof. unfold get_ti_value. cbn [re_obj ob_ti]. unfold re. cbn [rows]. rewrite <- map_rev. destruct (rev (rows (ob_ti ob))); reflexivity. Qed.
End Dates.

(** * Pandas: the pandas / numpy series operations the indicators use.

    A series is the list of its cells, oldest first.  These definitions are the
    model's reading of pandas 2.3 (not part of /repo); every indicator is built
    from them.  [rolling] and [ewm] replace infinities by NaN first, as
    pandas/core/window does ([_prep_values]). *)
From Coq Require Import ZArith QArith Qcanon Bool List PeanoNat.
From Verif Require Import Num.
Import ListNotations.
Open Scope Qc_scope.

Definition series := list num.

(** elementwise operations *)
Definition smap (f : num -> num) (s : series) : series := map f s.
Definition szip {A B C} (f : A -> B -> C) (a : list A) (b : list B) : list C :=
  map (fun p => f (fst p) (snd p)) (combine a b).
Definition szip3 {A B C E} (f : A -> B -> C -> E) (a : list A) (b : list B) (c : list C) : list E :=
  szip (fun p z => f (fst p) (snd p) z) (combine a b) c.

Definition sadd := szip nadd.
Definition ssub := szip nsub.
Definition smul := szip nmul.
Definition sdiv := szip ndiv.
Definition sround (k : nat) (s : series) : series := smap (nround k) s.

(** Series.shift(k), k >= 0, and Series.shift(-k) *)
Definition shift (k : nat) (s : series) : series := firstn (length s) (repeat NaN k ++ s).
Definition shift_back (k : nat) (s : series) : series :=
  firstn (length s) (skipn k s ++ repeat NaN (length s)).
Definition sdiff (s : series) : series := ssub s (shift 1 s).

(** boolean-mask assignment  s[mask] = new  (missing comparisons are false) *)
Definition assign (mask : list bool) (new old : series) : series :=
  szip3 (fun m n o => if (m : bool) then n else o) mask new old.
Definition assign_const (mask : list bool) (v : num) (old : series) : series :=
  szip (fun m o => if (m : bool) then v else o) mask old.

(** ** finite (present) values of a window *)
Fixpoint fins (l : series) : list Qc :=
  match l with
  | [] => []
  | Fin q :: r => q :: fins r
  | _ :: r => fins r
  end.

Definition qnat (n : nat) : Qc := Q2Qc (inject_Z (Z.of_nat n)).
Definition qsum (l : list Qc) : Qc := fold_right Qcplus 0 l.
Definition qmean (l : list Qc) : Qc := qsum l / qnat (length l).
Definition qmin2 (a b : Qc) : Qc := if qltb b a then b else a.
Definition qmax2 (a b : Qc) : Qc := if qltb a b then b else a.
Definition qmin (x : Qc) (l : list Qc) : Qc := fold_right qmin2 x l.
Definition qmax (x : Qc) (l : list Qc) : Qc := fold_right qmax2 x l.
(** population variance (ddof = 0) *)
Definition qvar (l : list Qc) : Qc :=
  qmean (map (fun x => (x - qmean l) * (x - qmean l)) l).

(** rows max(0, i-w+1) .. i *)
Definition window {A} (w i : nat) (s : list A) : list A := skipn (S i - w) (firstn (S i) s).

(** Series.rolling(window=w, min_periods=m).agg() *)
Definition rolling (w m : nat) (agg : list Qc -> num) (s : series) : series :=
  map (fun i => let v := fins (window w i s) in
                if m <=? length v then agg v else NaN)
      (seq 0 (length s)).

Definition agg_sum (v : list Qc) : num := Fin (qsum v).
Definition agg_mean (v : list Qc) : num := match v with [] => NaN | _ => Fin (qmean v) end.
Definition agg_max (v : list Qc) : num := match v with [] => NaN | x :: r => Fin (qmax x r) end.
Definition agg_min (v : list Qc) : num := match v with [] => NaN | x :: r => Fin (qmin x r) end.
Definition agg_std (sqrt : Qc -> Qc) (v : list Qc) : num :=
  match v with [] => NaN | _ => Fin (sqrt (qvar v)) end.

Definition roll_sum (w : nat) := rolling w w agg_sum.
Definition roll_mean (w : nat) := rolling w w agg_mean.
Definition roll_max (w m : nat) := rolling w m agg_max.
Definition roll_min (w m : nat) := rolling w m agg_min.
Definition roll_std (sqrt : Qc -> Qc) (w : nat) := rolling w w (agg_std sqrt).

(** rolling(window=w, min_periods=w, win_type=...).mean(): weighted mean *)
Definition qdot (ws xs : list Qc) : Qc := qsum (szip Qcmult ws xs).
Definition roll_wmean (ws : list Qc) (w : nat) (s : series) : series :=
  rolling w w (fun v => match v with [] => NaN | _ => Fin (qdot ws v / qsum ws) end) s.

(** ewm(alpha, adjust=False, ignore_na=False, min_periods=m).mean().
    State: the weighted mean so far with its decayed weight, and the number of
    observations (pandas/_libs/window/aggregations.pyx:ewm). *)
Definition ewm_out (m nobs : nat) (w : Qc) : num := if m <=? nobs then Fin w else NaN.

Fixpoint ewm_from (alpha : Qc) (m : nat) (st : option (Qc * Qc)) (nobs : nat) (s : series) : series :=
  match s with
  | [] => []
  | Fin q :: r =>
      match st with
      | None => ewm_out m (S nobs) q :: ewm_from alpha m (Some (q, 1)) (S nobs) r
      | Some (w, ow) =>
          let ow' := ow * (1 - alpha) in
          let w' := (ow' * w + alpha * q) / (ow' + alpha) in
          ewm_out m (S nobs) w' :: ewm_from alpha m (Some (w', 1)) (S nobs) r
      end
  | _ :: r =>
      match st with
      | None => NaN :: ewm_from alpha m None nobs r
      | Some (w, ow) =>
          ewm_out m nobs w :: ewm_from alpha m (Some (w, ow * (1 - alpha))) nobs r
      end
  end.

Definition ewm_alpha (alpha : Qc) (m : nat) (s : series) : series := ewm_from alpha m None 0 s.
(** ewm(span=p, ...): alpha = 2/(p+1) *)
Definition span_alpha (p : nat) : Qc := Q2Qc (inject_Z 2) / qnat (S p).
Definition ewm (p m : nat) (s : series) : series := ewm_alpha (span_alpha p) m s.

(** Series.cumsum(): missing cells stay missing and are skipped *)
Fixpoint cumsum_from (acc : num) (s : series) : series :=
  match s with
  | [] => []
  | NaN :: r => NaN :: cumsum_from acc r
  | x :: r => let a := nadd acc x in a :: cumsum_from a r
  end.
Definition cumsum (s : series) : series := cumsum_from (Fin 0) s.

(** astype("int64", errors="ignore") *)
Definition astype_int (s : series) : series :=
  if forallb isfin s
  then smap (fun x => match x with Fin q => Fin (qtrunc q) | _ => x end) s
  else s.

(** ** reductions with skipna=True: over the cells that are not NaN *)
Definition present (l : series) : series := filter (fun x => negb (isnan x)) l.
Definition nsum (l : series) : num := fold_left nadd l (Fin 0).
Definition sum_skip (l : series) : num := nsum (present l).
Definition mean_skip (l : series) : num :=
  ndiv (nsum (present l)) (Fin (qnat (length (present l)))).
Definition max_skip (l : series) : num :=
  match present l with [] => NaN | x :: r => fold_left npmax r x end.
Definition min_skip (l : series) : num :=
  match present l with [] => NaN | x :: r => fold_left npmin r x end.
(** reductions where NaN wins (skipna=False, numpy max/min) *)
Definition max_nan (l : series) : num :=
  match l with [] => NaN | x :: r => fold_left npmax r x end.
Definition min_nan (l : series) : num :=
  match l with [] => NaN | x :: r => fold_left npmin r x end.

(** running computation: out_i = step out_{i-1} in_i *)
Fixpoint scan {A B} (step : B -> A -> B) (acc : B) (l : list A) : list B :=
  match l with
  | [] => []
  | x :: r => let a := step acc x in a :: scan step a r
  end.

(** a column that is missing before position k, equals [seed] at k and follows
    the recurrence afterwards (the "Wilder" loops) *)
Definition seeded {A} (k : nat) (seed : num) (step : num -> A -> num) (s : list A) : series :=
  firstn (length s) (repeat NaN k ++ seed :: scan step seed (skipn (S k) s)).

(** ** least squares over a window: y against x = x0, x0+1, ... *)
Definition ols_xs (x0 : nat) (n : nat) : list Qc := map qnat (seq x0 n).
Definition ols_slope (xs ys : list Qc) : Qc :=
  let n := qnat (length ys) in
  (n * qdot xs ys - qsum xs * qsum ys) / (n * qdot xs xs - qsum xs * qsum xs).
Definition ols_intercept (xs ys : list Qc) : Qc :=
  (qsum ys - ols_slope xs ys * qsum xs) / qnat (length ys).

(** RollingOLS(endog.fillna(0), add_constant(range(n)), window=p).fit().params:
    (intercept, slope) per row, missing for the first p-1 rows.  Simplification:
    a window holding an infinity gives missing parameters. *)
Definition fill0 (s : series) : series := smap (fun x => if isnan x then Fin 0 else x) s.
Definition rolling_ols (p : nat) (s : series) : list (num * num) :=
  map (fun i =>
         let win := window p i (fill0 s) in
         let ys := fins win in
         if p <=? length ys
         then let xs := ols_xs (S i - p) p in
              (Fin (ols_intercept xs ys), Fin (ols_slope xs ys))
         else (NaN, NaN))
      (seq 0 (length s)).

(** ** positional reads *)
(** s.iat[-k] for the last k-th cell; None models IndexError *)
Definition ineg (s : series) (k : nat) : option num :=
  if (1 <=? k) && (k <=? length s) then Some (nth (length s - k) s NaN) else None.

(** s.iloc[-k:] *)
Definition tail_k {A} (k : nat) (s : list A) : list A := skipn (length s - k) s.
(** s.iloc[-k:-1] *)
Definition tail_but_last {A} (k : nat) (s : list A) : list A := removelast (tail_k k s).

(** Series.argmin() with skipna: position of the first smallest cell (missing
    cells count as +inf); -1 when every cell is missing *)
Definition nan_to_pinf (x : num) : num := if isnan x then PInf else x.
Fixpoint argmin_from (best : num) (bi i : nat) (l : series) : nat :=
  match l with
  | [] => bi
  | x :: r => if nltb x best then argmin_from x i (S i) r else argmin_from best bi (S i) r
  end.
Definition argmin (l : series) : Z :=
  if forallb isnan l then (-1)%Z
  else match map nan_to_pinf l with
       | [] => (-1)%Z
       | x :: r => Z.of_nat (argmin_from x 0 1 r)
       end.

(** Series.all(): missing cells count as true *)
Definition sall (l : series) : bool := forallb (fun x => negb (neqb x (Fin 0))) l.
Definition num_of_bool (b : bool) : num := if b then F 1 else F 0.

(** np.where(mask)[0][-1]: position of the last true, if any *)
Definition last_true (mask : list bool) : option nat :=
  fold_left (fun acc (p : nat * bool) => if snd p then Some (fst p) else acc)
            (combine (seq 0 (length mask)) mask) None.

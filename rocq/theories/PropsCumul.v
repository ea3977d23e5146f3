(** * PropsCumul: lines that are carried from day to day.

    [known x k f]: rows 0 .. k of x are the finite numbers f 0 .. f k.  The lines
    (obv_line, pvt_line, index_line, adl_move) are the textbook recursions of ValueSpec. *)
From Coq Require Import ZArith QArith Qcanon Bool List String PeanoNat Lia.
From Verif Require Import Num NumFacts Pandas Sim Frame FrameSpec Ind Signal Api IndSpec ApiSpec RangeSpec PropsApi PropsRange ValueSpec ValueApi PropsValue CumulApi.
Import ListNotations.
Open Scope list_scope. Open Scope string_scope.

(** ** C48 Volume lines *)
Theorem C48_on_balance_volume o raw b ob k c v : wf_raw raw ->
  snd (construct o cOBV (RFrame raw) (VBool b)) = Ok ob ->
  known (given "close" ob) k c -> known (given "volume" ob) k v ->
  shown "obv" ob k = Fin (obv_line c v k).
Proof. exact (fun W => obv_shown_line o raw b ob W k c v). Qed.
Print Assumptions C48_on_balance_volume.
Theorem C48_price_and_volume_trend o raw b ob k c v : wf_raw raw ->
  snd (construct o cPVT (RFrame raw) (VBool b)) = Ok ob ->
  known (given "close" ob) k c -> known (given "volume" ob) k v -> (forall j, (j < k)%nat -> c j <> 0%Qc) ->
  shown "pvt" ob k = Fin (r4 (pvt_line c v k)).
Proof. exact (fun W => pvt_shown_line o raw b ob W k c v). Qed.
Print Assumptions C48_price_and_volume_trend.
(** only the days of lower volume count *)
Theorem C48_negative_volume_index o raw b ob k c v : wf_raw raw ->
  snd (construct o cNVI (RFrame raw) (VBool b)) = Ok ob ->
  known (given "close" ob) k c -> known (given "volume" ob) k v -> (forall j, (j < k)%nat -> c j <> 0%Qc) ->
  shown "nvi" ob k = Fin (r4 (index_line (fun before now => qltb now before) c v k)).
Proof. exact (fun W => nvi_shown_line o raw b ob W k c v). Qed.
Print Assumptions C48_negative_volume_index.
(** only the days of higher volume count *)
Theorem C48_positive_volume_index o raw b ob k c v : wf_raw raw ->
  snd (construct o cPVI (RFrame raw) (VBool b)) = Ok ob ->
  known (given "close" ob) k c -> known (given "volume" ob) k v -> (forall j, (j < k)%nat -> c j <> 0%Qc) ->
  shown "pvi" ob k = Fin (r4 (index_line (fun before now => qltb before now) c v k)).
Proof. exact (fun W => pvi_shown_line o raw b ob W k c v). Qed.
Print Assumptions C48_positive_volume_index.
Definition traded (rs : list (Z * Z * Z * Z)) : rawframe :=
  mkRaw true [LStr "high"; LStr "low"; LStr "close"; LStr "volume"] [true; true; true; true]
    (map (fun p => let '(k, (h, l, c, v)) := p in (Z.of_nat k, [F h; F l; F c; F v])) (combine (seq 1 (List.length rs)) rs)).
Lemma traded_wf rs : wf_raw (traded rs).
Proof. split; [reflexivity|]. intros r H. cbn in H. apply in_map_iff in H as ([k [[[h l] c] v]] & <- & _). reflexivity. Qed.
Definition busy := traded [(12, 8, 10, 50); (13, 9, 12, 60); (12, 8, 9, 30); (9, 9, 9, 40); (12, 8, 9, 20)]%Z.
Definition at_of (l : list Z) (j : nat) : Qc := zq (nth j l 0%Z).
(** a check that the column starts with the given numbers *)
Definition reads (c : string) (ob : obj) (l : list Z) : bool :=
  forallb (fun j => neqb (given c ob j) (Fin (at_of l j))) (seq 0 (List.length l)).
Lemma reads_known c ob l k : reads c ob l = true -> (k < List.length l)%nat -> known (given c ob) k (at_of l).
Proof.
  unfold reads. rewrite forallb_forall. intros H K j J. specialize (H j). rewrite in_seq in H. specialize (H ltac:(lia)).
  destruct (given c ob j) as [q| | |]; try discriminate. f_equal. apply qeqb_iff. exact H.
Qed.
Example C48_case : wf_raw busy /\
  equals (value cOBV busy true "obv" 1) 60 1 = true /\ equals (value cOBV busy true "obv" 2) 30 1 = true /\
  equals (value cOBV busy true "obv" 3) 30 1 = true /\
  equals (value cPVT busy true "pvt" 1) 12 1 = true /\ equals (value cPVT busy true "pvt" 2) 45 10 = true /\
  equals (value cNVI busy true "nvi" 1) 1000 1 = true /\ equals (value cNVI busy true "nvi" 2) 750 1 = true /\
  equals (value cPVI busy true "pvi" 1) 1200 1 = true /\ equals (value cPVI busy true "pvi" 2) 1200 1 = true.
Proof. split; [apply traded_wf|]. repeat split; vm_compute; reflexivity. Qed.
Example C48_hypotheses : let ob := the (made ora0 cPVT busy true) in
  known (given "close" ob) 4 (at_of [10; 12; 9; 9; 9]%Z) /\ known (given "volume" ob) 4 (at_of [50; 60; 30; 40; 20]%Z).
Proof. split; (apply reads_known; [vm_compute; reflexivity|cbn; auto 8]). Qed.

(** ** C57 Accumulation/distribution line *)
(** whole numbers when every day has a range; otherwise exact, with a missing value on the days without range *)
Theorem C57_line o raw b ob k c v h l : wf_raw raw ->
  snd (construct o cADL (RFrame raw) (VBool b)) = Ok ob -> (k < days_given ob)%nat ->
  known (given "close" ob) (days_given ob - 1) c -> known (given "volume" ob) (days_given ob - 1) v ->
  known (given "high" ob) (days_given ob - 1) h -> known (given "low" ob) (days_given ob - 1) l ->
  (forall j, (j < days_given ob)%nat -> l j <= c j /\ c j <= h j)%Qc ->
  let line := total (fun j => adl_move (h j) (l j) (c j) (v j)) (S k) in
  ((forall j, (j < days_given ob)%nat -> l j < h j)%Qc -> shown "adl" ob k = Fin (qtrunc line)) /\
  ((exists j, (j < days_given ob)%nat /\ h j = l j) -> shown "adl" ob k = if qltb (l k) (h k) then Fin line else NaN).
Proof. exact (fun W => adl_shown_line o raw b ob W k c v h l). Qed.
Print Assumptions C57_line.
(** one step: at most the volume, up iff the close is in the upper half of the range *)
Theorem C57_step o raw b ob k c v h l : wf_raw raw ->
  snd (construct o cADL (RFrame raw) (VBool b)) = Ok ob -> (S k < days_given ob)%nat ->
  known (given "close" ob) (days_given ob - 1) c -> known (given "volume" ob) (days_given ob - 1) v ->
  known (given "high" ob) (days_given ob - 1) h -> known (given "low" ob) (days_given ob - 1) l ->
  (forall j, (j < days_given ob)%nat -> l j <= c j /\ c j <= h j)%Qc ->
  (exists j, (j < days_given ob)%nat /\ h j = l j) -> (l k < h k)%Qc -> (l (S k) < h (S k))%Qc -> (0 <= v (S k))%Qc ->
  exists a a', shown "adl" ob k = Fin a /\ shown "adl" ob (S k) = Fin a' /\
    (- v (S k) <= a' - a)%Qc /\ (a' - a <= v (S k))%Qc /\
    (0 < a' - a <-> 0 < v (S k) /\ h (S k) + l (S k) < zq 2 * c (S k))%Qc /\
    (a' - a < 0 <-> 0 < v (S k) /\ zq 2 * c (S k) < h (S k) + l (S k))%Qc.
Proof. exact (fun W => adl_shown_step o raw b ob W k c v h l). Qed.
Print Assumptions C57_step.
Example C57_case : wf_raw busy /\ equals (value cADL busy true "adl" 1) 30 1 = true /\
  equals (value cADL busy true "adl" 2) 15 1 = true /\ isnan (value cADL busy true "adl" 3) = true /\
  equals (value cADL busy true "adl" 4) 5 1 = true.
Proof. split; [apply traded_wf|]. repeat split; vm_compute; reflexivity. Qed.
Example C57_whole : equals (value cADL (traded [(12, 8, 11, 51); (12, 8, 11, 60)]%Z) true "adl" 0) 25 1 = true.
Proof. vm_compute. reflexivity. Qed.
Example C57_hypotheses : let ob := the (made ora0 cADL busy true) in days_given ob = 5%nat /\
  known (given "high" ob) 4 (at_of [12; 13; 12; 9; 12]%Z) /\ known (given "low" ob) 4 (at_of [8; 9; 8; 9; 8]%Z) /\
  known (given "close" ob) 4 (at_of [10; 12; 9; 9; 9]%Z) /\ known (given "volume" ob) 4 (at_of [50; 60; 30; 40; 20]%Z).
Proof. split; [vm_compute; reflexivity|]. repeat split; (apply reads_known; [vm_compute; reflexivity|cbn; auto 8]). Qed.

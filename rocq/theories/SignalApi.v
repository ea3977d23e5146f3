(** * SignalApi: the signal of each indicator in terms of the published values. *)
From Coq Require Import ZArith QArith Qcanon Bool List String PeanoNat Lia Sorted.
From Verif Require Import Num NumFacts Pandas Sim Frame FrameSpec FrameProofs Ind Signal Api IndSpec SeriesFacts Lengths
  Causal IndFacts Shape ApiSpec ApiCheck ApiProofs RangeSpec ValueSpec SignalSpec.
Import ListNotations.
Open Scope list_scope. Open Scope string_scope.

Lemma less_iff x y : nltb x y = true <-> less x y.
Proof. destruct x, y; cbn; try (split; [discriminate|intros []]); try tauto. apply qltb_iff. Qed.
Lemma same_iff x y : neqb x y = true <-> same x y.
Proof. destruct x, y; cbn; try (split; [discriminate|intros []]); try tauto. apply qeqb_iff. Qed.
Lemma at_most_iff x y : nleb x y = true <-> at_most x y.
Proof. unfold nleb, at_most. rewrite orb_true_iff, less_iff, same_iff. reflexivity. Qed.
Lemma less_trans x y z : less x y -> less y z -> less x z.
Proof. destruct x, y, z; cbn; try tauto. apply Qclt_trans. Qed.
Lemma less_irrefl x : less x x -> False.
Proof. destruct x; cbn; auto. intro H. exact (Qclt_not_eq _ _ H eq_refl). Qed.
Lemma less_asym x y : less x y -> less y x -> False.
Proof. intros A B. exact (less_irrefl x (less_trans _ _ _ A B)). Qed.
Lemma less_at_most x y : less x y -> at_most y x -> False.
Proof.
  intros A [B|B]; [exact (less_asym _ _ A B)|]. destruct x, y; cbn in *; auto. subst. exact (Qclt_not_eq _ _ A eq_refl).
Qed.
Lemma sub_neg x y : nltb (nsub x y) (F 0) = true <-> less x y.
Proof.
  destruct x, y; cbn; try (split; [discriminate|intros []]); try tauto. rewrite qltb_iff.
  change (q + - q0 < zq 0 <-> q < q0)%Qc. rewrite (Qclt_minus_iff (q + - q0)), (Qclt_minus_iff q).
  replace (zq 0 + - (q + - q0))%Qc with (q0 + - q)%Qc by (change (zq 0) with 0%Qc; ring). reflexivity.
Qed.
Lemma sub_pos x y : nltb (F 0) (nsub x y) = true <-> less y x.
Proof.
  destruct x, y; cbn; try (split; [discriminate|intros []]); try tauto. rewrite qltb_iff.
  change (zq 0 < q + - q0 <-> q0 < q)%Qc. rewrite (Qclt_minus_iff (zq 0)), (Qclt_minus_iff q0).
  replace (q + - q0 + - zq 0)%Qc with (q + - q0)%Qc by (change (zq 0) with 0%Qc; ring). reflexivity.
Qed.

(** ** the object a signal is computed from *)
Lemma working_sound o c raw b st : working o c raw b st -> sound st /\ ob_ind st = asked c.
Proof.
  intros (W & ob & H & S). assert (SO : sound ob) by (eapply construct_sound; eauto).
  assert (E : ob_ind ob = asked c).
  { apply construct_inv in H as (i & raw0 & b0 & f & CK & Q & B & V & K & EI). rewrite EI. apply check_asked; auto. }
  destruct S as [->|[k ->]]; [auto|]. split; [apply limited_sound; auto|exact E].
Qed.
Lemma iat_ago st c k : sound st -> In c (ti_names (ob_ind st)) -> (1 <= k <= days_shown st)%nat ->
  iat (col c (ob_ti st)) k = Ok (ago c st k).
Proof.
  intros S I K. assert (L : length (col c (ob_ti st)) = days_shown st).
  { apply len_col. destruct S as [-> _]. exact I. }
  rewrite iat_at by (rewrite L; exact K). rewrite L. reflexivity.
Qed.
Lemma iat_price st c k : sound st -> In c (required (ob_ind st)) -> (1 <= k <= days_given st)%nat ->
  iat (col c (ob_input st)) k = Ok (price c st k).
Proof.
  intros S I K. assert (L : length (col c (ob_input st)) = days_given st).
  { apply len_col. destruct S as (_ & S & _). apply S. exact I. }
  rewrite iat_at by (rewrite L; exact K). rewrite L. reflexivity.
Qed.
Lemma days_same st : sound st -> is_dpo (ob_ind st) = false -> days_given st = days_shown st.
Proof.
  intros (_ & _ & _ & _ & _ & _ & H & _) D. unfold days_given, days_shown, get_ti_data.
  rewrite <- !len_index, H; [reflexivity|]. intros p E. rewrite E in D. discriminate.
Qed.

(** ** two conditions *)
Definition proper (s1 s2 : signal) := s1 <> Hold /\ s2 <> Hold /\ s1 <> s2.
Lemma answer2 (c1 c2 : bool) s1 s2 (A B : Prop) : proper s1 s2 -> (c1 = true <-> A) -> (c1 = false /\ c2 = true <-> B) ->
  forall r : res signal, r = Ok (if c1 then s1 else if c2 then s2 else Hold) ->
  (r = Ok s1 <-> A) /\ (r = Ok s2 <-> B) /\ (r = Ok Hold <-> ~ A /\ ~ B).
Proof.
  intros (P & Q & R) HA HB r ->. rewrite <- HA, <- HB. clear HA HB.
  assert (T : forall x y : signal, Ok x = Ok y <-> x = y) by (split; congruence).
  rewrite !T. destruct c1, c2; intuition congruence.
Qed.
Lemma answer2x (c1 c2 : bool) s1 s2 (A B : Prop) : proper s1 s2 -> (c1 = true <-> A) -> (c2 = true <-> B) -> (A -> B -> False) ->
  forall r : res signal, r = Ok (if c1 then s1 else if c2 then s2 else Hold) ->
  (r = Ok s1 <-> A) /\ (r = Ok s2 <-> B) /\ (r = Ok Hold <-> ~ A /\ ~ B).
Proof.
  intros P HA HB X. apply answer2; auto. rewrite HB. destruct c1; [|tauto]. split; [intros [? _]; discriminate|].
  intro. exfalso. apply X; auto. apply HA. reflexivity.
Qed.
Lemma answer2y (c1 c2 : bool) s1 s2 (A B : Prop) : proper s1 s2 -> (c1 = true <-> A) -> (c2 = true <-> B) -> (A -> B -> False) ->
  forall r : res signal, r = Ok (if c2 then s2 else if c1 then s1 else Hold) ->
  (r = Ok s1 <-> A) /\ (r = Ok s2 <-> B) /\ (r = Ok Hold <-> ~ A /\ ~ B).
Proof.
  intros (P & Q & R) HA HB X r E. destruct (answer2x c2 c1 s2 s1 B A) with (r := r) as (U & V & T); auto; [repeat split; auto|].
  repeat split; tauto.
Qed.
Lemma answer2p (c1 c2 : bool) s1 s2 (A B : Prop) : proper s1 s2 -> (c1 = true <-> A) -> (c2 = true <-> B) ->
  forall r : res signal, r = Ok (if c1 then s1 else if c2 then s2 else Hold) ->
  (r = Ok s1 <-> A) /\ (r = Ok s2 <-> B /\ ~ A) /\ (r = Ok Hold <-> ~ A /\ ~ (B /\ ~ A)).
Proof. intros P HA HB. apply answer2; auto. rewrite <- HA, <- HB. destruct c1, c2; intuition congruence. Qed.
(** four tests, the first and the last pair exclude each other *)
Lemma answer4 (a b' c d : bool) s1 s2 (A B C D : Prop) : proper s1 s2 ->
  (a = true <-> A) -> (b' = true <-> B) -> (c = true <-> C) -> (d = true <-> D) -> (A -> B -> False) -> (C -> D -> False) ->
  forall r : res signal, r = Ok (if a then s1 else if b' then s2 else if c then s2 else if d then s1 else Hold) ->
  (r = Ok s1 <-> A \/ D /\ ~ B) /\ (r = Ok s2 <-> B \/ C /\ ~ A) /\ (r = Ok Hold <-> ~ (A \/ D /\ ~ B) /\ ~ (B \/ C /\ ~ A)).
Proof.
  intros (P & Q & R) HA HB HC HD X Y r ->. rewrite <- HA, <- HB in X. rewrite <- HC, <- HD in Y. rewrite <- HA, <- HB, <- HC, <- HD. clear HA HB HC HD.
  assert (T : forall x y : signal, Ok x = Ok y <-> x = y) by (split; congruence).
  rewrite !T. destruct a, b', c, d; try (exfalso; auto; fail); clear X Y; intuition congruence.
Qed.
Lemma answer4s (a b' c d : bool) s1 s2 (A B C D : Prop) : proper s1 s2 ->
  (a = true <-> A) -> (b' = true <-> B) -> (c = true <-> C) -> (d = true <-> D) -> (C -> D -> False) ->
  forall r : res signal, r = Ok (if a then s1 else if b' then s2 else if d then s1 else if c then s2 else Hold) ->
  (r = Ok s1 <-> A \/ D /\ ~ B) /\ (r = Ok s2 <-> (B \/ C) /\ ~ A) /\ (r = Ok Hold <-> ~ (A \/ D /\ ~ B) /\ ~ ((B \/ C) /\ ~ A)).
Proof.
  intros (P & Q & R) HA HB HC HD Y r ->. rewrite <- HC, <- HD in Y. rewrite <- HA, <- HB, <- HC, <- HD. clear HA HB HC HD.
  assert (T : forall x y : signal, Ok x = Ok y <-> x = y) by (split; congruence).
  rewrite !T. destruct a, b', c, d; try (exfalso; auto; fail); clear Y; intuition congruence.
Qed.
Lemma answer1 (c1 : bool) s1 (A : Prop) : s1 <> Hold -> (c1 = true <-> A) ->
  forall r : res signal, r = Ok (if c1 then s1 else Hold) ->
  (r = Ok s1 <-> A) /\ (r = Ok Hold <-> ~ A).
Proof.
  intros P HA r ->. rewrite <- HA. clear HA.
  assert (T : forall x y : signal, Ok x = Ok y <-> x = y) by (split; congruence).
  rewrite !T. destruct c1; intuition congruence.
Qed.

Ltac order := solve [ repeat match goal with
  | H : _ /\ _ |- _ => destruct H
  | H : _ \/ _ |- _ => destruct H
  | H : ?x, K : ~ ?x |- _ => exfalso; exact (K H)
  | H : less ?x ?x |- _ => exfalso; exact (less_irrefl _ H)
  | A : less ?x ?y, B : less ?y ?x |- _ => exfalso; exact (less_asym _ _ A B)
  | A : less ?x ?y, B : less ?y ?z |- _ =>
      lazymatch goal with K : less x z |- _ => fail | _ => pose proof (less_trans _ _ _ A B) end
  end ].
(** conditions of the code as conditions on numbers *)
Ltac conditions :=
  unfold lt3, gt3, ngtb, ngeb, rose_through, fell_through, crossed_above, crossed_below, rising3, falling3 in *;
  repeat (progress rewrite ?andb_true_iff, ?orb_true_iff, ?negb_true_iff, ?andb_false_iff, ?orb_false_iff, ?negb_false_iff);
  rewrite <- ?not_true_iff_false, ?sub_neg, ?sub_pos, ?less_iff, ?same_iff, ?at_most_iff;
  try tauto.

(** open a working object: [S : sound st], the indicator, its number of days, and the reads *)
Ltac open W c :=
  let S := fresh "SD" in let E := fresh "EI" in
  destruct (working_sound _ _ _ _ _ W) as [S E]; cbn [asked] in E;
  lazymatch type of W with working _ _ _ _ ?st =>
    assert (DS : is_dpo (ob_ind st) = false -> days_given st = days_shown st) by (apply days_same; exact S);
    unfold answers, answers1, get_ti_signal; rewrite E;
    try (rewrite E in DS; specialize (DS eq_refl));
    unfold signal_of; cbv zeta; unfold guard, level_cross, line_cross, three, case2, dema_signal;
    fold (days_given st); change (length (rows (ob_ti st))) with (days_shown st); fold (get_ti_data st);
    split; [ intro NN; match goal with |- context [Nat.ltb (days_shown st) ?k] =>
               destruct (Nat.ltb_spec (days_shown st) k); [reflexivity|lia] end
           | intro NN; repeat match goal with |- context [Nat.ltb (days_shown st) ?k] =>
               destruct (Nat.ltb_spec (days_shown st) k); [lia|] end ]
  end.
Ltac see :=
  match goal with S : sound ?st, E : ob_ind ?st = _ |- _ =>
  unfold get_ti_data;
  repeat match goal with
  | |- context [iat (col ?c (ob_ti st)) ?k] =>
      rewrite (iat_ago st c k S) by (first [rewrite E; cbn; tauto|lia]); cbn [bind]
  | |- context [iat (col ?c (ob_input st)) ?k] =>
      rewrite (iat_price st c k S) by (first [rewrite E; cbn; tauto|lia]); cbn [bind]
  end end.
Ltac two :=
  let P := solve [repeat split; discriminate] in let R := solve [reflexivity] in
  (eapply answer2x; [P|..|R]; [solve [conditions]|solve [conditions]|intros; conditions; order]) ||
  (eapply answer2y; [P|..|R]; [solve [conditions]|solve [conditions]|intros; conditions; order]) ||
  (eapply answer2; [P|..|R]; [solve [conditions]|solve [conditions]]).
Ltac one := eapply answer1; [discriminate| |reflexivity]; solve [conditions].

Section Rules.
  Context {o : oracle} {raw : rawframe} {b : bool} {st : obj}.

  Lemma level_answers c name up su down sd : level_rule c = Some (name, up, su, down, sd) -> working o c raw b st ->
    answers st 2 su (rose_through (ago name st) (level up)) sd (fell_through (ago name st) (level down)).
  Proof.
    intros R W. destruct c; try discriminate R; injection R as <- <- <- <- <-.
    all: open W c; see; two.
  Qed.
  Lemma line_answers c name sa sb : line_rule c = Some (name, sa, sb) -> working o c raw b st ->
    answers st 2 sa (crossed_above (price "close" st) (ago name st)) sb (crossed_below (price "close" st) (ago name st)).
  Proof.
    intros R W. destruct c; try discriminate R; injection R as <- <- <-.
    all: open W c; see; two.
  Qed.
  Lemma band_answers c up low : band_rule c = Some (up, low) -> working o c raw b st ->
    answers st 1 Sell (less (ago up st 1) (price "close" st 1))
                 Buy (less (price "close" st 1) (ago low st 1) /\ ~ less (ago up st 1) (price "close" st 1)).
  Proof. intros R W. destruct c; try discriminate R; injection R as <- <-. all: open W c; see; two. Qed.
  Lemma three_answers c name sa sb : three_rule c = Some (name, sa, sb) -> working o c raw b st ->
    answers st 3 sa (rising3 (ago name st)) sb (falling3 (ago name st)).
  Proof. intros R W. destruct c; try discriminate R; injection R as <- <- <-. all: open W c; see; two. Qed.

  Lemma adl_answers : working o cADL raw b st ->
    let moved := less (price "close" st 1) (price "close" st 2) \/ less (price "close" st 2) (price "close" st 1) in
    answers st 2 Buy (less (level 0) (ago "adl" st 1) /\ moved) Sell (less (ago "adl" st 1) (level 0) /\ moved).
  Proof. intros W moved. open W c; see. subst moved. two. Qed.
  Lemma cci_answers p : working o (cCCI p) raw b st ->
    answers st 1 Buy (less (ago "cci" st 1) (level (-100))) Sell (less (level 100) (ago "cci" st 1)).
  Proof.
    intros W. open W c; see.
    eapply answer2x; [repeat split; discriminate| | | |reflexivity]; [conditions|conditions|].
    intros A B. assert (L : less (level (-100)) (level 100)) by reflexivity. order.
  Qed.
  Lemma dmi_answers : working o cDMI raw b st ->
    answers st 2 Buy (crossed_above (ago "+di" st) (ago "-di" st) /\ at_most (level 20) (ago "adxr" st 1))
                 Sell (crossed_below (ago "+di" st) (ago "-di" st) /\ at_most (level 20) (ago "adxr" st 1)).
  Proof. intros W. open W c; see. two. Qed.
  Lemma dema_answers p : working o (cDEMA p) raw b st ->
    answers1 st 1 Buy (less (price "close" st 1) (ago "dema" st 1)).
  Proof. intros W. open W c; see. one. Qed.
  Lemma tema_answers p : working o (cTEMA p) raw b st ->
    answers st 1 Buy (less (price "close" st 1) (ago "tema" st 1)) Sell (less (ago "tema" st 1) (price "close" st 1)).
  Proof. intros W. open W c; see. two. Qed.
  Lemma mfi_answers : working o cMFI raw b st ->
    answers st 2 Buy (less (ago "mfi" st 1) (ago "mfi" st 2)) Sell (less (ago "mfi" st 2) (ago "mfi" st 1)).
  Proof. intros W. open W c; see. two. Qed.
  Lemma fib_answers : working o cFIB raw b st ->
    let lines := ["rl_61.8"; "rl_50.0"; "rl_38.2"; "rl_23.6"] in
    let down := exists name, In name lines /\ crossed_below (price "close" st) (ago name st) in
    let up := exists name, In name lines /\ crossed_above (price "close" st) (ago name st) in
    answers st 2 Buy down Sell (up /\ ~ down).
  Proof.
    intros W lines down up. open W c; see.
    set (DN := crossed_below (price "close" st) (ago "rl_61.8" st) \/ crossed_below (price "close" st) (ago "rl_50.0" st) \/
         crossed_below (price "close" st) (ago "rl_38.2" st) \/ crossed_below (price "close" st) (ago "rl_23.6" st)).
    set (UP := crossed_above (price "close" st) (ago "rl_61.8" st) \/ crossed_above (price "close" st) (ago "rl_50.0" st) \/
         crossed_above (price "close" st) (ago "rl_38.2" st) \/ crossed_above (price "close" st) (ago "rl_23.6" st)).
    assert (EU : up <-> UP).
    { subst up UP lines. split.
      - intros (x & [<-|[<-|[<-|[<-|[]]]]] & HH); tauto.
      - intros [HH|[HH|[HH|HH]]]; eexists; (split; [|exact HH]); cbn; tauto. }
    assert (ED : down <-> DN).
    { subst down DN lines. split.
      - intros (x & [<-|[<-|[<-|[<-|[]]]]] & HH); tauto.
      - intros [HH|[HH|[HH|HH]]]; eexists; (split; [|exact HH]); cbn; tauto. }
    rewrite EU, ED. subst UP DN. eapply answer2p; [repeat split; discriminate| | |reflexivity].
    - rewrite !orb_true_iff. unfold ngtb. rewrite !andb_true_iff, !less_iff, !or_assoc. reflexivity.
    - rewrite !orb_true_iff. unfold ngtb. rewrite !andb_true_iff, !less_iff, !or_assoc. reflexivity.
  Qed.
  Lemma macd_answers : working o cMACD raw b st ->
    let m := ago "macd" st in let s := ago "signal_line" st in
    answers st 2 Buy (rose_through m (level 0) \/ crossed_above m s /\ ~ fell_through m (level 0))
                 Sell (fell_through m (level 0) \/ crossed_below m s /\ ~ rose_through m (level 0)).
  Proof.
    intros W m s. open W c; see. subst m s.
    eapply answer4; [repeat split; discriminate| | | | | | |reflexivity]; [solve [conditions]..| |]; conditions; intros; order.
  Qed.
  Lemma vosc_answers l s : working o (cVOSC l s) raw b st ->
    let x := ago "vosc" st in
    answers st 3 Buy (rising3 x /\ less (level 0) (x 3%nat)) Sell (falling3 x /\ less (level 0) (x 1%nat)).
  Proof. intros W x. open W c; see. subst x. two. Qed.
  Lemma qstick_answers p : working o (cQS p) raw b st ->
    let x := ago "qstick" st in
    answers st 4 Buy (less (x 4%nat) (x 3%nat) /\ less (x 3%nat) (level 0) /\ less (level 0) (x 2%nat) /\ less (x 2%nat) (x 1%nat))
                 Sell (less (x 3%nat) (x 4%nat) /\ less (level 0) (x 3%nat) /\ less (x 2%nat) (level 0) /\ less (x 1%nat) (x 2%nat)).
  Proof. intros W x. open W c; see. subst x. two. Qed.
  Lemma proj_answers p : working o (cPROJ p) raw b st ->
    let x := ago "posc" st in let t := ago "trigger_line" st in
    let above := less (x 4%nat) (t 4%nat) /\ less (x 3%nat) (t 3%nat) /\ less (t 2%nat) (x 2%nat) /\ less (t 1%nat) (x 1%nat) in
    let below := less (t 4%nat) (x 4%nat) /\ less (t 3%nat) (x 3%nat) /\ less (x 2%nat) (t 2%nat) /\ less (x 1%nat) (t 1%nat) in
    answers st 4 Buy (rose_through x (level 15) \/ above /\ ~ fell_through x (level 85))
                 Sell ((fell_through x (level 85) \/ below) /\ ~ rose_through x (level 15)).
  Proof.
    intros W x t above below. open W c; see. subst x t above below.
    eapply answer4s; [repeat split; discriminate| | | | | |reflexivity]; [solve [conditions]..|]; conditions; intros; order.
  Qed.
  Lemma so_answers k s d m : working o (cSO k s d m) raw b st ->
    let x := ago "%K" st in let y := ago "%D" st in
    let fell := fell_through x (level 80) \/ fell_through y (level 80) in
    let rose := rose_through x (level 20) \/ rose_through y (level 20) in
    let down := less (x 1%nat) (x 2%nat) /\ less (x 1%nat) (y 1%nat) /\ less (level 80) (x 1%nat) in
    let up := less (x 2%nat) (x 1%nat) /\ less (y 1%nat) (x 1%nat) /\ less (x 1%nat) (level 20) in
    answers st 2 Sell (fell \/ down /\ ~ rose) Buy ((rose \/ up) /\ ~ fell).
  Proof.
    intros W x y fell rose down up. open W c; see. subst x y fell rose down up.
    eapply answer4s; [repeat split; discriminate| | | | | |reflexivity]; [solve [conditions]..|]; conditions; intros; order.
  Qed.
End Rules.

(** * GraphFacts: what getTiGraph draws (Graph.v) *)
From Coq Require Import ZArith QArith Qcanon Bool String List PeanoNat Sorted Lia.
From Verif Require Import Num Pandas Frame Sim Ind Signal Api SeriesFacts Lengths FrameSpec FrameProofs IndFacts Shape ApiProofs Graph.
Import ListNotations.
Open Scope list_scope.

Lemma mem_In c l : mem c l = true <-> In c l.
Proof.
  unfold mem. rewrite existsb_exists. split.
  - intros [x [H E]]. apply String.eqb_eq in E. subst; auto.
  - intro H. exists c. split; auto. apply String.eqb_refl.
Qed.
Lemma pos_in c l : In c l -> exists k, Frame.position c l = Some k /\ (k < length l)%nat /\ nth_error l k = Some c.
Proof.
  induction l as [|x l IH]; [contradiction|]. intro H. simpl. destruct (String.eqb_spec c x) as [->|N].
  - exists 0%nat. simpl. repeat split; auto; lia.
  - destruct H as [H|H]; [congruence|]. destruct (IH H) as [k [E [L M]]]. rewrite E. exists (S k). simpl. repeat split; auto; lia.
Qed.
Lemma pos_app_l c a b k : Frame.position c a = Some k -> Frame.position c (a ++ b) = Some k.
Proof.
  revert k. induction a as [|x a IH]; intros k; simpl; [discriminate|]. destruct (String.eqb c x); auto.
  destruct (Frame.position c a) as [j|]; [|discriminate]. intro E. rewrite (IH j eq_refl). exact E.
Qed.
Lemma pos_none c l : ~ In c l -> Frame.position c l = None.
Proof.
  induction l as [|x l IH]; auto. intro N. simpl. destruct (String.eqb_spec c x) as [->|M]; [destruct N; simpl; auto|].
  rewrite IH; auto. intro H; apply N; simpl; auto.
Qed.
Lemma pos_app_r c a b : ~ In c a -> Frame.position c (a ++ b) = option_map (fun k => (length a + k)%nat) (Frame.position c b).
Proof.
  induction a as [|x a IH]; intro N; simpl.
  - destruct (Frame.position c b); reflexivity.
  - destruct (String.eqb_spec c x) as [->|M]; [destruct N; simpl; auto|].
    rewrite IH by (intro H; apply N; simpl; auto). destruct (Frame.position c b); reflexivity.
Qed.
Lemma seq_nth_map {A} (l : list A) d n : length l = n -> map (fun k => nth k l d) (seq 0 n) = l.
Proof.
  intros <-. induction l as [|x l IH]; [reflexivity|]. cbn [length seq map nth]. f_equal.
  rewrite <- seq_shift, map_map. exact IH.
Qed.
Lemma fst_combine_seq {A} (l : list A) k : map fst (combine (seq k (length l)) l) = seq k (length l).
Proof. revert k. induction l; intro k; simpl; f_equal; auto. Qed.
Lemma snd_combine_seq {A} (l : list A) k : map snd (combine (seq k (length l)) l) = l.
Proof. revert k. induction l; intro k; simpl; f_equal; auto. Qed.
Lemma map_combine_seq {A B} (g : nat -> B) (l : list A) : map (fun kr => g (fst kr)) (combine (seq 0 (length l)) l) = map g (seq 0 (length l)).
Proof. rewrite <- (fst_combine_seq l 0) at 2. rewrite map_map. reflexivity. Qed.

Lemma nth_map_at {A B} (g : A -> B) l k c d : nth_error l k = Some c -> nth k (map g l) d = g c.
Proof. revert k. induction l; intros [|k]; simpl; try discriminate; [congruence|auto]. Qed.

Lemma pick_spec names f : (forall n, In n names -> In n (cols f)) ->
  exists g, pick names f = Ok g /\ cols g = names /\ index g = index f /\
  (forall r, In r (rows g) -> length (snd r) = length names) /\
  (forall n, In n names -> col n g = col n f).
Proof.
  intro H. unfold pick. assert (forallb (fun n => mem n (cols f)) names = true) as ->.
  { apply forallb_forall. intros n Hn. apply mem_In; auto. }
  eexists. split; [reflexivity|]. cbn [cols rows]. split; [reflexivity|]. split; [|split].
  - unfold index. cbn [rows]. rewrite map_map. cbn [fst].
    transitivity (map fst (map snd (combine (seq 0 (length (rows f))) (rows f)))).
    + rewrite map_map. reflexivity.
    + rewrite snd_combine_seq. reflexivity.
  - intros r Hr. apply in_map_iff in Hr. destruct Hr as [kr [<- _]]. cbn [snd]. apply map_length.
  - intros n Hn. unfold col at 1. cbn [cols rows]. destruct (pos_in n names Hn) as [k [-> [L E]]].
    rewrite map_map. cbn [snd].
    transitivity (map (fun kr : nat * row => (fun i => nth i (col n f) NaN) (fst kr)) (combine (seq 0 (length (rows f))) (rows f))).
    + apply map_ext. intro kr. apply (nth_map_at (fun m => nth (fst kr) (col m f) NaN)). exact E.
    + rewrite (map_combine_seq (fun i => nth i (col n f) NaN) (rows f)). apply seq_nth_map. apply len_col. auto.
Qed.

Lemma same_dates_refl l : same_dates l l = true.
Proof. induction l; simpl; auto. rewrite Z.eqb_refl; auto. Qed.
Lemma beside_spec a b : index a = index b -> (forall r, In r (rows a) -> length (snd r) = length (cols a)) ->
  exists g, beside a b = Ok g /\ cols g = cols a ++ cols b /\ index g = index a /\
  (forall n, In n (cols a) -> col n g = col n a) /\ (forall n, ~ In n (cols a) -> In n (cols b) -> col n g = col n b).
Proof.
  intros I W. unfold beside. rewrite I, same_dates_refl. eexists. split; [reflexivity|]. cbn [cols rows].
  split; [reflexivity|].
  assert (L : length (rows a) = length (rows b)) by (apply (f_equal (@length _)) in I; unfold index in I; rewrite !map_length in I; auto).
  split; [|split].
  - unfold index in *. cbn [rows]. rewrite map_map. cbn [fst]. rewrite <- I. clear -L. revert L. generalize (rows b).
    induction (rows a) as [|r l IH]; intros [|s m] L; simpl in *; try discriminate; auto. f_equal. apply IH. lia.
  - intros n Hn. unfold col. cbn [cols rows]. destruct (pos_in n _ Hn) as [k [E [LK _]]]. rewrite (pos_app_l _ _ _ _ E), E.
    rewrite map_map. cbn [snd]. clear -L W LK. revert L W. generalize (rows b).
    induction (rows a) as [|r l IH]; intros [|s m] L W; simpl in *; try discriminate; auto. f_equal.
    + apply app_nth1. rewrite W by auto. auto.
    + apply IH; auto.
  - intros n Na Nb. unfold col. cbn [cols rows]. rewrite (pos_app_r _ _ _ Na). destruct (pos_in n _ Nb) as [k [E [LK _]]].
    rewrite E. simpl option_map. cbv iota. rewrite map_map. cbn [snd]. clear -L W LK. revert L W. generalize (rows b).
    induction (rows a) as [|r l IH]; intros [|s m] L W; simpl in *; try discriminate; auto. f_equal.
    + rewrite app_nth2; rewrite W by auto; [|lia]. f_equal. lia.
    + apply IH; auto.
Qed.

(** what is known of each drawn line *)
Definition seen (l : line) : string * list Z * list num := (ln_label l, ln_x l, ln_y l).
Lemma draw_frame_seen cs al f j : map seen (draw_frame cs al f j) = map (fun n => (n, index f, col n f)) (cols f).
Proof.
  unfold draw_frame. rewrite map_map. unfold seen, draw. cbn [ln_label ln_x ln_y].
  transitivity (map (fun n => (n, index f, col n f)) (map snd (combine (seq 0 (length (cols f))) (cols f)))).
  - rewrite map_map. reflexivity.
  - rewrite snd_combine_seq. reflexivity.
Qed.

Lemma sound_inputs ob : sound ob -> forall n, In n (g_inputs (graph_props (ob_ind ob))) -> In n (cols (ob_input ob)).
Proof.
  intros (T & R & W & S & MI & MP & IX & V) n Hn.
  destruct (ob_ind ob) eqn:E; cbn [graph_props g_inputs] in Hn;
    try (apply R; cbn [required]; cbn [In] in *; intuition; fail).
  - destruct Hn as [<-|[<-|[]]]; [apply R; cbn; auto|apply MI; auto].
  - destruct Hn as [<-|[]]. eapply MP; eauto.
Qed.
Lemma inputs_apart i n : In n (g_inputs (graph_props i)) -> ~ In n (ti_names i).
Proof.
  intros H1 H2. assert (E : existsb (fun a => mem a (ti_names i)) (g_inputs (graph_props i)) = true).
  { apply existsb_exists. exists n. split; auto. apply mem_In; auto. }
  destruct i; try destruct t; try destruct m; vm_compute in E; discriminate.
Qed.

Lemma areas_none i : i <> iICH -> g_areas (graph_props i) = None.
Proof. destruct i; intro H; try reflexivity. congruence. Qed.
Lemma draw_frame_labels cs al f j : map ln_label (draw_frame cs al f j) = cols f.
Proof.
  rewrite <- (map_map seen (fun x => fst (fst x))). rewrite draw_frame_seen, map_map. cbn [fst]. apply map_id.
Qed.

Lemma graph_spec ob : sound ob ->
  let p := graph_props (ob_ind ob) in
  exists fig, get_ti_graph ob = Ok fig /\
  map seen (concat (fg_axes fig))
  = map (fun n => (n, index (ob_input ob), col n (ob_input ob))) (g_inputs p)
    ++ map (fun n => (n, index (ob_ti ob), col n (ob_ti ob))) (cols (ob_ti ob)) /\
  map (map ln_label) (fg_axes fig)
  = (if g_subplots p then [g_inputs p; cols (ob_ti ob)] else [g_inputs p ++ cols (ob_ti ob)]) /\
  (fg_title fig = g_title p /\ fg_y_label fig = g_y_label p /\ fg_legends fig = legends (fg_axes fig)) /\
  fg_fills fig = match ob_ind ob with
                 | iICH => [mkFill (index (ob_input ob)) (col "senkou_a"%string (ob_ti ob))
                                   (col "senkou_b"%string (ob_ti ob)) "lightblue"%string]
                 | _ => [] end.
Proof.
  intros SD p. pose proof (sound_inputs ob SD) as IN. pose proof (inputs_apart (ob_ind ob)) as AP.
  destruct SD as (T & R & W & S & MI & MP & IX & V). rewrite <- T in AP.
  destruct (pick_spec _ _ IN) as [inp [E [C [I [WD CO]]]]]. fold p in E, C, WD, CO, AP.
  unfold get_ti_graph. fold p. rewrite E. cbn [bind].
  destruct (g_subplots p) eqn:SUB.
  - unfold lines_graph.
    assert (NI : ob_ind ob <> iICH) by (intro Q; unfold p in SUB; rewrite Q in SUB; discriminate).
    assert (g_areas p = None) as -> by (apply areas_none; auto). cbn [bind].
    eexists. split; [reflexivity|]. cbn [fg_axes fg_title fg_y_label fg_legends fg_fills draw_frames].
    split; [|split; [|split; [auto|destruct (ob_ind ob); auto; congruence]]].
    + cbn [concat]. rewrite app_nil_r, map_app, !draw_frame_seen, C, I. f_equal.
      apply map_ext_in. intros n Hn. rewrite CO by auto. reflexivity.
    + cbn [map]. rewrite !draw_frame_labels, C. reflexivity.
  - assert (ND : forall q, ob_ind ob <> iDPO q) by (intros q Q; unfold p in SUB; rewrite Q in SUB; discriminate).
    specialize (IX ND).
    destruct (beside_spec inp (ob_ti ob)) as [g [EB [CB [IB [CA CT]]]]]; [congruence|rewrite C; auto|].
    rewrite EB. cbn [bind]. rewrite C in *.
    assert (SEEN : map (fun n => (n, index g, col n g)) (cols g)
      = map (fun n => (n, index (ob_input ob), col n (ob_input ob))) (g_inputs p)
        ++ map (fun n => (n, index (ob_ti ob), col n (ob_ti ob))) (cols (ob_ti ob))).
    { rewrite CB, map_app, IB, I. f_equal.
      - apply map_ext_in. intros n Hn. rewrite CA, CO by auto. reflexivity.
      - rewrite IX. apply map_ext_in. intros n Hn. rewrite CT; auto. intro Q. exact (AP n Q Hn). }
    assert (FL : match g_areas p with None => Ok [] | Some l => fills_of [g] l end
      = Ok match ob_ind ob with
                 | iICH => [mkFill (index (ob_input ob)) (col "senkou_a"%string (ob_ti ob))
                                   (col "senkou_b"%string (ob_ti ob)) "lightblue"%string]
                 | _ => [] end).
    { destruct (ob_ind ob) eqn:EI; try reflexivity. unfold p. rewrite ?EI. cbn [graph_props g_areas fills_of].
      unfold fill_of. cbn [a_x a_y1 a_y2 a_color border_dates border_cells nth_error get bind].
      assert (HA : In "senkou_a"%string (cols (ob_ti ob))) by (rewrite T; cbn; auto 6).
      assert (HB : In "senkou_b"%string (cols (ob_ti ob))) by (rewrite T; cbn; auto 6).
      assert (mem "senkou_a"%string (cols g) = true) as -> by (apply mem_In; rewrite CB; apply in_or_app; auto).
      assert (mem "senkou_b"%string (cols g) = true) as -> by (apply mem_In; rewrite CB; apply in_or_app; auto).
      cbn [bind].
      rewrite !CT by (auto; unfold p; rewrite ?EI; cbn; intros [Q|[]]; discriminate).
      rewrite IB, I, !len_col by auto. rewrite <- IX, len_index, Nat.eqb_refl. reflexivity. }
    unfold lines_graph. rewrite FL. cbn [bind].
    eexists. split; [reflexivity|]. cbn [fg_axes fg_title fg_y_label fg_legends fg_fills draw_frames].
    split; [|split; [|split; [auto|reflexivity]]].
    + cbn [concat]. rewrite app_nil_r, draw_frame_seen. exact SEEN.
    + cbn [map]. rewrite draw_frame_labels, CB. reflexivity.
Qed.


(** colours and alphas: one entry of the properties per line, starting again when used up *)
Definition cycle {A} (l : list A) (j n : nat) : list (option A) := map (fun k => nth_error l (k mod length l)) (seq j n).
Lemma map_shift {A} (g : nat -> A) j n : map (fun k => g (j + k)%nat) (seq 0 n) = map g (seq j n).
Proof.
  revert j. induction n as [|n IH]; intro j; [reflexivity|]. cbn [seq map]. rewrite Nat.add_0_r. f_equal.
  rewrite <- seq_shift, map_map. rewrite <- (IH (S j)). apply map_ext. intro k. f_equal. lia.
Qed.
Lemma draw_frame_colors cs al f j : cs <> [] ->
  map ln_color (draw_frame cs al f j) = cycle cs j (length (cols f)).
Proof.
  intro H. unfold draw_frame. rewrite map_map. unfold draw. cbn [ln_color].
  destruct cs as [|c cs]; [contradiction|]. unfold cycle.
  rewrite (map_combine_seq (fun k => nth_error (c :: cs) ((j + k) mod length (c :: cs))) (cols f)).
  apply (map_shift (fun k => nth_error (c :: cs) (k mod length (c :: cs)))).
Qed.
Lemma draw_frame_alphas cs al f j : al <> [] ->
  map (fun l => Some (ln_alpha l)) (draw_frame cs al f j) = cycle al j (length (cols f)).
Proof.
  intro H. unfold draw_frame. rewrite map_map. unfold draw. cbn [ln_alpha].
  destruct al as [|c al]; [contradiction|]. unfold cycle.
  transitivity (map (fun kr : nat * string => (fun k => nth_error (c :: al) ((j + k) mod length (c :: al))) (fst kr))
                 (combine (seq 0 (length (cols f))) (cols f))).
  - apply map_ext. intro kr. cbv beta.
    assert (L : ((j + fst kr) mod length (c :: al) < length (c :: al))%nat) by (apply Nat.mod_upper_bound; discriminate).
    destruct (nth_error (c :: al) ((j + fst kr) mod length (c :: al))) eqn:E.
    + f_equal. apply nth_error_nth. exact E.
    + apply nth_error_None in E. lia.
  - rewrite (map_combine_seq (fun k => nth_error (c :: al) ((j + k) mod length (c :: al))) (cols f)).
    apply (map_shift (fun k => nth_error (c :: al) (k mod length (c :: al)))).
Qed.
Lemma graph_entries {A} (read : line -> option A) (table : gprops -> list A) ob fig :
  (forall i f j, let p := graph_props i in
     map read (draw_frame (g_colors p) (g_alphas p) f j) = cycle (table p) j (length (cols f))) ->
  sound ob -> get_ti_graph ob = Ok fig ->
  let p := graph_props (ob_ind ob) in let a := length (g_inputs p) in let b := length (ti_names (ob_ind ob)) in
  map (map read) (fg_axes fig)
  = if g_subplots p then [cycle (table p) 0 a; cycle (table p) a b] else [cycle (table p) 0 (a + b)].
Proof.
  intros RD SD H p a b. pose proof (sound_inputs ob SD) as IN.
  destruct SD as (T & R & W & S & MI & MP & IX & V).
  destruct (pick_spec _ _ IN) as [inp [E [C [I [WD CO]]]]].
  unfold get_ti_graph in H. fold p in H, E, C, WD. rewrite E in H. cbn [bind] in H.
  unfold a, b. rewrite <- T, <- C.
  destruct (g_subplots p) eqn:SUB.
  - unfold lines_graph in H. destruct (match g_areas p with None => _ | Some l => _ end) eqn:AR; [|discriminate].
    cbn [bind] in H. injection H as <-. cbn [fg_axes draw_frames map]. unfold p. rewrite !RD. reflexivity.
  - assert (ND : forall q, ob_ind ob <> iDPO q) by (intros q Q; unfold p in SUB; rewrite Q in SUB; discriminate).
    destruct (beside_spec inp (ob_ti ob)) as [g [EB [CB [IB [CA CT]]]]]; [rewrite IX by auto; congruence|rewrite C; auto|].
    rewrite EB in H. cbn [bind] in H. unfold lines_graph in H.
    destruct (match g_areas p with None => _ | Some l => _ end) eqn:AR; [|discriminate].
    cbn [bind] in H. injection H as <-. cbn [fg_axes draw_frames map]. unfold p. rewrite RD, CB, app_length. reflexivity.
Qed.

Lemma graph_colors ob fig : sound ob -> get_ti_graph ob = Ok fig ->
  let p := graph_props (ob_ind ob) in let a := length (g_inputs p) in let b := length (ti_names (ob_ind ob)) in
  map (map ln_color) (fg_axes fig)
  = if g_subplots p then [cycle (g_colors p) 0 a; cycle (g_colors p) a b] else [cycle (g_colors p) 0 (a + b)].
Proof.
  apply graph_entries. intros i f j. apply draw_frame_colors. destruct i; discriminate.
Qed.
Lemma graph_alphas ob fig : sound ob -> get_ti_graph ob = Ok fig ->
  let p := graph_props (ob_ind ob) in let a := length (g_inputs p) in let b := length (ti_names (ob_ind ob)) in
  map (map (fun l => Some (ln_alpha l))) (fg_axes fig)
  = if g_subplots p then [cycle (g_alphas p) 0 a; cycle (g_alphas p) a b] else [cycle (g_alphas p) 0 (a + b)].
Proof.
  apply graph_entries. intros i f j. apply draw_frame_alphas. destruct i; discriminate.
Qed.

Lemma colors_differ ob fig axis : sound ob -> get_ti_graph ob = Ok fig -> In axis (fg_axes fig) ->
  NoDup (map ln_color axis) /\ ~ In None (map ln_color axis).
Proof.
  intros SD H IA. pose proof (graph_colors ob fig SD H) as E. cbv zeta in E.
  apply (in_map (map ln_color)) in IA. rewrite E in IA. clear -IA. revert IA. generalize (map ln_color axis). intros l IA.
  destruct (ob_ind ob) as [| | | | | | | | | | | | | | | | | | | | | | | ? t | | | | | m | | | | | | | | | | | | | | | | | | | | | | | | | | | |];
    try destruct t; try destruct m; vm_compute in IA;
    repeat (destruct IA as [IA|IA]; [subst l; split; [repeat constructor; simpl; intuition discriminate|simpl; intuition discriminate]|]);
    destruct IA.
Qed.

Lemma seq_cycle {A} (l : list A) n : (n <= length l)%nat -> cycle l 0 n = map Some (firstn n l).
Proof.
  intro H. unfold cycle. destruct l as [|x l]; [destruct n; [reflexivity|simpl in H; lia]|].
  transitivity (map (fun k => nth_error (x :: l) k) (seq 0 n)).
  - apply map_ext_in. intros k Hk. apply in_seq in Hk. rewrite Nat.mod_small by (simpl in *; lia). reflexivity.
  - clear - H. revert n H. generalize (x :: l). clear x l. induction l as [|x l IH]; intros [|n] H; simpl in *; try lia; auto.
    f_equal. rewrite <- seq_shift, map_map. apply IH. lia.
Qed.
Lemma cycle_app {A} (l : list A) a b : cycle l 0 a ++ cycle l a b = cycle l 0 (a + b).
Proof. unfold cycle. rewrite <- map_app, <- seq_app. reflexivity. Qed.
Lemma concat_map_if {A} (b : bool) (x y z : list A) : x ++ y = z -> concat (if b then [x; y] else [z]) = z.
Proof. intros <-. destruct b; simpl; rewrite ?app_nil_r; auto. Qed.

Lemma own_color ob fig : sound ob -> get_ti_graph ob = Ok fig ->
  let n := length (concat (fg_axes fig)) in
  map ln_color (concat (fg_axes fig)) = map Some (firstn n (g_colors (graph_props (ob_ind ob)))).
Proof.
  intros SD H n. pose proof (graph_colors ob fig SD H) as E. cbv zeta in E.
  assert (Q : map ln_color (concat (fg_axes fig))
    = cycle (g_colors (graph_props (ob_ind ob))) 0 (length (g_inputs (graph_props (ob_ind ob))) + length (ti_names (ob_ind ob)))).
  { rewrite concat_map, E. apply concat_map_if. apply cycle_app. }
  assert (N : n = (length (g_inputs (graph_props (ob_ind ob))) + length (ti_names (ob_ind ob)))%nat).
  { unfold n. rewrite <- (map_length ln_color), Q. unfold cycle. rewrite map_length, seq_length. reflexivity. }
  rewrite Q, N. apply seq_cycle. destruct (ob_ind ob); try destruct t; try destruct m; vm_compute; lia.
Qed.

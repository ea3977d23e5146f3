(** * GraphApi: the graphs of constructed objects. *)
From Coq Require Import ZArith QArith Qcanon Bool String List PeanoNat Lia Permutation.
From Verif Require Import Num Pandas Sim Frame FrameSpec Ind Signal Api ApiSpec IndFacts ApiProofs ApiLemmas Shape Message MessageSpec Graph GraphSpec GraphFacts.
Import ListNotations.
Open Scope string_scope. Open Scope list_scope.

Lemma prices_shown_ok i : g_inputs (graph_props i) = prices_shown i.
Proof. destruct i; reflexivity. Qed.
Lemma one_plot_ok i : g_subplots (graph_props i) = negb (one_plot i).
Proof. destruct i; reflexivity. Qed.

Lemma lines_drawn o c raw b ob : wf_raw raw -> snd (construct o c (RFrame raw) (VBool b)) = Ok ob ->
  exists fig, get_ti_graph ob = Ok fig /\
    map (fun l => (ln_label l, ln_x l, ln_y l)) (concat (fg_axes fig))
    = map (fun n => (n, index (ob_input ob), col n (ob_input ob))) (prices_shown (ob_ind ob))
      ++ map (fun n => (n, index (ob_ti ob), col n (ob_ti ob))) (cols (get_ti_data ob)).
Proof.
  intros W H. destruct (graph_spec ob (construct_sound _ _ _ _ _ W H)) as [fig [E [L _]]].
  exists fig. split; auto. rewrite prices_shown_ok in L. exact L.
Qed.
Lemma plots o c raw b ob fig : wf_raw raw -> snd (construct o c (RFrame raw) (VBool b)) = Ok ob ->
  get_ti_graph ob = Ok fig ->
  map (map ln_label) (fg_axes fig)
  = if one_plot (ob_ind ob) then [prices_shown (ob_ind ob) ++ cols (get_ti_data ob)]
    else [prices_shown (ob_ind ob); cols (get_ti_data ob)].
Proof.
  intros W H G. destruct (graph_spec ob (construct_sound _ _ _ _ _ W H)) as [fig' [E [_ [P _]]]].
  rewrite E in G. injection G as <-. rewrite P, one_plot_ok, prices_shown_ok. destruct (one_plot (ob_ind ob)); reflexivity.
Qed.

Lemma shown_names_apart i : NoDup (prices_shown i ++ ti_names i).
Proof.
  destruct i as [| | | | | | | | | | | | | | | | | | | | | | | ? t | | | | | m | | | | | | | | | | | | | | | | | | | | | | | | | | | |];
    try destruct t; try destruct m; vm_compute; repeat constructor; simpl; intuition discriminate.
Qed.
Lemma NoDup_left {A} (a b : list A) : NoDup (a ++ b) -> NoDup a.
Proof.
  induction a as [|x a IH]; simpl; [constructor|]. intro H. inversion H; subst. constructor; auto.
  intro I. apply H2. apply in_or_app; auto.
Qed.
Lemma NoDup_right {A} (a b : list A) : NoDup (a ++ b) -> NoDup b.
Proof. induction a as [|x a IH]; simpl; auto. intro H. inversion H; auto. Qed.
Lemma legends_cover axes plot l : (List.length axes <= 2)%nat -> In plot axes -> In l plot ->
  exists g, In g (legends axes) /\ In (ln_label l) g.
Proof.
  intros LE IP IL. destruct axes as [|a [|a' [|]]]; simpl in LE; try lia; [destruct IP| |].
  - destruct IP as [->|[]]. exists (map ln_label plot). split; [|apply in_map; auto].
    destruct plot; [destruct IL|]. simpl. auto.
  - exists (map ln_label plot). split; [|apply in_map; auto]. unfold legends. cbn [last].
    apply in_or_app. destruct IP as [->|[->|[]]]; (destruct plot; [destruct IL|]); simpl; auto.
Qed.
Lemma lines_distinguishable o c raw b ob fig plot : wf_raw raw -> snd (construct o c (RFrame raw) (VBool b)) = Ok ob ->
  get_ti_graph ob = Ok fig -> In plot (fg_axes fig) ->
  NoDup (map ln_label plot) /\ NoDup (map ln_color plot) /\
  forall l, In l plot -> ln_color l <> None /\ exists legend, In legend (fg_legends fig) /\ In (ln_label l) legend.
Proof.
  intros W H G IP. pose proof (construct_sound _ _ _ _ _ W H) as SD.
  pose proof (plots _ _ _ _ _ _ W H G) as P.
  destruct (colors_differ ob fig plot SD G IP) as [CD CN].
  assert (T : cols (get_ti_data ob) = ti_names (ob_ind ob)) by (destruct SD as (T & _); exact T).
  rewrite T in P. pose proof (shown_names_apart (ob_ind ob)) as AP.
  split; [|split; [exact CD|]].
  - apply (in_map (map ln_label)) in IP. rewrite P in IP.
    destruct (one_plot (ob_ind ob)); [destruct IP as [<-|[]]; auto|].
    destruct IP as [<-|[<-|[]]]; [eapply NoDup_left|eapply NoDup_right]; eauto.
  - intros l IL. split; [intro Q; apply CN; rewrite <- Q; apply in_map; auto|].
    destruct (graph_spec ob SD) as [fig' [E [_ [_ [[_ [_ LG]] _]]]]]. rewrite E in G. injection G as <-.
    rewrite LG. eapply legends_cover; eauto.
    rewrite <- (map_length (map ln_label)), P. destruct (one_plot (ob_ind ob)); simpl; lia.
Qed.
Lemma cloud_filled o c raw b ob fig : wf_raw raw -> snd (construct o c (RFrame raw) (VBool b)) = Ok ob ->
  get_ti_graph ob = Ok fig ->
  (ob_ind ob = iICH -> exists color, fg_fills fig =
     [mkFill (index (get_ti_data ob)) (col "senkou_a" (get_ti_data ob)) (col "senkou_b" (get_ti_data ob)) color]) /\
  (ob_ind ob <> iICH -> fg_fills fig = []).
Proof.
  intros W H G. pose proof (construct_sound _ _ _ _ _ W H) as SD.
  destruct (graph_spec ob SD) as [fig' [E [_ [_ [_ F]]]]]. rewrite E in G. injection G as <-. rewrite F.
  destruct SD as (T & R & Wf & S & MI & MP & IX & V). split.
  - intro Q. rewrite Q. eexists. unfold get_ti_data. rewrite IX by (intros q Q'; congruence). reflexivity.
  - intro Q. destruct (ob_ind ob); congruence.
Qed.

Lemma alphas_table i : i <> iDMI ->
  cycle (g_alphas (graph_props i)) 0 (List.length (g_inputs (graph_props i)) + List.length (ti_names i))
  = map Some (repeat (D 1 2) (List.length (prices_shown i)) ++ repeat (F 1) (List.length (ti_names i))).
Proof.
  intro N. destruct i as [| | | | | | | | | | | | | | | | | | | | | | | ? t | | | | | m | | | | | | | | | | | | | | | | | | | | | | | | | | | |];
    try destruct t; try destruct m; try congruence; vm_compute; reflexivity.
Qed.
Lemma emphasis o c raw b ob fig : wf_raw raw -> snd (construct o c (RFrame raw) (VBool b)) = Ok ob ->
  get_ti_graph ob = Ok fig -> ob_ind ob <> iDMI ->
  map ln_alpha (concat (fg_axes fig))
  = repeat (D 1 2) (List.length (prices_shown (ob_ind ob))) ++ repeat (F 1) (List.length (cols (get_ti_data ob))).
Proof.
  intros W H G N. pose proof (construct_sound _ _ _ _ _ W H) as SD. pose proof (graph_alphas ob fig SD G) as E. cbv zeta in E.
  assert (T : cols (get_ti_data ob) = ti_names (ob_ind ob)) by (destruct SD as (T & _); exact T).
  assert (Q : map Some (map ln_alpha (concat (fg_axes fig)))
    = map Some (repeat (D 1 2) (List.length (prices_shown (ob_ind ob))) ++ repeat (F 1) (List.length (ti_names (ob_ind ob))))).
  { rewrite map_map, concat_map, E, <- (alphas_table _ N). apply concat_map_if. apply cycle_app. }
  rewrite T. revert Q. generalize (map ln_alpha (concat (fg_axes fig))).
  generalize (repeat (D 1 2) (List.length (prices_shown (ob_ind ob))) ++ repeat (F 1) (List.length (ti_names (ob_ind ob)))).
  intros l l'. revert l. induction l' as [|x l' IH]; intros [|y l] Q; try discriminate; [reflexivity|]. injection Q as -> Q. f_equal. auto.
Qed.
Lemma title_shown o c raw b ob fig : wf_raw raw -> snd (construct o c (RFrame raw) (VBool b)) = Ok ob ->
  get_ti_graph ob = Ok fig ->
  letters (fg_title fig) = (lower (class_name (ob_ind ob)) ++ match ob_ind ob with iENV _ _ => "tradingbands" | _ => "" end)%string.
Proof.
  intros W H G. pose proof (construct_sound _ _ _ _ _ W H) as SD.
  destruct (graph_spec ob SD) as [fig' [E [_ [_ [[TT _] _]]]]]. rewrite E in G. injection G as <-. rewrite TT.
  destruct (ob_ind ob); vm_compute; reflexivity.
Qed.
Lemma legends_shown o c raw b ob fig : wf_raw raw -> snd (construct o c (RFrame raw) (VBool b)) = Ok ob ->
  get_ti_graph ob = Ok fig -> fg_legends fig = map (map ln_label) (fg_axes fig).
Proof.
  intros W H G. pose proof (construct_sound _ _ _ _ _ W H) as SD. pose proof (plots _ _ _ _ _ _ W H G) as P.
  destruct (graph_spec ob SD) as [fig' [E [_ [_ [[_ [_ L]] _]]]]]. rewrite E in G. injection G as <-. rewrite L.
  assert (T : cols (get_ti_data ob) = ti_names (ob_ind ob)) by (destruct SD as (T & _); exact T). rewrite T in P.
  assert (A : forall x, In x (map (map ln_label) (fg_axes fig')) -> x <> []).
  { rewrite P. destruct (ob_ind ob) as [| | | | | | | | | | | | | | | | | | | | | | | ? t | | | | | m | | | | | | | | | | | | | | | | | | | | | | | | | | | |];
    try destruct t; try destruct m; cbn; intros x I; repeat (destruct I as [<-|I]; [discriminate|]); destruct I. }
  assert (B : (1 <= List.length (fg_axes fig') <= 2)%nat) by (rewrite <- (map_length (map ln_label)), P; destruct (one_plot _); cbn; lia).
  destruct (fg_axes fig') as [|a [|a' [|]]]; cbn [List.length] in B; try lia; cbn [legends map last];
  repeat match goal with |- context [match ?x with [] => _ | _ => _ end] =>
    destruct x; [exfalso; apply (A []); [cbn; auto|reflexivity]|] end; reflexivity.
Qed.
Lemma count_all {A} (p : A -> bool) l : (forall x, In x l -> p x = true) -> count p l = List.length l.
Proof.
  unfold count. intro H. f_equal. induction l as [|x l IH]; [reflexivity|]. cbn [filter].
  rewrite H by (left; reflexivity). f_equal. apply IH. intros; apply H; right; auto.
Qed.
Lemma last_nth {A} (l : list A) d k : List.length l = S k -> List.last l d = nth k l d.
Proof.
  revert k. induction l as [|x l IH]; intros k H; [discriminate|]. destruct l as [|y l]; [injection H as <-; reflexivity|].
  destruct k; [discriminate|]. injection H as H. apply (IH k). simpl. congruence.
Qed.
Lemma only_member {A} (x : A) l : NoDup l -> (forall y, In y l <-> In y [x]) -> l = [x].
Proof.
  intros N H. destruct l as [|a [|b l]].
  - destruct (proj2 (H x) (or_introl eq_refl)).
  - destruct (proj1 (H a) (or_introl eq_refl)) as [<-|[]]. reflexivity.
  - destruct (proj1 (H a) (or_introl eq_refl)) as [<-|[]].
    destruct (proj1 (H b) (or_intror (or_introl eq_refl))) as [<-|[]].
    inversion N; subst. exfalso. apply H2. left. reflexivity.
Qed.
Lemma close_first cv f : snd (validate (RFrame cv) ["close"] true) = Ok f -> icol 0 f = col "close" f.
Proof.
  intro V. unfold col, icol.
  rewrite (only_member "close" (cols f) (validated_cols_nodup _ _ _ _ V) (FrameProofs.validate_cols _ _ _ _ V)). reflexivity.
Qed.

(** the three lines of the simulation's graph *)
Lemma sim_graph_lines o c raw b ob cv me fa st stats : wf_raw raw ->
  snd (construct o c (RFrame raw) (VBool b)) = Ok ob -> is_dpo (ob_ind ob) = false ->
  snd (get_ti_simulation ob (RFrame cv) me fa) = Ok (st, stats) ->
  let days := List.length (dates raw) in
  exists price exposure balance f, simulation_graph st = [price; exposure; balance] /\
    (sl_label price = "close_price" /\ sl_label exposure = "exposure" /\ sl_label balance = "balance") /\
    Forall (fun l => sl_x l = seq 1 days /\ List.length (sl_y l) = days) [price; exposure; balance] /\
    snd (validate (RFrame cv) ["close"] true) = Ok f /\ sl_y price = col "close" f /\
    number_of_trading_days stats = days /\
    last_stock_value stats = nround 2 (List.last (sl_y price) NaN) /\
    last_exposure stats = nround 2 (List.last (sl_y exposure) NaN) /\
    final_balance stats = nround 2 (List.last (sl_y balance) NaN).
Proof.
  intros W H D HS days. pose proof (construct_sound _ _ _ _ _ W H) as SD.
  destruct (construct_simulation_covers _ _ _ _ _ _ _ _ _ _ W H D HS) as [L C]. fold days in L.
  destruct (simulation_inv _ _ _ _ _ _ SD HS) as (cl & m & x & sgs & (f & V & IX & _ & _ & EC) & E & LS & ES & _).
  assert (PR : map x_stock (data st) = close st).
  { apply (nth_ext _ _ NaN NaN).
    - rewrite map_length, L. rewrite E. unfold simulate. rewrite run_rounds_close. cbn. rewrite EC; unfold icol; rewrite map_length, <- len_index, IX.
      destruct (construct_data_shape _ _ _ _ _ W H) as (_ & _ & _ & _ & P & _). symmetry. apply Permutation_length; auto.
    - intros k Hk. rewrite map_length in Hk. destruct (C k Hk) as (_ & _ & Q). rewrite <- Q.
      change NaN with (x_stock simrow0). apply map_nth. }
  assert (N : number_of_trading_days stats = days).
  { rewrite ES. cbn. rewrite <- L. apply count_all. intros r IR. apply (In_nth _ _ simrow0) in IR as [k [Hk <-]].
    destruct (C k Hk) as (Q & _ & _). destruct (x_signal _); congruence. }
  assert (LAST : forall (g : simrow -> num), g simrow0 = NaN -> days <> 0%nat ->
     match number_of_trading_days stats with O => F 0 | S k => nround 2 (g (nth k (data st) simrow0)) end
     = nround 2 (List.last (map g (data st)) NaN)).
  { intros g G0 NZ. rewrite N. destruct days as [|k]; [contradiction|].
    rewrite (last_nth (map g (data st)) NaN k) by (rewrite map_length; auto). rewrite <- G0, map_nth. reflexivity. }
  assert (NZ : days <> 0%nat).
  { intro Z. apply construct_inv in H as (i & raw0 & b0 & f0 & CK & Q & B & V0 & K & EI). injection Q as <-.
    assert (A : acceptable (RFrame raw) (required i)) by (apply (FrameProofs.validate_accepts _ _ b0); eauto).
    destruct A as (raw1 & Q & _ & NE & _). injection Q as <-. apply NE.
    unfold days, dates in Z. rewrite map_length in Z. destruct (r_rows raw); [reflexivity|discriminate]. }
  do 3 eexists. exists f. split; [reflexivity|]. split; [auto|]. split.
  - repeat constructor; cbn [sl_x sl_y]; rewrite ?map_length, ?L; auto.
  - cbn [sl_y]. split; [exact V|]. split; [rewrite PR, E; unfold simulate; rewrite run_rounds_close; cbn; rewrite EC; eapply close_first; eauto|].
    split; [exact N|].
    rewrite <- (LAST x_stock), <- (LAST x_exposure), <- (LAST x_balance) by auto. rewrite ES. repeat split; reflexivity.
Qed.

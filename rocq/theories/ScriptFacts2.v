(** * ScriptFacts2: the simulation of one indicator from the command line. *)
From Coq Require Import ZArith QArith Qcanon Bool String Ascii List PeanoNat Lia Permutation Decimal DecimalString DecimalZ DecimalPos.
From Verif Require Import Num Pandas Sim Frame FrameSpec FrameProofs Ind Signal Api ApiSpec ApiCheck ApiProofs ApiLemmas DocSpec DocFacts Call CallSpec CallFacts Script ScriptSpec ScriptFacts Message.
Import ListNotations.
Open Scope list_scope. Open Scope string_scope.

(** ** texts *)
Lemma app_nil s : s ++ "" = s.
Proof. induction s; simpl; congruence. Qed.
Lemma app_assoc_s a b c : (a ++ b) ++ c = a ++ b ++ c.
Proof. induction a; simpl; congruence. Qed.
Lemma all_chars_app p a b : all_chars p (a ++ b) = all_chars p a && all_chars p b.
Proof. induction a as [|x a IH]; simpl; [reflexivity|]. rewrite IH, andb_assoc. reflexivity. Qed.
Lemma all_chars_imp (p q : ascii -> bool) s : (forall c, p c = true -> q c = true) -> all_chars p s = true -> all_chars q s = true.
Proof. intros H. induction s as [|x s IH]; simpl; auto. intro E. apply andb_prop in E as [E1 E2]. rewrite (H x E1), (IH E2). reflexivity. Qed.
Definition not_newline (c : ascii) : bool := negb (Ascii.eqb c newline).
Lemma chomp_same s : all_chars not_newline s = true -> chomp s = s.
Proof.
  induction s as [|x s IH]; [reflexivity|]. cbn [all_chars]. intro H. apply andb_prop in H as [H1 H2]. cbn [chomp]. destruct s as [|y s].
  - unfold not_newline in H1. destruct (Ascii.eqb x newline); [discriminate|reflexivity].
  - rewrite (IH H2). reflexivity.
Qed.
Lemma chomp_newline s : chomp (s ++ String newline "") = s.
Proof.
  induction s as [|x s IH]; [reflexivity|]. cbn [append chomp].
  destruct (s ++ String newline "") as [|y t] eqn:E; [destruct s; discriminate E|]. rewrite IH. reflexivity.
Qed.
Lemma chomp_inv s t : chomp s = t -> s = t \/ s = t ++ String newline "".
Proof.
  revert t. induction s as [|x s IH]; intros t H; [left; exact H|]. cbn [chomp] in H. destruct s as [|y s].
  - destruct (Ascii.eqb_spec x newline) as [->|N]; [right; subst; reflexivity|left; exact H].
  - destruct t as [|z t]; [discriminate|]. injection H as -> H. destruct (IH t H) as [->| ->]; auto.
Qed.
Lemma digit_not_newline c : is_digit c = true -> not_newline c = true.
Proof. destruct c as [[] [] [] [] [] [] [] []]; vm_compute; (reflexivity || discriminate). Qed.
Lemma letter_not_newline c : is_letter c = true -> not_newline c = true.
Proof. destruct c as [[] [] [] [] [] [] [] []]; vm_compute; (reflexivity || discriminate). Qed.

(** ** numbers *)
Lemma digits_uint u : all_chars is_digit (NilEmpty.string_of_uint u) = true.
Proof. induction u; simpl; auto. Qed.
Lemma digits_value_acc u p : digits_value (Zpos p) (NilEmpty.string_of_uint u) = Zpos (Pos.of_uint_acc u p).
Proof. revert p. induction u; intro p; cbn [NilEmpty.string_of_uint digits_value Pos.of_uint_acc]; [reflexivity|..]; rewrite <- IHu; f_equal;
  unfold digit; match goal with |- context [nat_of_ascii ?c] => let v := eval vm_compute in (nat_of_ascii c) in change (nat_of_ascii c) with v end;
  rewrite ?Pos2Z.inj_add, ?Pos2Z.inj_mul; lia. Qed.
Lemma digits_value_uint u : digits_value 0 (NilEmpty.string_of_uint u) = Z.of_N (Pos.of_uint u).
Proof.
  induction u; cbn [NilEmpty.string_of_uint digits_value Pos.of_uint]; [reflexivity| |..];
    [exact IHu|..]; match goal with |- digits_value ?x _ = _ => let y := eval vm_compute in x in change x with y end; rewrite digits_value_acc; reflexivity.
Qed.
Lemma show_nonneg z : (0 <= z)%Z -> exists u, show_z z = NilEmpty.string_of_uint u /\ u <> Nil /\ Z.of_N (Pos.of_uint u) = z.
Proof.
  intro H. unfold show_z. pose proof (DecimalZ.of_to z) as Q. destruct z as [|p|p]; [| |lia].
  - exists (D0 Nil). repeat split. discriminate.
  - cbn [Z.to_int] in *. cbn [NilEmpty.string_of_int]. exists (Pos.to_uint p). split; [reflexivity|]. split; [apply DecimalPos.Unsigned.to_uint_nonnil|].
    cbn in Q. exact Q.
Qed.
Lemma show_digits z : (0 <= z)%Z -> all_chars is_digit (show_z z) = true /\ digits_value 0 (show_z z) = z /\ show_z z <> "".
Proof.
  intro H. destruct (show_nonneg z H) as (u & -> & N & E). split; [apply digits_uint|]. split; [rewrite digits_value_uint; exact E|].
  destruct u; [contradiction|..]; discriminate.
Qed.
Lemma show_digit d : (0 <= d <= 9)%Z -> exists c, show_z d = String c "" /\ is_digit c = true /\ digit c = d.
Proof.
  intro H. assert (E : In d [0; 1; 2; 3; 4; 5; 6; 7; 8; 9]%Z) by (cbn; lia).
  repeat (destruct E as [<-|E]; [eexists; repeat split|]). destruct E.
Qed.
Lemma digits_value_app a b acc : digits_value acc (a ++ b) = digits_value (digits_value acc a) b.
Proof. revert acc. induction a as [|x a IH]; intro acc; [reflexivity|]. cbn [append digits_value]. apply IH. Qed.

Lemma at_point_digits a b : all_chars is_digit a = true -> at_point (a ++ String "." b) = Some (a, b).
Proof.
  induction a as [|x a IH]; [reflexivity|]. cbn [all_chars append at_point]. intro H. apply andb_prop in H as [H1 H2].
  rewrite (IH H2). destruct (Ascii.eqb_spec x ".") as [->|N]; [discriminate H1|reflexivity].
Qed.
Lemma at_point_inv s a b : at_point s = Some (a, b) -> s = a ++ String "." b.
Proof.
  revert a. induction s as [|x s IH]; intros a H; [discriminate|]. cbn [at_point] in H. destruct (Ascii.eqb_spec x ".") as [->|N].
  - injection H as <- <-. reflexivity.
  - destruct (at_point s) as [[a' b']|]; [|discriminate]. injection H as <- <-. cbn. rewrite <- (IH a' eq_refl). reflexivity.
Qed.

(** the value of a text, in all cases: [e] is nothing or a newline *)
Definition ending (e : string) : Prop := e = "" \/ e = String newline "".
Lemma chomp_ending s e : all_chars not_newline s = true -> ending e -> chomp (s ++ e) = s.
Proof. intros H [->| ->]; [rewrite app_nil; apply chomp_same, H|apply chomp_newline]. Qed.
Lemma typed_integer s e : all_chars is_digit s = true -> s <> "" -> ending e -> typed_value (s ++ e) = Ok (VInt (digits_value 0 s)).
Proof.
  intros H N E. unfold typed_value. rewrite chomp_ending; [|exact (all_chars_imp _ _ _ digit_not_newline H)|exact E].
  rewrite H. destruct s; [contradiction|reflexivity].
Qed.
Lemma typed_tenths a d e : all_chars is_digit a = true -> is_digit d = true -> ending e ->
  typed_value (a ++ String "." (String d "") ++ e) = Ok (VFloat (D (10 * digits_value 0 a + digit d) 10)).
Proof.
  intros A H E. unfold typed_value. rewrite <- app_assoc_s. rewrite chomp_ending; [| |exact E].
  - rewrite all_chars_app, A. cbn [all_chars]. change (is_digit ".") with false. cbn [andb]. rewrite at_point_digits by exact A.
    rewrite A, H. cbn [andb all_chars digits_value]. reflexivity.
  - rewrite all_chars_app, (all_chars_imp _ _ _ digit_not_newline A). cbn [all_chars]. rewrite (digit_not_newline d H). reflexivity.
Qed.
Lemma typed_other t c a b : t = a ++ String c b -> is_digit c = false -> c <> "."%char -> c <> "]"%char -> c <> newline ->
  typed_value t = Ok (VStr t).
Proof.
  intros T H1 H2 H3 H4. unfold typed_value.
  assert (C : exists b', chomp t = a ++ String c b').
  { pose proof (chomp_inv t _ eq_refl) as [Q|Q]; [rewrite <- Q; eauto|]. revert T Q. generalize (chomp t). intros u T Q. rewrite T in Q. clear - Q H4.
    revert u Q. induction a as [|x a IH]; intros u Q.
    - destruct u as [|y u]; [cbn in Q; injection Q as Q _; contradiction|]. cbn in Q. injection Q as <- _. exists u. reflexivity.
    - destruct u as [|y u]; [cbn in Q; injection Q as _ Q; destruct a; discriminate Q|]. cbn in Q. injection Q as <- Q.
      destruct (IH u Q) as (b' & ->). exists b'. reflexivity. }
  destruct C as (b' & C). rewrite C. rewrite all_chars_app. cbn [all_chars]. rewrite H1. cbn [andb]. rewrite andb_false_r.
  destruct (at_point (a ++ String c b')) as [[x [|d y]]|] eqn:P; [reflexivity| |reflexivity].
  assert (Z : all_chars is_digit x && is_digit d && all_chars (Ascii.eqb "]") y = false); [|rewrite Z; reflexivity].
  apply at_point_inv in P. destruct (all_chars is_digit x && is_digit d && all_chars (Ascii.eqb "]") y) eqn:Z; [|reflexivity]. exfalso.
  apply andb_prop in Z as [Z Z3]. apply andb_prop in Z as [Z1 Z2].
  assert (G : all_chars (fun k => is_digit k || Ascii.eqb k "." || Ascii.eqb k "]") (a ++ String c b') = true).
  { rewrite P. rewrite all_chars_app. cbn [all_chars]. rewrite Z2.
    rewrite (all_chars_imp is_digit _ x) by (auto; intros k K; rewrite K; reflexivity).
    rewrite (all_chars_imp (Ascii.eqb "]") _ y); [reflexivity|intros k K; apply Ascii.eqb_eq in K; subst k; reflexivity|exact Z3]. }
  rewrite all_chars_app in G. apply andb_prop in G as [_ G]. cbn [all_chars] in G. apply andb_prop in G as [G _].
  rewrite H1 in G. destruct (Ascii.eqb_spec c "."); [contradiction|]. destruct (Ascii.eqb_spec c "]"); [contradiction|]. discriminate.
Qed.
Lemma written_typed t v : written t v -> typed_value t = Ok v.
Proof.
  intros [z H|z d H I|c s L N].
  - destruct (show_digits z H) as (A & B & C). rewrite <- (app_nil (show_z z)). rewrite typed_integer; auto; [rewrite B; reflexivity|left; reflexivity].
  - destruct (show_digits z H) as (A & B & _). destruct (show_digit d I) as (c & -> & C & E).
    change ("." ++ String c "") with (String "." (String c "") ++ ""). rewrite typed_tenths; auto; [|left; reflexivity].
    rewrite B, E. reflexivity.
  - apply (typed_other _ c "" s); auto; try (intros ->; discriminate L).
    clear - L. revert L. destruct c as [[] [] [] [] [] [] [] []]; vm_compute; (reflexivity || discriminate).
Qed.

(** ** splitting *)
Lemma split_none n : no_equals n -> forall t, split_eq (n ++ "=" ++ t) = (n, fst (split_eq t) :: snd (split_eq t)).
Proof.
  induction n as [|x n IH]; intros N t.
  - cbn. destruct (split_eq t). reflexivity.
  - cbn [append split_eq]. cbn [append] in IH. rewrite IH.
    + destruct (Ascii.eqb_spec x "=") as [->|X]; [exfalso; apply (N "" n); reflexivity|reflexivity].
    + intros a b E. apply (N (String x a) b). cbn. rewrite E. reflexivity.
Qed.
Lemma split_whole t : no_equals t -> split_eq t = (t, []).
Proof.
  induction t as [|x t IH]; intro N; [reflexivity|]. cbn [split_eq]. rewrite IH.
  - destruct (Ascii.eqb_spec x "=") as [->|X]; [exfalso; apply (N "" t); reflexivity|reflexivity].
  - intros a b E. apply (N (String x a) b). cbn. rewrite E. reflexivity.
Qed.
Lemma no_equals_chars s : all_chars (fun c => negb (Ascii.eqb c "=")) s = true -> no_equals s.
Proof.
  intros H a b ->. rewrite all_chars_app in H. apply andb_prop in H as [_ H]. discriminate H.
Qed.
Lemma digits_no_equals s : all_chars is_digit s = true -> all_chars (fun c => negb (Ascii.eqb c "=")) s = true.
Proof. apply all_chars_imp. intro c. destruct c as [[] [] [] [] [] [] [] []]; vm_compute; (reflexivity || discriminate). Qed.
Lemma written_no_equals t v : written t v -> no_equals t.
Proof.
  intros [z H|z d H I|c s L N].
  - apply no_equals_chars, digits_no_equals, show_digits, H.
  - apply no_equals_chars. rewrite !all_chars_app. destruct (show_digits z H) as (A & _). destruct (show_digits d) as (B & _); [lia|].
    rewrite (digits_no_equals _ A), (digits_no_equals _ B). reflexivity.
  - intros a b E. destruct a as [|x a].
    + cbn in E. injection E as -> _. discriminate L.
    + cbn in E. injection E as -> E. apply (N a b E).
Qed.
Lemma typed_args_one n t r kw : no_equals n -> no_equals t ->
  typed_args (typed n t :: r) kw = do v <- typed_value t; typed_args r (dict_set n v kw).
Proof. intros N T. cbn [typed_args]. unfold typed. rewrite split_none by exact N. rewrite split_whole by exact T. reflexivity. Qed.
Lemma dict_set_new {A} n (a : A) l : ~ In n (map fst l) -> dict_set n a l = (l ++ [(n, a)])%list.
Proof.
  induction l as [|(m, b) l IH]; intro H; [reflexivity|]. cbn in *. destruct (String.eqb_spec n m) as [->|X]; [exfalso; apply H; auto|].
  rewrite IH; [reflexivity|tauto].
Qed.
Lemma typed_args_gives texts kw acc : gives texts kw -> NoDup (map fst (acc ++ kw)) -> typed_args texts acc = Ok (acc ++ kw)%list.
Proof.
  intro G. revert acc. induction G as [|s (n, v) texts kw (t & -> & N & W) G IH]; intros acc ND; [rewrite app_nil_r; reflexivity|].
  cbn [fst snd] in *. rewrite typed_args_one by (auto; exact (written_no_equals _ _ W)). rewrite (written_typed _ _ W). cbn [bind].
  rewrite map_app in ND. cbn in ND. rewrite dict_set_new.
  - rewrite IH; [rewrite <- app_assoc; reflexivity|]. rewrite <- app_assoc. cbn. rewrite map_app. exact ND.
  - intro I. apply NoDup_remove_2 in ND. apply ND, in_or_app. auto.
Qed.

(** ** classes *)
Lemma strip_prefix_some p s n : strip_prefix p s = Some n <-> s = p ++ n.
Proof.
  revert s. induction p as [|a p IH]; intro s; cbn; [split; congruence|]. destruct s as [|b s]; [split; discriminate|].
  destruct (Ascii.eqb_spec a b) as [->|N].
  - rewrite IH. split; congruence.
  - split; [discriminate|]. intro E. injection E as E _. congruence.
Qed.
Lemma class_called_some n k : class_called n = Some k <-> n = name_of k.
Proof.
  split.
  - intro H. apply find_some in H as [_ H]. apply String.eqb_eq in H. congruence.
  - intros ->. destruct k; reflexivity.
Qed.
Lemma named_class_some s k : named_class s = Some k <->
  s = package ++ name_of k \/ s = package ++ name_of k ++ String newline "".
Proof.
  unfold named_class. assert (P : chomp (package ++ name_of k) = package ++ name_of k) by (apply chomp_same; destruct k; reflexivity).
  split.
  - destruct (strip_prefix package (chomp s)) as [n|] eqn:E; [|discriminate]. intro H. apply class_called_some in H. subst n.
    apply strip_prefix_some in E. apply chomp_inv in E as [E|E]; rewrite E; [auto|]. right. rewrite app_assoc_s. reflexivity.
  - intro H. assert (C : chomp s = package ++ name_of k) by (destruct H as [->| ->]; [exact P|rewrite <- app_assoc_s; apply chomp_newline]).
    rewrite C. rewrite (proj2 (strip_prefix_some package _ (name_of k)) eq_refl). apply class_called_some. reflexivity.
Qed.

(** ** the program *)
Lemma not_taken k (kw : list (string * pyval)) : (forall n, In n (map fst kw) -> In n (map fst (documented k) ++ ["fill_missing_values"])%list) ->
  existsb (fun n => mem n taken) (map fst kw) = false.
Proof.
  intro H. destruct (existsb _ _) eqn:E; [|reflexivity]. exfalso. apply existsb_exists in E as (n & I & M). apply H in I. apply mem_In in M.
  clear - I M. destruct k; cbn in *; intuition (subst; discriminate).
Qed.
Lemma run_single_named o k texts kw df : gives texts kw -> NoDup (map fst kw) ->
  (forall n, In n (map fst kw) -> In n (map fst (documented k) ++ ["fill_missing_values"])%list) -> market_data df ->
  run_single o ((package ++ name_of k) :: texts) df
  = match snd (execute o k df None kw) with Err e => ORaised e | Ok rp => ODone (mkReport (single_title k) "foo.png" (rp_stats rp)) end.
Proof.
  intros G N I MD. cbn [run_single]. rewrite (proj2 (named_class_some (package ++ name_of k) k)) by (left; reflexivity).
  rewrite (typed_args_gives texts kw []) by auto. cbn [Datatypes.app]. rewrite (close_only_market df MD). cbv beta iota. pose proof (not_taken k kw I) as Z. rewrite Z. reflexivity.
Qed.
Lemma execute_outcome o k df info kw : market_data df ->
  snd (execute o k df info kw) =
  match new o k [] (("input_data", AData (RFrame df)) :: map (fun p => (fst p, AVal (snd p))) kw) with
  | Err e => Err e
  | Ok (_, Err e) => Err e
  | Ok (_, Ok ob) => match snd (get_ti_simulation ob (closing_prices df) VNone (VFloat (D 15 10))) with
                     | Err e => Err e
                     | Ok (_, st) => Ok (mkReport (title k info) (figure k info) st)
                     end
  end.
Proof.
  intro MD. unfold execute. rewrite (close_only_market df MD). destruct (new o k [] _) as [[v [ob|e]]|e]; reflexivity.
Qed.
Lemma run_all_finishes o df : market_data df -> (55 <= List.length (r_rows df))%nat ->
  snd (run_all o df) = None <-> exists rp, reports o df (kRI, (None, [])) rp.
Proof.
  intros MD R. destruct (run_calls_spec o all_calls df (RFrame df) MD (or_introl eq_refl)) as (n & L & F & T). fold (run_all o df) in F, T. split.
  - intro E. rewrite E in T. subst n. rewrite firstn_all in F.
    assert (I : In (kRI, (None, [])) all_calls) by (vm_compute; repeat first [left; reflexivity|right]).
    destruct (Forall2_in _ _ _ _ F I) as (rp & _ & H). eauto.
  - intros (rp & (v & ob & st & E1 & E2 & _)). destruct (snd (run_all o df)) as [e|]; [|reflexivity]. exfalso.
    destruct T as (k & info & kw & N & X). destruct (execute_market o k info kw df MD R (nth_error_In _ _ N)) as [(r & Q)|[-> Q]]; [congruence|].
    assert (I : info = None /\ kw = []).
    { pose proof (ri_place n _ N eq_refl). subst n. vm_compute in N. injection N as <- <-. auto. }
    destruct I as [-> ->]. rewrite (execute_outcome o kRI df None [] MD), E1, E2 in X. discriminate.
Qed.
Lemma run_single_done o k texts kw df rp : gives texts kw -> NoDup (map fst kw) ->
  (forall n, In n (map fst kw) -> In n (map fst (documented k) ++ ["fill_missing_values"])%list) -> market_data df ->
  run_single o ((package ++ name_of k) :: texts) df = ODone rp <->
  exists v ob st,
    new o k [] (("input_data", AData (RFrame df)) :: map (fun p => (fst p, AVal (snd p))) kw) = Ok (v, Ok ob) /\
    snd (get_ti_simulation ob (closing_prices df) VNone (VFloat (D 15 10))) = Ok (st, rp_stats rp) /\
    rp_title rp = "Trading Simulation for technical indicator:  " ++ name_of k /\ rp_figure rp = "foo.png".
Proof.
  intros G N I MD. rewrite (run_single_named o k texts kw df G N I MD), (execute_outcome o k df None kw MD). split.
  - destruct (new o k [] _) as [[v [ob|e]]|e]; try discriminate.
    destruct (snd (get_ti_simulation ob (closing_prices df) VNone (VFloat (D 15 10)))) as [[st sts]|e] eqn:S; [|discriminate].
    intro H. injection H as <-. exists v, ob, st. auto.
  - intros (v & ob & st & -> & -> & T & F). destruct rp. cbn in *. subst. reflexivity.
Qed.
Lemma run_single_raised o k texts kw df e : gives texts kw -> NoDup (map fst kw) ->
  (forall n, In n (map fst kw) -> In n (map fst (documented k) ++ ["fill_missing_values"])%list) -> market_data df ->
  run_single o ((package ++ name_of k) :: texts) df = ORaised e <->
  exists v r,
    new o k [] (("input_data", AData (RFrame df)) :: map (fun p => (fst p, AVal (snd p))) kw) = Ok (v, r) /\
    match r with Err e' => e' = e | Ok ob => snd (get_ti_simulation ob (closing_prices df) VNone (VFloat (D 15 10))) = Err e end.
Proof.
  intros G N I MD. rewrite (run_single_named o k texts kw df G N I MD), (execute_outcome o k df None kw MD).
  assert (P : proper k [] (("input_data", AData (RFrame df)) :: map (fun p => (fst p, AVal (snd p))) kw)).
  { split; [cbn; lia|]. assert (M : map fst (given k [] (("input_data", AData (RFrame df)) :: map (fun p : string * pyval => (fst p, AVal (snd p))) kw)) = "input_data" :: map fst kw)
      by (unfold given; cbn [documented_names combine Datatypes.app map fst]; rewrite map_map; reflexivity).
    rewrite M. split; [|split; [|left; reflexivity]].
    - constructor; auto. intro J. apply I in J. clear - J. destruct k; cbn in J; intuition discriminate.
    - intros n J. cbn [map fst] in J. rewrite map_map in J. destruct J as [<-|J]; [left; reflexivity|right; apply I, J]. }
  destruct (call_settings o k _ _ P) as (c & -> & _).
  destruct (construct _ _ _ _) as [v [ob|e']]; split.
  - destruct (snd (get_ti_simulation ob (closing_prices df) VNone (VFloat (D 15 10)))) as [[st sts]|e'] eqn:S; [discriminate|].
    intro H. injection H as ->. exists v, (Ok ob). auto.
  - intros (v' & r & E & H). injection E as <- <-. cbv beta iota in H. rewrite H. reflexivity.
  - intro H. injection H as ->. exists v, (Err e). auto.
  - intros (v' & r & E & H). injection E as <- <-. subst. reflexivity.
Qed.
Lemma run_single_invalid o s args df : run_single o (s :: args) df = OInvalid <->
  forall k, s <> package ++ name_of k /\ s <> package ++ name_of k ++ String newline "".
Proof.
  cbn [run_single]. destruct (named_class s) as [k|] eqn:E; split; intro H; try reflexivity.
  - exfalso. destruct (typed_args args []); [|discriminate]. destruct (close_only df); [|discriminate].
    destruct (existsb _ _); [discriminate|]. destruct (snd (execute _ _ _ _ _)); discriminate.
  - exfalso. apply named_class_some in E. destruct (H k). tauto.
  - intro k. split; intro Q; assert (X : named_class s = Some k) by (apply named_class_some; auto); congruence.
Qed.

(** ** what cannot be typed *)
Definition typeable (v : pyval) : Prop :=
  match v with VInt z => (0 <= z)%Z | VFloat x => nltb x (F 0) = false | VStr _ => True | _ => False end.
Lemma digit_nonneg c : is_digit c = true -> (0 <= digit c)%Z.
Proof. unfold is_digit, digit. intro H. apply andb_prop in H as [H _]. apply Nat.leb_le in H. lia. Qed.
Lemma digits_value_nonneg s acc : all_chars is_digit s = true -> (0 <= acc)%Z -> (0 <= digits_value acc s)%Z.
Proof.
  revert acc. induction s as [|c s IH]; intros acc A H; cbn [digits_value]; auto. cbn [all_chars] in A. apply andb_prop in A as [A1 A2].
  apply IH; [exact A2|]. pose proof (digit_nonneg c A1). lia.
Qed.
Lemma tenth_nonneg z : (0 <= z)%Z -> nltb (D z 10) (F 0) = false.
Proof.
  intro H. unfold F, D. cbn [nltb]. unfold qltb. assert (E : Qle_bool (Q2Qc (inject_Z 0)) (Q2Qc (z # 10)) = true); [|rewrite E; reflexivity].
  apply Qle_bool_iff. cbn [this Q2Qc]. rewrite !Qred_correct. unfold Qle. cbn. lia.
Qed.
Lemma typed_typeable t v : typed_value t = Ok v -> typeable v.
Proof.
  unfold typed_value. destruct (all_chars is_digit (chomp t)) eqn:A.
  - destruct (chomp t); [discriminate|]. intro H. injection H as <-. exact (digits_value_nonneg (String a s) 0 A (Z.le_refl 0)).
  - destruct (at_point (chomp t)) as [[a [|d b]]|]; try (intro H; injection H as <-; exact I).
    destruct (all_chars is_digit a && is_digit d && all_chars (Ascii.eqb "]") b) eqn:Q; [|intro H; injection H as <-; exact I].
    apply andb_prop in Q as [Q _]. apply andb_prop in Q as [Q1 Q2].
    destruct b; [|discriminate]. intro H. assert (E : v = VFloat (D (digits_value (digits_value 0 a) (String d EmptyString)) 10)) by congruence.
    rewrite E. apply tenth_nonneg.
    pose proof (digits_value_nonneg a 0 Q1 (Z.le_refl 0)). pose proof (digit_nonneg d Q2). cbn [digits_value]. lia.
Qed.
Lemma dict_set_in {A} n (a : A) l p : In p (dict_set n a l) -> p = (n, a) \/ In p l.
Proof.
  induction l as [|(m, b) l IH]; cbn; [intros [<-|[]]; auto|]. destruct (String.eqb n m); cbn.
  - intros [<-|I]; auto.
  - intros [<-|I]; auto. destruct (IH I); auto.
Qed.
Lemma dict_set_keys {A} n (a : A) l m : In m (n :: map fst l) -> In m (map fst (dict_set n a l)).
Proof.
  induction l as [|(q, b) l IH]; cbn; [auto|]. destruct (String.eqb_spec n q) as [->|X]; cbn in *; tauto.
Qed.
Lemma dict_set_only {A} n (a : A) l m : In m (map fst (dict_set n a l)) -> In m (n :: map fst l).
Proof.
  induction l as [|(q, b) l IH]; cbn; [auto|]. destruct (String.eqb_spec n q) as [->|X]; cbn in *; tauto.
Qed.
Lemma dict_set_nodup {A} n (a : A) l : NoDup (map fst l) -> NoDup (map fst (dict_set n a l)).
Proof.
  induction l as [|(q, b) l IH]; cbn; intro N; [repeat constructor; auto|]. inversion N as [|x y N1 N2]; subst.
  destruct (String.eqb_spec n q) as [->|X]; cbn; [constructor; auto|]. constructor; auto.
  intro I. apply dict_set_only in I. destruct I as [->|I]; contradiction.
Qed.
Lemma typed_args_typeable args kw kw' : typed_args args kw = Ok kw' -> NoDup (map fst kw) -> (forall p, In p kw -> typeable (snd p)) ->
  NoDup (map fst kw') /\ (forall p, In p kw' -> typeable (snd p)) /\ (forall n, In n (map fst kw) -> In n (map fst kw')) /\
  (forall n t, no_equals n -> In (typed n t) args -> In n (map fst kw')).
Proof.
  revert kw. induction args as [|s args IH]; intros kw H N T; cbn [typed_args] in H.
  - injection H as <-. repeat split; auto. intros n t _ [].
  - destruct (split_eq s) as [m [|t l]] eqn:S; [discriminate|]. destruct (typed_value t) as [v|] eqn:V; [|discriminate]. cbn [bind] in H.
    destruct (IH _ H) as (A & B & C & E).
    + apply dict_set_nodup, N.
    + intros p I. apply dict_set_in in I as [->|I]; [exact (typed_typeable _ _ V)|auto].
    + repeat split; auto.
      * intros n I. apply C, dict_set_keys. right. exact I.
      * intros n t' Q [->|I]; [|exact (E n t' Q I)]. unfold typed in S. rewrite split_none in S by exact Q. injection S as <- _ _.
        apply C, dict_set_keys. left. reflexivity.
Qed.
(** whatever is typed for fill_missing_values, no simulation runs *)
Lemma flag_not_typeable o s args t df rp : In (typed "fill_missing_values" t) args -> run_single o (s :: args) df <> ODone rp.
Proof.
  intros I H. cbn [run_single] in H. destruct (named_class s) as [k|]; [|discriminate].
  destruct (typed_args args []) as [kw|] eqn:TA; [|discriminate]. destruct (close_only df) as [cv|] eqn:CO; [|discriminate].
  destruct (existsb _ _) eqn:EX; [discriminate|].
  destruct (typed_args_typeable _ _ _ TA) as (N & T & _ & Q); [constructor|intros p []|].
  assert (F : In "fill_missing_values" (map fst kw)) by (apply (Q _ t); [apply no_equals_chars; reflexivity|exact I]).
  unfold execute in H. rewrite CO in H.
  set (kw' := ("input_data", AData (RFrame df)) :: map (fun p => (fst p, AVal (snd p))) kw) in *.
  destruct (proper_dec k [] kw') as [P|P]; [|rewrite call_improper in H by exact P; discriminate].
  destruct (call_settings o k [] kw' P) as (c & E & _). rewrite E in H.
  assert (S : exists v, setting k (given k [] kw') "fill_missing_values" = AVal v /\ is_bool v = false).
  { apply in_map_iff in F as ((n & v) & X & J). cbn in X. subst n. exists v. split.
    - unfold setting. rewrite (proj2 (lookup_some "fill_missing_values" (given k [] kw') (AVal v) (proj1 (proj2 P)))); [reflexivity|].
      unfold given. cbn [documented_names combine Datatypes.app]. unfold kw'. right. apply in_map_iff. exists ("fill_missing_values", v). auto.
    - specialize (T _ J). cbn in T. destruct v; cbn in *; tauto. }
  destruct S as (v & S1 & S2). rewrite S1 in H. cbn [as_val] in H.
  destruct (check c) as [i|e] eqn:CK.
  - rewrite (construct_bad_flag o c _ v i CK S2) in H. discriminate.
  - rewrite (construct_bad_args o c _ v e CK) in H. discriminate.
Qed.
(** a number with a sign is a text *)
Lemma typed_minus s : typed_value (String "-" s) = Ok (VStr (String "-" s)).
Proof. apply (typed_other _ "-" "" s); try reflexivity; discriminate. Qed.
(** ... and so is a decimal fraction with two or more decimals *)
Lemma typed_decimals a c d e : all_chars is_digit a = true -> is_digit c = true -> is_digit d = true ->
  typed_value (a ++ String "." (String c (String d e))) = Ok (VStr (a ++ String "." (String c (String d e)))).
Proof.
  intros A C DD. unfold typed_value.
  assert (X : chomp (a ++ String "." (String c (String d e))) = a ++ String "." (String c (chomp (String d e)))).
  { induction a as [|x a IH].
    - cbn [append]. cbn [chomp]. reflexivity.
    - cbn [append]. cbn [all_chars] in A. apply andb_prop in A as [_ A]. rewrite <- (IH A). cbn [chomp].
      destruct (a ++ String "." (String c (String d e))) eqn:Z; [destruct a; discriminate Z|reflexivity]. }
  rewrite X. assert (Y : exists e', chomp (String d e) = String d e').
  { cbn [chomp]. destruct e; [|eauto]. destruct (Ascii.eqb_spec d newline) as [->|]; [discriminate DD|eauto]. }
  destruct Y as (e' & ->). rewrite all_chars_app. cbn [all_chars]. change (is_digit ".") with false. rewrite andb_false_r.
  rewrite at_point_digits by exact A. cbn [all_chars].
  assert (Z : Ascii.eqb "]" d = false) by (destruct (Ascii.eqb_spec "]" d) as [<-|]; [discriminate DD|reflexivity]).
  rewrite Z. cbn [andb]. rewrite andb_false_r. reflexivity.
Qed.

(** ** for the statements *)
Lemma defaults_work o k df : market_data df ->
  ((exists v ob, new o k [] [("input_data", AData (RFrame df))] = Ok (v, Ok ob)) <-> (rows_by_default k <= List.length (r_rows df))%nat).
Proof.
  intro MD. rewrite call_plain. rewrite <- plain_rows. pose proof (construct_succeeds o (plain k) df true (plain_params k)) as CS. split.
  - intros (v & ob & E). injection E as E. apply CS. exists ob. rewrite E. reflexivity.
  - intro R. destruct CS as [_ CS]. destruct CS as (ob & E).
    + split; [apply MD|]. split; [intro Z; pose proof (md_close df MD) as I; rewrite Z in I; destruct I|]. split; [apply MD|].
      split; [|split; [|split; [|exact R]]].
      * intros n I. apply (md_columns df MD). clear - I. destruct k; cbn in *; tauto.
      * apply NoDup_filter, MD.
      * intro Z. rewrite Z in R. clear - R. rewrite plain_rows in R. destruct k; cbn in R; lia.
    + destruct (construct o (plain k) (RFrame df) (VBool true)) as [v r]. cbn in E. subst r. eauto.
Qed.
Lemma decimals_refused o df : market_data df ->
  run_single o ["tti.indicators.Envelopes"; "shift=0.10"] df = ORaised (WrongType "shift") /\
  run_single o ["tti.indicators.Performance"; "target=0.05"] df = ORaised (WrongType "target") /\
  documented_default kENV "shift" = Some (VFloat (D 10 100)) /\ documented_default kPRF "target" = Some (VFloat (D 5 100)) /\
  (forall a c d e, all_chars is_digit a = true -> is_digit c = true -> is_digit d = true ->
     typed_value (a ++ "." ++ String c (String d e)) = Ok (VStr (a ++ "." ++ String c (String d e)))).
Proof.
  intro MD. split; [|split; [|split; [reflexivity|split; [reflexivity|]]]].
  - unfold run_single. change (named_class "tti.indicators.Envelopes") with (Some kENV).
    change (typed_args ["shift=0.10"] []) with (@Ok (list (string * pyval)) [("shift", VStr "0.10")]). cbv beta iota. rewrite (close_only_market df MD).
    change (existsb (fun n => mem n taken) (map fst [("shift", VStr "0.10")])) with false. cbv beta iota.
    rewrite (execute_outcome o kENV df None _ MD). reflexivity.
  - unfold run_single. change (named_class "tti.indicators.Performance") with (Some kPRF).
    change (typed_args ["target=0.05"] []) with (@Ok (list (string * pyval)) [("target", VStr "0.05")]). cbv beta iota. rewrite (close_only_market df MD).
    change (existsb (fun n => mem n taken) (map fst [("target", VStr "0.05")])) with false. cbv beta iota.
    rewrite (execute_outcome o kPRF df None _ MD). reflexivity.
  - exact typed_decimals.
Qed.
Lemma negative_refused o df s : market_data df -> no_equals s ->
  run_single o ["tti.indicators.Performance"; "mode=SHORT"; "target=-" ++ s] df = ORaised (WrongType "target").
Proof.
  intros MD N. unfold run_single. change (named_class "tti.indicators.Performance") with (Some kPRF).
  assert (T : typed_args ["mode=SHORT"; "target=-" ++ s] [] = Ok [("mode", VStr "SHORT"); ("target", VStr (String "-" s))]).
  { change "mode=SHORT" with (typed "mode" "SHORT"). change ("target=-" ++ s) with (typed "target" (String "-" s)).
    rewrite typed_args_one by (apply no_equals_chars; reflexivity). change (typed_value "SHORT") with (@Ok pyval (VStr "SHORT")). cbn [bind dict_set].
    rewrite typed_args_one.
    - rewrite typed_minus. reflexivity.
    - apply no_equals_chars; reflexivity.
    - intros [|x a] b E; [discriminate E|]. injection E as _ E. exact (N a b E). }
  rewrite T. cbv beta iota. rewrite (close_only_market df MD).
  change (existsb (fun n => mem n taken) (map fst [("mode", VStr "SHORT"); ("target", VStr (String "-" s))])) with false. cbv beta iota.
  rewrite (execute_outcome o kPRF df None _ MD). reflexivity.
Qed.
Lemma all_calls_in k info kw : In (k, (info, kw)) all_calls <->
  (k <> kMA /\ k <> kSO /\ info = None /\ kw = []) \/
  (k = kMA /\ exists t, In t ["simple"; "exponential"; "time_series"; "triangular"; "variable"] /\
                        info = Some t /\ kw = [("ma_type", VStr t)]) \/
  (k = kSO /\ ((info = Some "fast" /\ kw = [("k_slowing_periods", VInt 1)]) \/
               (info = Some "slow" /\ kw = [("k_slowing_periods", VInt 3)]))).
Proof.
  unfold all_calls. rewrite in_flat_map. split.
  - intros (x & _ & I). apply in_map_iff in I as (p & E & I). injection E as -> ->.
    destruct k; cbn in I; try (left; destruct I as [E|[]]; injection E as <- <-; repeat split; discriminate).
    + right; left. split; [reflexivity|]. repeat (destruct I as [E|I]; [injection E as <- <-; eexists; repeat split; cbn; tauto|]). destruct I.
    + right; right. split; [reflexivity|]. destruct I as [E|[E|[]]]; injection E as <- <-; auto.
  - intro H. exists k. split; [destruct k; vm_compute; repeat first [left; reflexivity|right]|].
    apply in_map_iff. exists (info, kw). split; [reflexivity|]. destruct H as [(N1 & N2 & -> & ->)|[(-> & t & I & -> & ->)|(-> & [(-> & ->)|(-> & ->)])]].
    + destruct k; try (left; reflexivity); contradiction.
    + cbn in I. cbn. repeat (destruct I as [<-|I]; [tauto|]). destruct I.
    + cbn. auto.
    + cbn. auto.
Qed.
Fixpoint distinct (l : list string) : bool := match l with [] => true | x :: r => negb (mem x r) && distinct r end.
Lemma distinct_nodup l : distinct l = true -> NoDup l.
Proof.
  induction l as [|x l IH]; intro H; [constructor|]. cbn in H. apply andb_prop in H as [H1 H2]. constructor; [|auto].
  intro I. apply mem_In in I. rewrite I in H1. discriminate.
Qed.
Lemma figures_nodup : NoDup (map (fun c => figure (fst c) (fst (snd c))) all_calls).
Proof. apply distinct_nodup. vm_compute. reflexivity. Qed.

(** * CallFacts: calls of the constructors. *)
From Coq Require Import ZArith QArith Qcanon Bool String List PeanoNat Lia Permutation.
From Verif Require Import Num Pandas Frame FrameSpec FrameProofs Sim Ind Signal Api ApiSpec ApiCheck ApiProofs ApiLemmas DocSpec DocFacts Call CallSpec.
Import ListNotations.
Open Scope list_scope. Open Scope string_scope.

(** ** look-ups *)
Lemma lookup_none {A} n (l : list (string * A)) : lookup n l = None <-> ~ In n (map fst l).
Proof.
  induction l as [|(m, a) l IH]; cbn; [tauto|]. destruct (String.eqb_spec n m) as [->|N].
  - split; [discriminate|intro H; exfalso; apply H; auto].
  - rewrite IH. split; intro H; [intros [E|I]; [congruence|auto]|intro I; apply H; auto].
Qed.
Lemma lookup_some {A} n (l : list (string * A)) a : NoDup (map fst l) -> lookup n l = Some a <-> In (n, a) l.
Proof.
  induction l as [|(m, b) l IH]; cbn; [split; [discriminate|tauto]|]. intro N. inversion N as [|x y N1 N2]; subst.
  destruct (String.eqb_spec n m) as [->|E].
  - split; [intro H; injection H as ->; auto|]. intros [H|H]; [congruence|]. exfalso. apply N1. apply (in_map fst) in H. exact H.
  - rewrite IH by auto. split; [auto|]. intros [H|H]; [congruence|auto].
Qed.
Lemma lookup_perm {A} n (l l' : list (string * A)) : NoDup (map fst l) -> Permutation l l' -> lookup n l = lookup n l'.
Proof.
  intros N P. assert (N' : NoDup (map fst l')) by (eapply Permutation_NoDup; [apply Permutation_map; exact P|auto]).
  destruct (lookup n l) as [a|] eqn:E; symmetry.
  - apply lookup_some; auto. apply lookup_some in E; auto. eapply Permutation_in; eauto.
  - apply lookup_none. apply lookup_none in E. intro I. apply E. eapply Permutation_in; [symmetry; apply Permutation_map; exact P|auto].
Qed.
Lemma lookup_app {A} n (l l' : list (string * A)) :
  lookup n (l ++ l') = match lookup n l with Some a => Some a | None => lookup n l' end.
Proof. induction l as [|(m, a) l IH]; cbn; [reflexivity|]. destruct (String.eqb n m); auto. Qed.

(** ** binding *)
Lemma by_position_ok names pos : (List.length pos <= List.length names)%nat -> by_position names pos = Ok (combine names pos).
Proof.
  revert names. induction pos as [|a p IH]; intros [|n r] L; cbn in *; try reflexivity; [lia|].
  rewrite IH by lia. reflexivity.
Qed.
Lemma by_position_many names pos : ~ (List.length pos <= List.length names)%nat -> by_position names pos = Err TypeErr.
Proof.
  revert names. induction pos as [|a p IH]; intros [|n r] L; cbn in *; try reflexivity; [lia|lia|].
  rewrite IH by lia. reflexivity.
Qed.
Lemma by_keyword_ok names kw bound : (forall n, In n (map fst kw) -> In n names) -> NoDup (map fst (bound ++ kw)) ->
  exists b, by_keyword names kw bound = Ok b /\ Permutation b (bound ++ kw).
Proof.
  revert bound. induction kw as [|(n, a) kw IH]; intros bound I N; cbn.
  - exists bound. rewrite app_nil_r. auto.
  - assert (M : mem n names = true) by (apply mem_In, I; cbn; auto). rewrite M.
    rewrite map_app in N. cbn in N. assert (L : lookup n bound = None).
    { apply lookup_none. intro H. apply NoDup_remove_2 in N. apply N, in_or_app. auto. }
    rewrite L. destruct (IH ((n, a) :: bound)) as (b & E & P).
    + intros m H. apply I. cbn. auto.
    + cbn. rewrite map_app. eapply Permutation_NoDup; [|exact N]. symmetry. apply Permutation_middle.
    + exists b. split; auto. etransitivity; [exact P|]. apply (Permutation_middle bound kw (n, a)).
Qed.
Lemma by_keyword_bad names kw bound : NoDup (map fst bound) ->
  ~ ((forall n, In n (map fst kw) -> In n names) /\ NoDup (map fst (bound ++ kw))) ->
  by_keyword names kw bound = Err TypeErr.
Proof.
  revert bound. induction kw as [|(n, a) kw IH]; intros bound B H; cbn.
  - exfalso. apply H. rewrite app_nil_r. split; [intros n []|auto].
  - destruct (mem n names) eqn:M; [|reflexivity]. destruct (lookup n bound) eqn:L; [reflexivity|].
    apply lookup_none in L. apply IH; [cbn; constructor; auto|]. intros [I N]. apply H. split.
    + intros m [<-|K]; [apply mem_In; auto|auto].
    + rewrite map_app in *. cbn in *. eapply Permutation_NoDup; [apply Permutation_middle|exact N].
Qed.
Lemma with_defaults_ok fs bound : (forall n, In (n, None) fs -> In n (map fst bound)) -> NoDup (map fst fs) ->
  exists l, with_defaults fs bound = Ok l /\
    forall n d, In (n, d) fs ->
      lookup n l = Some (match lookup n bound with Some a => a | None => match d with Some v => AVal v | None => AVal VNone end end).
Proof.
  induction fs as [|(n, d) fs IH]; cbn; intros R N; [exists []; split; [reflexivity|intros n d []]|].
  inversion N as [|x y N1 N2]; subst. destruct IH as (l & E & P); [intros m H; apply R; auto|auto|]. rewrite E. cbn [bind].
  assert (G : forall a, forall m e, In (m, e) ((n, d) :: fs) ->
    a = (match lookup n bound with Some a => a | None => match d with Some v => AVal v | None => AVal VNone end end) ->
    lookup m ((n, a) :: l) = Some (match lookup m bound with Some a => a | None => match e with Some v => AVal v | None => AVal VNone end end)).
  { intros a m e I ->. cbn [lookup]. destruct (String.eqb_spec m n) as [->|X].
    - destruct I as [I|I]; [injection I as <-; reflexivity|]. exfalso. apply N1. apply (in_map fst) in I. exact I.
    - destruct I as [I|I]; [congruence|]. apply P; auto. }
  destruct (lookup n bound) as [a|] eqn:L.
  - eexists. split; [reflexivity|]. intros m e I. apply G; auto.
  - destruct d as [v|].
    + eexists. split; [reflexivity|]. intros m e I. apply G; auto.
    + exfalso. apply lookup_none in L. apply L, R. auto.
Qed.
Lemma with_defaults_bad fs bound n : In (n, None) fs -> ~ In n (map fst bound) -> with_defaults fs bound = Err TypeErr.
Proof.
  intros I N. induction fs as [|(m, d) fs IH]; [destruct I|]. cbn.
  destruct I as [E|I].
  - injection E as -> ->. apply lookup_none in N. rewrite N.
    assert (X : forall A (x : res A), (x = Err TypeErr \/ exists l, x = Ok l) -> bind x (fun _ => @Err A TypeErr) = Err TypeErr)
      by (intros A x [->|(l & ->)]; reflexivity).
    apply X. clear. induction fs as [|(m, d) fs IH]; cbn; [eauto|]. destruct IH as [->|(l & ->)]; [cbn; auto|cbn].
    destruct (lookup m bound), d; eauto.
  - rewrite IH by auto. reflexivity.
Qed.

(** ** the signatures are the documented ones *)
Lemma signature_documented k : signature k = documented k.
Proof. destruct k; reflexivity. Qed.
Lemma formals_names k : map fst (formals k) = documented_names k.
Proof.
  unfold formals, documented_names. cbn. rewrite map_app, map_map, signature_documented. reflexivity.
Qed.
Lemma names_nodup k : NoDup (documented_names k).
Proof. destruct k; repeat constructor; cbn; intuition discriminate. Qed.
Lemma formals_in k n : In n (documented_names k) -> n <> "input_data" ->
  exists v, documented_default k n = Some v /\ In (n, Some v) (formals k).
Proof.
  intros I N. unfold documented_default, formals. change (signature k) with (documented k). destruct I as [I|I]; [congruence|].
  assert (ND : NoDup (map fst (documented k ++ [("fill_missing_values", VBool true)]))).
  { pose proof (names_nodup k) as H. unfold documented_names in H. inversion H; subst. rewrite map_app. auto. }
  destruct (lookup n (documented k ++ [("fill_missing_values", VBool true)])) as [v|] eqn:E.
  - exists v. split; auto. apply lookup_some in E; auto. right. apply in_app_or in E as [E|[E|[]]].
    + apply in_or_app. left. apply (in_map (fun p => (fst p, Some (snd p)))) in E. exact E.
    + injection E as <- <-. apply in_or_app. right. cbn. auto.
  - exfalso. apply lookup_none in E. apply E. rewrite map_app. exact I.
Qed.
Lemma parts_body k g h : (forall n, In n (map fst (documented k)) -> g n = h n) ->
  parts (body k g) = (k, map h (map fst (documented k))).
Proof. intro H. destruct k; cbn in *; rewrite ?H by tauto; reflexivity. Qed.

Lemma setting_default k g n v : lookup n g = None -> documented_default k n = Some v -> setting k g n = AVal v.
Proof. unfold setting. intros -> ->. reflexivity. Qed.
Lemma no_missing k n : In (n, None) (formals k) -> n = "input_data".
Proof.
  unfold formals. intros [E|I]; [congruence|]. apply in_app_or in I as [I|[I|[]]]; [|discriminate].
  apply in_map_iff in I as (p & E & _). discriminate.
Qed.

Lemma arguments_proper k pos kw : proper k pos kw ->
  exists l, arguments k pos kw = Ok l /\
    forall n, In n (documented_names k) -> lookup n l = Some (setting k (given k pos kw) n).
Proof.
  intros (L & N & I & D). unfold arguments. rewrite formals_names, by_position_ok by auto. cbn [bind].
  destruct (by_keyword_ok (documented_names k) kw (combine (documented_names k) pos) I N) as (b & E & P). rewrite E. cbn [bind].
  destruct (with_defaults_ok (formals k) b) as (l & EL & PL).
  - intros n H. apply no_missing in H. subst n. eapply Permutation_in; [symmetry; apply Permutation_map; exact P|exact D].
  - rewrite formals_names. apply names_nodup.
  - exists l. split; auto. intros n H.
    assert (LB : forall m, lookup m b = lookup m (given k pos kw)).
    { intro m. symmetry. apply lookup_perm; [exact N|symmetry; exact P]. }
    destruct (string_dec n "input_data") as [->|X].
    + rewrite (PL "input_data" None) by (cbn; auto). f_equal. rewrite LB. unfold setting.
      destruct (lookup _ (given k pos kw)) eqn:Q; [reflexivity|]. apply lookup_none in Q. contradiction.
    + destruct (formals_in k n H X) as (v & E1 & E2). rewrite (PL n (Some v)) by auto. f_equal. rewrite LB. unfold setting. rewrite E1.
      destruct (lookup n _); reflexivity.
Qed.

Lemma call_settings o k pos kw : proper k pos kw ->
  exists c, new o k pos kw
    = Ok (construct o c (as_data (setting k (given k pos kw) "input_data"))
                        (as_val (setting k (given k pos kw) "fill_missing_values"))) /\
    parts c = (k, map (fun n => as_val (setting k (given k pos kw) n)) (map fst (documented k))).
Proof.
  intro P. destruct (arguments_proper k pos kw P) as (l & E & H). unfold new. rewrite E. cbn [bind].
  rewrite (H "input_data") by (cbn; auto). rewrite (H "fill_missing_values") by (right; apply in_or_app; cbn; auto).
  eexists. split; [reflexivity|]. apply parts_body. intros n I.
  rewrite (H n) by (right; apply in_or_app; auto). reflexivity.
Qed.
Lemma combine_keys {A} (names : list string) (pos : list A) :
  map fst (combine names pos) = firstn (List.length pos) names.
Proof. revert names. induction pos as [|a p IH]; intros [|n r]; cbn; try reflexivity. rewrite IH. reflexivity. Qed.
Lemma firstn_nodup {A} n (l : list A) : NoDup l -> NoDup (firstn n l).
Proof.
  intro N. rewrite <- (firstn_skipn n l) in N. revert N. generalize (skipn n l). induction (firstn n l) as [|x q IH]; intros t N; [constructor|].
  cbn in N. inversion N as [|y z N1 N2]; subst. constructor; [intro I; apply N1, in_or_app; auto|eauto].
Qed.
Lemma call_improper o k pos kw : ~ proper k pos kw -> new o k pos kw = Err TypeErr.
Proof.
  intro H. unfold new, arguments. rewrite formals_names.
  destruct (le_dec (List.length pos) (List.length (documented_names k))) as [L|L]; [|rewrite by_position_many by auto; reflexivity].
  rewrite by_position_ok by auto. cbn [bind].
  assert (B : NoDup (map fst (combine (documented_names k) pos))) by (rewrite combine_keys; apply firstn_nodup, names_nodup).
  destruct (by_keyword (documented_names k) kw (combine (documented_names k) pos)) as [b|e] eqn:E.
  - cbn [bind]. assert (DI : {In "input_data" (map fst (given k pos kw))} + {~ In "input_data" (map fst (given k pos kw))}) by (apply in_dec, string_dec).
    assert (Q : ((forall n, In n (map fst kw) -> In n (documented_names k)) /\ NoDup (map fst (given k pos kw)))
             \/ by_keyword (documented_names k) kw (combine (documented_names k) pos) = Err TypeErr).
    { destruct (ListDec.NoDup_dec string_dec (map fst (given k pos kw))) as [N|N];
        [destruct (ListDec.incl_dec string_dec (map fst kw) (documented_names k)) as [I|I]|].
      - left. split; auto.
      - right. apply by_keyword_bad; auto. intros [X _]. apply I. exact X.
      - right. apply by_keyword_bad; auto. intros [_ X]. apply N. exact X. }
    destruct Q as [[I N]|Q]; [|congruence].
    destruct DI as [DI|DI]; [exfalso; apply H; repeat split; auto|].
    destruct (by_keyword_ok (documented_names k) kw (combine (documented_names k) pos) I N) as (b' & E' & P).
    rewrite E in E'. injection E' as <-.
    rewrite (with_defaults_bad (formals k) b "input_data"); [reflexivity|cbn; auto|].
    intro X. apply DI. eapply Permutation_in; [apply Permutation_map; exact P|exact X].
  - destruct (ListDec.NoDup_dec string_dec (map fst (given k pos kw))) as [N|N];
        [destruct (ListDec.incl_dec string_dec (map fst kw) (documented_names k)) as [I|I]|].
    + destruct (by_keyword_ok (documented_names k) kw (combine (documented_names k) pos) I N) as (b' & E' & _). congruence.
    + rewrite by_keyword_bad in E; auto; [injection E as <-; reflexivity|]. intros [X _]. apply I. exact X.
    + rewrite by_keyword_bad in E; auto; [injection E as <-; reflexivity|]. intros [_ X]. apply N. exact X.
Qed.

Lemma parts_inj c c' : parts c = parts c' -> c = c'.
Proof. destruct c, c'; cbn; intro H; try discriminate H; try reflexivity; injection H; intros; subst; reflexivity. Qed.
Lemma proper_dec k pos kw : {proper k pos kw} + {~ proper k pos kw}.
Proof.
  unfold proper. destruct (le_dec (List.length pos) (List.length (documented_names k))); [|right; tauto].
  destruct (ListDec.NoDup_dec string_dec (map fst (given k pos kw))); [|right; tauto].
  destruct (ListDec.incl_dec string_dec (map fst kw) (documented_names k)) as [I|I]; [|right; intros (_ & _ & X & _); apply I; exact X].
  destruct (in_dec string_dec "input_data" (map fst (given k pos kw))); [left|right; tauto]. repeat split; auto.
Qed.
(** two calls with the same settings *)
Lemma call_same o k pos kw pos' kw' : proper k pos kw -> proper k pos' kw' ->
  (forall n, In n (documented_names k) -> setting k (given k pos kw) n = setting k (given k pos' kw') n) ->
  new o k pos kw = new o k pos' kw'.
Proof.
  intros P P' S. destruct (call_settings o k pos kw P) as (c & -> & E). destruct (call_settings o k pos' kw' P') as (c' & -> & E').
  rewrite (S "input_data") by (left; reflexivity). rewrite (S "fill_missing_values") by (right; apply in_or_app; right; left; reflexivity).
  replace c' with c; [reflexivity|]. apply parts_inj. rewrite E, E'. f_equal. apply map_ext_in. intros n I. rewrite S; [reflexivity|].
  right. apply in_or_app. auto.
Qed.
Lemma proper_perm k pos kw kw' : Permutation kw kw' -> proper k pos kw -> proper k pos kw'.
Proof.
  intros P (L & N & I & D).
  assert (Q : Permutation (map fst (given k pos kw)) (map fst (given k pos kw'))) by (apply Permutation_map; unfold given; rewrite P; reflexivity).
  repeat split; auto.
  - eapply Permutation_NoDup; eauto.
  - intros n H. apply I. eapply Permutation_in; [symmetry; apply Permutation_map; exact P|exact H].
  - eapply Permutation_in; eauto.
Qed.
Lemma call_any_order o k pos kw kw' : Permutation kw kw' -> new o k pos kw = new o k pos kw'.
Proof.
  intro P. destruct (proper_dec k pos kw) as [Q|Q].
  - pose proof (proper_perm _ _ _ _ P Q) as Q'. apply call_same; auto. intros n _. unfold setting.
    rewrite (lookup_perm n (given k pos kw) (given k pos kw')); [reflexivity|apply Q|]. unfold given. rewrite P. reflexivity.
  - assert (Q' : ~ proper k pos kw') by (intro X; apply Q; eapply proper_perm; [symmetry; exact P|exact X]).
    rewrite !call_improper; auto.
Qed.
(** the i-th argument by its position or by its name *)
Lemma call_by_name o k pos a kw : (List.length pos < List.length (documented_names k))%nat ->
  new o k (pos ++ [a]) kw = new o k pos ((nth (List.length pos) (documented_names k) "", a) :: kw).
Proof.
  intro L.
  assert (G : given k (pos ++ [a]) kw = given k pos ((nth (List.length pos) (documented_names k) "", a) :: kw)).
  { unfold given. revert L. generalize (documented_names k). induction pos as [|b p IH]; intros [|n r] H; cbn in *; try lia; [destruct r; reflexivity|].
    rewrite IH by lia. reflexivity. }
  assert (E : proper k (pos ++ [a]) kw <-> proper k pos ((nth (List.length pos) (documented_names k) "", a) :: kw)).
  { unfold proper. rewrite G, app_length. cbn [List.length map fst]. split; intros (A & B & C & D); repeat split; auto; try lia.
    - intros n [<-|H]; [apply nth_In; auto|auto].
    - intros n H. apply C. cbn; auto. }
  destruct (proper_dec k (pos ++ [a]) kw) as [P|P].
  - apply call_same; auto; [apply E; auto|]. intros. rewrite G. reflexivity.
  - rewrite !call_improper; auto. intro X. apply P, E, X.
Qed.
(** naming the documented default changes nothing *)
Lemma call_left_out o k pos kw n v : proper k pos kw -> ~ In n (map fst (given k pos kw)) -> documented_default k n = Some v ->
  new o k pos kw = new o k pos ((n, AVal v) :: kw).
Proof.
  intros P N D.
  assert (I : In n (documented_names k)).
  { unfold documented_default in D. unfold documented_names. right. destruct (in_dec string_dec n (map fst (documented k) ++ ["fill_missing_values"])) as [X|X]; auto.
    exfalso. assert (Z : lookup n (documented k ++ [("fill_missing_values", VBool true)]) = None); [|congruence].
    apply lookup_none. rewrite map_app. exact X. }
  assert (Q : Permutation (given k pos ((n, AVal v) :: kw)) ((n, AVal v) :: given k pos kw)) by (unfold given; symmetry; apply Permutation_middle).
  assert (P' : proper k pos ((n, AVal v) :: kw)).
  { destruct P as (A & B & C & E). repeat split; auto.
    - eapply Permutation_NoDup; [symmetry; apply Permutation_map; exact Q|]. cbn. constructor; auto.
    - intros m [<-|H]; auto.
    - eapply Permutation_in; [symmetry; apply Permutation_map; exact Q|]. cbn. auto. }
  apply call_same; auto. intros m _. unfold setting.
  rewrite (lookup_perm m (given k pos ((n, AVal v) :: kw)) ((n, AVal v) :: given k pos kw)); [|apply P'|exact Q].
  cbn [lookup]. destruct (String.eqb_spec m n) as [->|X]; [|reflexivity].
  apply lookup_none in N. rewrite N, D. reflexivity.
Qed.

(** ** only data given *)
Definition plain (k : klass) : ctor := body k (fun n => match documented_default k n with Some v => v | None => VNone end).
Lemma call_plain o k v : new o k [] [("input_data", AData v)] = Ok (construct o (plain k) v (VBool true)).
Proof. destruct k; reflexivity. Qed.
Lemma plain_params k : params_ok (plain k).
Proof. destruct k; intros p I; cbn in I; repeat (destruct I as [<-|I]; [split; reflexivity|]); destruct I. Qed.
Lemma plain_rows k : min_rows (asked (plain k)) = rows_by_default k.
Proof. destruct k; reflexivity. Qed.

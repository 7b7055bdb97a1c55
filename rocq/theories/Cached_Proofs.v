(** Proofs about cached fingerprints and copies. *)
From Coq Require Import ZArith List Ascii String Bool Arith Lia.
From Verif Require Import Base Str Base_Proofs Int64_Model Models_Model Cached_Model Cached_Spec.
Import ListNotations.
Open Scope list_scope.
Open Scope nat_scope.
Local Opaque attr.

Lemma str_eqb_spec : forall a b : str, reflect (a = b) (str_eqb a b).
Proof. intros a b. unfold str_eqb. destruct (list_eq_dec ascii_dec a b); constructor; assumption. Qed.
Lemma str_eqb_ok : forall a b : str, str_eqb a b = true <-> a = b.
Proof. intros a b. destruct (str_eqb_spec a b); split; congruence. Qed.

Lemma dget_dset_same : forall V (d : list (str * V)) k v, dget str_eqb (dset str_eqb d k v) k = Some v.
Proof.
  intros V d k v. induction d as [|[k' v'] d IH]; cbn.
  - destruct (str_eqb_spec k k); congruence.
  - destruct (str_eqb_spec k' k) as [E|N]; cbn.
    + destruct (str_eqb_spec k' k); congruence.
    + destruct (str_eqb_spec k' k); [contradiction|exact IH].
Qed.
Lemma dget_dset_other : forall V (d : list (str * V)) k k' v, k <> k' ->
  dget str_eqb (dset str_eqb d k v) k' = dget str_eqb d k'.
Proof.
  intros V d k k' v N. induction d as [|[k0 v0] d IH]; cbn.
  - destruct (str_eqb_spec k k'); [contradiction|reflexivity].
  - destruct (str_eqb_spec k0 k) as [E|N0]; cbn.
    + subst k0. destruct (str_eqb_spec k k'); [contradiction|reflexivity].
    + destruct (str_eqb_spec k0 k'); [reflexivity|exact IH].
Qed.
Lemma dget_dupdate_other : forall V (u d : list (str * V)) k, ~ In k (map fst u) ->
  dget str_eqb (dupdate str_eqb d u) k = dget str_eqb d k.
Proof.
  intros V u. unfold dupdate. induction u as [|[n v] u IH]; intros d k N; [reflexivity|].
  cbn. rewrite IH; [|intros H; apply N; right; exact H]. apply dget_dset_other. intros ->. apply N. left. reflexivity.
Qed.

(** ** What is kept does not show *)

Lemma fields_of_kept : forall d z, dget str_eqb d attr = None -> fields_of (dset str_eqb d attr (Kept z)) = fields_of d.
Proof.
  intros d z. unfold fields_of. induction d as [|[k e] d IH]; intros H; [reflexivity|]. cbn in H |- *.
  destruct (str_eqb_spec k attr) as [E|N]; [discriminate|]. cbn. f_equal. apply IH. exact H.
Qed.
Lemma read_state : forall fh x, state_of (fst (get_fingerprint fh x)) = state_of x.
Proof.
  intros fh x. unfold get_fingerprint. destruct (dget str_eqb (o_dict x) attr) as [[v|z]|] eqn:G; try reflexivity.
  destruct (fingerprint fh (state_of x)) as [z|e]; [|reflexivity]. unfold state_of. cbn. rewrite fields_of_kept; [reflexivity|exact G].
Qed.

Lemma fingerprint_text : forall fh v w, dump_json v = dump_json w -> fingerprint fh v = fingerprint fh w.
Proof. intros fh v w E. unfold fingerprint. rewrite E. reflexivity. Qed.

(** ** Lists of objects *)

Lemma nth_replace_same : forall A (l : list A) i y, i < List.length l -> nth_error (replace l i y) i = Some y.
Proof.
  intros A l. induction l as [|a l IH]; intros i y L; [cbn in L; lia|]. destruct i as [|i]; [reflexivity|].
  cbn in *. apply IH. lia.
Qed.
Lemma nth_replace_other : forall A (l : list A) i j y, i <> j -> nth_error (replace l i y) j = nth_error l j.
Proof.
  intros A l. induction l as [|a l IH]; intros i j y N; [reflexivity|].
  destruct i as [|i]; destruct j as [|j]; try reflexivity; [contradiction|]. cbn. apply IH. congruence.
Qed.
Lemma replace_length : forall A (l : list A) i y, List.length (replace l i y) = List.length l.
Proof. intros A l. induction l as [|a l IH]; intros [|i] y; cbn; try reflexivity. f_equal. apply IH. Qed.
Lemma nth_replace : forall A (l : list A) i j y x, nth_error (replace l i y) j = Some x ->
  (i = j /\ x = y /\ j < List.length l) \/ (i <> j /\ nth_error l j = Some x).
Proof.
  intros A l i j y x H. destruct (Nat.eq_dec i j) as [->|N].
  - left. assert (j < List.length l) as L.
    { rewrite <- (replace_length A l j y). apply nth_error_Some. congruence. }
    rewrite nth_replace_same in H by exact L. injection H as <-. auto.
  - right. split; [exact N|]. rewrite nth_replace_other in H by exact N. exact H.
Qed.
Lemma nth_app_last : forall A (l : list A) y j x, nth_error (l ++ [y]) j = Some x ->
  nth_error l j = Some x \/ (j = List.length l /\ x = y).
Proof.
  intros A l y j x H. destruct (lt_dec j (List.length l)) as [L|L].
  - left. rewrite nth_error_app1 in H by exact L. exact H.
  - right. rewrite nth_error_app2 in H by lia. destruct (j - List.length l) as [|m] eqn:E.
    + cbn in H. injection H as <-. split; [lia|reflexivity].
    + cbn in H. destruct m; discriminate.
Qed.

Lemma objects_snoc : forall fh h o, objects fh (h ++ [o]) = step fh (objects fh h) o.
Proof. intros fh h o. unfold objects. rewrite fold_left_app. reflexivity. Qed.

(** ** Disciplined histories *)

Definition good (fh : string -> Z) (h : list op) (i : nat) (x : object) : Prop :=
  (forall v, dget str_eqb (o_dict x) attr <> Some (Field v)) /\
  (forall z, dget str_eqb (o_dict x) attr = Some (Kept z) -> fingerprint fh (state_of x) = Ok z /\ asked fh h i).

Lemma good_reads : forall fh h i x, good fh h i x -> snd (get_fingerprint fh x) = fingerprint fh (state_of x).
Proof.
  intros fh h i x [F K]. unfold get_fingerprint. destruct (dget str_eqb (o_dict x) attr) as [[v|z]|] eqn:G.
  - destruct (F v eq_refl).
  - destruct (K z eq_refl) as [E _]. cbn. congruence.
  - destruct (fingerprint fh (state_of x)); reflexivity.
Qed.

Lemma created : forall c fields x, create c fields = Ok x -> dget str_eqb (o_dict x) attr = None.
Proof.
  intros c fields x. unfold create. destruct (existsb (str_eqb attr) (map fst fields)) eqn:X; [discriminate|].
  unfold instantiate. destruct (c_abstract c); [discriminate|]. destruct (instance_fp_fields c fields) as [names|e]; [|discriminate].
  cbn. intros H. injection H as <-. cbn. induction fields as [|[n v] fields IH]; [reflexivity|]. cbn in X |- *.
  apply orb_false_iff in X. destruct X as [X1 X2]. destruct (str_eqb_spec n attr) as [E|N]; [|exact (IH X2)].
  subst n. destruct (str_eqb_spec attr attr); [discriminate|contradiction].
Qed.

Lemma update_names : forall u : list (str * value), map fst (map (fun nv => (fst nv, Field (snd nv))) u) = map fst u.
Proof. intros u. rewrite map_map. apply map_ext. reflexivity. Qed.

Lemma good_copy : forall fh h i x u, good fh h i x -> ~ In attr (map fst u) ->
  (asked fh h i -> same_text (model_copy x u) x) ->
  good fh (h ++ [Copy i u]) (List.length (objects fh h)) (model_copy x u).
Proof.
  intros fh h i x u [F K] N S. unfold good, model_copy. cbn [o_dict].
  rewrite dget_dupdate_other by (rewrite update_names; exact N). split; [exact F|].
  intros z G. destruct (K z G) as [E A]. split; [|apply asked_copied; exact A].
  rewrite <- E. apply fingerprint_text. apply S. exact A.
Qed.

Lemma good_more : forall fh h i x o, good fh h i x -> good fh (h ++ [o]) i x.
Proof. intros fh h i x o [F K]. split; [exact F|]. intros z G. destruct (K z G) as [E A]. split; [exact E|apply asked_before; exact A]. Qed.

Lemma disciplined_good : forall fh h, only_fields h -> changed_before_asked fh h ->
  forall i x, nth_error (objects fh h) i = Some x -> good fh h i x.
Proof.
  intros fh h. induction h as [|o h IH] using rev_ind; intros [NU NR] D i x H; [destruct i; discriminate|].
  assert (forall j y, nth_error (objects fh h) j = Some y -> good fh h j y) as G.
  { apply IH.
    - split; [intros j u J; apply (NU j u)|intros j n v J; apply (NR j n v)]; apply in_or_app; left; exact J.
    - intros h1 h2 j y Y A. destruct (D h1 (h2 ++ [o]) j y Y A) as [D1 D2].
      split; [intros u E; apply D1|intros n v E; apply D2]; rewrite E, <- app_assoc; reflexivity. }
  rewrite objects_snoc in H. destruct o as [c fields|j|j u|j n v]; cbn [step] in H.
  - destruct (create c fields) as [y|e] eqn:C; [|apply good_more; apply G; exact H].
    apply nth_app_last in H. destruct H as [H|[_ ->]]; [apply good_more; apply G; exact H|].
    apply created in C. split; intros w W; congruence.
  - destruct (nth_error (objects fh h) j) as [y|] eqn:Y; [|apply good_more; apply G; exact H].
    apply nth_replace in H. destruct H as [(-> & -> & L)|[_ H]]; [|apply good_more; apply G; exact H].
    pose proof (G i y Y) as Gy. pose proof (good_more fh h i y (Read i) Gy) as Gm.
    unfold get_fingerprint. destruct (dget str_eqb (o_dict y) attr) as [[w|z]|] eqn:K; try exact Gm.
    destruct (fingerprint fh (state_of y)) as [z|e] eqn:F; [|exact Gm]. split.
    + intros w W. cbn [o_dict fst] in W. rewrite dget_dset_same in W. discriminate.
    + intros z' W. cbn [o_dict fst] in W. rewrite dget_dset_same in W. injection W as <-. split; [|apply asked_now; exact L].
      rewrite <- F. f_equal. unfold state_of. cbn [fst o_class o_names o_dict]. rewrite fields_of_kept; [reflexivity|exact K].
  - destruct (nth_error (objects fh h) j) as [y|] eqn:Y; [|apply good_more; apply G; exact H].
    apply nth_app_last in H. destruct H as [H|[-> ->]]; [apply good_more; apply G; exact H|].
    apply good_copy; [apply G; exact Y| |].
    + apply (NU j u). apply in_or_app. right. left. reflexivity.
    + intros A. destruct (D h [] j y Y A) as [D1 _]. apply D1. reflexivity.
  - destruct (nth_error (objects fh h) j) as [y|] eqn:Y; [|apply good_more; apply G; exact H].
    apply nth_replace in H. destruct H as [(-> & -> & L)|[_ H]]; [|apply good_more; apply G; exact H].
    destruct (G i y Y) as [F K]. assert (n <> attr) as N. { apply (NR i n v). apply in_or_app. right. left. reflexivity. }
    unfold good, refill. cbn [o_dict]. rewrite dget_dset_other by exact N. split; [exact F|].
    intros z W. destruct (K z W) as [E A]. split; [|apply asked_before; exact A].
    rewrite <- E. apply fingerprint_text. destruct (D h [] i y Y A) as [_ D2]. apply (D2 n v). reflexivity.
Qed.

Theorem disciplined : forall fh h i x, only_fields h -> changed_before_asked fh h ->
  nth_error (objects fh h) i = Some x -> snd (get_fingerprint fh x) = fingerprint fh (state_of x).
Proof. intros fh h i x O D H. apply (good_reads fh h i). apply disciplined_good; assumption. Qed.

(** ** Asking changes no field *)

Lemma map_replace : forall A B (f : A -> B) l i y, map f (replace l i y) = replace (map f l) i (f y).
Proof. intros A B f l. induction l as [|a l IH]; intros [|i] y; cbn; try reflexivity. f_equal. apply IH. Qed.
Lemma replace_self : forall A (l : list A) i x, nth_error l i = Some x -> replace l i x = l.
Proof.
  intros A l. induction l as [|a l IH]; intros [|i] x H; cbn in *; try discriminate; [injection H as ->; reflexivity|].
  f_equal. apply IH. exact H.
Qed.

(** Two objects with the same fields, apart from what is kept. *)
Definition alike (x y : object) : Prop :=
  o_class x = o_class y /\ o_names x = o_names y /\
  filter (fun ke => negb (str_eqb (fst ke) attr)) (o_dict x) = filter (fun ke => negb (str_eqb (fst ke) attr)) (o_dict y).
Lemma alike_refl : forall x, alike x x.
Proof. intros x. repeat split. Qed.
Notation rest d := (filter (fun ke : str * entry => negb (str_eqb (fst ke) attr)) d).
Lemma rest_other : forall d n e, n <> attr -> rest (dset str_eqb d n e) = dset str_eqb (rest d) n e.
Proof.
  intros d n e N. induction d as [|[k x] d IH]; cbn.
  - destruct (str_eqb_spec n attr); [contradiction|reflexivity].
  - destruct (str_eqb_spec k n) as [E|M].
    + subst k. cbn. destruct (str_eqb_spec n attr); [contradiction|]. cbn. destruct (str_eqb_spec n n); [reflexivity|contradiction].
    + cbn. destruct (str_eqb_spec k attr) as [E|K]; cbn; [exact IH|]. destruct (str_eqb_spec k n); [contradiction|]. f_equal. exact IH.
Qed.
Lemma rest_update : forall u d, ~ In attr (map fst u) -> rest (dupdate str_eqb d u) = dupdate str_eqb (rest d) u.
Proof.
  unfold dupdate. induction u as [|[n e] u IH]; intros d N; [reflexivity|]. cbn [fold_left fst snd].
  rewrite IH; [|intros H; apply N; right; exact H]. rewrite rest_other; [reflexivity|]. intros ->. apply N. left. reflexivity.
Qed.
Lemma rest_kept : forall d z, rest (dset str_eqb d attr (Kept z)) = rest d.
Proof.
  intros d z. induction d as [|[k x] d IH]; cbn.
  - reflexivity.
  - destruct (str_eqb_spec k attr) as [E|K]; cbn.
    + subst k. destruct (str_eqb_spec attr attr); [reflexivity|contradiction].
    + destruct (str_eqb_spec k attr); [contradiction|]. cbn. f_equal. exact IH.
Qed.
Lemma read_alike : forall fh x y, alike x y -> alike (fst (get_fingerprint fh x)) y.
Proof.
  intros fh x y (C & N & D). unfold get_fingerprint. destruct (dget str_eqb (o_dict x) attr) as [[v|z]|] eqn:G; try (repeat split; assumption).
  destruct (fingerprint fh (state_of x)) as [z|e]; [|repeat split; assumption]. repeat split; cbn; try assumption. rewrite rest_kept. exact D.
Qed.
Lemma Forall2_nth : forall A B (R : A -> B -> Prop) l m i x, Forall2 R l m -> nth_error l i = Some x ->
  exists y, nth_error m i = Some y /\ R x y.
Proof.
  intros A B R l m i x F. revert i. induction F as [|a b l m Rab F IH]; intros [|i] H; cbn in *; try discriminate.
  - injection H as <-. eauto.
  - apply IH. exact H.
Qed.
Lemma Forall2_none : forall A B (R : A -> B -> Prop) l m i, Forall2 R l m -> nth_error l i = None -> nth_error m i = None.
Proof.
  intros A B R l m i F. revert i. induction F as [|a b l m Rab F IH]; intros [|i] H; cbn in *; try discriminate; [reflexivity..|].
  apply IH. exact H.
Qed.
Lemma Forall2_replace : forall A B (R : A -> B -> Prop) l m i x y, Forall2 R l m -> R x y -> Forall2 R (replace l i x) (replace m i y).
Proof. intros A B R l m i x y F Rxy. revert i. induction F as [|a b l m Rab F IH]; intros [|i]; cbn; constructor; auto. Qed.
Lemma Forall2_replace_left : forall A B (R : A -> B -> Prop) l m i x, Forall2 R l m ->
  (forall y, nth_error m i = Some y -> R x y) -> Forall2 R (replace l i x) m.
Proof.
  intros A B R l m i x F. revert i. induction F as [|a b l m Rab F IH]; intros [|i] H; cbn; constructor; auto.
Qed.
Lemma alike_run : forall fh h, only_fields h -> Forall2 alike (objects fh h) (objects fh (no_reads h)).
Proof.
  intros fh h. induction h as [|o h IH] using rev_ind; intros [NU NR]; [constructor|].
  assert (Forall2 alike (objects fh h) (objects fh (no_reads h))) as A.
  { apply IH. split; [intros j u J; apply (NU j u)|intros j n v J; apply (NR j n v)]; apply in_or_app; left; exact J. }
  unfold no_reads in *. rewrite filter_app. rewrite objects_snoc. destruct o as [c fields|j|j u|j n v]; cbn [filter].
  - rewrite objects_snoc. cbn [step]. destruct (create c fields) as [y|e]; [|exact A].
    apply Forall2_app; [exact A|constructor; [apply alike_refl|constructor]].
  - rewrite app_nil_r. cbn [step]. destruct (nth_error (objects fh h) j) as [y|] eqn:Y; [|exact A].
    apply Forall2_replace_left; [exact A|]. intros z Z. destruct (Forall2_nth _ _ _ _ _ _ _ A Y) as (z' & Z' & R).
    assert (z' = z) by congruence. subst z'. apply read_alike. exact R.
  - rewrite objects_snoc. cbn [step]. destruct (nth_error (objects fh h) j) as [y|] eqn:Y.
    + destruct (Forall2_nth _ _ _ _ _ _ _ A Y) as (z & Z & (C & N & D)). rewrite Z. apply Forall2_app; [exact A|].
      constructor; [|constructor]. unfold model_copy. repeat split; cbn; try assumption.
      assert (~ In attr (map fst (map (fun nv : str * value => (fst nv, Field (snd nv))) u))) as NN.
      { rewrite update_names. apply (NU j u). apply in_or_app. right. left. reflexivity. }
      rewrite !rest_update by exact NN. rewrite D. reflexivity.
    + rewrite (Forall2_none _ _ _ _ _ _ A Y). exact A.
  - rewrite objects_snoc. cbn [step]. assert (n <> attr) as N0. { apply (NR j n v). apply in_or_app. right. left. reflexivity. }
    destruct (nth_error (objects fh h) j) as [y|] eqn:Y.
    + destruct (Forall2_nth _ _ _ _ _ _ _ A Y) as (z & Z & (C & N & D)). rewrite Z. apply Forall2_replace; [exact A|].
      unfold refill. repeat split; cbn; try assumption. rewrite !rest_other by exact N0. rewrite D. reflexivity.
    + rewrite (Forall2_none _ _ _ _ _ _ A Y). exact A.
Qed.

(** Reachable objects have no field of that name. *)
Definition clean (x : object) : Prop := forall v, ~ In (attr, Field v) (o_dict x).
Lemma clean_set : forall (d : list (str * entry)) n e, (forall v, ~ In (attr, Field v) d) ->
  (n = attr -> exists z, e = Kept z) -> forall v, ~ In (attr, Field v) (dset str_eqb d n e).
Proof.
  intros d n e C N v. induction d as [|[k x] d IH]; cbn.
  - intros [E|[]]. injection E as E1 E2. destruct (N E1) as [z Z]. congruence.
  - destruct (str_eqb_spec k n) as [E|M]; cbn; intros [H|H].
    + injection H as H1 H2. destruct (N (eq_trans (eq_sym E) H1)) as [z Z]. congruence.
    + apply (C v). right. exact H.
    + apply (C v). left. exact H.
    + apply IH; [|exact H]. intros w W. apply (C w). right. exact W.
Qed.
Lemma clean_update : forall (u : list (str * entry)) d, (forall v, ~ In (attr, Field v) d) -> ~ In attr (map fst u) ->
  forall v, ~ In (attr, Field v) (dupdate str_eqb d u).
Proof.
  unfold dupdate. induction u as [|[n e] u IH]; intros d C N; [exact C|]. cbn [fold_left fst snd]. apply IH.
  - apply clean_set; [exact C|]. intros ->. destruct N. left. reflexivity.
  - intros H. apply N. right. exact H.
Qed.
Lemma clean_run : forall fh h, only_fields h -> Forall clean (objects fh h).
Proof.
  intros fh h. induction h as [|o h IH] using rev_ind; intros [NU NR]; [constructor|].
  assert (Forall clean (objects fh h)) as A.
  { apply IH. split; [intros j u J; apply (NU j u)|intros j n v J; apply (NR j n v)]; apply in_or_app; left; exact J. }
  assert (forall j y, nth_error (objects fh h) j = Some y -> clean y) as An.
  { intros j y Y. apply nth_error_In in Y. rewrite Forall_forall in A. apply A. exact Y. }
  assert (forall j y, clean y -> Forall clean (replace (objects fh h) j y)) as Ar.
  { intros j y Cy. clear - A Cy. revert j. induction A as [|a l Ca A IH]; intros [|j]; cbn; constructor; auto. }
  rewrite objects_snoc. destruct o as [c fields|j|j u|j n v]; cbn [step].
  - destruct (create c fields) as [y|e] eqn:C; [|exact A]. apply Forall_app. split; [exact A|]. constructor; [|constructor].
    unfold create in C. destruct (existsb (str_eqb attr) (map fst fields)) eqn:X; [discriminate|].
    unfold instantiate in C. destruct (c_abstract c); [discriminate|]. destruct (instance_fp_fields c fields) as [names|e]; [|discriminate].
    cbn in C. injection C as <-. intros v V. cbn in V. apply in_map_iff in V. destruct V as ([n w] & E & I). injection E as E1 _. cbn in E1.
    assert (existsb (str_eqb attr) (map fst fields) = true) as Y; [|congruence].
    apply existsb_exists. exists n. split; [apply (in_map fst) in I; exact I|]. apply str_eqb_ok. congruence.
  - destruct (nth_error (objects fh h) j) as [y|] eqn:Y; [|exact A]. apply Ar. pose proof (An j y Y) as Cy.
    unfold get_fingerprint. destruct (dget str_eqb (o_dict y) attr) as [[v|z]|]; try exact Cy.
    destruct (fingerprint fh (state_of y)) as [z|e]; [|exact Cy]. intros v. cbn. apply clean_set; [exact Cy|]. eauto.
  - destruct (nth_error (objects fh h) j) as [y|] eqn:Y; [|exact A]. apply Forall_app. split; [exact A|]. constructor; [|constructor].
    intros v. unfold model_copy. cbn [o_dict]. apply clean_update; [apply (An j); exact Y|]. rewrite update_names.
    apply (NU j u). apply in_or_app. right. left. reflexivity.
  - destruct (nth_error (objects fh h) j) as [y|] eqn:Y; [|exact A]. apply Ar. intros w. unfold refill. cbn [o_dict].
    apply clean_set; [apply (An j); exact Y|]. intros E. destruct (NR j n v); [|exact E]. apply in_or_app. right. left. reflexivity.
Qed.
Lemma fields_rest : forall d, (forall v, ~ In (attr, Field v) d) -> fields_of d = fields_of (rest d).
Proof.
  unfold fields_of. induction d as [|[k e] d IH]; intros C; [reflexivity|]. cbn.
  destruct (str_eqb_spec k attr) as [E|N]; cbn.
  - subst k. destruct e as [v|z]; [destruct (C v); left; reflexivity|]. cbn. apply IH. intros v H. apply (C v). right. exact H.
  - f_equal. apply IH. intros v H. apply (C v). right. exact H.
Qed.
Theorem reads_change_no_field : forall fh h, only_fields h ->
  map state_of (objects fh h) = map state_of (objects fh (no_reads h)).
Proof.
  intros fh h O. pose proof (alike_run fh h O) as A. pose proof (clean_run fh h O) as C1.
  assert (only_fields (no_reads h)) as O'.
  { destruct O as [NU NR]. split; [intros i u I; apply (NU i u)|intros i n v I; apply (NR i n v)]; apply filter_In in I; apply I. }
  pose proof (clean_run fh (no_reads h) O') as C2. revert C1 C2.
  induction A as [|x y l m R A IH]; intros C1 C2; [reflexivity|]. inversion C1; subst. inversion C2; subst. cbn. f_equal; [|apply IH; assumption].
  destruct R as (C & N & D). unfold state_of. rewrite C, N. f_equal. rewrite fields_rest by assumption. rewrite (fields_rest (o_dict y)) by assumption.
  rewrite D. reflexivity.
Qed.

(** ** Copies of what has been asked *)

Lemma kept_after_read : forall fh x z, snd (get_fingerprint fh x) = Ok z ->
  dget str_eqb (o_dict (fst (get_fingerprint fh x))) attr = Some (Kept z).
Proof.
  intros fh x z. unfold get_fingerprint. destruct (dget str_eqb (o_dict x) attr) as [[v|z']|] eqn:G; cbn.
  - discriminate.
  - intros H. injection H as ->. exact G.
  - destruct (fingerprint fh (state_of x)) as [z'|e]; cbn; [|discriminate]. intros H. injection H as ->. apply dget_dset_same.
Qed.
Lemma length_run_read : forall fh h i, List.length (objects fh (h ++ [Read i])) = List.length (objects fh h).
Proof.
  intros fh h i. rewrite objects_snoc. cbn. destruct (nth_error (objects fh h) i); [apply replace_length|reflexivity].
Qed.
Lemma updated_field : forall (u : list (str * value)) d n v, In (n, v) u -> NoDup (map fst u) ->
  In (n, Field v) (dupdate str_eqb d (map (fun nv => (fst nv, Field (snd nv))) u)).
Proof.
  intros u d n v I ND.
  assert (forall d, In (n, Field v) (dset str_eqb d n (Field v))) as S.
  { clear. intros d. induction d as [|[k e] d IH]; cbn; [left; reflexivity|].
    destruct (str_eqb_spec k n) as [->|]; [left; reflexivity|right; exact IH]. }
  assert (forall (u : list (str * value)) d, In (n, Field v) d -> ~ In n (map fst u) ->
    In (n, Field v) (dupdate str_eqb d (map (fun nv => (fst nv, Field (snd nv))) u))) as P.
  { clear. unfold dupdate. induction u as [|[k w] u IH]; intros d I N; [exact I|]. cbn [map fold_left fst snd]. apply IH.
    - clear IH. induction d as [|[k' e] d IHd]; [destruct I|]. cbn. destruct (str_eqb_spec k' k) as [E|M].
      + destruct I as [I|I]; [|right; exact I]. injection I as -> ->. destruct N. left. cbn. congruence.
      + destruct I as [I|I]; [left; exact I|right; apply IHd; exact I].
    - intros H. apply N. right. exact H. }
  revert d. unfold dupdate. induction u as [|[k w] u IH]; intros d; [destruct I|]. cbn in ND. inversion ND as [|? ? NI ND']; subst.
  cbn [map fold_left fst snd]. destruct I as [I|I].
  - injection I as -> ->. apply P; [apply S|exact NI].
  - apply IH; assumption.
Qed.
Theorem copied_stale : forall fh h i x u z, nth_error (objects fh h) i = Some x -> snd (get_fingerprint fh x) = Ok z ->
  ~ In $"fingerprint" (map fst u) -> NoDup (map fst u) ->
  exists y, nth_error (objects fh (h ++ [Read i; Copy i u])) (List.length (objects fh h)) = Some y /\
    snd (get_fingerprint fh y) = Ok z /\ forall n v, In (n, v) u -> has y n v.
Proof.
  intros fh h i x u z X Z N ND. exists (model_copy (fst (get_fingerprint fh x)) u). split; [|split].
  - change (h ++ [Read i; Copy i u]) with (h ++ ([Read i] ++ [Copy i u])). rewrite app_assoc. rewrite objects_snoc.
    rewrite objects_snoc. cbn [step]. rewrite X. rewrite nth_replace_same by (apply nth_error_Some; congruence).
    rewrite nth_error_app2 by (rewrite replace_length; lia). rewrite replace_length. rewrite Nat.sub_diag. reflexivity.
  - unfold get_fingerprint at 1. unfold model_copy at 1. cbn [o_dict].
    rewrite dget_dupdate_other by (rewrite update_names; exact N). rewrite (kept_after_read fh x z Z). reflexivity.
  - intros n v I. unfold has, model_copy. cbn [o_dict]. apply updated_field; assumption.
Qed.

(** ** Copies that change only fields outside the fingerprint *)

Definition shown (c : class) (d : list (str * entry)) (n : str) : option json :=
  dget str_eqb (filter (fun nj => negb (excluded c (fst nj))) (map (fun nv => (fst nv, serialize (snd nv))) (fields_of d))
                ++ [(type_field, JStr (c_name c))]) n.
Lemma shown_set_field : forall c d k v n, k <> n -> shown c (dset str_eqb d k (Field v)) n = shown c d n.
Proof.
  intros c d k v n N. unfold shown, fields_of. induction d as [|[k' e] d IH]; cbn.
  - destruct (excluded c k); cbn; [reflexivity|]. destruct (str_eqb_spec k n); [contradiction|reflexivity].
  - destruct (str_eqb_spec k' k) as [E|M]; cbn.
    + subst k'. destruct e as [w|z]; cbn; destruct (excluded c k); cbn; try reflexivity;
        destruct (str_eqb_spec k n); try contradiction; reflexivity.
    + destruct e as [w|z]; cbn; [|exact IH]. destruct (excluded c k'); cbn; [exact IH|]. destruct (str_eqb k' n); [reflexivity|exact IH].
Qed.
Lemma shown_update : forall c (u : list (str * value)) d n, ~ In n (map fst u) ->
  shown c (dupdate str_eqb d (map (fun nv => (fst nv, Field (snd nv))) u)) n = shown c d n.
Proof.
  intros c. unfold dupdate. induction u as [|[k v] u IH]; intros d n N; [reflexivity|]. cbn [map fold_left fst snd].
  rewrite IH; [|intros H; apply N; right; exact H]. apply shown_set_field. intros ->. apply N. left. reflexivity.
Qed.
Theorem unseen_update : forall x u, (forall n, In n (map fst u) -> ~ In n (o_names x)) -> same_text (model_copy x u) x.
Proof.
  intros x u N. unfold same_text, dump_json. f_equal. unfold state_of, model_copy. cbn [o_class o_names o_dict serialize]. f_equal.
  fold (fields_of (dupdate str_eqb (o_dict x) (map (fun nv => (fst nv, Field (snd nv))) u))).
  assert (forall l, (forall n, In n l -> ~ In n (map fst u)) ->
    flat_map (fun n => match shown (o_class x) (dupdate str_eqb (o_dict x) (map (fun nv => (fst nv, Field (snd nv))) u)) n with Some j => [(n, j)] | None => [] end) l =
    flat_map (fun n => match shown (o_class x) (o_dict x) n with Some j => [(n, j)] | None => [] end) l) as F.
  { induction l as [|n l IH]; intros H; [reflexivity|]. cbn [flat_map]. rewrite shown_update by (apply H; left; reflexivity).
    f_equal. apply IH. intros m M. apply H. right. exact M. }
  apply F. intros n I J. exact (N n J I).
Qed.

(** ** Changes in place after asking *)

Theorem refilled_stale : forall fh h i x n v z, nth_error (objects fh h) i = Some x -> snd (get_fingerprint fh x) = Ok z ->
  n <> $"fingerprint" ->
  exists y, nth_error (objects fh (h ++ [Read i; Refill i n v])) i = Some y /\ snd (get_fingerprint fh y) = Ok z /\ has y n v.
Proof.
  intros fh h i x n v z X Z N. exists (refill (fst (get_fingerprint fh x)) n v). split; [|split].
  - change (h ++ [Read i; Refill i n v]) with (h ++ ([Read i] ++ [Refill i n v])). rewrite app_assoc. rewrite objects_snoc.
    rewrite objects_snoc. cbn [step]. rewrite X. assert (i < List.length (objects fh h)) as L by (apply nth_error_Some; congruence).
    rewrite nth_replace_same by exact L. apply nth_replace_same. rewrite replace_length. exact L.
  - unfold get_fingerprint at 1. unfold refill at 1. cbn [o_dict].
    rewrite dget_dset_other by exact N. rewrite (kept_after_read fh x z Z). reflexivity.
  - unfold has, refill. cbn [o_dict]. generalize (o_dict (fst (get_fingerprint fh x))). intros d.
    induction d as [|[k e] d IH]; cbn; [left; reflexivity|]. destruct (str_eqb_spec k n) as [->|]; [left; reflexivity|right; exact IH].
Qed.

(** ** Snapshot ids *)

Lemma xor_start : forall l a, fold_left Z.lxor l a = Z.lxor a (fold_left Z.lxor l 0%Z).
Proof.
  induction l as [|x l IH]; intros a; cbn [fold_left]; [rewrite Z.lxor_0_r; reflexivity|].
  rewrite IH. rewrite (IH (Z.lxor 0 x)). rewrite Z.lxor_0_l. apply Z.lxor_assoc.
Qed.
Lemma mapM_splits : forall (l1 l2 : list (result Z)) r, mapM (fun x => x) (l1 ++ l2) = Ok r ->
  exists r1 r2, mapM (fun x => x) l1 = Ok r1 /\ mapM (fun x => x) l2 = Ok r2 /\ r = r1 ++ r2.
Proof.
  induction l1 as [|a l1 IH]; intros l2 r H; [exists [], r; cbn; auto|]. cbn in H |- *. destruct a as [a|e]; [|discriminate]. cbn in H |- *.
  destruct (mapM (fun x => x) (l1 ++ l2)) as [r'|e] eqn:M; [|discriminate]. cbn in H. injection H as <-.
  destruct (IH l2 r' M) as (r1 & r2 & M1 & M2 & ->). exists (a :: r1), r2. rewrite M1. cbn. auto.
Qed.
Theorem ids_follow_reads : forall fh g before after key ps x y z1 z2 a b,
  snd (get_fingerprint fh x) = Ok z1 -> snd (get_fingerprint fh y) = Ok z2 -> z1 <> z2 ->
  snapshot_id fh g (before ++ AnArtifact x key ps :: after) = Ok a ->
  snapshot_id fh g (before ++ AnArtifact y key ps :: after) = Ok b -> a <> b.
Proof.
  intros fh g before after key ps x y z1 z2 a b X Y N A B. unfold snapshot_id in A, B. rewrite flat_map_app in A, B.
  cbn [flat_map parts_of app] in A, B. rewrite X in A. rewrite Y in B.
  set (R := from_string fh key :: _) in A. change (from_string fh key :: _) with R in B at 1.
  assert (forall z r (r0 : result Z) l1 l2, r0 = Ok z -> rmap (fun l => fold_left Z.lxor (tl l) (hd 0%Z l))
    (mapM (fun x => x) (snd (get_fingerprint fh g) :: l1 ++ r0 :: l2)) = Ok r ->
    exists zg m1 m2, snd (get_fingerprint fh g) = Ok zg /\ mapM (fun x => x) l1 = Ok m1 /\ mapM (fun x => x) l2 = Ok m2 /\
      r = Z.lxor z (Z.lxor (fold_left Z.lxor m1 zg) (fold_left Z.lxor m2 0%Z))) as S.
  { intros z r r0 l1 l2 R0 H. subst r0. destruct (mapM (fun x => x) (snd (get_fingerprint fh g) :: l1 ++ Ok z :: l2)) as [m|e] eqn:M; [|discriminate]. cbn in H. injection H as <-.
    cbn in M. destruct (snd (get_fingerprint fh g)) as [zg|e]; [|discriminate]. cbn in M.
    destruct (mapM (fun x => x) (l1 ++ Ok z :: l2)) as [m'|e] eqn:M'; [|discriminate]. cbn in M. injection M as <-.
    apply mapM_splits in M'. destruct M' as (m1 & m2 & M1 & M2 & ->). cbn in M2.
    destruct (mapM (fun x => x) l2) as [m2'|e] eqn:M2'; [|discriminate]. cbn in M2. injection M2 as <-.
    exists zg, m1, m2'. repeat split; try assumption. cbn [tl hd]. rewrite fold_left_app. cbn [fold_left].
    rewrite xor_start. rewrite <- !Z.lxor_assoc. f_equal. apply Z.lxor_comm. }
  destruct (S z1 a (Ok z1) _ _ eq_refl A) as (zg & m1 & m2 & G & M1 & M2 & ->).
  destruct (S z2 b (Ok z2) _ _ eq_refl B) as (zg' & m1' & m2' & G' & M1' & M2' & ->).
  assert (zg' = zg) by congruence. assert (m1' = m1) by congruence. assert (m2' = m2) by congruence. subst.
  intros E. apply N. revert E. generalize (Z.lxor (fold_left Z.lxor m1 zg) (fold_left Z.lxor m2 0%Z)). intros t E.
  apply (f_equal (fun q => Z.lxor q t)) in E. rewrite !Z.lxor_assoc, !Z.lxor_nilpotent, !Z.lxor_0_r in E. exact E.
Qed.

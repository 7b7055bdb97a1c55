From Coq Require Import ZArith List Ascii String Bool Lia Arith.
From Verif Require Import Base Str Str_Proofs Base_Proofs Utils_Model Hints_Model Hints_Spec Hints_Proofs Types_Model Partitions_Model PyTypes_Model
  PyTypes_Proofs IO_Proofs Dispatch_Model Views_Model Views_Spec Views_Proofs Producers_Model Producers_Spec.
Import ListNotations.
Open Scope list_scope.

Lemma mem_In : forall x l, mem x l = true <-> In x l.
Proof.
  intros x l. unfold mem. rewrite existsb_exists. split.
  - intros (y & I & E). apply str_eqb_spec in E. subst. exact I.
  - intro I. exists x. split; [exact I|apply str_eqb_refl].
Qed.
Lemma mem_false : forall x l, mem x l = false <-> ~ In x l.
Proof. intros x l. rewrite <- mem_In. destruct (mem x l); split; congruence. Qed.
Lemma in_dec_mem : forall (x : str) l, (if in_dec (list_eq_dec ascii_dec) x l then false else true) = negb (mem x l).
Proof.
  intros x l. destruct (in_dec (list_eq_dec ascii_dec) x l) as [I|N]; destruct (mem x l) eqn:E; try reflexivity.
  - apply mem_false in E. contradiction.
  - apply mem_In in E. contradiction.
Qed.
Lemma proper_is : forall H (ps : list (parameter H)), proper ps = without_owner ps.
Proof. intros H ps. unfold proper, without_owner, owners. apply filter_ext. intro p. apply in_dec_mem. Qed.

(** * Partitioning *)
Lemma fclass_eqb_spec : forall a b, fclass_eqb a b = true <-> a = b.
Proof.
  intros a b. destruct a, b; cbn; try (split; congruence). destruct w, w0; cbn; split; congruence.
Qed.
Lemma key_types_NoDup : forall t k, key_types t = Ok k -> NoDup (map fst k).
Proof.
  intros t k H. unfold key_types in H. destruct t; try (injection H as <-; constructor).
  destruct (partition_fields _) as [fs|]; [|discriminate]. cbn [bind types_from] in H.
  destruct (mapM _ _) as [l|]; [|discriminate]. injection H as <-. apply dict_of_NoDup. exact str_eqb_spec.
Qed.
Lemma key_types_eqb_spec : forall a b, NoDup (map fst a) -> NoDup (map fst b) -> (key_types_eqb a b = true <-> same_keys a b).
Proof.
  intros a b Na Nb. unfold key_types_eqb. rewrite andb_true_iff, !forallb_forall. split.
  - intros [X Y] n. destruct (dget str_eqb a n) as [c|] eqn:E.
    + apply (dget_In _ str_eqb_spec) in E. specialize (X _ E). cbn [fst snd] in X. destruct (dget str_eqb b n) as [c'|]; [|discriminate].
      apply fclass_eqb_spec in X. congruence.
    + destruct (dget str_eqb b n) as [c|] eqn:F; [|reflexivity]. apply (dget_In _ str_eqb_spec) in F. specialize (Y _ F). cbn [fst snd] in Y.
      rewrite E in Y. discriminate.
  - intro S. split; intros [n c] I; cbn [fst snd].
    + apply (dget_NoDup _ str_eqb_spec) in I; [|exact Na]. rewrite <- S, I. apply fclass_eqb_spec. reflexivity.
    + apply (dget_NoDup _ str_eqb_spec) in I; [|exact Nb]. rewrite S, I. apply fclass_eqb_spec. reflexivity.
Qed.

Lemma anyM_false_iff : forall T (f : T -> result bool) l, anyM f l = Ok false <-> forall x, In x l -> f x = Ok false.
Proof.
  intros T f l. induction l as [|x l IH]; cbn [anyM]; [split; [intros _ x []|reflexivity]|]. split.
  - intros H y [<-|I]; destruct (f x) as [[]|] eqn:E; try discriminate; cbn [bind] in H; [reflexivity|]. apply IH; assumption.
  - intro H. rewrite (H x (or_introl eq_refl)). cbn [bind]. apply IH. intros y I. apply H. right. exact I.
Qed.
Lemma allM_true_iff : forall T (f : T -> result bool) l, allM f l = Ok true <-> forall x, In x l -> f x = Ok true.
Proof.
  intros T f l. induction l as [|x l IH]; cbn [allM]; [split; [intros _ x []|reflexivity]|]. split.
  - intros H y [<-|I]; destruct (f x) as [[]|] eqn:E; try discriminate; cbn [bind] in H; [reflexivity|]. apply IH; assumption.
  - intro H. rewrite (H x (or_introl eq_refl)). cbn [bind]. apply IH. intros y I. apply H. right. exact I.
Qed.
Lemma Forall2_combine : forall T U (R : T -> U -> Prop) l m, Forall2 R l m <-> List.length l = List.length m /\ forall x y, In (x, y) (combine l m) -> R x y.
Proof.
  induction l as [|x l IH]; intros m; split.
  - intro H. inversion H. split; [reflexivity|intros a b []].
  - intros [L _]. destruct m; [constructor|discriminate].
  - intro H. inversion H; subst. apply IH in H4. destruct H4 as [L X]. cbn. split; [congruence|]. intros a b [E|I]; [injection E as <- <-; assumption|auto].
  - intros [L X]. destruct m as [|y m]; [discriminate|]. constructor; [apply X; left; reflexivity|]. apply IH. cbn in L. split; [congruence|].
    intros a b I. apply X. right. exact I.
Qed.
Lemma Forall2_same : forall T U (R S : T -> U -> Prop), (forall x y, R x y <-> S x y) -> forall l m, Forall2 R l m <-> Forall2 S l m.
Proof. intros T U R S E l m. split; induction 1; constructor; auto; apply E; assumption. Qed.
Lemma Forall2_same_In : forall T U (R S : T -> U -> Prop) l m, (forall x y, In x l -> (R x y <-> S x y)) -> (Forall2 R l m <-> Forall2 S l m).
Proof.
  intros T U R S l. induction l as [|x l IH]; intros m E; (split; intro H; inversion H; subst; constructor).
  - apply E; [left; reflexivity|assumption].
  - apply IH; [|assumption]. intros a b I. apply E. right. exact I.
  - apply E; [left; reflexivity|assumption].
  - apply IH; [|assumption]. intros a b I. apply E. right. exact I.
Qed.
Lemma Forall2_right : forall T U (R : T -> U -> Prop) l m, Forall2 R l m -> forall y, In y m -> exists x, In x l /\ R x y.
Proof. induction 1; intros z []; [subst; eexists; split; [left; reflexivity|assumption]|]. destruct (IHForall2 z H1) as (a & I & X). exists a. split; [right|]; assumption. Qed.
Lemma Forall2_left : forall T U (R : T -> U -> Prop) l m, Forall2 R l m -> forall x, In x l -> exists y, In y m /\ R x y.
Proof. induction 1; intros z []; [subst; eexists; split; [left; reflexivity|assumption]|]. destruct (IHForall2 z H1) as (a & I & X). exists a. split; [right|]; assumption. Qed.

Section Producers.
  Context {V A : Type} (from_annotation : annotation V A -> mode -> result (view V A)) (aeqb : A -> A -> bool)
    (aeqb_spec : forall a b, aeqb a b = true <-> a = b) (same : phint -> phint -> bool).
  Notation annotation := (annotation V A).
  Notation view := (view V A).
  Notation definition := (definition V A).
  Notation producer_class := (producer_class V A).

  Lemma fields_iff : forall (fields : list (str * field A)) ins, validate_fields fields = Ok ins <->
    Forall2 (fun nf na => nf = (fst na, Field (FArtifact (snd na)) true))
      (filter (fun nf => if in_dec (list_eq_dec ascii_dec) (fst nf) [$"annotations"; $"version"] then false else true) fields) ins.
  Proof.
    intros fields ins. unfold validate_fields. rewrite mapM_iff. unfold reserved.
    rewrite (filter_ext (fun nf : str * field A => if in_dec (list_eq_dec ascii_dec) (fst nf) [$"annotations"; $"version"] then false else true)
      (fun nf => negb (mem (fst nf) [$"annotations"; $"version"]))) by (intro nf; apply in_dec_mem).
    apply Forall2_same. intros [n [h r]] [n' a]. unfold validate_field. cbn [f_hint f_required fst snd]. destruct h as [x| |].
    - destruct r; split; intro H; inversion H; reflexivity.
    - split; intro H; inversion H.
    - split; intro H; inversion H.
  Qed.
  Lemma keyword_iff : forall k, by_keyword k = true <-> k = PositionalOrKeyword \/ k = KeywordOnly.
  Proof. intros []; cbn; split; auto; try discriminate; intros [X|X]; discriminate. Qed.
  Lemma position_iff : forall k, by_position k = true <-> k = PositionalOnly \/ k = PositionalOrKeyword.
  Proof. intros []; cbn; split; auto; try discriminate; intros [X|X]; discriminate. Qed.
  Lemma parameter_iff : forall H R (validator : str -> H -> result R) p r, validate_parameter validator p = Ok r <->
    exists h, par_hint p = Some h /\ par_default p = false /\ (par_kind p = PositionalOrKeyword \/ par_kind p = KeywordOnly) /\ validator (par_name p) h = Ok r.
  Proof.
    intros H R validator p r. unfold validate_parameter. destruct (par_hint p) as [h|]; [|split; [discriminate|intros (h & X & _); discriminate]].
    destruct (par_default p); [split; [discriminate|intros (h' & _ & X & _); discriminate]|].
    destruct (by_keyword (par_kind p)) eqn:K; cbn [negb].
    - apply keyword_iff in K. split; [intro E; exists h; auto|]. intros (h' & E & _ & _ & X). injection E as <-. exact X.
    - split; [discriminate|]. intros (h' & _ & _ & X & _). apply keyword_iff in X. congruence.
  Qed.
  Lemma parameters_iff : forall H R (ins : list (str * A)) (validator : str -> H -> result R) ps rs, validate_parameters ins validator ps = Ok rs <->
    Forall2 (fun p r => exists h, keyword_for ins p h /\ validator (par_name p) h = Ok r) ps rs.
  Proof.
    intros H R ins validator ps rs. unfold validate_parameters. destruct (forallb _ ps) eqn:F.
    - rewrite mapM_iff. rewrite forallb_forall in F. apply Forall2_same_In. intros p r I. rewrite parameter_iff. specialize (F p I). apply mem_In in F. split.
      + intros (h & E & D & K & X). exists h. split; [constructor; assumption|exact X].
      + intros (h & [E D K J] & X). exists h. auto.
    - split; [discriminate|]. intro X. exfalso. assert (G : forallb (fun p : parameter H => mem (par_name p) (map fst ins)) ps = true); [|congruence].
      apply forallb_forall. intros p I. destruct (Forall2_left _ _ _ _ _ X p I) as (r & _ & h & K & _). apply mem_In. exact (kw_input _ _ _ K).
  Qed.

  Lemma build_param_iff : forall ins name ann nv, NoDup (map fst ins) -> (validate_build_param from_annotation aeqb ins name ann = Ok nv <->
    exists a, fst nv = name /\ In (name, a) ins /\ reads_artifact from_annotation ann a (snd nv)).
  Proof.
    intros ins name ann [n v] N. unfold validate_build_param. cbn [fst snd]. destruct (dget str_eqb ins name) as [a|] eqn:D.
    - assert (I : In (name, a) ins) by (apply (dget_In _ str_eqb_spec); exact D).
      assert (U : forall a', In (name, a') ins -> a' = a) by (intros a' J; apply (dget_NoDup _ str_eqb_spec) in J; [congruence|exact N]).
      assert (Pk : forall e, an_artifact e <-> exists x, pick_artifact e = Some x) by (exact (@pick_artifact_p V A)).
      split.
      + intro H. destruct (item_cases pick_artifact an_artifact Pk (extras ann)) as [[Na Ea]|[(e & x & Oa & Pe & Ea)|[_ Ea]]]; rewrite Ea in H; cbn [bind] in H; [| |discriminate].
        * destruct (from_annotation _ READ) as [w|] eqn:F; [|discriminate]. cbn [bind] in H. destruct (aeqb (v_artifact w) a) eqn:Q; [|discriminate].
          injection H as <- <-. apply aeqb_spec in Q. exists a. split; [reflexivity|]. split; [exact I|]. apply reads_default; assumption.
        * destruct (from_annotation _ READ) as [w|] eqn:F; [|discriminate]. cbn [bind] in H. destruct (aeqb (v_artifact w) a) eqn:Q; [|discriminate].
          injection H as <- <-. apply aeqb_spec in Q. exists a. split; [reflexivity|]. split; [exact I|]. destruct e; try discriminate. injection Pe as ->.
          apply reads_explicit with x; assumption.
      + intros (a' & -> & J & R). apply U in J. subst a'. destruct R as [Na F Q|x Oa F Q].
        * rewrite (nothing_picked _ _ Pk _ Na). cbn [bind]. rewrite F. cbn [bind]. rewrite (proj2 (aeqb_spec _ _) Q). reflexivity.
        * rewrite (only_picked _ _ Pk _ _ x Oa eq_refl). cbn [bind]. rewrite F. cbn [bind]. rewrite (proj2 (aeqb_spec _ _) Q). reflexivity.
    - split; [discriminate|]. intros (a & _ & I & _). apply (dget_NoDup _ str_eqb_spec) in I; [congruence|exact N].
  Qed.

  Lemma alike_iff : forall (vs : list view) , (exists ks, mapM (fun v => key_types (v_type v)) vs = Ok ks /\ same_scheme ks = true) <-> alike vs.
  Proof.
    intro vs. split.
    - intros (ks & M & S). apply mapM_iff in M. destruct ks as [|k ks]; [discriminate|]. split; [inversion M; discriminate|]. exists k. intros v I.
      destruct (Forall2_left _ _ _ _ _ M v I) as (k' & I' & E). exists k'. split; [exact E|].
      assert (Nk : NoDup (map fst k)) by (inversion M; subst; eapply key_types_NoDup; eassumption).
      cbn [same_scheme] in S. rewrite forallb_forall in S. destruct I' as [<-|I']; [intro; reflexivity|].
      apply key_types_eqb_spec; [exact Nk|eapply key_types_NoDup; eassumption|]. apply S, I'.
    - intros [NE (k & H)].
      assert (E : exists ks, Forall2 (fun v k' => key_types (v_type v) = Ok k' /\ same_keys k k') vs ks).
      { clear NE. induction vs as [|v vs IH]; [exists []; constructor|]. destruct (H v (or_introl eq_refl)) as (k' & E & S).
        destruct IH as (ks & F); [intros w I; apply H; right; exact I|]. exists (k' :: ks). constructor; auto. }
      destruct E as (ks & F). exists ks. split; [apply mapM_iff; clear - F; induction F as [|? ? ? ? []]; constructor; auto|].
      destruct F as [|v k0 vs ks [E0 S0] F]; [congruence|]. cbn [same_scheme]. apply forallb_forall. intros k1 I1.
      destruct (Forall2_right _ _ _ _ _ F k1 I1) as (w & _ & E1 & S1).
      apply key_types_eqb_spec; [eapply key_types_NoDup; eassumption..|]. intro n. rewrite <- S0, <- S1. reflexivity.
  Qed.

  Lemma none_only_iff : forall l : list annotation, is_none_only l = true <-> l = [Annotation (HClass PyNoneType) []].
  Proof.
    intro l. destruct l as [|[h xs] [|? ?]]; cbn; try (split; discriminate).
    - destruct h; try (split; discriminate). destruct xs; try (split; discriminate). unfold is_none. rewrite pyclass_eqb_spec. split; congruence.
    - destruct h; try (split; discriminate). destruct xs; split; discriminate.
  Qed.

  Lemma takes_iff : forall p o, param_matches same p o = Ok true <-> takes same p o.
  Proof.
    intros p o. unfold param_matches, takes. destruct (par_hint p) as [h|].
    - split; [intros H h' E; injection E as <-; exact H|intro H; apply H; reflexivity].
    - split; [intros _ h E; discriminate|reflexivity].
  Qed.
  Lemma output_iff : forall p o, validate_output same (p, o) = Ok tt <->
    par_default p = false /\ (par_kind p = PositionalOnly \/ par_kind p = PositionalOrKeyword) /\ takes same p o.
  Proof.
    intros p o. unfold validate_output. cbn [fst snd]. rewrite <- takes_iff, <- position_iff.
    destruct (par_default p); [split; [discriminate|intros [X _]; discriminate]|].
    destruct (by_position (par_kind p)); cbn [negb]; [|split; [discriminate|intros (_ & X & _); discriminate]].
    destruct (param_matches same p o) as [[]|]; cbn [bind]; split; auto; try discriminate; intros (_ & _ & X); discriminate.
  Qed.
  Lemma validate_iff : forall ps outs, validate_validate same outs ps = Ok tt <-> validates same ps outs.
  Proof.
    intros ps outs. unfold validate_validate. set (qs := without_owner ps).
    set (pairwise := if List.length qs =? List.length outs then _ else _).
    assert (P : pairwise = Ok tt <-> Forall2 (fun p o => par_default p = false /\ (par_kind p = PositionalOnly \/ par_kind p = PositionalOrKeyword) /\ takes same p o) qs outs).
    { rewrite Forall2_combine. unfold pairwise. destruct (List.length qs =? List.length outs) eqn:L.
      - apply Nat.eqb_eq in L. split.
        + intro H. destruct (mapM (validate_output same) (combine qs outs)) as [us|] eqn:M; [|discriminate]. split; [exact L|].
          apply mapM_iff in M. intros p o I. destruct (Forall2_left _ _ _ _ _ M _ I) as ([] & _ & E). apply output_iff. exact E.
        + intros [_ X]. assert (M : exists us, mapM (validate_output same) (combine qs outs) = Ok us).
          { clear - X. induction (combine qs outs) as [|[p o] l IH]; [exists []; reflexivity|]. cbn [mapM].
            rewrite (proj2 (output_iff p o) (X p o (or_introl eq_refl))). destruct IH as (us & ->); [intros a b I; apply X; right; exact I|]. eexists. reflexivity. }
          destruct M as (us & ->). reflexivity.
      - apply Nat.eqb_neq in L. split; [discriminate|]. intros [X _]. contradiction. }
    assert (Eq : proper ps = qs) by apply proper_is. clearbody pairwise. clearbody qs.
    split.
    - intro H. destruct qs as [|p [|q qs']].
      + apply validates_each. rewrite Eq. apply P, H.
      + destruct (is_var_positional (par_kind p)) eqn:K.
        * apply validates_all with p; [exact Eq|destruct (par_kind p); try discriminate; reflexivity|].
          destruct (allM (param_matches same p) outs) as [[]|] eqn:M; try discriminate. intros o I. apply takes_iff. apply (proj1 (allM_true_iff _ _ _) M o I).
        * apply validates_each. rewrite Eq. apply P, H.
      + apply validates_each. rewrite Eq. apply P, H.
    - intros [p E K T|F].
      + rewrite Eq in E. rewrite E, K. cbn [is_var_positional]. assert (M : allM (param_matches same p) outs = Ok true) by (apply allM_true_iff; intros o I; apply takes_iff, T, I).
        rewrite M. reflexivity.
      + rewrite Eq in F. assert (W : pairwise = Ok tt) by (apply P; exact F). destruct qs as [|p [|q qs']]; try exact W.
        destruct (is_var_positional (par_kind p)) eqn:K; [|exact W]. inversion F; subst. destruct H1 as (_ & [X|X] & _); rewrite X in K; discriminate.
  Qed.

  Lemma generated_iff : forall (ins : list (str * A)) (bins : list (str * view)) m,
    generated ins bins m /\ ~ In $"kwargs" (map par_name (m_params m)) <->
    m = generated_map ins bins /\ ~ In $"kwargs" (map par_name (m_params m)).
  Proof.
    intros ins bins m.
    assert (FE : filter (fun na : str * A => existsb (fun nv => str_eqb (fst na) (fst nv)) bins) ins = filter (fun na => mem (fst na) (map fst bins)) ins).
    { apply filter_ext. intro na. unfold mem. clear. induction bins as [|b l IH]; [reflexivity|]. cbn [map existsb]. rewrite IH. reflexivity. }
    split.
    - intros [[S N P] K]. split; [|exact K]. unfold generated_map. rewrite FE in N. destruct m as [st ps []]. cbn [m_static m_params] in *. subst st. f_equal.
      revert N P K. generalize (filter (fun na : str * A => mem (fst na) (map fst bins)) ins) as l. induction ps as [|p ps IH]; intros l N P K; destruct l as [|na l]; try discriminate; [reflexivity|].
      cbn [map] in *. injection N as Nn Nt. destruct p as [n k h d]. cbn [par_name] in *. subst n. destruct (P _ (or_introl eq_refl)) as (Kd & Hh & Dd).
      cbn [par_kind par_hint par_default] in *. subst. f_equal.
      + destruct (str_eqb (fst na) $"kwargs") eqn:E; [|reflexivity]. apply str_eqb_spec in E. destruct K. left. exact E.
      + apply IH; [exact Nt|intros p I; apply P; right; exact I|intro I; apply K; right; exact I].
    - intros [-> K]. split; [|exact K]. unfold generated_map in *. cbn [m_params] in *. constructor; cbn [m_static m_params].
      + reflexivity.
      + rewrite FE, map_map. reflexivity.
      + intros p I. apply in_map_iff in I. destruct I as (na & <- & I). cbn [par_kind par_hint par_default]. split; [reflexivity|]. split; [|reflexivity].
        destruct (str_eqb (fst na) $"kwargs") eqn:E; [|reflexivity]. apply str_eqb_spec in E. destruct K. rewrite map_map. apply in_map_iff. exists na. split; [exact E|exact I].
  Qed.
  Lemma map_params_iff : forall (ins : list (str * A)) ps names, validate_parameters ins validate_map_param (without_owner ps) = Ok names <->
    (forall p, In p (proper ps) -> keyword_for ins p true) /\ names = map par_name (proper ps).
  Proof.
    intros ins ps names. rewrite parameters_iff, proper_is. generalize (without_owner ps) as l. intro l. split.
    - induction 1 as [|p n l names (h & K & E) F [IH1 ->]]; [split; [intros p []|reflexivity]|]. unfold validate_map_param in E. destruct h; [|discriminate].
      injection E as <-. split; [|reflexivity]. intros q [<-|I]; [exact K|apply IH1, I].
    - intros [H ->]. induction l as [|p l IH]; [constructor|]. cbn [map]. constructor.
      + exists true. split; [apply H; left; reflexivity|reflexivity].
      + apply IH. intros q I. apply H. right. exact I.
  Qed.

  Lemma NoDup_filter_fields : forall (fields : list (str * field A)) ins, NoDup (map fst fields) -> validate_fields fields = Ok ins -> NoDup (map fst ins).
  Proof.
    intros fields ins N H. apply fields_iff in H.
    assert (E : forall (l : list (str * field A)) (m : list (str * A)), Forall2 (fun nf na => nf = (fst na, Field (FArtifact (snd na)) true)) l m -> map fst m = map fst l).
    { induction 1 as [|nf na l m X F IH]; [reflexivity|]. cbn [map]. rewrite IH, X. reflexivity. }
    rewrite (E _ _ H). clear - N. induction fields as [|f l IH]; [constructor|]. cbn [filter]. inversion N; subst. destruct (in_dec (list_eq_dec ascii_dec) _ _); [apply IH; assumption|].
    cbn [map]. constructor; [|apply IH; assumption]. intro I. apply H1. clear - I. induction l as [|g l IH]; [destruct I|]. cbn [filter] in I. destruct (in_dec (list_eq_dec ascii_dec) _ _).
    - right. apply IH, I.
    - destruct I as [I|I]; [left; exact I|right; apply IH, I].
  Qed.

  Theorem define_iff : forall (d : definition) (c : producer_class), NoDup (map fst (d_fields d)) ->
    (define from_annotation aeqb same d = Ok c <-> describes from_annotation same d c).
  Proof.
    intros d c N. unfold define. split.
    - intro H. destruct (validate_fields (d_fields d)) as [ins|] eqn:F; [|discriminate]. cbn [bind] in H. assert (Ni := NoDup_filter_fields _ _ N F).
      destruct (validate_build from_annotation aeqb ins (d_build d)) as [[[[names bins] outs] hints]|] eqn:B; [|discriminate]. cbn [bind] in H.
      destruct (validate_validate same hints (d_validate d)) as [[]|] eqn:Vd; [|discriminate]. cbn [bind] in H.
      destruct (validate_map ins bins outs (d_map d)) as [[m mins]|] eqn:Mp; [|discriminate]. cbn [bind] in H.
      destruct (forallb _ ins) eqn:U; [|discriminate]. injection H as <-.
      unfold validate_build in B. destruct (d_build d) as [b|] eqn:Db; [|discriminate]. destruct (m_static b) eqn:Sb; [|discriminate]. cbn [negb] in B.
      destruct (validate_parameters ins _ (without_owner (m_params b))) as [bi|] eqn:Pb; [|discriminate]. cbn [bind] in B.
      destruct (m_return b) as [r|] eqn:Rb; [|discriminate]. destruct (is_none_only (returned r)) eqn:Nn; [discriminate|].
      destruct (mapM (fun ann => from_annotation ann WRITE) (returned r)) as [os|] eqn:Os; [|discriminate]. cbn [bind] in B.
      destruct (mapM (fun v => key_types (v_type v)) os) as [ks|] eqn:Ks; [|discriminate]. cbn [bind] in B.
      destruct (same_scheme ks) eqn:Sc; [|discriminate]. injection B as <- <- <- <-.
      apply parameters_iff in Pb.
      assert (Pb' : Forall2 (build_parameter from_annotation ins) (proper (m_params b)) bi).
      { rewrite proper_is. revert Pb. apply Forall2_same. intros p nv. split.
        - intros (ann & a & K & E & I & R). exists ann. split; [exact K|]. apply build_param_iff; [exact Ni|]. exists a. auto.
        - intros (ann & K & X). apply build_param_iff in X; [|exact Ni]. destruct X as (a & E & I & R). exists ann, a. auto. }
      unfold validate_map in Mp.
      assert (Mp' : exists m0, match d_map d with Some m => Ok m | None => bind (anyM (fun v : view => is_partitioned (v_type v)) os) (fun b => if b then Err ValueError else Ok (generated_map ins bi)) end = Ok m0 /\
        m0 = m /\ m_static m = true /\ validate_parameters ins validate_map_param (without_owner (m_params m)) = Ok mins).
      { destruct (match d_map d with Some _ => _ | None => _ end) as [m0|]; [|discriminate]. cbn [bind] in Mp. destruct (m_static m0) eqn:S0; [|discriminate]. cbn [negb] in Mp.
        destruct (validate_parameters _ _ _) as [l|] eqn:E; [|discriminate]. cbn [rmap] in Mp. injection Mp as <- <-. exists m0. auto. }
      clear Mp. destruct Mp' as (m0 & Dm & -> & Sm & Pm). apply map_params_iff in Pm.
      constructor; cbn [inputs build_inputs outputs map_method map_inputs].
      + apply fields_iff. exact F.
      + exists b, r. split; [exact Db|]. split; [exact Sb|]. split; [exact Rb|]. split; [exact Pb'|]. split; [intro X; apply none_only_iff in X; congruence|].
        split; [apply mapM_iff; exact Os|]. split; [apply alike_iff; exists ks; auto|]. apply validate_iff. exact Vd.
      + destruct (d_map d) as [m1|]; [injection Dm as ->; left; reflexivity|]. right. split; [reflexivity|].
        destruct (anyM _ os) as [[]|] eqn:An; try discriminate. cbn [bind] in Dm. injection Dm as Dm. split; [apply anyM_false_iff; exact An|].
        apply generated_iff. split; [auto|]. subst m. destruct Pm as [Pm _]. intro I. apply in_map_iff in I. destruct I as (p & E & I).
        assert (Ip : In p (proper (m_params (generated_map ins bi)))).
        { rewrite proper_is. unfold without_owner. apply filter_In. split; [exact I|]. rewrite E. reflexivity. }
        assert (Kh := kw_hint _ _ _ (Pm p Ip)). unfold generated_map in I. cbn [m_params] in I. apply in_map_iff in I. destruct I as (na & <- & _).
        cbn [par_name par_hint] in *. rewrite E in Kh. discriminate Kh.
      + split; [exact Sm|]. exact Pm.
      + intros n I. apply in_map_iff in I. destruct I as (na & <- & I). rewrite forallb_forall in U. specialize (U na I). apply orb_true_iff in U.
        destruct U as [U|U]; apply mem_In in U; [left|right; exact U]. apply in_map_iff in U. destruct U as (p & E & Ip).
        rewrite proper_is in Pb'. destruct (Forall2_left _ _ _ _ _ Pb' p Ip) as (nv & Iv & ann & a & _ & En & _). rewrite <- E, <- En. apply in_map, Iv.
    - intros [Fi (b & r & Db & Sb & Rb & Pb & Nn & Os & Al & Vd) Mp (Sm & Pm & Mi) U]. destruct c as [ins bi os m mins]. cbn [inputs build_inputs outputs map_method map_inputs] in *.
      assert (F : validate_fields (d_fields d) = Ok ins) by (apply fields_iff; exact Fi). assert (Ni := NoDup_filter_fields _ _ N F). rewrite F. cbn [bind].
      unfold validate_build. rewrite Db, Sb. cbn [negb].
      assert (Pb' : validate_parameters ins (validate_build_param from_annotation aeqb ins) (without_owner (m_params b)) = Ok bi).
      { apply parameters_iff. rewrite <- proper_is. revert Pb. apply Forall2_same. intros p nv. split.
        - intros (ann & K & X). apply build_param_iff in X; [|exact Ni]. destruct X as (a & E & I & R). exists ann, a. auto.
        - intros (ann & a & K & E & I & R). exists ann. split; [exact K|]. apply build_param_iff; [exact Ni|]. exists a. auto. }
      rewrite Pb'. cbn [bind]. rewrite Rb. destruct (is_none_only (returned r)) eqn:X; [apply none_only_iff in X; contradiction|].
      rewrite (proj2 (mapM_iff _ _ _ _ _) Os). cbn [bind]. apply alike_iff in Al. destruct Al as (ks & Ks & Sc). rewrite Ks. cbn [bind]. rewrite Sc. cbn [bind].
      rewrite (proj2 (validate_iff _ _) Vd). cbn [bind]. unfold validate_map.
      assert (Dm : match d_map d with Some m => Ok m | None => bind (anyM (fun v : view => is_partitioned (v_type v)) os) (fun b => if b then Err ValueError else Ok (generated_map ins bi)) end = Ok m).
      { destruct Mp as [->|(-> & An & Ge)]; [reflexivity|]. rewrite (proj2 (anyM_false_iff _ _ _) An). cbn [bind]. apply generated_iff in Ge. destruct Ge as [-> _]. reflexivity. }
      rewrite Dm. cbn [bind]. rewrite Sm. cbn [negb]. rewrite (proj2 (map_params_iff ins (m_params m) mins) (conj Pm Mi)). cbn [rmap bind].
      assert (U' : forallb (fun na : str * A => mem (fst na) (map par_name (without_owner (m_params b))) || mem (fst na) mins) ins = true); [|rewrite U'; reflexivity].
      apply forallb_forall. intros na I. apply orb_true_iff. rewrite !mem_In. destruct (U (fst na) (in_map fst _ _ I)) as [Y|Y]; [left|right; exact Y].
      apply in_map_iff in Y. destruct Y as (nv & E & Iv). rewrite <- proper_is. destruct (Forall2_right _ _ _ _ _ Pb nv Iv) as (p & Ip & ann & a & _ & En & _).
      apply in_map_iff. exists p. split; [congruence|exact Ip].
  Qed.

  (** * Errors *)
  Lemma mapM_error : forall T U (f : T -> result U) l e, mapM f l = Err e -> exists x, In x l /\ f x = Err e.
  Proof.
    induction l as [|x l IH]; intros e H; [discriminate|]. cbn [mapM] in H. destruct (f x) as [y|e'] eqn:E; cbn [bind] in H.
    - destruct (mapM f l) as [ys|e'] eqn:M; [discriminate|]. cbn [bind] in H. injection H as <-. destruct (IH _ eq_refl) as (z & I & Z). exists z. split; [right|]; assumption.
    - injection H as <-. exists x. split; [left; reflexivity|exact E].
  Qed.
  Lemma anyM_error : forall T (f : T -> result bool) l e, anyM f l = Err e -> exists x, In x l /\ f x = Err e.
  Proof.
    induction l as [|x l IH]; intros e H; [discriminate|]. cbn [anyM] in H. destruct (f x) as [[]|e'] eqn:E; cbn [bind] in H; [discriminate| |].
    - destruct (IH _ H) as (z & I & Z). exists z. split; [right|]; assumption.
    - injection H as <-. exists x. split; [left; reflexivity|exact E].
  Qed.
  Lemma allM_error : forall T (f : T -> result bool) l e, allM f l = Err e -> exists x, In x l /\ f x = Err e.
  Proof.
    induction l as [|x l IH]; intros e H; [discriminate|]. cbn [allM] in H. destruct (f x) as [[]|e'] eqn:E; cbn [bind] in H; [|discriminate|].
    - destruct (IH _ H) as (z & I & Z). exists z. split; [right|]; assumption.
    - injection H as <-. exists x. split; [left; reflexivity|exact E].
  Qed.
  Lemma is_partitioned_keys : forall t e, is_partitioned t = Err e -> key_types t = Err e.
  Proof. intros t e H. unfold is_partitioned in H. unfold key_types. destruct t; try discriminate. destruct (partition_fields _); [discriminate|]. injection H as <-. reflexivity. Qed.
  Lemma parameters_error : forall H R (ins : list (str * A)) (validator : str -> H -> result R) ps e, validate_parameters ins validator ps = Err e ->
    e = ValueError \/ exists p h, In p ps /\ In (par_name p) (map fst ins) /\ validator (par_name p) h = Err e.
  Proof.
    intros H R ins validator ps e X. unfold validate_parameters in X. destruct (forallb _ ps) eqn:F; [|injection X as <-; left; reflexivity].
    destruct (mapM_error _ _ _ _ _ X) as (p & I & E). rewrite forallb_forall in F. specialize (F p I). apply mem_In in F. unfold validate_parameter in E.
    destruct (par_hint p) as [h|]; [|injection E as <-; left; reflexivity]. destruct (par_default p); [injection E as <-; left; reflexivity|].
    destruct (by_keyword (par_kind p)); cbn [negb] in E; [|injection E as <-; left; reflexivity]. right. exists p, h. auto.
  Qed.
  Lemma key_known : forall (ins : list (str * A)) n, In n (map fst ins) -> exists a, dget str_eqb ins n = Some a.
  Proof.
    induction ins as [|[m a] ins IH]; intros n I; [destruct I|]. cbn [dget]. destruct (str_eqb m n) eqn:E; [exists a; reflexivity|]. destruct I as [I|I]; [|apply IH, I].
    cbn in I. subst m. rewrite str_eqb_refl in E. discriminate.
  Qed.
  Theorem define_error : forall (d : definition) e, define from_annotation aeqb same d = Err e ->
    e = ValueError \/ (exists ann m, from_annotation ann m = Err e) \/ (exists o h, issubclass_hint same o h = Err e) \/
    (exists ann m v, from_annotation ann m = Ok v /\ key_types (v_type v) = Err e).
  Proof.
    intros d e H. unfold define in H. destruct (validate_fields (d_fields d)) as [ins|e'] eqn:F; cbn [bind] in H.
    2: { injection H as <-. left. destruct (mapM_error _ _ _ _ _ F) as ([n f] & _ & E). unfold validate_field in E. destruct (f_hint _); [destruct (f_required _)| |]; congruence. }
    destruct (validate_build from_annotation aeqb ins (d_build d)) as [[[[names bins] outs] hints]|e'] eqn:B; cbn [bind] in H.
    2: { injection H as <-. unfold validate_build in B. destruct (d_build d) as [b|]; [|left; congruence]. destruct (m_static b); [|left; cbn in B; congruence]. cbn [negb] in B.
      destruct (validate_parameters _ _ _) as [bi|e0] eqn:P; cbn [bind] in B.
      2: { injection B as <-. apply parameters_error in P. destruct P as [P|(p & h & _ & I & E)]; [left; exact P|]. unfold validate_build_param in E.
        destruct (key_known ins _ I) as (a & Da). rewrite Da in E.
        destruct (item_cases pick_artifact an_artifact (@pick_artifact_p V A) (extras h)) as [[_ Ea]|[(? & ? & _ & _ & Ea)|[_ Ea]]]; rewrite Ea in E; cbn [bind] in E.
        - destruct (from_annotation _ READ) as [v|] eqn:Fr; cbn [bind] in E; [destruct (aeqb _ _); left; congruence|right; left; injection E as <-; eauto].
        - destruct (from_annotation _ READ) as [v|] eqn:Fr; cbn [bind] in E; [destruct (aeqb _ _); left; congruence|right; left; injection E as <-; eauto].
        - left. congruence. }
      destruct (m_return b) as [r|]; [|left; congruence]. destruct (is_none_only (returned r)); [left; congruence|].
      destruct (mapM (fun ann => from_annotation ann WRITE) (returned r)) as [os|] eqn:Os; cbn [bind] in B.
      2: { injection B as <-. destruct (mapM_error _ _ _ _ _ Os) as (ann & _ & E). right. left. eauto. }
      destruct (mapM (fun v => key_types (v_type v)) os) as [ks|] eqn:Ks; cbn [bind] in B.
      2: { injection B as <-. destruct (mapM_error _ _ _ _ _ Ks) as (v & I & E). apply mapM_iff in Os. destruct (Forall2_right _ _ _ _ _ Os v I) as (ann & _ & E').
        right. right. right. exists ann, WRITE, v. auto. }
      destruct (same_scheme ks); left; congruence. }
    assert (Outs : forall v, In v outs -> exists ann, from_annotation ann WRITE = Ok v).
    { unfold validate_build in B. destruct (d_build d) as [b|]; [|discriminate]. destruct (m_static b); [|discriminate]. cbn [negb] in B.
      destruct (validate_parameters _ _ _); [|discriminate]. cbn [bind] in B. destruct (m_return b) as [r|]; [|discriminate]. destruct (is_none_only _); [discriminate|].
      destruct (mapM (fun ann => from_annotation ann WRITE) (returned r)) as [os|] eqn:Os; [|discriminate]. cbn [bind] in B.
      destruct (mapM _ os); [|discriminate]. cbn [bind] in B. destruct (same_scheme _); [|discriminate]. injection B as <- <- <- <-.
      intros v I. apply mapM_iff in Os. destruct (Forall2_right _ _ _ _ _ Os v I) as (ann & _ & E). eauto. }
    assert (Pm : forall p o e0, param_matches same p o = Err e0 -> exists o h, issubclass_hint same o h = Err e0).
    { intros p o e0 X. unfold param_matches in X. destruct (par_hint p); [eauto|discriminate]. }
    destruct (validate_validate same hints (d_validate d)) as [[]|e'] eqn:Vd; cbn [bind] in H.
    2: { injection H as <-. unfold validate_validate in Vd. set (qs := without_owner (d_validate d)) in *.
      assert (W : (if List.length qs =? List.length hints then bind (mapM (validate_output same) (combine qs hints)) (fun _ => Ok tt) else Err ValueError) = Err e' ->
        e' = ValueError \/ exists o h, issubclass_hint same o h = Err e').
      { intro W. destruct (List.length qs =? List.length hints); [|left; congruence]. destruct (mapM _ _) as [us|] eqn:M; [discriminate|]. injection W as <-.
        destruct (mapM_error _ _ _ _ _ M) as ([p o] & _ & E). unfold validate_output in E. cbn [fst snd] in E. destruct (par_default p); [left; congruence|].
        destruct (by_position _); [|left; cbn in E; congruence]. cbn [negb] in E. destruct (param_matches same p o) as [[]|] eqn:Q; [discriminate|left; cbn in E; congruence|].
        right. injection E as <-. eauto. }
      assert (W' : e' = ValueError \/ exists o h, issubclass_hint same o h = Err e').
      { destruct qs as [|p [|q qs']]; [apply W, Vd| |apply W, Vd]. destruct (is_var_positional _); [|apply W, Vd].
        destruct (allM _ hints) as [[]|] eqn:M; [discriminate|left; cbn in Vd; congruence|]. injection Vd as <-. destruct (allM_error _ _ _ _ M) as (o & _ & E). right. eauto. }
      destruct W' as [->|W']; [left; reflexivity|right; right; left; exact W']. }
    destruct (validate_map ins bins outs (d_map d)) as [[m mins]|e'] eqn:Mp; cbn [bind] in H; [destruct (forallb _ ins); [discriminate|left; congruence]|]. injection H as <-.
    unfold validate_map in Mp. destruct (d_map d) as [m|]; cbn [bind] in Mp.
    - destruct (m_static m); [|left; cbn in Mp; congruence]. cbn [negb] in Mp. destruct (validate_parameters _ _ _) as [l|] eqn:P; [discriminate|]. injection Mp as <-.
      apply parameters_error in P. destruct P as [P|(p & h & _ & _ & E)]; [left; exact P|]. left. unfold validate_map_param in E. destruct h; congruence.
    - destruct (anyM _ outs) as [[]|] eqn:An; cbn [bind] in Mp; [left; congruence| |].
      + cbn [m_static generated_map negb] in Mp. destruct (validate_parameters _ _ _) as [l|] eqn:P; [discriminate|]. injection Mp as <-.
        apply parameters_error in P. destruct P as [P|(p & h & _ & _ & E)]; [left; exact P|]. left. unfold validate_map_param in E. destruct h; congruence.
      + injection Mp as <-. destruct (anyM_error _ _ _ _ An) as (v & I & E). apply is_partitioned_keys in E. destruct (Outs v I) as (ann & Fv). right. right. right. exists ann, WRITE, v. auto.
  Qed.

  (** * Generated maps *)
  Theorem generated_covers : forall (d : definition) (c : producer_class), NoDup (map fst (d_fields d)) -> define from_annotation aeqb same d = Ok c -> d_map d = None ->
    forall n, In n (map_inputs c) <-> In n (map fst (build_inputs c)).
  Proof.
    intros d c N H M n. apply define_iff in H; [|exact N]. destruct H as [_ (b & r & _ & _ & _ & Pb & _) Mp (_ & _ & Mi) _].
    destruct Mp as [Mp|(_ & _ & G & _)]; [congruence|]. rewrite Mi, proper_is. destruct G as [_ Gn _].
    assert (In n (map par_name (m_params (map_method c))) <-> In n (map fst (inputs c)) /\ In n (map fst (build_inputs c))) as X.
    { rewrite Gn. split.
      - intro I. apply in_map_iff in I. destruct I as (na & <- & I). apply filter_In in I. destruct I as [I E]. split; [apply in_map, I|].
        apply existsb_exists in E. destruct E as (nv & Iv & E). apply str_eqb_spec in E. rewrite E. apply in_map, Iv.
      - intros [I J]. apply in_map_iff in I. destruct I as (na & <- & I). apply in_map, filter_In. split; [exact I|]. apply existsb_exists.
        apply in_map_iff in J. destruct J as (nv & E & Iv). exists nv. split; [exact Iv|]. rewrite E. apply str_eqb_refl. }
    assert (Y : In n (map fst (build_inputs c)) -> In n (map fst (inputs c)) /\ mem n owners = false).
    { intro I. apply in_map_iff in I. destruct I as (nv & <- & I). rewrite proper_is in Pb. destruct (Forall2_right _ _ _ _ _ Pb nv I) as (p & Ip & ann & a & K & E & Ia & _).
      rewrite E. split; [apply (in_map fst) in Ia; exact Ia|]. apply filter_In in Ip. destruct Ip as [_ Ip]. apply negb_true_iff in Ip. exact Ip. }
    split.
    - intro I. apply in_map_iff in I. destruct I as (p & <- & I). apply filter_In in I. destruct I as [I _]. apply X. apply in_map, I.
    - intro I. destruct (Y I) as [J O]. assert (K := proj2 X (conj J I)). apply in_map_iff in K. destruct K as (p & E & K). apply in_map_iff. exists p. split; [exact E|].
      apply filter_In. split; [exact K|]. rewrite E, O. reflexivity.
  Qed.
End Producers.

(** * The decorator *)
Section Decorator.
  Context {V A : Type} (vsub : V -> V -> bool) (view_artifact : V -> A) (artifact_type : A -> option ty) (to_system : V -> ty -> result (phint * pyclass))
    (infer : phint -> result ty) (type_eqb : ty -> ty -> bool) (same : phint -> phint -> bool) (cls : V) (reg : list (pykey * V))
    (aeqb : A -> A -> bool) (aeqb_spec : forall a b, aeqb a b = true <-> a = b).
  Notation from := (from_annotation vsub view_artifact artifact_type to_system infer type_eqb same cls reg).
  Notation annotation := (annotation V A).
  Notation view := (view V A).

  Lemma item_more : forall X (pick : extra V A -> option X) l e, pick e = None -> item_of pick (l ++ [e]) = item_of pick l.
  Proof. intros X pick l e N. unfold item_of. rewrite flat_map_app. cbn [flat_map]. rewrite N. cbn [app]. rewrite app_nil_r. reflexivity. Qed.
  Lemma from_default : forall (ann : annotation) m v, nothing an_artifact (extras ann) -> from ann m = Ok v ->
    from (Annotation (root ann) (extras ann ++ [XArtifact (v_artifact v)])) m = Ok v.
  Proof.
    intros ann m v N H. assert (Spec := from_annotation_spec _ _ _ _ _ _ _ _ _ _ _ _ H). destruct Spec as (_ & _ & [a t Ha _] & _).
    destruct Ha as [O|[_ Ea]]; [destruct (only_nothing _ _ _ O N)|].
    unfold from_annotation in *. unfold get_class_for in *. cbn [extras root]. rewrite item_more by reflexivity.
    destruct (item_of _ (extras ann)) as [o|]; [|discriminate]. cbn [bind] in *.
    assert (G : forall c, (match o with Some v => Ok v | None => match registered reg (root ann) with Some v => Ok v | None => Err ValueError end end) = Ok c ->
      kwargs_of view_artifact artifact_type infer c (Annotation (root ann) (extras ann ++ [XArtifact a])) =
      bind (item_of (fun e => match e with XType t => Some t | _ => None end) (extras ann)) (fun t =>
        match t with Some t => Ok (a, t) | None => match artifact_type a with Some t => Ok (a, t) | None => rmap (pair a) (infer (root ann)) end end)).
    { intros c _. unfold kwargs_of. cbn [extras root].
      assert (E : item_of (fun e : extra V A => match e with XArtifact a => Some a | _ => None end) (extras ann ++ [XArtifact a]) = Ok (Some a)).
      { apply (only_picked pick_artifact an_artifact pick_artifact_p _ (XArtifact a) a); [|reflexivity]. exists (extras ann), []. split; [reflexivity|].
        split; [exists a; reflexivity|]. rewrite app_nil_r. exact N. }
      rewrite E. cbn [bind]. rewrite item_more by reflexivity. reflexivity. }
    destruct (match o with Some v => Ok v | None => match registered reg (root ann) with Some v => Ok v | None => Err ValueError end end) as [c|] eqn:C; [|discriminate].
    cbn [bind] in *. specialize (G c eq_refl).
    assert (K : kwargs_of view_artifact artifact_type infer c ann = kwargs_of view_artifact artifact_type infer c (Annotation (root ann) (extras ann ++ [XArtifact a]))).
    { rewrite G. unfold kwargs_of. rewrite (nothing_picked pick_artifact an_artifact pick_artifact_p _ N : item_of (fun e : extra V A => match e with XArtifact a => Some a | _ => None end) (extras ann) = Ok None).
      cbn [bind]. assert (Ec : view_artifact c = a); [|rewrite Ec; reflexivity].
      destruct (kwargs_of view_artifact artifact_type infer c ann) as [[a0 t0]|] eqn:K; [|discriminate]. cbn [bind fst snd] in H. unfold new_view in H.
      destruct (match artifact_type a0 with Some t' => check_type type_eqb t0 t' | None => Ok tt end); [|discriminate]. cbn [bind] in H.
      destruct (check_annotation _ _ _ _); [|discriminate]. injection H as <-. cbn [v_class v_artifact] in *. congruence. }
    rewrite <- K. destruct (kwargs_of view_artifact artifact_type infer c ann) as [[a0 t0]|]; [|discriminate]. cbn [bind fst snd] in *.
    destruct (new_view artifact_type type_eqb c m a0 t0); [|discriminate]. cbn [bind] in *. exact H.
  Qed.
  Lemma reads_own : forall (ann : annotation) v, from ann READ = Ok v -> reads_artifact from ann (v_artifact v) v.
  Proof.
    intros ann v H. destruct (item_cases pick_artifact an_artifact pick_artifact_p (extras ann)) as [[N _]|[(e & x & O & P & _)|[S E]]].
    - apply reads_default; [exact N|apply from_default; assumption|reflexivity].
    - destruct e; try discriminate. injection P as ->. apply reads_explicit with x; auto.
    - exfalso. unfold from_annotation in H. destruct (get_class_for vsub cls reg ann); [|discriminate]. cbn [bind] in H. unfold kwargs_of in H.
      change (item_of (fun e : extra V A => match e with XArtifact a => Some a | _ => None end) (extras ann)) with (item_of pick_artifact (extras ann)) in H. rewrite E in H. discriminate H.
  Qed.

  Lemma fields_unique : forall (fs : list (str * field A)) (a b : list (str * A)), Forall2 (fun nf na => nf = (fst na, Field (FArtifact (snd na)) true)) fs a ->
    Forall2 (fun nf na => nf = (fst na, Field (FArtifact (snd na)) true)) fs b -> a = b.
  Proof.
    intros fs a b H. revert b. induction H as [|nf na l m X H IH]; intros b G; inversion G; subst; [reflexivity|].
    f_equal; [|apply IH; assumption]. destruct na, y. cbn in *. congruence.
  Qed.

  Theorem decorated : forall (params : list (parameter annotation)) ret validate map_ no_hint d,
    NoDup (map par_name (proper params)) -> (forall n, In n (map par_name (proper params)) -> ~ In n [$"annotations"; $"version"]) ->
    decorate from params ret validate map_ no_hint = Ok d ->
    ((exists c, define from aeqb same d = Ok c) <->
     (forall p, In p (proper params) -> par_hint p <> None /\ par_default p = false /\ (par_kind p = PositionalOrKeyword \/ par_kind p = KeywordOnly)) /\
     exists r vs, ret = Some r /\ returned r <> [Annotation (HClass PyNoneType) []] /\ Forall2 (fun ann v => from ann WRITE = Ok v) (returned r) vs /\
       alike vs /\ validates same (match validate with Some ps => ps | None => any_outputs end) (map root (returned r)) /\
       match map_ with
       | Some ps => forall p, In p (proper ps) -> par_hint p = Some true /\ par_default p = false /\
                      (par_kind p = PositionalOrKeyword \/ par_kind p = KeywordOnly) /\ In (par_name p) (map par_name (proper params))
       | None => (forall v, In v vs -> is_partitioned (v_type v) = Ok false) /\ ~ In $"kwargs" (map par_name (proper params))
       end).
  Proof.
    intros params ret validate map_ no_hint d ND NR D. unfold decorate in D.
    destruct (mapM _ (without_owner params)) as [fs|] eqn:M; [|discriminate]. cbn [bind] in D. injection D as <-.
    rewrite <- proper_is in M. remember (proper params) as qs eqn:Hq. symmetry in Hq.
    assert (L : exists l : list (parameter annotation * view), qs = map fst l /\
      (forall p v, In (p, v) l -> from (match par_hint p with Some h => h | None => no_hint end) READ = Ok v) /\
      fs = map (fun pv => (par_name (fst pv), Field (FArtifact (v_artifact (snd pv))) true)) l).
    { clear ND NR Hq. apply mapM_iff in M. induction M as [|p nf qs' fs' X M IH]; [exists []; split; [reflexivity|split; [intros p v []|reflexivity]]|].
      destruct (from _ READ) as [v|] eqn:Fv; [|discriminate]. cbn [bind] in X. injection X as <-. destruct IH as (l & -> & H & ->). exists ((p, v) :: l).
      split; [reflexivity|]. split; [|reflexivity]. intros p' v' [E|I]; [injection E as <- <-; exact Fv|auto]. }
    clear M. destruct L as (l & Eq & Fr & ->).
    set (fields := map (fun pv : parameter annotation * view => (par_name (fst pv), Field (FArtifact (v_artifact (snd pv))) true)) l).
    set (ins := map (fun pv : parameter annotation * view => (par_name (fst pv), v_artifact (snd pv))) l).
    set (bins := map (fun pv : parameter annotation * view => (par_name (fst pv), snd pv)) l).
    assert (En : map fst ins = map par_name qs) by (unfold ins; rewrite Eq, !map_map; reflexivity).
    assert (Eb : map fst bins = map par_name qs) by (unfold bins; rewrite Eq, !map_map; reflexivity).
    assert (Ef : map fst fields = map par_name qs) by (unfold fields; rewrite Eq, !map_map; reflexivity).
    assert (Nf : NoDup (map fst fields)) by (rewrite Ef; exact ND).
    assert (Ff : filter (fun nf : str * field A => if in_dec (list_eq_dec ascii_dec) (fst nf) [$"annotations"; $"version"] then false else true) fields = fields).
    { apply filter_keeps. intros nf I. destruct (in_dec (list_eq_dec ascii_dec) (fst nf) [$"annotations"; $"version"]) as [J|J]; [|reflexivity].
      destruct (NR (fst nf)); [rewrite <- Ef; apply in_map, I|exact J]. }
    assert (Fi : Forall2 (fun nf na => nf = (fst na, Field (FArtifact (snd na)) true)) fields ins).
    { unfold fields, ins. clear. induction l as [|pv l IH]; constructor; auto. }
    assert (Ui : forall ins', Forall2 (fun nf na => nf = (fst na, Field (FArtifact (snd na)) true)) fields ins' -> ins' = ins).
    { intros ins' H. exact (fields_unique _ _ _ H Fi). }
    split.
    - intros (c & H). apply (define_iff from aeqb aeqb_spec) in H; [|exact Nf]. destruct H as [F (b & r & Db & _ & Rb & Pb & Nn & Os & Al & Vd) Mp (Sm & Pm & Mi) U].
      cbn [d_fields d_build d_validate d_map] in *. injection Db as <-. cbn [m_return m_params] in *. rewrite Hq in Pb.
      assert (F' : Forall2 (fun nf na => nf = (fst na, Field (FArtifact (snd na)) true)) (filter (fun nf : str * field A => if in_dec (list_eq_dec ascii_dec) (fst nf) [$"annotations"; $"version"] then false else true) fields) (inputs c)) by exact F. clear F. rename F' into F.
      rewrite Ff in F. apply Ui in F. rewrite F in *.
      assert (Nb : map fst (build_inputs c) = map par_name qs).
      { clear - Pb. induction Pb as [|p nv qs' bs (ann & a & _ & E & _) Pb IH]; [reflexivity|]. cbn [map]. rewrite E, IH. reflexivity. }
      split.
      + intros p I. destruct (Forall2_left _ _ _ _ _ Pb p I) as (nv & _ & ann & a & [Kh Kd Kk _] & _). split; [congruence|]. auto.
      + exists r, (outputs c). split; [exact Rb|]. split; [exact Nn|]. split; [exact Os|]. split; [exact Al|]. split; [exact Vd|]. destruct map_ as [ps|].
        * destruct Mp as [Mp|(Mp & _)]; [|discriminate]. injection Mp as Mp. rewrite <- Mp in Pm. cbn [m_params] in Pm. intros p I. destruct (Pm p I) as [Kh Kd Kk Ki].
          rewrite En in Ki. auto.
        * destruct Mp as [Mp|(_ & Np & [_ Gn _] & Gk)]; [discriminate|]. split; [exact Np|]. intro I. apply Gk. rewrite Gn.
          assert (I' := I). rewrite <- En in I. apply in_map_iff in I. destruct I as (na & E & I). apply in_map_iff. exists na. split; [exact E|]. apply filter_In. split; [exact I|].
          apply existsb_exists. rewrite <- Nb in I'. apply in_map_iff in I'. destruct I' as (nv & E' & I'). exists nv. split; [exact I'|]. rewrite E, E'. apply str_eqb_refl.
    - intros [Pq (r & vs & Rb & Nn & Os & Al & Vd & Mp)].
      set (m := match map_ with Some ps => Method true ps tt | None => generated_map ins bins end).
      exists (ProducerClass ins bins vs m (map par_name (proper (m_params m)))). apply (define_iff from aeqb aeqb_spec); [exact Nf|].
      assert (Gn : map_ = None -> map par_name (m_params m) = map par_name qs).
      { unfold m. intros ->. unfold generated_map. cbn [m_params]. rewrite map_map. cbn [par_name]. rewrite <- En. f_equal. apply filter_keeps. intros na I. apply mem_In. rewrite Eb, <- En.
        apply in_map, I. }
      constructor; cbn [inputs build_inputs outputs map_method map_inputs d_fields d_build d_validate d_map].
      + enough (X : Forall2 (fun nf na => nf = (fst na, Field (FArtifact (snd na)) true)) (filter (fun nf : str * field A => if in_dec (list_eq_dec ascii_dec) (fst nf) [$"annotations"; $"version"] then false else true) fields) ins) by exact X. rewrite Ff. exact Fi.
      + exists (Method true params ret), r. cbn [m_static m_return m_params]. split; [reflexivity|]. split; [reflexivity|]. split; [exact Rb|]. split; [|auto].
        rewrite Hq, Eq. unfold bins. assert (Fr' : forall p v, In (p, v) l -> In (par_name p, v_artifact v) ins /\ In p qs /\ from (match par_hint p with Some h => h | None => no_hint end) READ = Ok v).
        { intros p v I. split; [|split; [rewrite Eq; exact (in_map fst l (p, v) I)|apply Fr, I]]. exact (in_map (fun pv : parameter annotation * view => (par_name (fst pv), v_artifact (snd pv))) l (p, v) I). }
        clear - Fr' Pq En. clearbody ins. revert Fr'. induction l as [|[p v] l' IH]; intros Fr'; cbn [map]; constructor.
        * destruct (Fr' p v (or_introl eq_refl)) as (I & J & H). destruct (Pq p J) as (Kh & Kd & Kk). destruct (par_hint p) as [ann|] eqn:Eh; [|congruence].
          exists ann, (v_artifact v). split; [constructor; auto; rewrite En; apply in_map, J|]. split; [reflexivity|]. split; [exact I|]. apply reads_own. exact H.
        * apply IH. intros p' v' I. apply Fr'. right. exact I.
      + unfold m in *. destruct map_ as [ps|]; [left; reflexivity|]. right. destruct Mp as [Np Nk]. split; [reflexivity|]. split; [exact Np|].
        apply generated_iff. split; [reflexivity|]. rewrite (Gn eq_refl). exact Nk.
      + split; [unfold m; destruct map_; reflexivity|]. split; [|reflexivity]. unfold m in *. destruct map_ as [ps|]; cbn [m_params].
        * intros p I. destruct (Mp p I) as (Kh & Kd & Kk & Ki). constructor; auto. rewrite En. exact Ki.
        * intros p I. rewrite proper_is in I. apply filter_In in I. destruct I as [I _]. assert (In (par_name p) (map par_name qs)) by (rewrite <- (Gn eq_refl); apply in_map, I).
          apply in_map_iff in I. destruct I as (na & <- & I). constructor; cbn [par_hint par_default par_kind par_name] in *; auto; [|rewrite En; assumption].
          destruct (str_eqb (fst na) $"kwargs") eqn:E; [|reflexivity]. apply str_eqb_spec in E. destruct Mp as [_ Nk]. destruct Nk. rewrite <- E. assumption.
      + intros n I. left. rewrite Eb, <- En. exact I.
  Qed.
End Decorator.

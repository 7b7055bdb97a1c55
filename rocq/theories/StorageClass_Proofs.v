(** Proofs about storage classes. *)
From Coq Require Import ZArith List Ascii String Bool Lia.
From Verif Require Import Base Str Str_Proofs Base_Proofs FrozenDict_Model FrozenDict_Proofs Partitions_Model Storage_Model StorageClass_Model StorageClass_Spec.
Import ListNotations.
Open Scope list_scope.

Section Proofs.
  Context {A M : Type} (ann_eqb : A -> A -> bool) (ann_spec : forall a b, ann_eqb a b = true <-> a = b).
  Implicit Types (m p root : mclass A M) (c : sclass A M).

  Definition tidy m : Prop := NoDup (map fst (m_fields m)).

  Lemma folded_NoDup : forall (l : list (mclass A M)) d, NoDup (map fst d) ->
    NoDup (map fst (fold_left (fun d k => dupdate str_eqb d (m_fields k)) l d)).
  Proof. induction l as [|x l IH]; intros d N; cbn; [exact N|]. apply IH. apply (dupdate_NoDup str_eqb str_eqb_spec). exact N. Qed.
  Lemma defined_tidy : forall bases (b : body A M), tidy (define_model bases b).
  Proof. intros. unfold tidy. cbn. apply (dupdate_NoDup str_eqb str_eqb_spec). apply folded_NoDup. constructor. Qed.
  Lemma mixin_tidy : forall m, mixin m -> tidy m.
  Proof. intros m H. destruct H; [constructor|apply defined_tidy]. Qed.
  Lemma partition_tidy : forall root p, tidy root -> partition_class root p -> tidy p.
  Proof. intros root p R H. destruct H; [exact R|apply defined_tidy]. Qed.

  (** * Fields *)
  Lemma dget_iff : forall m n f, tidy m -> In (n, f) (m_fields m) <-> dget str_eqb (m_fields m) n = Some f.
  Proof.
    intros m n f N. split; intro H.
    - apply (dget_NoDup str_eqb str_eqb_spec); auto.
    - apply (dget_In str_eqb str_eqb_spec); auto.
  Qed.

  Lemma dget_over : forall (d e : list (str * finfo A M)) n, NoDup (map fst e) ->
    dget str_eqb (dupdate str_eqb d e) n = match dget str_eqb e n with Some f => Some f | None => dget str_eqb d n end.
  Proof. intros d e n N. rewrite (dget_dupdate str_eqb str_eqb_spec), (dget_rev str_eqb str_eqb_spec) by exact N. reflexivity. Qed.

  Lemma folded_get : forall bases n, (forall x, In x bases -> tidy x) ->
    dget str_eqb (fold_left (fun d k => dupdate str_eqb d (m_fields k)) (rev bases) []) n =
    match bases with [] => None | m :: r => match dget str_eqb (m_fields m) n with Some f => Some f | None =>
      dget str_eqb (fold_left (fun d k => dupdate str_eqb d (m_fields k)) (rev r) []) n end end.
  Proof.
    intros [|m r] n T; cbn [rev]; [reflexivity|]. rewrite fold_left_app. cbn [fold_left]. apply dget_over. apply T. now left.
  Qed.

  Lemma folded_inherits : forall bases n f, (forall x, In x bases -> tidy x) ->
    dget str_eqb (fold_left (fun d k => dupdate str_eqb d (m_fields k)) (rev bases) []) n = Some f <-> inherits bases n f.
  Proof.
    induction bases as [|m r IH]; intros n f T; rewrite folded_get by exact T.
    - split; [discriminate|]. intros (l & m & r & E & _). destruct l; discriminate E.
    - destruct (dget str_eqb (m_fields m) n) as [g|] eqn:G.
      + split; intro H.
        * injection H as ->. exists [], m, r. split; [reflexivity|]. split; [intros x []|]. apply dget_iff; [apply T; now left|exact G].
        * destruct H as (l & m' & r' & E & L & I). destruct l as [|x l].
          -- injection E as <- <-. apply dget_iff in I; [congruence|apply T; now left].
          -- injection E as <- _. exfalso. apply (L m); [now left|]. apply (dget_Some_key str_eqb str_eqb_spec) in G. exact G.
      + rewrite IH by (intros x I; apply T; now right). apply (dget_None str_eqb str_eqb_spec) in G. split.
        * intros (l & m' & r' & -> & L & I). exists (m :: l), m', r'. split; [reflexivity|]. split; [|exact I].
          intros x [<-|J]; [exact G|apply L, J].
        * intros (l & m' & r' & E & L & I). destruct l as [|x l].
          -- injection E as <- <-. exfalso. apply G. apply in_map_iff. exists (n, f). auto.
          -- injection E as _ E. exists l, m', r'. split; [exact E|]. split; [|exact I]. intros y J. apply L. now right.
  Qed.

  Theorem fields_of : forall bases (b : body A M) n f, (forall x, In x bases -> tidy x) -> NoDup (map fst (b_fields b)) ->
    In (n, f) (m_fields (define_model bases b)) <->
    In (n, f) (b_fields b) \/ ~ In n (map fst (b_fields b)) /\ inherits bases n f.
  Proof.
    intros bases b n f T N. rewrite dget_iff by apply defined_tidy. cbn [define_model m_fields]. rewrite dget_over by exact N.
    destruct (dget str_eqb (b_fields b) n) as [g|] eqn:G.
    - split; intro H.
      + left. injection H as ->. apply (dget_In str_eqb str_eqb_spec); exact G.
      + destruct H as [I|[I _]].
        * rewrite <- G. apply (dget_NoDup str_eqb str_eqb_spec); auto.
        * exfalso. apply I. apply (dget_Some_key str_eqb str_eqb_spec) in G. exact G.
    - rewrite folded_inherits by exact T. apply (dget_None str_eqb str_eqb_spec) in G. split; [tauto|].
      intros [I|[_ I]]; [|exact I]. exfalso. apply G. apply in_map_iff. exists (n, f). auto.
  Qed.

  (** * The check *)
  Lemma existsb_in : forall n l, existsb (str_eqb n) l = true <-> In n l.
  Proof.
    intros n l. rewrite existsb_exists. split.
    - intros (x & I & E). apply str_eqb_spec in E. subst. exact I.
    - intro I. exists n. split; [exact I|]. now apply str_eqb_spec.
  Qed.
  Lemma but_In : forall names fields n a, In (n, a) (annotations_but names fields) <->
    ~ In n names /\ exists f : finfo A M, In (n, f) fields /\ f_ann f = a.
  Proof.
    intros names fields n a. unfold annotations_but. rewrite in_map_iff. split.
    - intros ([n' f] & E & I). injection E as <- <-. apply filter_In in I. destruct I as [I N]. cbn in N. split.
      + intro J. apply existsb_in in J. rewrite J in N. discriminate.
      + exists f. auto.
    - intros (N & f & I & <-). exists (n, f). split; [reflexivity|]. apply filter_In. split; [exact I|]. cbn.
      destruct (existsb (str_eqb n) names) eqn:X; [|reflexivity]. apply existsb_in in X. contradiction.
  Qed.
  Lemma but_NoDup : forall names (fields : list (str * finfo A M)), NoDup (map fst fields) -> NoDup (map fst (annotations_but names fields)).
  Proof.
    intros names fields. unfold annotations_but. rewrite map_map. cbn. induction fields as [|[n f] fields IH]; cbn; intro N; [constructor|].
    inversion N as [|? ? I N']; subst. destruct (negb (existsb (str_eqb n) names)); cbn; [constructor; [|apply IH, N']|apply IH, N'].
    intro J. apply I. apply in_map_iff in J. destruct J as (x & E & J). apply filter_In in J. apply in_map_iff. exists x. tauto.
  Qed.
  Lemma check_alike : forall m p, tidy m -> tidy p ->
    dict_eqb str_eqb ann_eqb (annotations_but storage_names (m_fields m)) (annotations_but partition_names (m_fields p)) = true <-> alike m p.
  Proof.
    intros m p Tm Tp. rewrite (dict_eqb_spec str_eqb str_eqb_spec) by (apply but_NoDup; assumption).
    assert (G : forall names x n a, tidy x -> dget str_eqb (annotations_but names (m_fields x)) n = Some a <-> ~ In n names /\ declares x n a).
    { intros names x n a T. unfold declares. rewrite <- but_In. split; intro H.
      - apply (dget_In str_eqb str_eqb_spec); exact H.
      - apply (dget_NoDup str_eqb str_eqb_spec); [apply but_NoDup, T|exact H]. }
    split.
    - intros H n a. specialize (H n). split.
      + intro D. assert (Q : dget str_eqb (annotations_but storage_names (m_fields m)) n = Some a) by (apply G; [exact Tm|split; [intros []|exact D]]).
        rewrite Q in H. destruct (dget str_eqb (annotations_but partition_names (m_fields p)) n) as [a'|] eqn:Q'; [|contradiction].
        apply ann_spec in H. subst a'. apply G in Q'; [|exact Tp]. split; [apply Q'|]. apply Q'.
      + intros [D N]. assert (Q : dget str_eqb (annotations_but partition_names (m_fields p)) n = Some a) by (apply G; [exact Tp|split; [exact N|exact D]]).
        rewrite Q in H. destruct (dget str_eqb (annotations_but storage_names (m_fields m)) n) as [a'|] eqn:Q'; [|contradiction].
        apply ann_spec in H. subst a'. apply G in Q'; [|exact Tm]. apply Q'.
    - intros H n.
      destruct (dget str_eqb (annotations_but storage_names (m_fields m)) n) as [a|] eqn:Q;
        destruct (dget str_eqb (annotations_but partition_names (m_fields p)) n) as [a'|] eqn:Q'.
      + apply G in Q; [|exact Tm]. destruct Q as [_ Q]. apply H in Q. destruct Q as [D N].
        assert (X : dget str_eqb (annotations_but partition_names (m_fields p)) n = Some a) by (apply G; [exact Tp|split; [exact N|exact D]]).
        apply ann_spec. congruence.
      + apply G in Q; [|exact Tm]. destruct Q as [_ Q]. apply H in Q. destruct Q as [D N].
        assert (X : dget str_eqb (annotations_but partition_names (m_fields p)) n = Some a) by (apply G; [exact Tp|split; [exact N|exact D]]).
        congruence.
      + apply G in Q'; [|exact Tp]. destruct Q' as [N D].
        assert (X : declares m n a') by (apply H; split; [exact D|exact N]).
        assert (Y : dget str_eqb (annotations_but storage_names (m_fields m)) n = Some a') by (apply G; [exact Tm|split; [intros []|exact X]]).
        congruence.
      + exact I.
  Qed.

  Lemma first_item_has : forall bases i, first_item bases = Some i <->
    exists l (s : sclass A M) r, bases = l ++ Stores s :: r /\ c_item s = Some i /\ forall s', In (Stores s') l -> c_item s' = None.
  Proof.
    induction bases as [|b bases IH]; intro i; cbn [first_item].
    - split; [discriminate|]. intros (l & s & r & E & _). destruct l; discriminate E.
    - destruct (item_of b) as [j|] eqn:J.
      + destruct b as [m|s]; [discriminate J|]. cbn in J. split; intro H.
        * injection H as ->. exists [], s, bases. split; [reflexivity|]. split; [exact J|]. intros s' [].
        * destruct H as (l & s' & r & E & Q & L). destruct l as [|x l].
          -- injection E as <- _. congruence.
          -- injection E as <- _. specialize (L s (or_introl eq_refl)). congruence.
      + rewrite IH. split.
        * intros (l & s & r & -> & Q & L). exists (b :: l), s, r. split; [reflexivity|]. split; [exact Q|].
          intros s' [->|K]; [exact J|apply L, K].
        * intros (l & s & r & E & Q & L). destruct l as [|x l].
          -- injection E as -> _. cbn in J. congruence.
          -- injection E as _ E. exists l, s, r. split; [exact E|]. split; [exact Q|]. intros s' K. apply L. now right.
  Qed.
  Lemma item_has : forall own bases i, (match own with Some x => Some x | None => first_item bases end) = Some i <-> @has_item A M own bases i.
  Proof.
    intros [x|] bases i; unfold has_item.
    - split; [intro H; left; exact H|]. intros [H|[H _]]; [exact H|discriminate].
    - rewrite first_item_has. split; [intro H; right; split; [reflexivity|exact H]|]. intros [H|[_ H]]; [discriminate|exact H].
  Qed.

  Lemma made_tidy : forall root c, storage_made ann_eqb root c -> tidy (c_model c).
  Proof.
    intros root c H. destruct H as [|bases b own c _ _ _ D|c i c' _ _ D].
    - constructor.
    - unfold define_storage in D. destruct (init_subclass ann_eqb _ _); [|discriminate]. cbn in D. injection D as <-. apply defined_tidy.
    - unfold subscript in D. destruct (c_params c); [|discriminate]. unfold define_storage in D.
      destruct (init_subclass ann_eqb _ _); [|discriminate]. cbn in D. injection D as <-. unfold tidy. cbn [c_model m_fields].
      exact (defined_tidy [c_model c] (Body [] None false)).
  Qed.
  Lemma made_proper : forall root c, storage_made ann_eqb root c -> forall i, c_item c = Some i -> proper root i.
  Proof.
    intros root c H. induction H as [|bases b own c Mx Sx IH Ow D|c i c' H IH P D]; intros j J.
    - discriminate.
    - unfold define_storage in D. destruct (init_subclass ann_eqb _ _); [|discriminate]. cbn in D. injection D as <-. cbn in J.
      apply item_has in J. destruct J as [J|[-> (l & s & r & -> & Q & _)]]; [exact (Ow _ J)|].
      apply (IH s); [apply in_or_app; right; now left|exact Q].
    - unfold subscript in D. destruct (c_params c); [|discriminate]. destruct (define_storage ann_eqb _ _ _); [|discriminate].
      cbn in D. injection D as <-. cbn in J. injection J as <-. exact P.
  Qed.

  Lemma init_iff : forall root m i, tidy root -> tidy m -> (forall x, i = Some x -> proper root x) ->
    init_subclass ann_eqb m i = Ok tt <-> m_abstract m = true \/ i = None \/ exists p, i = Some (ItemClass p) /\ alike m p.
  Proof.
    intros root m i R T P. unfold init_subclass. destruct (m_abstract m); [split; auto|].
    destruct i as [[p|]|].
    - assert (Tp : tidy p) by (apply (partition_tidy root p R), (P (ItemClass p)); reflexivity).
      destruct (dict_eqb _ _ _ _) eqn:E.
      + split; [|reflexivity]. intros _. right. right. exists p. split; [reflexivity|]. apply check_alike; assumption.
      + split; [discriminate|]. intros [H|[H|(p' & H & L)]]; try discriminate. injection H as <-. apply check_alike in L; try assumption. congruence.
    - split; [discriminate|]. intros [H|[H|(p & H & _)]]; discriminate.
    - split; auto.
  Qed.

  Theorem defined : forall root bases (b : body A M) own, tidy root ->
    (forall m, In (Mixin m) bases -> mixin m) -> (forall s, In (Stores s) bases -> storage_made ann_eqb root s) ->
    (forall i, own = Some i -> proper root i) -> forall m, m = define_model (map model_of bases) b ->
    ((exists c, define_storage ann_eqb bases b own = Ok c) <->
     m_abstract m = true \/ forall i, has_item own bases i -> exists p, i = ItemClass p /\ alike m p) /\
    (forall c, define_storage ann_eqb bases b own = Ok c -> c_model c = m /\ forall i, c_item c = Some i <-> has_item own bases i).
  Proof.
    intros root bases b own R Mx Sx Ow m ->.
    assert (P : forall x, (match own with Some x => Some x | None => first_item bases end) = Some x -> proper root x).
    { intros x H. apply item_has in H. destruct H as [H|[_ (l & s & r & -> & Q & _)]]; [exact (Ow _ H)|].
      apply (made_proper root s); [apply Sx; apply in_or_app; right; now left|exact Q]. }
    pose proof (init_iff root (define_model (map model_of bases) b) _ R (defined_tidy _ _) P) as Q.
    split.
    - unfold define_storage. split.
      + intros [c D]. destruct (init_subclass ann_eqb _ _) as [[]|] eqn:X; [|discriminate]. pose proof (proj1 Q eq_refl) as E. destruct E as [E|E]; [left; exact E|].
        right. intros i H. apply item_has in H. destruct E as [E|(p & E & L)]; rewrite H in E; [discriminate|]. injection E as ->. exists p. auto.
      + intro H. assert (E : init_subclass ann_eqb (define_model (map model_of bases) b) (match own with Some x => Some x | None => first_item bases end) = Ok tt).
        { apply Q. destruct H as [H|H]; [left; exact H|]. right.
          destruct (match own with Some x => Some x | None => first_item bases end) as [i|] eqn:I; [|left; reflexivity].
          right. apply item_has in I. destruct (H i I) as (p & -> & L). exists p. auto. }
        rewrite E. cbn. eauto.
    - intros c D. unfold define_storage in D. destruct (init_subclass ann_eqb _ _); [|discriminate]. cbn [rmap] in D. injection D as <-. cbn [c_model c_item].
      split; [reflexivity|]. intro i. apply item_has.
  Qed.

  Theorem instances_alike : forall root c, tidy root -> storage_made ann_eqb root c -> m_abstract (c_model c) = false ->
    forall i, c_item c = Some i -> exists p, i = ItemClass p /\ partition_class root p /\ alike (c_model c) p.
  Proof.
    intros root c R H Ab i I. pose proof (made_proper root c H i I) as P.
    destruct H as [|bases b own c Mx Sx Ow D|c j c' H Pj D].
    - discriminate.
    - destruct (defined root bases b own R Mx Sx Ow _ eq_refl) as [[F _] G]. destruct (G c D) as [Eq K]. rewrite Eq in Ab |- *. apply K in I.
      destruct F as [F|F]; [eauto|congruence|]. destruct (F i I) as (p & -> & L). exists p. auto.
    - unfold subscript in D. destruct (c_params c); [|discriminate]. destruct (define_storage ann_eqb _ _ _); [|discriminate].
      cbn in D. injection D as <-. cbn in Ab. discriminate.
  Qed.

  (** * Making partitions *)
  Context (other : cvalue -> str -> result str) (suits : A -> arg -> bool) (holds : M -> arg -> bool).

  Lemma root_names : forall root p, tidy root -> (forall n, In n every_partition -> In n (map fst (m_fields root))) -> partition_class root p ->
    forall n, In n every_partition -> In n (map fst (m_fields p)).
  Proof.
    intros root p R F H. induction H as [|l m r b X H IH]; intros n I; [apply F, I|].
    assert (Q : dget str_eqb (m_fields (define_model (l ++ m :: r) b)) n <> None).
    { cbn [define_model m_fields]. rewrite (dget_dupdate str_eqb str_eqb_spec). destruct (dget str_eqb (rev (b_fields b)) n); [discriminate|].
      intro Z. apply (dget_None str_eqb str_eqb_spec) in Z. apply Z. clear Z.
      assert (K : forall (l : list (mclass A M)) d, (In n (map fst d) \/ exists x, In x l /\ In n (map fst (m_fields x))) ->
        In n (map fst (fold_left (fun d k => dupdate str_eqb d (m_fields k)) l d))).
      { clear. induction l as [|x l IH]; intros d H; cbn; [destruct H as [H|(x & [] & _)]; exact H|].
        apply IH. 
        assert (J : In n (map fst (dupdate str_eqb d (m_fields x))) <-> In n (map fst d) \/ In n (map fst (m_fields x))).
        { destruct (in_dec (list_eq_dec ascii_dec) n (map fst (dupdate str_eqb d (m_fields x)))) as [Y|Y].
          - split; [|intros _; exact Y]. intros _.
            destruct (dget str_eqb (dupdate str_eqb d (m_fields x)) n) as [v|] eqn:G.
            + rewrite (dget_dupdate str_eqb str_eqb_spec) in G. destruct (dget str_eqb (rev (m_fields x)) n) as [w|] eqn:G'.
              * right. apply (dget_Some_key str_eqb str_eqb_spec) in G'. rewrite map_rev in G'. apply in_rev. exact G'.
              * left. apply (dget_Some_key str_eqb str_eqb_spec) in G. exact G.
            + apply (dget_None str_eqb str_eqb_spec) in G. contradiction.
          - split; [contradiction|]. intro H'. apply (dget_None str_eqb str_eqb_spec) in Y. rewrite (dget_dupdate str_eqb str_eqb_spec) in Y.
            destruct (dget str_eqb (rev (m_fields x)) n) as [w|] eqn:G'; [discriminate|].
            apply (dget_None str_eqb str_eqb_spec) in Y. apply (dget_None str_eqb str_eqb_spec) in G'. rewrite map_rev in G'.
            destruct H' as [H'|H']; [contradiction|]. exfalso. apply G'. apply in_rev in H'. exact H'. }
        destruct H as [H|(y & [<-|I] & H)]; [left; apply J; now left|left; apply J; now right|right; eauto]. }
      apply K. right. exists m. split; [apply in_rev; rewrite rev_involutive; apply in_or_app; right; now left|apply IH, I]. }
    destruct (dget str_eqb _ n) eqn:G in Q; [|contradiction]. apply (dget_Some_key str_eqb str_eqb_spec) in G. exact G.
  Qed.

  Lemma dmem_iff : forall m n, dmem str_eqb (m_fields m) n = true <-> In n (map fst (m_fields m)).
  Proof.
    intros m n. unfold dmem. destruct (dget str_eqb (m_fields m) n) eqn:G.
    - split; [|reflexivity]. intros _. apply (dget_Some_key str_eqb str_eqb_spec) in G. exact G.
    - split; [discriminate|]. intro I. apply (dget_None str_eqb str_eqb_spec) in G. contradiction.
  Qed.
  Lemma distinct_iff : forall l, distinct l = true <-> NoDup l.
  Proof.
    induction l as [|x l IH]; cbn; [split; [constructor|reflexivity]|]. rewrite andb_true_iff, negb_true_iff, IH. split.
    - intros [E N]. constructor; [|exact N]. intro I. apply existsb_in in I. congruence.
    - intro N. inversion N as [|? ? I N']; subst. split; [|exact N']. destruct (existsb (str_eqb x) l) eqn:E; [|reflexivity]. apply existsb_in in E. contradiction.
  Qed.
  Lemma NoDup_app_intro : forall (l l' : list str), NoDup l -> NoDup l' -> (forall x, In x l -> In x l' -> False) -> NoDup (l ++ l').
  Proof.
    induction l as [|x l IH]; cbn; intros l' N N' Dj; [exact N'|]. inversion N as [|? ? I Nl]; subst. constructor.
    - intro J. apply in_app_or in J. destruct J as [J|J]; [contradiction|]. exact (Dj x (or_introl eq_refl) J).
    - apply IH; [exact Nl|exact N'|]. intros y J K. exact (Dj y (or_intror J) K).
  Qed.
  Lemma filter_all : forall (X : Type) (f : X -> bool) l, (forall x, In x l -> f x = true) -> filter f l = l.
  Proof. induction l as [|x l IH]; cbn; intro H; [reflexivity|]. rewrite (H x (or_introl eq_refl)), IH; [reflexivity|]. intros y I. apply H. now right. Qed.
  Lemma values_names : forall fp key (l r : list (str * option str)),
    mapM (fun nv => match snd nv with Some t => rmap (fun t' => (fst nv, Some t')) (generate_path other fp key t) | None => Ok nv end) l = Ok r ->
    map fst r = map fst l.
  Proof.
    induction l as [|[n v] l IH]; cbn; intros r H; [injection H as <-; reflexivity|].
    destruct v as [t|]; cbn in H.
    - destruct (generate_path other fp key t) as [t'|]; [|discriminate]. cbn in H. destruct (mapM _ l) as [r'|] eqn:Q; [|discriminate].
      cbn in H. injection H as <-. cbn. now rewrite (IH r' eq_refl).
    - destruct (mapM _ l) as [r'|] eqn:Q; [|discriminate]. cbn in H. injection H as <-. cbn. now rewrite (IH r' eq_refl).
  Qed.

  Definition kwargs_of (q : partition) : list (str * arg) :=
    [($"input_fingerprint", AFingerprint (p_fp q)); ($"partition_key", AKey (p_key q)); ($"storage", AStorage (p_storage q))]
      ++ map (fun nv => (fst nv, AField (snd nv))) (p_fields q).
  Lemma kwargs_names : forall q, map fst (kwargs_of q) = every_partition ++ map fst (p_fields q).
  Proof. intro q. unfold kwargs_of. rewrite map_app, map_map. reflexivity. Qed.

  Lemma alike_names : forall m p, alike m p -> forall n, In n (map fst (m_fields m)) <-> In n (map fst (m_fields p)) /\ ~ In n every_partition.
  Proof.
    intros m p L n. split.
    - intro I. apply in_map_iff in I. destruct I as ([n' f] & E & I). cbn in E. subst n'.
      destruct (proj1 (L n (f_ann f))) as [(g & J & _) N]; [exists f; auto|]. split; [|exact N]. apply in_map_iff. exists (n, g). auto.
    - intros [I N]. apply in_map_iff in I. destruct I as ([n' f] & E & I). cbn in E. subst n'.
      destruct (proj2 (L n (f_ann f))) as (g & J & _); [split; [exists f; auto|exact N]|]. apply in_map_iff. exists (n, g). auto.
  Qed.

  Lemma call_ok : forall p q, tidy p -> (forall n, In n every_partition -> In n (map fst (m_fields p))) -> NoDup (map fst (p_fields q)) ->
    (forall n, In n (map fst (p_fields q)) <-> In n (map fst (m_fields p)) /\ ~ In n every_partition) ->
    (concrete p -> fits_class suits holds p q -> call suits holds p (kwargs_of q) = Ok tt) /\
    (~ concrete p -> call suits holds p (kwargs_of q) = Err TypeError) /\
    (concrete p -> ~ fits_class suits holds p q -> call suits holds p (kwargs_of q) = Err ValueError).
  Proof.
    intros p q T Rn N Names. unfold call.
    assert (D : distinct (map fst (kwargs_of q)) = true).
    { apply distinct_iff. rewrite kwargs_names. apply NoDup_app_intro.
      - apply distinct_iff. reflexivity.
      - exact N.
      - intros x I J. apply Names in J. tauto. }
    rewrite D. cbn [negb].
    assert (Req : forallb (fun nf => negb (f_required (snd nf)) || existsb (str_eqb (fst nf)) (map fst (kwargs_of q))) (m_fields p) = true).
    { apply forallb_forall. intros [n f] I. cbn [fst snd]. apply orb_true_iff. right. apply existsb_in. rewrite kwargs_names. apply in_or_app.
      destruct (in_dec (list_eq_dec ascii_dec) n every_partition) as [Y|Y]; [left; exact Y|right]. apply Names. split; [|exact Y].
      apply in_map_iff. exists (n, f). auto. }
    rewrite Req, andb_true_r.
    assert (V : forallb (fun nv => match dget str_eqb (m_fields p) (fst nv) with
                               | Some f => suits (f_ann f) (snd nv) && holds (f_meta f) (snd nv)
                               | None => false end) (kwargs_of q) = true <-> fits_class suits holds p q).
    { rewrite forallb_forall. unfold fits_class. split.
      - intros H n f I v K. assert (J : In (n, v) (kwargs_of q)).
        { unfold kwargs_of. apply in_or_app. destruct K as [[-> ->]|[[-> ->]|[[-> ->]|(_ & x & X & ->)]]]; [left; cbn; auto..|].
          right. apply in_map_iff. exists (n, x). auto. }
        specialize (H _ J). cbn in H. apply dget_iff in I; [|exact T]. rewrite I in H. apply andb_true_iff in H. exact H.
      - intros H [n v] J. cbn [fst snd].
        assert (I : In n (map fst (m_fields p))).
        { assert (I : In n (map fst (kwargs_of q))) by (apply in_map_iff; exists (n, v); auto). rewrite kwargs_names in I. apply in_app_or in I.
          destruct I as [I|I]; [apply Rn, I|apply Names in I; tauto]. }
        apply in_map_iff in I. destruct I as ([n' f] & E & I). cbn in E. subst n'. pose proof I as I'. apply dget_iff in I'; [|exact T].
        rewrite I'. apply andb_true_iff. apply (H n f I). unfold kwargs_of in J. apply in_app_or in J. destruct J as [J|J].
        + cbn in J. destruct J as [J|[J|[J|[]]]]; injection J as <- <-; tauto.
        + apply in_map_iff in J. destruct J as ([n' x] & E & J). cbn in E. injection E as <- <-. right. right. right. split; [|eauto].
          apply Names. apply in_map_iff. exists (n', x). auto. }
    unfold concrete. destruct (m_abstract p), (m_missing p); cbn [orb]; repeat split; try reflexivity; try (intros [? ?]; discriminate); try tauto.
    - intros _ F. apply V in F. rewrite F. reflexivity.
    - intros _ F. destruct (forallb _ (kwargs_of q)) in V |- *; [|reflexivity]. exfalso. apply F, V. reflexivity.
  Qed.

  Theorem generates : forall root c p st fp key, tidy root -> (forall n, In n every_partition -> In n (map fst (m_fields root))) ->
    storage_made ann_eqb root c -> instance (c_model c) st -> c_item c = Some (ItemClass p) ->
    match generate_partition other st fp key with
    | Ok q => (concrete p /\ fits_class suits holds p q -> generate other suits holds c st fp key = Ok q) /\
              (~ concrete p -> generate other suits holds c st fp key = Err TypeError) /\
              (concrete p /\ ~ fits_class suits holds p q -> generate other suits holds c st fp key = Err ValueError)
    | Err e => generate other suits holds c st fp key = Err e
    end.
  Proof.
    intros root c p st fp key R Rn H [[Ab _] In_] I.
    destruct (instances_alike root c R H Ab _ I) as (p' & E & P & L). injection E as <-.
    pose proof (alike_names _ _ L) as Names. pose proof (partition_tidy root p R P) as T.
    unfold generate, generate_partition. destruct (get_key_types st) as [kts|]; [|reflexivity]. cbn [bind].
    destruct (check_key kts key); [|reflexivity]. cbn [bind]. destruct (Bool.eqb _ _); [|reflexivity]. rewrite I.
    rewrite filter_all.
    2:{ intros [n v] J. cbn. apply dmem_iff. apply (proj1 (Names n)). rewrite <- In_. apply in_map_iff. exists (n, v). auto. }
    destruct (mapM _ (s_fields st)) as [values|] eqn:Q; [|reflexivity]. cbn [bind rmap].
    apply values_names in Q.
    destruct (call_ok p {| p_fp := fp; p_key := key; p_storage := st; p_fields := values |} T) as (C1 & C2 & C3).
    - intros n J. apply (root_names root p R Rn P n J).
    - cbn [p_fields]. rewrite Q, In_. exact (made_tidy root c H).
    - cbn [p_fields]. rewrite Q, In_. exact Names.
    - unfold kwargs_of in C1, C2, C3. cbn [p_fp p_key p_storage p_fields] in C1, C2, C3. split; [|split].
      + intros [Cp F]. rewrite (C1 Cp F). reflexivity.
      + intros Cp. rewrite (C2 Cp). reflexivity.
      + intros [Cp F]. rewrite (C3 Cp F). reflexivity.
  Qed.

  Lemma values_from : forall fp key (l r : list (str * option str)) n x,
    mapM (fun nv => match snd nv with Some t => rmap (fun t' => (fst nv, Some t')) (generate_path other fp key t) | None => Ok nv end) l = Ok r ->
    In (n, x) r -> exists v, In (n, v) l /\ (v = None /\ x = None \/ exists s s', v = Some s /\ x = Some s').
  Proof.
    induction l as [|[m v] l IH]; cbn; intros r n x H I; [injection H as <-; destruct I|].
    destruct v as [t|]; cbn in H.
    - destruct (generate_path other fp key t) as [t'|]; [|discriminate]. cbn in H. destruct (mapM _ l) as [r'|] eqn:Q; [|discriminate].
      cbn in H. injection H as <-. destruct I as [I|I].
      + injection I as <- <-. exists (Some t). split; [now left|]. right. eauto.
      + destruct (IH r' n x eq_refl I) as (v & J & K). exists v. split; [now right|exact K].
    - destruct (mapM _ l) as [r'|] eqn:Q; [|discriminate]. cbn in H. injection H as <-. destruct I as [I|I].
      + injection I as <- <-. exists None. split; [now left|]. now left.
      + destruct (IH r' n x eq_refl I) as (v & J & K). exists v. split; [now right|exact K].
  Qed.
  Lemma partition_values : forall st fp key q, generate_partition other st fp key = Ok q ->
    p_fp q = fp /\ p_key q = key /\ p_storage q = st /\
    forall n x, In (n, x) (p_fields q) -> exists v, In (n, v) (s_fields st) /\ (v = None /\ x = None \/ exists s s', v = Some s /\ x = Some s').
  Proof.
    intros st fp key q H. unfold generate_partition in H. destruct (get_key_types st) as [kts|]; [|discriminate]. cbn [bind] in H.
    destruct (check_key kts key); [|discriminate]. cbn [bind] in H. destruct (Bool.eqb _ _); [|discriminate].
    destruct (mapM _ (s_fields st)) as [values|] eqn:Q; [|discriminate]. cbn in H. injection H as <-. cbn. repeat split.
    intros n x I. exact (values_from fp key _ _ n x Q I).
  Qed.

  Theorem always : forall root c p st fp key, tidy root -> (forall n, In n every_partition -> In n (map fst (m_fields root))) ->
    storage_made ann_eqb root c -> instance (c_model c) st -> c_item c = Some (ItemClass p) ->
    concrete p -> any_text suits -> undemanding suits holds p -> validated suits (c_model c) st ->
    generate other suits holds c st fp key = generate_partition other st fp key.
  Proof.
    intros root c p st fp key R Rn H In_ I Cp AT U V. pose proof (generates root c p st fp key R Rn H In_ I) as G.
    destruct (generate_partition other st fp key) as [q|e] eqn:Q; [|exact G].
    destruct G as [G _]. apply G. split; [exact Cp|].
    destruct (partition_values st fp key q Q) as (Q1 & Q2 & Q3 & Q4).
    destruct (instances_alike root c R H (proj1 (proj1 In_)) _ I) as (p' & E & P & L). injection E as <-.
    intros n f F v K. destruct (U n f F) as [U1 U2].
    destruct K as [[-> ->]|[[-> ->]|[[-> ->]|(N & x & X & ->)]]]; [apply (U2 (AFingerprint _) eq_refl)|apply (U2 (AKey _) eq_refl)|apply (U2 (AStorage _) eq_refl)|].
    split; [|apply U1, N]. destruct (Q4 n x X) as (v & J & K).
    assert (D : declares (c_model c) n (f_ann f)) by (apply L; split; [exists f; auto|exact N]).
    destruct D as (g & Ig & Eg). pose proof (V n g v Ig J) as W. rewrite Eg in W.
    destruct K as [[-> ->]|(s & s' & -> & ->)]; [exact W|]. rewrite (AT (f_ann f) s' s). exact W.
  Qed.

  Theorem without_type : forall c st fp key, c_item c = None -> forall q, generate other suits holds c st fp key <> Ok q.
  Proof.
    intros c st fp key E q. unfold generate. rewrite E. destruct (get_key_types st) as [kts|]; [|discriminate]. cbn [bind].
    destruct (check_key kts key); [|discriminate]. cbn [bind]. destruct (Bool.eqb _ _); discriminate.
  Qed.
  Theorem not_generic : forall c, c_params c = true -> c_item c = Some ItemVar -> forall i, subscript ann_eqb c i = Err AttributeError.
  Proof. intros c P E i. unfold subscript. rewrite P. unfold define_storage. cbn [first_item item_of]. rewrite E. reflexivity. Qed.
  Theorem subscripted : forall c i, c_params c = true -> c_item c = None ->
    exists c', subscript ann_eqb c i = Ok c' /\ c_item c' = Some i /\ m_abstract (c_model c') = true.
  Proof. intros c i P E. unfold subscript. rewrite P. unfold define_storage. cbn [first_item item_of]. rewrite E. cbn. eexists. split; [reflexivity|]. split; reflexivity. Qed.
End Proofs.

(** * The classes of partitions start from [StoragePartition] *)
Lemma root_tidy : forall A M (fp key st : finfo A M), tidy (storage_partition fp key st).
Proof. intros. unfold tidy. apply distinct_iff. reflexivity. Qed.
Lemma root_has : forall A M (fp key st : finfo A M) n, In n every_partition -> In n (map fst (m_fields (storage_partition fp key st))).
Proof. intros. exact H. Qed.

Section Root.
  Context {A M : Type} (ann_eqb : A -> A -> bool) (ann_spec : forall a b, ann_eqb a b = true <-> a = b) (fp key st : finfo A M).
  Let root := storage_partition fp key st.

  Theorem model_fields : forall bases (b : body A M), (forall x, In x bases -> mixin x \/ partition_class root x \/ exists s, storage_made ann_eqb root s /\ x = c_model s) ->
    NoDup (map fst (b_fields b)) -> forall n f,
    In (n, f) (m_fields (define_model bases b)) <-> In (n, f) (b_fields b) \/ ~ In n (map fst (b_fields b)) /\ inherits bases n f.
  Proof.
    intros bases b H N n f. apply fields_of; [|exact N]. intros x I. destruct (H x I) as [J|[J|(s & J & ->)]].
    - apply mixin_tidy, J.
    - apply (partition_tidy root x (root_tidy _ _ fp key st)), J.
    - apply (made_tidy ann_eqb root s J).
  Qed.
  Theorem class_defined : forall bases (b : body A M) own,
    (forall m, In (Mixin m) bases -> mixin m) -> (forall s, In (Stores s) bases -> storage_made ann_eqb root s) ->
    (forall i, own = Some i -> proper root i) -> forall m, m = define_model (map model_of bases) b ->
    ((exists c, define_storage ann_eqb bases b own = Ok c) <->
     m_abstract m = true \/ forall i, has_item own bases i -> exists p, i = ItemClass p /\ alike m p) /\
    (forall c, define_storage ann_eqb bases b own = Ok c -> c_model c = m /\ forall i, c_item c = Some i <-> has_item own bases i).
  Proof. intros bases b own. apply (defined ann_eqb ann_spec root); [apply root_tidy]. Qed.
  Theorem class_alike : forall c, storage_made ann_eqb root c -> m_abstract (c_model c) = false ->
    forall i, c_item c = Some i -> exists p, i = ItemClass p /\ partition_class root p /\ alike (c_model c) p.
  Proof. intros c. apply (instances_alike ann_eqb ann_spec root c), root_tidy. Qed.
  Theorem class_generates : forall other suits holds c p s f k,
    storage_made ann_eqb root c -> instance (c_model c) s -> c_item c = Some (ItemClass p) ->
    match generate_partition other s f k with
    | Ok q => (concrete p /\ fits_class suits holds p q -> generate other suits holds c s f k = Ok q) /\
              (~ concrete p -> generate other suits holds c s f k = Err TypeError) /\
              (concrete p /\ ~ fits_class suits holds p q -> generate other suits holds c s f k = Err ValueError)
    | Err e => generate other suits holds c s f k = Err e
    end.
  Proof. intros other suits holds c p s f k. apply (generates ann_eqb ann_spec other suits holds root); [apply root_tidy|apply root_has]. Qed.
  Theorem class_always : forall other suits holds c p s f k,
    storage_made ann_eqb root c -> instance (c_model c) s -> c_item c = Some (ItemClass p) ->
    concrete p -> any_text suits -> undemanding suits holds p -> validated suits (c_model c) s ->
    generate other suits holds c s f k = generate_partition other s f k.
  Proof. intros other suits holds c p s f k. apply (always ann_eqb ann_spec other suits holds root); [apply root_tidy|apply root_has]. Qed.
End Root.

From Coq Require Import ZArith List Bool Permutation Lia.
From Verif Require Import Base Base_Proofs FrozenDict_Model FrozenDict_Spec.
Import ListNotations.


Lemma lxor_swap : forall a b c, Z.lxor a (Z.lxor b c) = Z.lxor b (Z.lxor a c).
Proof. intros a b c. rewrite <- !Z.lxor_assoc. now rewrite (Z.lxor_comm a b). Qed.

Section FrozenDict.
  Context {K V : Type} (keqb : K -> K -> bool) (keqb_spec : forall a b, keqb a b = true <-> a = b).
  Context (veqb : V -> V -> bool).
  Context (ihash : K -> V -> option Z) (shuffle : Z -> Z) (finish : nat -> Z -> Z).
  Notation fd_new := (fd_new keqb ihash shuffle finish).
  Notation fd_or := (fd_or keqb ihash shuffle finish).
  Notation fd_ror := (fd_ror keqb ihash shuffle finish).
  Notation getitem := (fd_getitem keqb).

  Lemma last_given_dget : forall l k (v : V), dget keqb (rev l) k = Some v <-> last_given k l v.
  Proof.
    intros l k v. induction l as [|[k0 v0] l IH] using rev_ind.
    - cbn. split; [discriminate|]. intros (b & a & E & _). destruct b; discriminate.
    - rewrite rev_app_distr. cbn [rev app dget].
      destruct (keqb k0 k) eqn:E.
      + apply keqb_spec in E. subst k0. split.
        * intro H. inversion H; subst. exists l, []. auto.
        * intros (b & a & Eq & N). destruct a as [|x a _] using rev_ind.
          -- apply app_inj_tail in Eq. destruct Eq as [_ Eq]. congruence.
          -- rewrite app_comm_cons, app_assoc in Eq. apply app_inj_tail in Eq.
             destruct Eq as [_ <-]. exfalso. apply N. rewrite map_app.
             apply in_or_app. right. left. reflexivity.
      + assert (k0 <> k) by (now apply (eqb_false keqb keqb_spec)). rewrite IH. split.
        * intros (b & a & -> & N). exists b, (a ++ [(k0, v0)]). rewrite <- app_assoc. split; [reflexivity|].
          rewrite map_app. intro Hin. apply in_app_or in Hin. destruct Hin as [Hin|[Hin|[]]]; auto.
        * intros (b & a & Eq & N). destruct a as [|x a _] using rev_ind.
          -- apply app_inj_tail in Eq. destruct Eq as [_ Eq]. congruence.
          -- rewrite app_comm_cons, app_assoc in Eq. apply app_inj_tail in Eq.
             destruct Eq as [-> <-]. exists b, a. split; [reflexivity|].
             intro Hin. apply N. rewrite map_app. apply in_or_app. auto.
  Qed.

  Lemma fd_new_data : forall arg kw f, fd_new arg kw = Ok f ->
    fd_data f = dict_of keqb (arg ++ kw) /\ NoDup (map fst (fd_data f)) /\
    hash_frozenset ihash shuffle finish (fd_data f) = Ok (fd_hash f).
  Proof.
    intros arg kw f. unfold FrozenDict_Model.fd_new.
    destruct (hash_frozenset _ _ _ _) as [h|e] eqn:E; [|discriminate].
    cbn. intro H. inversion H; subst; cbn. repeat split; auto.
    now apply (dict_of_NoDup keqb keqb_spec).
  Qed.

  Lemma fd_lookup : forall arg kw f k v, fd_new arg kw = Ok f ->
    getitem f k = Ok v <-> last_given k (arg ++ kw) v.
  Proof.
    intros arg kw f k v H. destruct (fd_new_data _ _ _ H) as (E & _ & _).
    unfold fd_getitem. rewrite E. unfold dict_of.
    rewrite (dget_dupdate keqb keqb_spec). cbn [dget].
    rewrite <- last_given_dget.
    destruct (dget keqb (rev (arg ++ kw)) k); split; intro Q; inversion Q; reflexivity.
  Qed.

  Lemma fd_lookup_missing : forall arg kw f k, fd_new arg kw = Ok f ->
    getitem f k = Err KeyError <-> ~ In k (map fst (arg ++ kw)).
  Proof.
    intros arg kw f k H. destruct (fd_new_data _ _ _ H) as (E & _ & _).
    unfold fd_getitem. rewrite E. unfold dict_of.
    rewrite (dget_dupdate keqb keqb_spec). cbn [dget].
    assert (R : dget keqb (rev (arg ++ kw)) k = None <-> ~ In k (map fst (arg ++ kw))).
    { rewrite (dget_None keqb keqb_spec). rewrite map_rev, <- in_rev. reflexivity. }
    rewrite <- R. destruct (dget keqb (rev (arg ++ kw)) k); split; congruence.
  Qed.

  Lemma xor_items_perm : forall l l', Permutation l l' ->
    xor_items ihash shuffle l = xor_items ihash shuffle l'.
  Proof.
    induction 1 as [|[k v] l l' P IH|[k v] [k' v'] l|l l' l'' P1 IH1 P2 IH2]; cbn.
    - reflexivity.
    - now rewrite IH.
    - destruct (ihash k v), (ihash k' v'), (xor_items ihash shuffle l); try reflexivity.
      apply f_equal, lxor_swap.
    - congruence.
  Qed.


  Definition hstep (kh : K * option Z) (acc : option Z) : option Z :=
    match snd kh, acc with Some h, Some a => Some (Z.lxor (shuffle h) a) | _, _ => None end.

  Lemma xor_items_map : forall l,
    xor_items ihash shuffle l =
    fold_right hstep (Some 0%Z) (map (fun kv => (fst kv, ihash (fst kv) (snd kv))) l).
  Proof. induction l as [|[k v] l IH]; cbn; [reflexivity|]. rewrite IH. reflexivity. Qed.

  Lemma fold_perm : forall (l l' : list (K * option Z)), Permutation l l' ->
    fold_right hstep (Some 0%Z) l = fold_right hstep (Some 0%Z) l'.
  Proof.
    intros l l' P. induction P as [|[k v] l l' P IH|[k v] [k' v'] l|l l' l'' P1 IH1 P2 IH2]; cbn.
    - reflexivity.
    - now rewrite IH.
    - generalize (fold_right hstep (Some 0%Z) l). intros [a|]; destruct v, v'; try reflexivity.
      cbn.
      apply f_equal, lxor_swap.
    - congruence.
  Qed.

  Lemma dict_eqb_spec : forall a b : list (K * V), NoDup (map fst a) -> NoDup (map fst b) ->
    dict_eqb keqb veqb a b = true <->
    forall k, match dget keqb a k, dget keqb b k with
              | Some v, Some w => veqb v w = true
              | None, None => True
              | _, _ => False
              end.
  Proof.
    intros a b Na Nb. unfold dict_eqb. rewrite andb_true_iff, Nat.eqb_eq, forallb_forall. split.
    - intros [L F] k.
      assert (Sub : incl (map fst a) (map fst b)).
      { intros x Hx. apply in_map_iff in Hx. destruct Hx as [[x' v] [<- Hin]]. cbn.
        specialize (F _ Hin). cbn in F. destruct (dget keqb b x') eqn:G; [|discriminate].
        eapply dget_Some_key; eauto. }
      assert (Sub' : incl (map fst b) (map fst a)).
      { apply NoDup_length_incl; [exact Na| |exact Sub]. rewrite !map_length. lia. }
      destruct (dget keqb a k) as [v|] eqn:G.
      + apply (dget_In keqb keqb_spec) in G. specialize (F _ G). cbn in F.
        destruct (dget keqb b k); [exact F|discriminate].
      + apply (dget_None keqb keqb_spec) in G.
        destruct (dget keqb b k) as [w|] eqn:G'; [|exact I].
        apply (dget_Some_key keqb keqb_spec) in G'. exact (G (Sub' _ G')).
    - intro H.
      assert (S1 : incl (map fst a) (map fst b)).
      { intros x Hx. specialize (H x). destruct (dget keqb a x) as [v|] eqn:G.
        - destruct (dget keqb b x) eqn:G'; [|destruct H]. eapply dget_Some_key; eauto.
        - apply (dget_None keqb keqb_spec) in G. contradiction. }
      assert (S2 : incl (map fst b) (map fst a)).
      { intros x Hx. specialize (H x). destruct (dget keqb b x) as [v|] eqn:G.
        - destruct (dget keqb a x) eqn:G'; [|destruct H]. eapply dget_Some_key; eauto.
        - apply (dget_None keqb keqb_spec) in G. contradiction. }
      split.
      + apply NoDup_incl_length in S1; [|exact Na]. apply NoDup_incl_length in S2; [|exact Nb].
        rewrite !map_length in *. lia.
      + intros [k v] Hin. cbn. apply (dget_NoDup keqb keqb_spec) in Hin; [|exact Na].
        specialize (H k). rewrite Hin in H. destruct (dget keqb b k); [exact H|destruct H].
  Qed.

  Lemma eq_hash : hash_ok veqb ihash -> forall a b : list (K * V), NoDup (map fst a) -> NoDup (map fst b) ->
    dict_eqb keqb veqb a b = true ->
    hash_frozenset ihash shuffle finish a = hash_frozenset ihash shuffle finish b.
  Proof.
    intros HO a b Na Nb E.
    assert (L : length a = length b).
    { unfold dict_eqb in E. apply andb_true_iff in E. apply Nat.eqb_eq, E. }
    pose proof (proj1 (dict_eqb_spec a b Na Nb) E) as E'. clear E. rename E' into E.
    unfold hash_frozenset. rewrite L. rewrite !xor_items_map.
    set (h := fun kv : K * V => (fst kv, ihash (fst kv) (snd kv))).
    assert (P : Permutation (map h a) (map h b)).
    { apply NoDup_Permutation.
      - apply (NoDup_map_inv fst). rewrite map_map. cbn. exact Na.
      - apply (NoDup_map_inv fst). rewrite map_map. cbn. exact Nb.
      - assert (G : forall a b : list (K * V), NoDup (map fst a) -> NoDup (map fst b) ->
          (forall k, match dget keqb a k, dget keqb b k with
              | Some v, Some w => ihash k v = ihash k w
              | None, None => True
              | _, _ => False
              end) -> forall x, In x (map h a) -> In x (map h b)).
        { clear -keqb_spec. intros a b Na Nb H x Hx. apply in_map_iff in Hx.
          destruct Hx as [[k v] [<- Hin]]. apply (dget_NoDup keqb keqb_spec) in Hin; [|exact Na].
          specialize (H k). rewrite Hin in H.
          destruct (dget keqb b k) as [w|] eqn:G; [|destruct H].
          apply (dget_In keqb keqb_spec) in G. apply in_map_iff. exists (k, w). split; [|exact G].
          unfold h; cbn. now rewrite H. }
        intro x. split; apply G; auto; intro k; specialize (E k);
          destruct (dget keqb a k), (dget keqb b k); auto.
        symmetry. auto. }
    rewrite (fold_perm _ _ P). reflexivity.
  Qed.

  Lemma fd_eq_iff : forall arg kw arg' kw' f g, fd_new arg kw = Ok f -> fd_new arg' kw' = Ok g ->
    fd_eqb keqb veqb f g = true <->
    forall k, match getitem f k, getitem g k with
              | Ok v, Ok w => veqb v w = true
              | Err _, Err _ => True
              | _, _ => False
              end.
  Proof.
    intros arg kw arg' kw' f g Hf Hg.
    destruct (fd_new_data _ _ _ Hf) as (_ & Nf & _). destruct (fd_new_data _ _ _ Hg) as (_ & Ng & _).
    unfold fd_eqb. rewrite dict_eqb_spec by assumption. unfold fd_getitem.
    split; intros H k; specialize (H k); destruct (dget keqb (fd_data f) k), (dget keqb (fd_data g) k);
      exact H.
  Qed.

  Lemma fd_eq_hash : hash_ok veqb ihash -> forall arg kw arg' kw' f g,
    fd_new arg kw = Ok f -> fd_new arg' kw' = Ok g ->
    fd_eqb keqb veqb f g = true -> fd_hash f = fd_hash g.
  Proof.
    intros HO arg kw arg' kw' f g Hf Hg E.
    destruct (fd_new_data _ _ _ Hf) as (_ & Nf & Ef). destruct (fd_new_data _ _ _ Hg) as (_ & Ng & Eg).
    assert (Q := eq_hash HO _ _ Nf Ng E). congruence.
  Qed.

  Lemma fd_any_order : (forall v, veqb v v = true) -> forall l l' f g,
    NoDup (map fst l) -> Permutation l l' ->
    fd_new l [] = Ok f -> fd_new l' [] = Ok g ->
    fd_eqb keqb veqb f g = true /\ fd_hash f = fd_hash g.
  Proof.
    intros R l l' f g N P Hf Hg.
    destruct (fd_new_data _ _ _ Hf) as (Df & Nf & Ef). destruct (fd_new_data _ _ _ Hg) as (Dg & Ng & Eg).
    assert (N' : NoDup (map fst l')).
    { eapply Permutation_NoDup; [|exact N]. now apply Permutation_map. }
    assert (S : forall k, dget keqb (fd_data f) k = dget keqb (fd_data g) k).
    { intro k. rewrite Df, Dg. unfold dict_of. rewrite !(dget_dupdate keqb keqb_spec), !app_nil_r. cbn [dget].
      rewrite !(dget_rev keqb keqb_spec) by assumption.
      rewrite (dget_perm keqb keqb_spec l l' N P). reflexivity. }
    assert (PD : Permutation (fd_data f) (fd_data g)).
    { apply NoDup_Permutation.
      - now apply (NoDup_map_inv fst).
      - now apply (NoDup_map_inv fst).
      - intros [k v]. rewrite <- !(dget_NoDup keqb keqb_spec) by assumption. now rewrite S. }
    split.
    - unfold fd_eqb. apply dict_eqb_spec; [assumption|assumption|].
      intro k. rewrite S. destruct (dget keqb (fd_data g) k); auto.
    - unfold hash_frozenset in Ef, Eg.
      rewrite (xor_items_perm _ _ PD), (Permutation_length PD) in Ef. congruence.
  Qed.

  Lemma dget_fd : forall (f : frozendict K V) k v, dget keqb (fd_data f) k = Some v <-> getitem f k = Ok v.
  Proof.
    intros f k v. unfold fd_getitem. destruct (dget keqb (fd_data f) k); split; congruence.
  Qed.

  (** [NoDup] items of [f]; every frozendict that was created has this. *)
  Lemma fd_or_lookup : forall arg kw f other g, fd_new arg kw = Ok f ->
    NoDup (map fst other) -> fd_or f other = Ok g ->
    forall k, getitem g k =
      match dget keqb other k with Some v => Ok v | None => getitem f k end.
  Proof.
    intros arg kw f other g Hf No H k. destruct (fd_new_data _ _ _ Hf) as (_ & Nf & _).
    unfold FrozenDict_Model.fd_or in H. destruct (fd_new_data _ _ _ H) as (Dg & _ & _).
    unfold fd_getitem. rewrite Dg, app_nil_r. unfold dict_of at 1.
    assert (N1 : NoDup (map fst (dict_of keqb (fd_data f)))) by now apply dict_of_NoDup.
    rewrite (dget_dupdate keqb keqb_spec). cbn [dget].
    rewrite (dget_rev keqb keqb_spec) by now apply dupdate_NoDup.
    rewrite (dget_dupdate keqb keqb_spec).
    rewrite (dget_rev keqb keqb_spec) by exact No.
    unfold dict_of. rewrite (dget_dupdate keqb keqb_spec). cbn [dget].
    rewrite (dget_rev keqb keqb_spec) by exact Nf.
    destruct (dget keqb other k); [reflexivity|]. destruct (dget keqb (fd_data f) k); reflexivity.
  Qed.

  Lemma fd_ror_agree : forall arg kw f m g,
    fd_new arg kw = Ok f -> NoDup (map fst m) ->
    (forall k v w, dget keqb m k = Some v -> getitem f k = Ok w -> v = w) ->
    fd_ror f m = Ok g ->
    forall k, getitem g k =
      match getitem f k with
      | Ok v => Ok v
      | Err e => match dget keqb m k with Some v => Ok v | None => Err e end
      end.
  Proof.
    intros arg kw f m g Hf Nm Ha Hg k. rewrite (fd_or_lookup _ _ _ _ _ Hf Nm Hg k).
    specialize (Ha k). destruct (dget keqb m k) as [v|], (getitem f k) as [w|e]; try reflexivity.
    now rewrite (Ha v w).
  Qed.

  (** Items added to a hashable frozendict keep it hashable. *)
  Lemma xor_items_Some : forall l,
    (exists h, xor_items ihash shuffle l = Some h) <-> forall k v, In (k, v) l -> ihash k v <> None.
  Proof.
    induction l as [|[k v] l IH]; cbn.
    - split; [intros _ k v []|eauto].
    - split.
      + intros [h H] k' v' [E|Hin].
        * inversion E; subst. destruct (ihash k' v'); [discriminate|discriminate].
        * apply IH in Hin; [exact Hin|]. destruct (ihash k v); [|discriminate].
          destruct (xor_items ihash shuffle l); [eauto|discriminate].
      + intro H. assert (Hk := H k v (or_introl eq_refl)).
        destruct (ihash k v); [|congruence].
        assert (exists h, xor_items ihash shuffle l = Some h) as [h ->]
          by (apply IH; intros k' v' Hin; apply H; auto). eauto.
  Qed.

  Lemma fd_new_ok_iff : forall arg kw,
    (exists f, fd_new arg kw = Ok f) <->
    forall k v, last_given k (arg ++ kw) v -> ihash k v <> None.
  Proof.
    intros arg kw. unfold FrozenDict_Model.fd_new, hash_frozenset.
    assert (X : (exists h, xor_items ihash shuffle (dict_of keqb (arg ++ kw)) = Some h) <->
                forall k v, last_given k (arg ++ kw) v -> ihash k v <> None).
    { rewrite xor_items_Some. split; intros H k v Hk; apply H.
      - apply (dget_In keqb keqb_spec). unfold dict_of. rewrite (dget_dupdate keqb keqb_spec).
        apply last_given_dget in Hk. rewrite Hk. reflexivity.
      - apply (dget_NoDup keqb keqb_spec) in Hk; [|now apply dict_of_NoDup].
        unfold dict_of in Hk. rewrite (dget_dupdate keqb keqb_spec) in Hk. cbn [dget] in Hk.
        apply last_given_dget. destruct (dget keqb (rev (arg ++ kw)) k); [exact Hk|discriminate]. }
    rewrite <- X. destruct (xor_items _ _ _) as [h|]; cbn; split; intros [x Hx]; eauto; discriminate.
  Qed.

  Lemma fd_new_error : forall arg kw e, fd_new arg kw = Err e -> e = TypeError.
  Proof.
    intros arg kw e. unfold FrozenDict_Model.fd_new, hash_frozenset.
    destruct (xor_items _ _ _); cbn; congruence.
  Qed.

  Lemma dict_of_keys_in : forall (l : list (K * V)) k, In k (map fst (dict_of keqb l)) <-> In k (map fst l).
  Proof.
    intros l k. induction l as [|[k0 v0] l IH] using rev_ind; [reflexivity|].
    unfold dict_of, dupdate in *. rewrite fold_left_app, map_app. cbn [fold_left fst snd map].
    rewrite (dset_keys keqb). unfold dmem. rewrite in_app_iff, <- IH. cbn [In].
    destruct (dget keqb _ k0) eqn:G.
    - apply (dget_In keqb keqb_spec) in G. apply (in_map fst) in G. cbn [fst] in G. split; [tauto|].
      intros [I|[<-|[]]]; assumption.
    - rewrite in_app_iff. reflexivity.
  Qed.

  Lemma dict_of_first_given : forall l : list (K * V), first_given (map fst l) (map fst (dict_of keqb l)).
  Proof.
    induction l as [|[k v] l IH] using rev_ind; [constructor|].
    pose proof (dict_of_keys_in l k) as M.
    unfold dict_of, dupdate in *. rewrite fold_left_app, map_app. cbn [fold_left fst snd map].
    rewrite (dset_keys keqb). unfold dmem. destruct (dget keqb _ k) eqn:G.
    - apply first_repeated; [exact IH|]. apply M. apply (dget_In keqb keqb_spec) in G. now apply (in_map fst) in G.
    - apply first_new; [exact IH|]. rewrite <- M. now apply (dget_None keqb keqb_spec).
  Qed.

  Theorem fd_iterates : forall arg kw f, fd_new arg kw = Ok f ->
    first_given (map fst (arg ++ kw)) (fd_iter f) /\ NoDup (fd_iter f) /\
    (forall k, In k (fd_iter f) <-> In k (map fst (arg ++ kw))) /\ fd_len f = List.length (fd_iter f).
  Proof.
    intros arg kw f H. destruct (fd_new_data _ _ _ H) as (E & N & _). unfold fd_iter, fd_len.
    split; [|split; [exact N|split; [|now rewrite map_length]]].
    - rewrite E. apply dict_of_first_given.
    - intro k. rewrite E. apply dict_of_keys_in.
  Qed.
End FrozenDict.

(** Laws of insertion-ordered dictionaries and of [mapM]. *)
From Coq Require Import List Bool Permutation Lia.
From Verif Require Import Base.
Import ListNotations.

Section Dict.
  Context {K V : Type} (eqb : K -> K -> bool) (eqb_spec : forall a b, eqb a b = true <-> a = b).
  Notation dict := (list (K * V)).

  Lemma eqb_refl : forall k, eqb k k = true.
  Proof. intro k. now apply eqb_spec. Qed.

  Lemma eqb_neq : forall a b, a <> b -> eqb a b = false.
  Proof. intros a b N. destruct (eqb a b) eqn:E; [|reflexivity]. apply eqb_spec in E. congruence. Qed.

  Lemma eqb_false : forall a b, eqb a b = false <-> a <> b.
  Proof.
    intros a b. split; [|apply eqb_neq]. intros E ->. rewrite eqb_refl in E. discriminate.
  Qed.

  Lemma key_dec : forall a b : K, {a = b} + {a <> b}.
  Proof.
    intros a b. destruct (eqb a b) eqn:E; [left; now apply eqb_spec|right; now apply eqb_false].
  Qed.

  Lemma dget_dset_same : forall (d : dict) k v, dget eqb (dset eqb d k v) k = Some v.
  Proof.
    induction d as [|[k' v'] d IH]; intros k v; cbn [dset dget].
    - now rewrite eqb_refl.
    - destruct (eqb k' k) eqn:E; cbn [dget]; rewrite E; auto.
  Qed.

  Lemma dget_dset_other : forall (d : dict) k k' v, k <> k' ->
    dget eqb (dset eqb d k v) k' = dget eqb d k'.
  Proof.
    induction d as [|[k0 v0] d IH]; intros k k' v N; cbn [dset dget].
    - now rewrite eqb_neq.
    - destruct (eqb k0 k) eqn:E; cbn [dget].
      + apply eqb_spec in E. subst. now rewrite !eqb_neq.
      + now rewrite IH.
  Qed.

  Lemma dget_dset : forall (d : dict) k k' v,
    dget eqb (dset eqb d k v) k' = if eqb k k' then Some v else dget eqb d k'.
  Proof.
    intros d k k' v. destruct (eqb k k') eqn:E.
    - apply eqb_spec in E. subst. apply dget_dset_same.
    - apply dget_dset_other. now apply eqb_false.
  Qed.

  Lemma dget_In : forall (d : dict) k v, dget eqb d k = Some v -> In (k, v) d.
  Proof.
    induction d as [|[k0 v0] d IH]; intros k v; cbn [dget]; [discriminate|].
    destruct (eqb k0 k) eqn:E.
    - intro H. inversion H. apply eqb_spec in E. subst. now left.
    - intro H. right. now apply IH.
  Qed.

  Lemma dget_None : forall (d : dict) k, dget eqb d k = None <-> ~ In k (map fst d).
  Proof.
    induction d as [|[k0 v0] d IH]; intros k; cbn [dget map fst In]; [tauto|].
    destruct (eqb k0 k) eqn:E.
    - apply eqb_spec in E. split; [discriminate|]. intro H. exfalso. auto.
    - apply eqb_false in E. rewrite IH. tauto.
  Qed.

  Lemma dget_Some_key : forall (d : dict) k v, dget eqb d k = Some v -> In k (map fst d).
  Proof. intros d k v H. apply dget_In in H. apply (in_map fst) in H. exact H. Qed.

  Lemma dget_NoDup : forall (d : dict) k v, NoDup (map fst d) ->
    dget eqb d k = Some v <-> In (k, v) d.
  Proof.
    intros d k v N. split; [apply dget_In|]. revert N.
    induction d as [|[k0 v0] d IH]; intros N Hin; [destruct Hin|].
    cbn [map fst] in N. apply NoDup_cons_iff in N. destruct N as [N0 N]. cbn [dget].
    destruct Hin as [E|Hin].
    - inversion E; subst. now rewrite eqb_refl.
    - rewrite eqb_neq; [auto|]. intros ->. apply N0. apply (in_map fst) in Hin. exact Hin.
  Qed.

  Lemma dset_keys : forall (d : dict) k v,
    map fst (dset eqb d k v) = if dmem eqb d k then map fst d else map fst d ++ [k].
  Proof.
    unfold dmem. induction d as [|[k0 v0] d IH]; intros k v; cbn [dset dget map fst]; [reflexivity|].
    destruct (eqb k0 k) eqn:E; cbn [map fst]; [reflexivity|].
    rewrite IH. destruct (dget eqb d k); reflexivity.
  Qed.

  Lemma NoDup_snoc : forall (A : Type) (l : list A) x, NoDup l -> ~ In x l -> NoDup (l ++ [x]).
  Proof.
    intros A l x N H. eapply Permutation_NoDup; [apply Permutation_cons_append|].
    constructor; assumption.
  Qed.

  Lemma dset_NoDup : forall (d : dict) k v, NoDup (map fst d) -> NoDup (map fst (dset eqb d k v)).
  Proof.
    intros d k v N. rewrite dset_keys. unfold dmem.
    destruct (dget eqb d k) eqn:G; [exact N|].
    apply NoDup_snoc; [exact N|]. now apply dget_None.
  Qed.

  Lemma dupdate_NoDup : forall l (d : dict), NoDup (map fst d) -> NoDup (map fst (dupdate eqb d l)).
  Proof.
    unfold dupdate. induction l as [|[k v] l IH]; intros d N; cbn [fold_left fst snd]; [exact N|].
    apply IH. now apply dset_NoDup.
  Qed.

  Lemma dict_of_NoDup : forall l : dict, NoDup (map fst (dict_of eqb l)).
  Proof. intro l. apply dupdate_NoDup. constructor. Qed.

  (** Updating: the last given value wins, other keys keep theirs. *)
  Lemma dget_dupdate : forall l (d : dict) k,
    dget eqb (dupdate eqb d l) k =
    match dget eqb (rev l) k with Some v => Some v | None => dget eqb d k end.
  Proof.
    unfold dupdate. induction l as [|[k0 v0] l IH] using rev_ind; intros d k; [reflexivity|].
    rewrite fold_left_app, rev_app_distr. cbn [fold_left rev app fst snd dget].
    rewrite dget_dset. destruct (eqb k0 k); [reflexivity|]. apply IH.
  Qed.

  Lemma dget_perm : forall (d d' : dict), NoDup (map fst d) -> Permutation d d' ->
    forall k, dget eqb d k = dget eqb d' k.
  Proof.
    intros d d' N P k.
    assert (N' : NoDup (map fst d')).
    { eapply Permutation_NoDup; [|exact N]. now apply Permutation_map. }
    destruct (dget eqb d k) as [v|] eqn:G.
    - symmetry. apply dget_NoDup; [exact N'|]. apply dget_In in G. eapply Permutation_in; eauto.
    - symmetry. apply dget_None. apply dget_None in G. intro H. apply G.
      eapply Permutation_in; [|exact H]. apply Permutation_map. now apply Permutation_sym.
  Qed.

  Lemma dget_app : forall (d d' : dict) k,
    dget eqb (d ++ d') k = match dget eqb d k with Some v => Some v | None => dget eqb d' k end.
  Proof.
    induction d as [|[k0 v0] d IH]; intros d' k; cbn [app dget]; [reflexivity|].
    destruct (eqb k0 k); [reflexivity|apply IH].
  Qed.

  Lemma dget_rev : forall (d : dict) k, NoDup (map fst d) -> dget eqb (rev d) k = dget eqb d k.
  Proof. intros d k N. symmetry. apply dget_perm; [exact N|apply Permutation_rev]. Qed.
End Dict.

Lemma mapM_length : forall A B (f : A -> result B) l r, mapM f l = Ok r -> length r = length l.
Proof.
  intros A B f. induction l as [|a l IH]; intros r; cbn.
  - intro H. inversion H. reflexivity.
  - destruct (f a) as [b|]; cbn; [|discriminate].
    destruct (mapM f l) as [bs|]; cbn; [|discriminate].
    intro H. inversion H. cbn. f_equal. now apply IH.
Qed.

Lemma mapM_Forall2 : forall A B (f : A -> result B) l r,
  mapM f l = Ok r <-> Forall2 (fun a b => f a = Ok b) l r.
Proof.
  intros A B f. induction l as [|a l IH]; intros r; cbn.
  - split; intro H; inversion H; constructor.
  - destruct (f a) as [b|e] eqn:E; cbn.
    + destruct (mapM f l) as [bs|e] eqn:E2; cbn.
      * split; intro H.
        -- inversion H. constructor; [exact E|]. apply IH. reflexivity.
        -- inversion H as [|? b' ? bs' H1 H2]; subst. apply IH in H2. congruence.
      * split; intro H; [discriminate|]. inversion H as [|? b' ? bs' H1 H2]; subst.
        apply IH in H2. discriminate.
    + split; intro H; [discriminate|]. inversion H as [|? b' ? bs' H1 H2]; subst. congruence.
Qed.

Lemma mapM_ext : forall A B (f g : A -> result B) l, (forall a, In a l -> f a = g a) ->
  mapM f l = mapM g l.
Proof.
  intros A B f g. induction l as [|a l IH]; intro H; cbn; [reflexivity|].
  rewrite (H a) by (left; reflexivity). rewrite IH; [reflexivity|]. intros x Hx. apply H. now right.
Qed.

Lemma mapM_map : forall A B C (g : A -> B) (f : B -> result C) l,
  mapM f (map g l) = mapM (fun a => f (g a)) l.
Proof.
  intros A B C g f. induction l as [|a l IH]; cbn; [reflexivity|]. now rewrite IH.
Qed.

Lemma mapM_app : forall A B (f : A -> result B) l1 l2,
  mapM f (l1 ++ l2) = bind (mapM f l1) (fun a => bind (mapM f l2) (fun b => Ok (a ++ b))).
Proof.
  intros A B f. induction l1 as [|a l1 IH]; intro l2; cbn.
  - destruct (mapM f l2); reflexivity.
  - destruct (f a); cbn; [|reflexivity]. rewrite IH. destruct (mapM f l1); cbn; [|reflexivity].
    destruct (mapM f l2); reflexivity.
Qed.

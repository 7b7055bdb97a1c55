From Coq Require Import ZArith NArith List Bool String Permutation Lia.
From Verif Require Import Base Base_Proofs Str Numerals_Model Utils_Model Utils_Spec.
Import ListNotations.

Section Register.
  Context {K V : Type} (eqb : K -> K -> bool) (eqb_spec : forall a b, eqb a b = true <-> a = b).
  Notation register := (register eqb).
  Notation registers := (registers eqb).

  Lemma register_error_unchanged : forall reg k (v : V) gp e,
    fst (register reg k v gp) = Err e -> e = ValueError /\ snd (register reg k v gp) = reg.
  Proof.
    intros reg k v gp e. unfold Utils_Model.register.
    destruct (dget eqb reg k); [|discriminate].
    destruct gp as [prio|].
    - destruct (prio v0 >? prio v)%Z; [discriminate|].
      destruct (prio v0 =? prio v)%Z; [|discriminate]. cbn. intro H; inversion H; auto.
    - cbn. intro H; inversion H; auto.
  Qed.

  Lemma register_returns_value : forall reg k (v : V) gp r,
    fst (register reg k v gp) = Ok r -> r = v.
  Proof.
    intros reg k v gp r. unfold Utils_Model.register.
    destruct (dget eqb reg k); [|cbn; congruence].
    destruct gp as [prio|]; [|discriminate].
    destruct (prio v0 >? prio v)%Z; [cbn; congruence|].
    destruct (prio v0 =? prio v)%Z; [discriminate|cbn; congruence].
  Qed.

  Lemma register_raises_iff : forall reg k (v : V) gp,
    (exists e, fst (register reg k v gp) = Err e) <->
    exists w, dget eqb reg k = Some w /\
      match gp with None => True | Some prio => prio w = prio v end.
  Proof.
    intros reg k v gp. unfold Utils_Model.register. destruct (dget eqb reg k) as [w|].
    - destruct gp as [prio|].
      + destruct (Z.gtb_spec (prio w) (prio v)).
        * cbn. split; [intros [e H']; discriminate|].
          intros (w' & H1 & H2). inversion H1; subst. lia.
        * destruct (Z.eqb_spec (prio w) (prio v)); cbn.
          -- split; eauto.
          -- split; [intros [e H']; discriminate|].
             intros (w' & H1 & H2). inversion H1; subst. lia.
      + cbn. split; eauto.
    - cbn. split; [intros [e H]; discriminate|]. intros (w & H & _). discriminate.
  Qed.

  Lemma register_other_keys : forall reg k (v : V) gp k', k <> k' ->
    dget eqb (snd (register reg k v gp)) k' = dget eqb reg k'.
  Proof.
    intros reg k v gp k' N. unfold Utils_Model.register.
    assert (D := fun d => dget_dset_other eqb eqb_spec d k k' v N).
    destruct (dget eqb reg k) as [w|]; [|apply D].
    destruct gp as [prio|]; [|reflexivity].
    destruct (prio w >? prio v)%Z; [reflexivity|].
    destruct (prio w =? prio v)%Z; [reflexivity|apply D].
  Qed.

  (** The entry after a call with priorities. *)
  Lemma register_prio_same : forall reg k (v : V) prio,
    dget eqb (snd (register reg k v (Some prio))) k =
    match dget eqb reg k with
    | Some w => if (prio w <? prio v)%Z then Some v else Some w
    | None => Some v
    end.
  Proof.
    intros reg k v prio. unfold Utils_Model.register.
    destruct (dget eqb reg k) as [w|] eqn:G; [|apply dget_dset_same; assumption].
    destruct (Z.gtb_spec (prio w) (prio v)); cbn [snd].
    - destruct (Z.ltb_spec (prio w) (prio v)); [lia|exact G].
    - destruct (Z.eqb_spec (prio w) (prio v)); cbn [snd].
      + destruct (Z.ltb_spec (prio w) (prio v)); [lia|exact G].
      + destruct (Z.ltb_spec (prio w) (prio v)); [|lia]. apply dget_dset_same; assumption.
  Qed.

  Lemma best_offer_snoc : forall (prio : V -> Z) l (k k' : K) v w,
    best_offer prio (l ++ [(k', w)]) k v <->
    (best_offer prio l k v /\ (k' = k -> (prio w <= prio v)%Z)) \/
    (k' = k /\ w = v /\ forall u, In (k, u) l -> (prio u < prio v)%Z).
  Proof.
    intros prio l k k' v w. split.
    - intros (b & a & E & Hb & Ha). destruct a as [|x a _] using rev_ind.
      + apply app_inj_tail in E. destruct E as [-> E]. inversion E; subst.
        right. auto.
      + rewrite app_comm_cons, app_assoc in E. apply app_inj_tail in E. destruct E as [-> <-].
        left. split.
        * exists b, a. repeat split; auto. intros u Hu. apply Ha. apply in_or_app; auto.
        * intros ->. apply Ha. apply in_or_app. right. left. reflexivity.
    - intros [[(b & a & -> & Hb & Ha) Hw]|(-> & -> & H)].
      + exists b, (a ++ [(k', w)]). repeat split; auto.
        * now rewrite <- app_assoc.
        * intros u Hu. apply in_app_or in Hu. destruct Hu as [Hu|[Hu|[]]]; auto.
          inversion Hu; subst. apply Hw. reflexivity.
      + exists l, []. repeat split; auto. intros u [].
  Qed.

  Lemma best_offer_none : forall (prio : V -> Z) l (k : K),
    (forall v, ~ best_offer prio l k v) -> forall v, ~ In (k, v) l.
  Proof.
    intros prio l k. induction l as [|[k' w] l IH] using rev_ind; [auto|].
    intros H v Hin.
    assert (N : forall u, ~ In (k, u) l).
    { apply IH. intros u Hu.
      destruct (Z.le_gt_cases (prio w) (prio u)) as [L|L].
      - apply (H u). apply best_offer_snoc. left. split; auto.
      - destruct (eqb k' k) eqn:E.
        + apply eqb_spec in E. subst. apply (H w). apply best_offer_snoc. right.
          repeat split. intros x Hx. destruct Hu as (b & a & -> & Hb & Ha).
          apply in_app_or in Hx. destruct Hx as [Hx|[Hx|Hx]].
          * apply Hb in Hx. lia.
          * inversion Hx; subst. lia.
          * apply Ha in Hx. lia.
        + apply (H u). apply best_offer_snoc. left. split; auto. intros ->.
          rewrite (eqb_refl eqb eqb_spec) in E. discriminate. }
    apply in_app_or in Hin. destruct Hin as [Hin|[Hin|[]]]; [exact (N v Hin)|].
    inversion Hin; subst. apply (H v). apply best_offer_snoc. right. repeat split.
    intros u Hu. destruct (N u Hu).
  Qed.

  Lemma best_offer_unique : forall (prio : V -> Z) l (k : K) v w,
    best_offer prio l k v -> best_offer prio l k w -> v = w.
  Proof.
    intros prio l k v w. revert v w. induction l as [|[k' x] l IH] using rev_ind; intros v w.
    - intros (b & a & E & _). destruct b; discriminate.
    - rewrite !best_offer_snoc.
      assert (I : forall u, best_offer prio l k u -> In (k, u) l)
        by (intros u (b & a & -> & _); apply in_or_app; right; left; reflexivity).
      intros [[A1 A2]|(-> & -> & A)] [[B1 B2]|(E & -> & B)]; auto.
      + apply I in A1. apply B in A1. specialize (A2 E). lia.
      + apply I in B1. apply A in B1. specialize (B2 eq_refl). lia.
  Qed.

  Lemma registers_snoc : forall gp l reg k (v : V),
    registers gp reg (l ++ [(k, v)]) = snd (register (registers gp reg l) k v gp).
  Proof.
    intros gp. induction l as [|[k' w] l IH]; intros reg k v; cbn; [reflexivity|apply IH].
  Qed.

  Lemma registers_prio : forall (prio : V -> Z) calls k v,
    dget eqb (registers (Some prio) [] calls) k = Some v <-> best_offer prio calls k v.
  Proof.
    intros prio calls k. induction calls as [|[k' w] l IH] using rev_ind; intro v.
    - cbn. split; [discriminate|]. intros (b & a & E & _). destruct b; discriminate.
    - rewrite registers_snoc, best_offer_snoc.
      destruct (eqb k' k) eqn:E.
      + apply eqb_spec in E. subst k'. rewrite register_prio_same.
        destruct (dget eqb (registers (Some prio) [] l) k) as [u|] eqn:G.
        * clear G. assert (G : best_offer prio l k u) by (apply IH; reflexivity).
          assert (Gin : In (k, u) l) by (destruct G as (b & a & -> & _); apply in_or_app; right; left; reflexivity).
          destruct (Z.ltb_spec (prio u) (prio w)) as [L|L].
          -- split.
             ++ intro H; inversion H; subst. right. repeat split. intros x Hx.
                destruct G as (b & a & -> & Hb & Ha).
                apply in_app_or in Hx. destruct Hx as [Hx|[Hx|Hx]].
                ** apply Hb in Hx. lia.
                ** inversion Hx; subst. lia.
                ** apply Ha in Hx. lia.
             ++ intros [[A1 A2]|(_ & -> & _)]; [|reflexivity].
                assert (u = v) by (eapply best_offer_unique; eauto). subst.
                specialize (A2 eq_refl). lia.
          -- split.
             ++ intro H; inversion H; subst. left. auto.
             ++ intros [[A1 A2]|(_ & -> & A)].
                ** f_equal. eapply best_offer_unique; eauto.
                ** apply A in Gin. lia.
        * assert (N : forall v', ~ In (k, v') l).
          { apply (best_offer_none prio). intros v' Hv'. apply IH in Hv'. discriminate. }
          split.
          -- intro H; inversion H; subst. right. repeat split. intros u Hu. destruct (N u Hu).
          -- intros [[(b & a & -> & _) _]|(_ & -> & _)]; [|reflexivity].
             exfalso. apply (N v). apply in_or_app. right. left. reflexivity.
      + assert (k' <> k) by (intros ->; rewrite (eqb_refl eqb eqb_spec) in E; discriminate).
        rewrite register_other_keys by assumption. rewrite IH. split.
        * intro H'. left. split; [exact H'|congruence].
        * intros [[H' _]|(H' & _)]; [exact H'|congruence].
  Qed.

  Lemma registers_plain : forall calls k (v : V),
    dget eqb (registers None [] calls) k = Some v <-> first_offer calls k v.
  Proof.
    intros calls k. induction calls as [|[k' w] l IH] using rev_ind; intro v.
    - cbn. split; [discriminate|]. intros (b & a & E & _). destruct b; discriminate.
    - rewrite registers_snoc.
      assert (F : first_offer (l ++ [(k', w)]) k v <->
                  first_offer l k v \/ (k' = k /\ w = v /\ forall u, ~ In (k, u) l)).
      { split.
        - intros (b & a & E & H). destruct a as [|x a _] using rev_ind.
          + apply app_inj_tail in E. destruct E as [-> E]. inversion E; subst. right. auto.
          + rewrite app_comm_cons, app_assoc in E. apply app_inj_tail in E. destruct E as [-> <-].
            left. exists b, a. auto.
        - intros [(b & a & -> & H)|(-> & -> & H)].
          + exists b, (a ++ [(k', w)]). split; [now rewrite <- app_assoc|exact H].
          + exists l, []. auto. }
      rewrite F.
      assert (NI : dget eqb (registers None [] l) k = None -> forall u, ~ In (k, u) l).
      { intros G. assert (forall u, ~ first_offer l k u) as NF
          by (intros u Hu; apply IH in Hu; congruence).
        clear -NF eqb_spec. induction l as [|[k0 u0] l IHl]; [auto|].
        assert (k0 <> k).
        { intros ->. apply (NF u0). exists [], l. split; [reflexivity|auto]. }
        intros u [Hu|Hu]; [inversion Hu; congruence|].
        revert u Hu. apply IHl. intros u (b & a & -> & Hb). apply (NF u).
        exists ((k0, u0) :: b), a. split; [reflexivity|].
        intros x [Hx|Hx]; [inversion Hx; congruence|exact (Hb x Hx)]. }
      destruct (eqb k' k) eqn:E.
      + apply eqb_spec in E. subst k'. unfold Utils_Model.register.
        destruct (dget eqb (registers None [] l) k) as [u|] eqn:G; cbn [snd].
        * rewrite G. split.
          -- intro H; inversion H; subst. left. now apply IH.
          -- intros [H|(_ & -> & H)]; [now apply IH in H|].
             assert (first_offer l k u) as (b & a & -> & _) by now apply IH.
             exfalso. apply (H u). apply in_or_app. right. left. reflexivity.
        * rewrite dget_dset_same by assumption. split.
          -- intro H; inversion H; subst. right. auto.
          -- intros [H|(_ & -> & _)]; [apply IH in H; congruence|reflexivity].
      + assert (k' <> k) by (intros ->; rewrite (eqb_refl eqb eqb_spec) in E; discriminate).
        rewrite register_other_keys by assumption. rewrite IH. split; [auto|].
        intros [H'|(H' & _)]; [exact H'|congruence].
  Qed.

  Lemma best_offer_max : forall (prio : V -> Z) l (k : K) v, no_ties prio l ->
    best_offer prio l k v <-> (In (k, v) l /\ forall w, In (k, w) l -> (prio w <= prio v)%Z).
  Proof.
    intros prio l k v NT. split.
    - intros (b & a & -> & Hb & Ha). split; [apply in_or_app; right; left; reflexivity|].
      intros w Hw. apply in_app_or in Hw. destruct Hw as [Hw|[Hw|Hw]].
      + apply Hb in Hw. lia.
      + inversion Hw. lia.
      + auto.
    - intros [Hin Hmax].
      assert (HE : exists b a, l = b ++ (k, v) :: a /\ ~ In (k, v) b).
      { clear -Hin eqb_spec NT.
        induction l as [|[k0 v0] l IHl]; [destruct Hin|].
        destruct Hin as [E|Hin].
        - inversion E; subst. exists [], l. auto.
        - destruct (eqb k0 k) eqn:E.
          + apply eqb_spec in E. subst k0.
            destruct (Z.eq_dec (prio v0) (prio v)) as [Ep|Np].
            * assert (v0 = v) by (apply (NT k); [left; reflexivity|right; exact Hin|exact Ep]).
              subst. exists [], l. auto.
            * destruct IHl as (b & a & -> & Nb); auto.
              { intros x y z Hy Hz. apply (NT x); right; assumption. }
              exists ((k, v0) :: b), a. split; [reflexivity|].
              intros [H|H]; [inversion H; congruence|auto].
          + destruct IHl as (b & a & -> & Nb); auto.
            { intros x y z Hy Hz. apply (NT x); right; assumption. }
            exists ((k0, v0) :: b), a. split; [reflexivity|].
            intros [H|H]; [inversion H; subst; rewrite (eqb_refl eqb eqb_spec) in E; discriminate|auto]. }
      destruct HE as (b & a & -> & Nb). exists b, a. repeat split; auto.
      + intros w Hw.
        assert (prio w <= prio v)%Z by (apply Hmax; apply in_or_app; auto).
        destruct (Z.eq_dec (prio w) (prio v)) as [E|N]; [|lia].
        assert (w = v).
        { apply (NT k); [apply in_or_app; auto|exact Hin|exact E]. }
        subst. contradiction.
      + intros w Hw. apply Hmax. apply in_or_app. right. right. exact Hw.
  Qed.

  Lemma registers_highest : forall (prio : V -> Z) calls k v, no_ties prio calls ->
    dget eqb (registers (Some prio) [] calls) k = Some v <->
    (In (k, v) calls /\ forall w, In (k, w) calls -> (prio w <= prio v)%Z).
  Proof.
    intros prio calls k v NT. rewrite registers_prio. apply best_offer_max. exact NT.
  Qed.

  Lemma registers_any_order : forall (prio : V -> Z) calls calls', no_ties prio calls ->
    Permutation calls calls' ->
    forall k, dget eqb (registers (Some prio) [] calls) k =
              dget eqb (registers (Some prio) [] calls') k.
  Proof.
    intros prio calls calls' NT P k.
    assert (NT' : no_ties prio calls').
    { intros x v w Hv Hw. apply (NT x); (eapply Permutation_in; [apply Permutation_sym; exact P|assumption]). }
    assert (Q : forall v, dget eqb (registers (Some prio) [] calls) k = Some v <->
                          dget eqb (registers (Some prio) [] calls') k = Some v).
    { intro v. rewrite !registers_highest by assumption. split; intros [A B]; split.
      - eapply Permutation_in; eauto.
      - intros w Hw. apply B. eapply Permutation_in; [apply Permutation_sym; exact P|exact Hw].
      - eapply Permutation_in; [apply Permutation_sym; exact P|exact A].
      - intros w Hw. apply B. eapply Permutation_in; eauto. }
    destruct (dget eqb (registers (Some prio) [] calls) k) as [v|].
    - symmetry. now apply Q.
    - destruct (dget eqb (registers (Some prio) [] calls') k) as [v|]; [|reflexivity].
      now apply Q.
  Qed.
End Register.

(** ** ordinal *)

Definition suffix_of (r : Z) : str :=
  if ((11 <=? r) && (r <=? 13))%Z then $"th"
  else nth (Z.to_nat (Z.min (r mod 10) 4)) [$"th"; $"st"; $"nd"; $"rd"; $"th"] [].

Lemma suffix_table :
  forallb (fun i => str_eqb (suffix_of (Z.of_nat i))
                      (last_two (final_words (N.of_nat i)))) (seq 0 100) = true.
Proof. vm_compute. reflexivity. Qed.

Lemma final_words_mod : forall n, last_two (final_words n) = last_two (final_words (n mod 100)%N).
Proof.
  intro n. unfold final_words. rewrite N.mod_mod by lia.
  destruct (N.to_nat (n mod 100) =? 0)%nat; [|reflexivity].
  destruct (n =? 0)%N; destruct (n mod 100 =? 0)%N; reflexivity.
Qed.

Lemma ordinal_nonneg : forall n : N,
  ordinal (Z.of_N n) = (py_str (Z.of_N n) ++ last_two (final_words n))%list.
Proof.
  intro n. unfold ordinal. f_equal. rewrite final_words_mod.
  assert (E : (Z.of_N n mod 10)%Z = ((Z.of_N n mod 100) mod 10)%Z).
  { rewrite (Z.div_mod (Z.of_N n) 100) at 1 by lia.
    replace (100 * (Z.of_N n / 100) + Z.of_N n mod 100)%Z
      with (Z.of_N n mod 100 + (10 * (Z.of_N n / 100)) * 10)%Z by lia.
    now rewrite Z.mod_add by lia. }
  rewrite E. fold (suffix_of (Z.of_N n mod 100)).
  assert (L : (n mod 100 < 100)%N) by (apply N.mod_lt; lia).
  change 100%Z with (Z.of_N 100). rewrite <- N2Z.inj_mod.
  generalize dependent (n mod 100)%N. intros r L.
  assert (T := suffix_table). rewrite forallb_forall in T.
  specialize (T (N.to_nat r)). rewrite in_seq in T. specialize (T ltac:(lia)).
  rewrite nat_N_Z, N2Nat.id in T || rewrite N_nat_Z, N2Nat.id in T.
  unfold str_eqb in T. destruct (list_eq_dec _ _ _) as [H|]; [exact H|discriminate].
Qed.

(** ** one_or_none *)

Lemma one_or_none_spec : forall (V : Type) (values : option (list V)) default,
  (forall v, values = Some [v] -> one_or_none values default = Ok v) /\
  (values = None \/ values = Some [] -> one_or_none values default = Ok default) /\
  (forall l, values = Some l -> (2 <= List.length l)%nat ->
     one_or_none values default = Err ValueError).
Proof.
  intros V values default. repeat split.
  - intros v ->. reflexivity.
  - intros [-> | ->]; reflexivity.
  - intros l -> H. destruct l as [|x [|y l]]; cbn in *; try lia. reflexivity.
Qed.

(** Proofs about copies. *)
From Coq Require Import List Arith ZArith Lia.
From Verif Require Import Base Shared_Model Shared_Spec.
Import ListNotations.
Open Scope list_scope.
Open Scope nat_scope.

Lemma put_length : forall h l c, List.length (put h l c) = List.length h.
Proof. induction h as [|d h IH]; intros [|l] c; cbn; auto. Qed.

Lemma put_same : forall h l c, l < List.length h -> nth_error (put h l c) l = Some c.
Proof. induction h as [|d h IH]; intros [|l] c L; cbn in *; try lia; auto. apply IH. lia. Qed.

Lemma put_other : forall h l k c, l <> k -> nth_error (put h l c) k = nth_error h k.
Proof. induction h as [|d h IH]; intros [|l] [|k] c N; cbn; auto; try congruence. Qed.

Lemma append_length : forall h l y, List.length (append h l y) = List.length h.
Proof. intros. unfold append. destruct (nth_error h l); auto using put_length. Qed.

Lemma append_other : forall h l k y, l <> k -> nth_error (append h l y) k = nth_error h k.
Proof. intros. unfold append. destruct (nth_error h l); auto using put_other. Qed.

Lemma append_same : forall h l y c, nth_error h l = Some c ->
  nth_error (append h l y) l = Some (Cell (c_kind c) (c_items c ++ [y]) (c_data c)).
Proof.
  intros h l y c H. unfold append. rewrite H. apply put_same. apply nth_error_Some. congruence.
Qed.

Lemma closed_snoc : forall h c, closed h -> (forall i, In i (c_items c) -> i < List.length h) -> closed (h ++ [c]).
Proof.
  intros h c H K l d i E I. rewrite app_length. cbn [List.length].
  destruct (Nat.lt_ge_cases l (List.length h)) as [L|L].
  - rewrite nth_error_app1 in E by auto. pose proof (H _ _ _ E I). lia.
  - rewrite nth_error_app2 in E by auto. destruct (l - List.length h) as [|q]; cbn in E.
    + injection E as <-. apply K in I. lia.
    + destruct q; discriminate.
Qed.

Lemma closed_put : forall h l c, closed h -> (forall i, In i (c_items c) -> i < List.length h) -> closed (put h l c).
Proof.
  intros h l c H K k d i E I. rewrite put_length. destruct (Nat.eq_dec l k) as [Q|Q].
  - subst k. destruct (Nat.lt_ge_cases l (List.length h)) as [L|L].
    + rewrite put_same in E by auto. injection E as <-. auto.
    + assert (nth_error (put h l c) l <> None) by congruence. apply nth_error_Some in H0.
      rewrite put_length in H0. lia.
  - rewrite put_other in E by auto. eapply H; eauto.
Qed.

Lemma closed_append : forall h l y, closed h -> y < List.length h -> closed (append h l y).
Proof.
  intros h l y H Y. unfold append. destruct (nth_error h l) as [c|] eqn:E; auto.
  apply closed_put; auto. cbn [c_items]. intros i I. apply in_app_or in I.
  destruct I as [I|[I|[]]]; [eapply H; eauto|lia].
Qed.

Section Copy.
  Variable h0 : heap.
  Hypothesis H0 : closed h0.
  Let N0 := List.length h0.

  Definition related (m : memo) (l y : nat) : Prop := (kept h0 l /\ y = l) \/ dget Nat.eqb m l = Some y.
  Definition complete (h : heap) (m : memo) (a b : nat) : Prop :=
    exists ca cb, nth_error h0 a = Some ca /\ nth_error h b = Some cb /\
      c_kind cb = c_kind ca /\ c_data cb = c_data ca /\ Forall2 (related m) (c_items ca) (c_items cb).
  Definition grows (m m' : memo) : Prop :=
    forall a b, dget Nat.eqb m a = Some b -> dget Nat.eqb m' a = Some b.

  Record good (h : heap) (m : memo) : Prop := {
    g_old : forall i, i < N0 -> nth_error h i = nth_error h0 i;
    g_len : N0 <= List.length h;
    g_val : forall a b, dget Nat.eqb m a = Some b -> N0 <= b < List.length h;
    g_key : forall a b, dget Nat.eqb m a = Some b -> ~ kept h0 a;
    g_closed : closed h;
    g_inj : forall a a' b, dget Nat.eqb m a = Some b -> dget Nat.eqb m a' = Some b -> a = a'
  }.

  (** What a call, started from [h] and [m], has done when it answers [h'] and [m']; the object
      [skip] is being filled by the caller. *)
  Record did (skip : nat -> Prop) (h : heap) (m : memo) (h' : heap) (m' : memo) : Prop := {
    d_good : good h' m';
    d_len : List.length h <= List.length h';
    d_grows : grows m m';
    d_same : forall i, i < List.length h -> ~ skip i -> nth_error h' i = nth_error h i;
    d_new : forall a b, dget Nat.eqb m' a = Some b -> dget Nat.eqb m a = None ->
      List.length h <= b /\ complete h' m' a b
  }.

  Lemma related_grows : forall m m' l y, grows m m' -> related m l y -> related m' l y.
  Proof. intros m m' l y G [K|D]; [left; auto|right; auto]. Qed.

  Lemma Forall2_grows : forall m m' ls ys, grows m m' -> Forall2 (related m) ls ys -> Forall2 (related m') ls ys.
  Proof. induction 2; constructor; eauto using related_grows. Qed.

  Lemma complete_kept : forall h m h' m' a b, grows m m' -> nth_error h' b = nth_error h b ->
    complete h m a b -> complete h' m' a b.
  Proof.
    intros h m h' m' a b G E (ca & cb & A & B & K & D & F). exists ca, cb.
    repeat split; auto; [congruence|eauto using Forall2_grows].
  Qed.

  Lemma did_nothing : forall h m, good h m -> did (fun _ => False) h m h m.
  Proof. intros h m G. constructor; auto; try (intros a b; congruence). Qed.

  Lemma get_cases : forall (m : memo) a, {b | dget Nat.eqb m a = Some b} + {dget Nat.eqb m a = None}.
  Proof. intros m a. destruct (dget Nat.eqb m a) as [b|]; [left; exists b|right]; auto. Qed.

  Lemma did_then : forall h m h1 m1 h2 m2, did (fun _ => False) h m h1 m1 -> did (fun _ => False) h1 m1 h2 m2 ->
    did (fun _ => False) h m h2 m2.
  Proof.
    intros h m h1 m1 h2 m2 [G1 L1 R1 S1 N1] [G2 L2 R2 S2 N2]. constructor; auto; try lia.
    - intros a b D. auto.
    - intros i I K. rewrite S2 by (try lia; auto). auto.
    - intros a b D E. destruct (get_cases m1 a) as [[b' D1]|D1].
      + assert (b = b') by (apply R2 in D1; congruence). subst b'.
        destruct (N1 a b D1 E) as [Lb C]. split; auto. apply complete_kept with h1 m1; auto.
        apply S2; auto. apply (g_val _ _ G1 a b D1).
      + destruct (N2 a b D D1) as [Lb C]. split; auto. lia.
  Qed.

  Lemma related_bound : forall h m l y, good h m -> l < N0 -> related m l y -> y < List.length h.
  Proof.
    intros h m l y G L [[K E]|D]; [pose proof (g_len _ _ G); lia|apply (g_val _ _ G _ _ D)].
  Qed.

  Lemma related_bounds : forall h m ls ys, good h m -> (forall i, In i ls -> i < N0) -> Forall2 (related m) ls ys ->
    forall i, In i ys -> i < List.length h.
  Proof.
    intros h m ls ys G B F. induction F as [|l y ls ys R F IH]; intros i I; [destruct I|].
    destruct I as [I|I]; [subst; eapply related_bound; eauto; apply B; left; auto|].
    apply IH; auto. intros j J. apply B. right. auto.
  Qed.

  Lemma item_old : forall l c i, nth_error h0 l = Some c -> In i (c_items c) -> i < N0.
  Proof. intros. eapply H0; eauto. Qed.

  Lemma deep_did : forall n l h m h' m' y, deep n l h m = Some (h', m', y) -> l < N0 -> good h m ->
    did (fun _ => False) h m h' m' /\ related m' l y.
  Proof.
    induction n as [|n IH]; intros l h m h' m' y E Ll G; cbn [deep] in E; [discriminate|].
    destruct (dget Nat.eqb m l) as [y0|] eqn:Em.
    { injection E as E1 E2 E3. subst. split; [apply did_nothing; auto|right; auto]. }
    rewrite (g_old _ _ G l Ll) in E. destruct (nth_error h0 l) as [c|] eqn:Ec; [|discriminate].
    assert (IT : forall i, In i (c_items c) -> i < N0) by (intros i I; apply (item_old l c i Ec I)).
    destruct (c_kind c) eqn:Ek.
    - injection E as E1 E2 E3. subst. split; [apply did_nothing; auto|left; split; auto].
      exists c. auto.
    - (* a container *)
      assert (NK : ~ kept h0 l) by (intros (c' & A & B); rewrite Ec in A; injection A as <-; destruct B; congruence).
      set (new := List.length h) in *. cbv zeta in E.
      assert (F : forall items h1 m1 acc h' m' y,
        (fix fill (items : list nat) (h : heap) (m : memo) : option (heap * memo * nat) :=
           match items with
           | [] => Some (h, m, new)
           | i :: items' => match deep n i h m with
                            | Some (h', m', y) => fill items' (append h' new y) m'
                            | None => None end end) items h1 m1 = Some (h', m', y) ->
        (forall i, In i items -> i < N0) -> good h1 m1 -> N0 <= new < List.length h1 ->
        nth_error h1 new = Some (Cell Container acc (c_data c)) ->
        did (fun i => i = new) h1 m1 h' m' /\ y = new /\
        exists ys, nth_error h' new = Some (Cell Container (acc ++ ys) (c_data c)) /\ Forall2 (related m') items ys).
      { clear E. induction items as [|i items IHi]; intros h1 m1 acc h2 m2 y2 E I1 G1 L1 C1.
        - injection E as E1 E2 E3. subst. split; [|split; auto].
          + constructor; auto; try (intros a b; congruence).
          + exists []. rewrite app_nil_r. split; auto.
        - destruct (deep n i h1 m1) as [[[h3 m3] y3]|] eqn:E3; [|discriminate].
          destruct (IH _ _ _ _ _ _ E3 (I1 i (or_introl eq_refl)) G1) as [[G3 L3 R3 S3 N3] Y3].
          assert (C3 : nth_error h3 new = Some (Cell Container acc (c_data c))) by (rewrite S3; auto; lia).
          pose proof (append_same h3 new y3 _ C3) as C4. cbn [c_kind c_items c_data] in C4.
          assert (G4 : good (append h3 new y3) m3).
          { pose proof (related_bound _ _ _ _ G3 (I1 i (or_introl eq_refl)) Y3) as B3.
            destruct G3 as [a1 a2 a3 a4 a5 a6]. constructor; eauto using closed_append; try (rewrite append_length; auto).
            intros j J. rewrite append_other by lia. auto. }
          destruct (IHi _ _ (acc ++ [y3]) _ _ _ E (fun j J => I1 j (or_intror J)) G4
                      ltac:(rewrite append_length; lia) C4) as [[G5 L5 R5 S5 N5] [Y5 (ys & C5 & F5)]].
          rewrite append_length in *.
          split; [|split; auto].
          + constructor; auto; try lia.
            * intros a b D. auto.
            * intros j J K. rewrite S5 by (try lia; auto). rewrite append_other by auto. apply S3; auto.
            * intros a b D D1. destruct (get_cases m3 a) as [[b' D3]|D3].
              -- assert (b = b') by (apply R5 in D3; congruence). subst b'.
                 destruct (N3 a b D3 D1) as [Lb C]. split; auto. apply complete_kept with h3 m3; auto.
                 pose proof (g_val _ _ G3 a b D3). rewrite S5 by lia. apply append_other. lia.
              -- destruct (N5 a b D D3) as [Lb C]. split; auto. lia.
          + exists (y3 :: ys). rewrite <- app_assoc in C5. split; auto. constructor; eauto using related_grows. }
      assert (LN : List.length (h ++ [Cell Container [] (c_data c)]) = S new) by (rewrite app_length; cbn; unfold new; lia).
      pose proof (g_len _ _ G) as GL. fold new in GL.
      assert (Cn : nth_error (h ++ [Cell Container [] (c_data c)]) new = Some (Cell Container [] (c_data c))).
      { rewrite nth_error_app2 by (unfold new; lia). unfold new. rewrite Nat.sub_diag. reflexivity. }
      assert (G1 : good (h ++ [Cell Container [] (c_data c)]) ((l, new) :: m)).
      { destruct G as [a1 a2 a3 a4 a5 a6]. constructor; [| | | |apply closed_snoc; auto; intros i []|
          intros a a' b; cbn [dget]; destruct (Nat.eqb l a) eqn:Q; destruct (Nat.eqb l a') eqn:Q'; intros D D';
          [apply Nat.eqb_eq in Q; apply Nat.eqb_eq in Q'; congruence
          |injection D as <-; apply a3 in D'; unfold new in *; lia
          |injection D' as <-; apply a3 in D; unfold new in *; lia
          |eauto]].
        - intros i I. rewrite nth_error_app1 by (fold new; lia). auto.
        - lia.
        - intros a b. cbn [dget]. destruct (Nat.eqb l a); intros D; [injection D as <-; lia|].
          apply a3 in D. fold new in D. lia.
        - intros a b. cbn [dget]. destruct (Nat.eqb l a) eqn:Q; intros D; [apply Nat.eqb_eq in Q; congruence|eauto]. }
      destruct (F _ _ _ _ _ _ _ E IT G1 ltac:(lia) Cn) as [[G5 L5 R5 S5 N5] [Y5 (ys & C5 & F5)]]. rewrite LN in *.
      assert (Dl : dget Nat.eqb m' l = Some new) by (apply R5; cbn [dget]; rewrite Nat.eqb_refl; auto).
      split; [|right; congruence].
      constructor; auto; try (fold new; lia).
      + intros a b D. apply R5. cbn [dget]. destruct (Nat.eqb l a) eqn:Q; auto.
        apply Nat.eqb_eq in Q. congruence.
      + fold new. intros i I K. rewrite S5 by lia. apply nth_error_app1. auto.
      + fold new. intros a b D D1. destruct (Nat.eqb l a) eqn:Q.
        * apply Nat.eqb_eq in Q. subst a. rewrite Dl in D. injection D as <-. split; auto.
          exists c, (Cell Container ys (c_data c)). cbn. repeat split; auto.
        * destruct (N5 a b D) as [Lb C]; [cbn [dget]; rewrite Q; auto|]. split; auto. lia.
    - (* an instance *)
      assert (NK : ~ kept h0 l) by (intros (c' & A & B); rewrite Ec in A; injection A as <-; destruct B; congruence).
      assert (F : forall items acc h1 m1 h' m' y,
        (fix each (items : list nat) (ys : list nat) (h : heap) (m : memo) : option (heap * memo * nat) :=
           match items with
           | [] => let new := List.length h in
                   match dget Nat.eqb m l with
                   | Some _ => None
                   | None => Some (h ++ [Cell Instance ys (c_data c)], (l, new) :: m, new)
                   end
           | i :: items' => match deep n i h m with
                            | Some (h', m', y) => each items' (ys ++ [y]) h' m'
                            | None => None end end) items acc h1 m1 = Some (h', m', y) ->
        (forall i, In i items -> i < N0) -> good h1 m1 ->
        exists h2 m2 ys, did (fun _ => False) h1 m1 h2 m2 /\ Forall2 (related m2) items ys /\
          h' = h2 ++ [Cell Instance (acc ++ ys) (c_data c)] /\ m' = (l, List.length h2) :: m2 /\ y = List.length h2 /\
          dget Nat.eqb m2 l = None).
      { clear E. induction items as [|i items IHi]; intros acc h1 m1 h2 m2 y2 E I1 G1.
        - cbv zeta in E. destruct (dget Nat.eqb m1 l) eqn:Q; [discriminate|].
          injection E as E1 E2 E3. subst. exists h1, m1, []. rewrite app_nil_r.
          split; [apply did_nothing; auto|]. auto.
        - destruct (deep n i h1 m1) as [[[h3 m3] y3]|] eqn:E3; [|discriminate].
          destruct (IH _ _ _ _ _ _ E3 (I1 i (or_introl eq_refl)) G1) as [D3 Y3].
          destruct (IHi _ _ _ _ _ _ E (fun j J => I1 j (or_intror J)) (d_good _ _ _ _ _ D3))
            as (h4 & m4 & ys & D4 & F4 & A & B & C).
          exists h4, m4, (y3 :: ys). split; [eapply did_then; eauto|].
          split; [constructor; auto; eapply related_grows; eauto; apply D4|].
          rewrite <- app_assoc in A. auto. }
      destruct (F _ _ _ _ _ _ _ E IT G) as (h2 & m2 & ys & [G2 L2 R2 S2 N2] & F2 & A & B & C & Q2). clear F E. subst.
      cbn [app] in *.
      assert (GR : grows m2 ((l, List.length h2) :: m2)).
      { intros a b D. cbn [dget]. destruct (Nat.eqb l a) eqn:Q; auto. apply Nat.eqb_eq in Q. congruence. }
      assert (Cn : nth_error (h2 ++ [Cell Instance ys (c_data c)]) (List.length h2) = Some (Cell Instance ys (c_data c))).
      { rewrite nth_error_app2 by lia. rewrite Nat.sub_diag. reflexivity. }
      pose proof (g_len _ _ G2) as GL.
      split; [|right; cbn [dget]; rewrite Nat.eqb_refl; auto].
      constructor.
      + pose proof (related_bounds _ _ _ _ G2 IT F2) as B2.
        destruct G2 as [a1 a2 a3 a4 a5 a6]. constructor; [| | | |apply closed_snoc; auto|
          intros a a' b; cbn [dget]; destruct (Nat.eqb l a) eqn:Q; destruct (Nat.eqb l a') eqn:Q'; intros D D';
          [apply Nat.eqb_eq in Q; apply Nat.eqb_eq in Q'; congruence
          |injection D as <-; apply a3 in D'; lia
          |injection D' as <-; apply a3 in D; lia
          |eauto]].
        * intros i I. rewrite nth_error_app1 by lia. auto.
        * rewrite app_length. lia.
        * intros a b. cbn [dget]. rewrite app_length; cbn [List.length].
          destruct (Nat.eqb l a); intros D; [injection D as <-; lia|]. apply a3 in D. lia.
        * intros a b. cbn [dget]. destruct (Nat.eqb l a) eqn:Q; intros D; [apply Nat.eqb_eq in Q; congruence|eauto].
      + rewrite app_length. lia.
      + intros a b D. auto.
      + intros i I K. rewrite nth_error_app1 by lia. auto.
      + intros a b D D1. destruct (Nat.eqb l a) eqn:Q.
        * pose proof Q as Q'. apply Nat.eqb_eq in Q'. subst a. cbn [dget] in D. rewrite Q in D. injection D as <-.
          split; auto. exists c, (Cell Instance ys (c_data c)). cbn [c_kind c_items c_data].
          repeat split; auto. eapply Forall2_grows; eauto.
        * cbn [dget] in D. rewrite Q in D. destruct (N2 a b D D1) as [Lb C]. split; auto.
          apply complete_kept with h2 m2; auto. apply nth_error_app1. apply (g_val _ _ G2 a b D).
    - injection E as E1 E2 E3. subst. split; [apply did_nothing; auto|left; split; auto].
      exists c. auto.
  Qed.

  Lemma start_good : good h0 [].
  Proof. constructor; auto; discriminate. Qed.

  Lemma Forall2_nth : forall (R : nat -> nat -> Prop) ls ys n l, Forall2 R ls ys -> nth_error ls n = Some l ->
    exists y, nth_error ys n = Some y /\ R l y.
  Proof.
    intros R ls ys n l F. revert n. induction F as [|a b ls ys Rab F IH]; intros [|n] E; try discriminate; cbn in *.
    - injection E as <-. eauto.
    - auto.
  Qed.

  Lemma Forall2_nth_back : forall (R : nat -> nat -> Prop) ls ys n y, Forall2 R ls ys -> nth_error ys n = Some y ->
    exists l, nth_error ls n = Some l /\ R l y.
  Proof.
    intros R ls ys n y F. revert n. induction F as [|a b ls ys Rab F IH]; intros [|n] E; try discriminate; cbn in *.
    - injection E as <-. eauto.
    - auto.
  Qed.

  Lemma Forall2_len : forall (R : nat -> nat -> Prop) ls ys, Forall2 R ls ys -> List.length ys = List.length ls.
  Proof. induction 1; cbn; auto. Qed.

  Section Done.
    Variables (h : heap) (m : memo).
    Hypothesis G : good h m.
    Hypothesis CP : forall a b, dget Nat.eqb m a = Some b -> complete h m a b.

    Lemma related_copy : forall l y, related m l y -> copy_of h0 h l y.
    Proof.
      intros l y [K|D]; [left; auto|]. right. split; [apply (g_key _ _ G _ _ D)|]. split; [apply (g_val _ _ G _ _ D)|].
      destruct (CP _ _ D) as (c & c' & A & B & K & E & F). exists c, c'. repeat split; auto.
      eapply Forall2_len; eauto.
    Qed.

    Lemma not_kept : forall l c, nth_error h0 l = Some c -> c_kind c = Container \/ c_kind c = Instance -> ~ kept h0 l.
    Proof. intros l c E K (d & A & B). rewrite E in A. injection A as <-. destruct K, B; congruence. Qed.

    Lemma leads_there : forall l path k, leads h0 l path k -> forall y, related m l y ->
      exists k', leads h y path k' /\ related m k k'.
    Proof.
      induction 1 as [l|l c n i path k E K En L IH]; intros y R.
      - exists y. split; auto. constructor.
      - destruct R as [[Kl _]|D]; [destruct (not_kept _ _ E K Kl)|].
        destruct (CP _ _ D) as (ca & cb & A & B & Kb & Db & F). rewrite E in A. injection A as <-.
        destruct (Forall2_nth _ _ _ _ _ F En) as (z & Ez & Rz). destruct (IH z Rz) as (k' & L' & R').
        exists k'. split; auto. econstructor; eauto. rewrite Kb. auto.
    Qed.

    Lemma leads_back : forall y path k', leads h y path k' -> forall l, related m l y ->
      exists k, leads h0 l path k /\ related m k k'.
    Proof.
      induction 1 as [y|y c n i path k E K En L IH]; intros l R.
      - exists l. split; auto. constructor.
      - destruct R as [[(d & A & B) Q]|D].
        + subst y. rewrite (g_old _ _ G) in E by (apply nth_error_Some; congruence).
          rewrite A in E. injection E as <-. destruct K, B; congruence.
        + destruct (CP _ _ D) as (ca & cb & A & B & Kb & Db & F). rewrite E in B. injection B as <-.
          destruct (Forall2_nth_back _ _ _ _ _ F En) as (z & Ez & Rz). destruct (IH z Rz) as (k' & L' & R').
          exists k'. split; auto. econstructor; eauto. rewrite <- Kb. auto.
    Qed.

    Lemma related_one : forall l y z, related m l y -> related m l z -> y = z.
    Proof.
      intros l y z [[K E]|D] [[K' E']|D']; subst; auto; try congruence.
      - destruct (g_key _ _ G _ _ D' K).
      - destruct (g_key _ _ G _ _ D K').
    Qed.

    Lemma related_from_one : forall l l' y, l < N0 -> l' < N0 -> related m l y -> related m l' y -> l = l'.
    Proof.
      intros l l' y L L' [[K E]|D] [[K' E']|D']; subst; auto.
      - pose proof (g_val _ _ G _ _ D'). lia.
      - pose proof (g_val _ _ G _ _ D). lia.
      - eapply (g_inj _ _ G); eauto.
    Qed.
  End Done.
End Copy.

Lemma leads_closed : forall h, closed h -> forall l path k, leads h l path k -> l < List.length h -> k < List.length h.
Proof.
  intros h C l path k P. induction P as [l|l c n i path k E K En L IH]; intros B; auto.
  apply IH. eapply C; eauto. eapply nth_error_In; eauto.
Qed.

Lemma leads_one : forall h l path k, leads h l path k -> forall k', leads h l path k' -> k = k'.
Proof.
  induction 1 as [l|l c n i path k E K En L IH]; intros k' L'; inversion L'; subst; auto.
  apply IH. congruence.
Qed.

(** All about one deep copy. *)
Lemma deepcopy_all : forall fuel h l h' y, closed h -> l < List.length h -> deepcopy fuel h l = Some (h', y) ->
  closed h' /\ List.length h <= List.length h' /\ y < List.length h' /\
  (forall i, i < List.length h -> nth_error h' i = nth_error h i) /\
  (forall path k, leads h l path k -> exists k', leads h' y path k' /\ copy_of h h' k k') /\
  (forall path k', leads h' y path k' -> exists k, leads h l path k /\ copy_of h h' k k') /\
  (forall p q a b a' b', leads h l p a -> leads h l q b -> leads h' y p a' -> leads h' y q b' -> (a' = b' <-> a = b)).
Proof.
  intros fuel h l h' y C L E. unfold deepcopy in E. destruct (deep fuel l h []) as [[[h1 m1] y1]|] eqn:D; [|discriminate].
  injection E as E1 E2. subst h1 y1.
  destruct (deep_did h C _ _ _ _ _ _ _ D L (start_good h C)) as [[G L1 R1 S1 N1] R].
  assert (CP : forall a b, dget Nat.eqb m1 a = Some b -> complete h h' m1 a b) by (intros a b Q; apply (N1 a b Q eq_refl)).
  split; [apply G|]. split; auto. split; [eapply related_bound; eauto|]. split; [intros i I; auto|]. split; [|split].
  - intros path k P. destruct (leads_there h h' m1 CP _ _ _ P y R) as (k' & P' & R'). exists k'. split; auto.
    eapply related_copy; eauto.
  - intros path k P. destruct (leads_back h h' m1 G CP _ _ _ P l R) as (k' & P' & R'). exists k'. split; auto.
    eapply related_copy; eauto.
  - intros p q a0 b0 p' q' P Q P' Q'.
    destruct (leads_there h h' m1 CP _ _ _ P y R) as (a & A & RA).
    destruct (leads_there h h' m1 CP _ _ _ Q y R) as (b & B & RB).
    rewrite (leads_one _ _ _ _ P' _ A), (leads_one _ _ _ _ Q' _ B). split; intros X; subst.
    + eapply related_from_one; eauto; eapply leads_closed; eauto.
    + eapply related_one; eauto.
Qed.

Lemma leads_grow : forall h h', (forall i, i < List.length h -> nth_error h' i = nth_error h i) ->
  forall l path k, leads h l path k -> leads h' l path k.
Proof.
  intros h h' S l path k P. induction P as [l|l c n i path k E K En L IH]; [constructor|].
  econstructor; eauto. rewrite S; auto. apply nth_error_Some. congruence.
Qed.

Lemma reaches_old : forall h h', closed h -> (forall i, i < List.length h -> nth_error h' i = nth_error h i) ->
  forall l k, reaches h' l k -> l < List.length h -> k < List.length h.
Proof.
  intros h h' C S l k R. induction R as [l|l c i k E I R IH]; intros L; auto.
  apply IH. rewrite S in E by auto. eapply C; eauto.
Qed.

Lemma deepcopy_separate : forall fuel h l h' y, closed h -> l < List.length h -> deepcopy fuel h l = Some (h', y) ->
  forall path k k', leads h l path k -> ~ kept h k -> leads h' y path k' ->
  ~ reaches h' l k' /\
  forall items data i, i < List.length h -> nth_error (assign h' k' items data) i = nth_error h i.
Proof.
  intros fuel h l h' y C L E path k k' P N P'.
  destruct (deepcopy_all _ _ _ _ _ C L E) as (_ & _ & _ & S & T & _ & _).
  destruct (T _ _ P) as (k2 & P2 & Q). rewrite (leads_one _ _ _ _ P2 _ P') in Q.
  destruct Q as [[K _]|(_ & B & _)]; [contradiction|]. split.
  - intros R. pose proof (reaches_old h h' C S _ _ R L). lia.
  - intros items data i I. unfold assign. destruct (nth_error h' k'); auto. rewrite put_other by lia. auto.
Qed.

Lemma shared_kept : forall h k, shared h k -> kept h k.
Proof. intros h k (c & E & K). exists c. auto. Qed.

Lemma assign_leads : forall h k items data, shared h k -> forall l path j, leads h l path j ->
  leads (assign h k items data) l path j.
Proof.
  intros h k items data (d & Ed & Kd) l path j P. induction P as [l|l c n i path j E K En L IH]; [constructor|].
  econstructor; eauto. unfold assign. rewrite Ed. rewrite put_other; auto. intros Q. subst. destruct K; congruence.
Qed.

Lemma assign_shared : forall h k items data j, shared h j -> shared (assign h k items data) j.
Proof.
  intros h k items data j (d & Ed & Kd). unfold assign. destruct (nth_error h k) as [c|] eqn:E; [|exists d; auto].
  destruct (Nat.eq_dec k j) as [Q|Q].
  - subst. rewrite Ed in E. injection E as <-. eexists. split; [apply put_same; apply nth_error_Some; congruence|auto].
  - exists d. rewrite put_other by auto. auto.
Qed.

Lemma shallow_all : forall h l h' y, closed h -> l < List.length h -> shallow h l = Some (h', y) ->
  closed h' /\ List.length h <= List.length h' /\ y < List.length h' /\
  (forall i, i < List.length h -> nth_error h' i = nth_error h i) /\
  (kept h l -> y = l /\ h' = h) /\ (~ kept h l -> y = List.length h /\ nth_error h' y = nth_error h l).
Proof.
  intros h l h' y C L E. unfold shallow in E. destruct (nth_error h l) as [c|] eqn:Ec; [|discriminate].
  assert (S : forall i, i < List.length h -> nth_error (h ++ [c]) i = nth_error h i) by (intros; apply nth_error_app1; auto).
  assert (Y : nth_error (h ++ [c]) (List.length h) = Some c) by (rewrite nth_error_app2, Nat.sub_diag by lia; reflexivity).
  assert (CS : closed (h ++ [c])) by (apply closed_snoc; auto; intros i I; eapply C; eauto).
  destruct (c_kind c) eqn:K; injection E as E1 E2; subst h' y.
  - repeat split; auto; destruct H; exists c; auto.
  - rewrite app_length; cbn [List.length]. split; [auto|]. repeat split; auto; try lia; destruct H as (d & A & B); rewrite Ec in A; injection A as <-; destruct B; congruence.
  - rewrite app_length; cbn [List.length]. split; [auto|]. repeat split; auto; try lia; destruct H as (d & A & B); rewrite Ec in A; injection A as <-; destruct B; congruence.
  - repeat split; auto; destruct H; exists c; auto.
Qed.

Lemma shallow_leads : forall h l h' y n path k, closed h -> l < List.length h -> shallow h l = Some (h', y) ->
  leads h l (n :: path) k -> leads h' y (n :: path) k.
Proof.
  intros h l h' y n path k C L E P. destruct (shallow_all _ _ _ _ C L E) as (_ & _ & _ & S & _ & Y).
  inversion P; subst. destruct Y as [_ Y]; [eapply not_kept; eauto|].
  econstructor; eauto; [congruence|]. eapply leads_grow; eauto.
Qed.

Lemma shared_grow : forall h h' k, (forall i, i < List.length h -> nth_error h' i = nth_error h i) ->
  shared h k -> shared h' k.
Proof. intros h h' k S (c & E & K). exists c. rewrite S; auto. apply nth_error_Some. congruence. Qed.

Lemma history_shared : forall h l h' y, history h l h' y -> closed h -> l < List.length h ->
  (closed h' /\ List.length h <= List.length h' /\ y < List.length h') /\
  forall path k, leads h l path k -> shared h k -> leads h' l path k /\ leads h' y path k /\ shared h' k.
Proof.
  induction 1 as [h l|h l h1 l1 h2 l2 H IH E|h l h1 l1 fuel h2 l2 H IH E|h l h1 l1 k0 items data H IH K I]; intros C L.
  - split; [auto|]. auto.
  - destruct (IH C L) as ((C1 & L1 & B1) & IH').
    destruct (shallow_all _ _ _ _ C1 B1 E) as (C2 & L2 & B2 & S & Kp & Y).
    split; [repeat split; auto; lia|]. intros path k P Sh. destruct (IH' _ _ P Sh) as (P1 & P2 & Sh1).
    split; [eapply leads_grow; eauto|]. split; [|eapply shared_grow; eauto].
    destruct path as [|n path].
    + inversion P2; subst. destruct (Kp (shared_kept _ _ Sh1)) as [Q _]. subst. constructor.
    + exact (shallow_leads _ _ _ _ _ _ _ C1 B1 E P2).
  - destruct (IH C L) as ((C1 & L1 & B1) & IH').
    destruct (deepcopy_all _ _ _ _ _ C1 B1 E) as (C2 & L2 & B2 & S & T & _ & _).
    split; [repeat split; auto; lia|]. intros path k P Sh. destruct (IH' _ _ P Sh) as (P1 & P2 & Sh1).
    split; [eapply leads_grow; eauto|]. split; [|eapply shared_grow; eauto].
    destruct (T _ _ P2) as (k' & P' & [[_ Q]|[N _]]); [congruence|]. destruct (N (shared_kept _ _ Sh1)).
  - destruct (IH C L) as ((C1 & L1 & B1) & IH').
    assert (LN : List.length (assign h1 k0 items data) = List.length h1)
      by (unfold assign; destruct (nth_error h1 k0); auto using put_length).
    split; [rewrite LN; repeat split; auto; unfold assign; destruct (nth_error h1 k0); auto; apply closed_put; auto|].
    intros path k P Sh. destruct (IH' _ _ P Sh) as (P1 & P2 & Sh1).
    repeat split; auto using assign_leads, assign_shared.
Qed.

(** Deep copies of objects that do not contain themselves succeed. *)
Section Total.
  Variable h0 : heap.
  Hypothesis O0 : ordered h0.
  Let N0 := List.length h0.
  Definition intact (h : heap) : Prop := N0 <= List.length h /\ forall i, i < N0 -> nth_error h i = nth_error h0 i.
  Definition below (m m' : memo) (l : nat) : Prop :=
    forall a, dget Nat.eqb m a = None -> l < a -> dget Nat.eqb m' a = None.

  Lemma below_entry : forall (m : memo) l x a, dget Nat.eqb m a = None -> l < a -> dget Nat.eqb ((l, x) :: m) a = None.
  Proof. intros m l x a D L. cbn [dget]. destruct (Nat.eqb l a) eqn:Q; auto. apply Nat.eqb_eq in Q. lia. Qed.

  Lemma deep_total : forall n l h m, l < n -> l < N0 -> intact h ->
    exists h' m' y, deep n l h m = Some (h', m', y) /\ intact h' /\ below m m' l.
  Proof.
    induction n as [|n IH]; intros l h m Ln Ll I; [lia|]. cbn [deep].
    destruct (dget Nat.eqb m l) as [y|] eqn:Em.
    { exists h, m, y. split; auto. split; auto. intros a D _. auto. }
    destruct I as [IL IO]. rewrite (IO l Ll). destruct (nth_error h0 l) as [c|] eqn:Ec.
    2:{ apply nth_error_None in Ec. unfold N0 in Ll. lia. }
    assert (IT : forall i, In i (c_items c) -> i < l) by (intros i J; eapply O0; eauto).
    assert (Z : exists h' m' y, Some (h, m, l) = Some (h', m', y) /\ intact h' /\ below m m' l).
    { exists h, m, l. repeat split; auto. intros a D _. auto. }
    destruct (c_kind c); auto.
    - set (new := List.length h). cbv zeta.
      assert (I1 : intact (h ++ [Cell Container [] (c_data c)])).
      { split; [rewrite app_length; lia|]. intros i J. rewrite nth_error_app1 by lia. auto. }
      assert (B1 : below m ((l, new) :: m) l) by (intros a; apply below_entry).
      revert I1 B1. generalize (h ++ [Cell Container [] (c_data c)]) as h1. generalize ((l, new) :: m) as m1.
      revert IT. generalize (c_items c) as items.
      induction items as [|i items IHi]; intros IT m1 h1 I1 B1.
      + exists h1, m1, new. auto.
      + pose proof (IT i (or_introl eq_refl)) as Il.
        destruct (IH i h1 m1 ltac:(lia) ltac:(lia) I1) as (h2 & m2 & y2 & E2 & I2 & B2). rewrite E2.
        apply IHi; auto.
        * intros j J. apply IT. right. auto.
        * destruct I2 as [a b]. split; [rewrite append_length; auto|]. intros j J.
          rewrite append_other by (unfold new; lia). auto.
        * intros a D La. apply B2; [apply B1; auto|lia].
    - assert (I1 : intact h) by (split; auto).
      assert (B1 : forall a, dget Nat.eqb m a = None -> l <= a -> dget Nat.eqb m a = None) by auto.
      assert (F : forall items ys h1 m1, (forall i, In i items -> i < l) -> intact h1 ->
        (forall a, dget Nat.eqb m a = None -> l <= a -> dget Nat.eqb m1 a = None) ->
        exists h' m' y,
        (fix each (items : list nat) (ys : list nat) (h : heap) (m : memo) : option (heap * memo * nat) :=
           match items with
           | [] => let new := List.length h in
                   match dget Nat.eqb m l with
                   | Some _ => None
                   | None => Some (h ++ [Cell Instance ys (c_data c)], (l, new) :: m, new)
                   end
           | i :: items' => match deep n i h m with
                            | Some (h', m', y) => each items' (ys ++ [y]) h' m'
                            | None => None end end) items ys h1 m1 = Some (h', m', y) /\ intact h' /\ below m m' l);
        [clear IT I1 B1|exact (F _ _ _ _ IT I1 B1)].
      induction items as [|i items IHi]; intros ys h1 m1 IT I1 B1.
      + cbv zeta. rewrite (B1 l Em (le_n l)). eexists _, _, _. split; [reflexivity|]. split.
        * destruct I1 as [a b]. split; [rewrite app_length; lia|]. intros j J. rewrite nth_error_app1 by lia. auto.
        * intros a D La. apply below_entry; auto. apply B1; auto. lia.
      + pose proof (IT i (or_introl eq_refl)) as Il.
        destruct (IH i h1 m1 ltac:(lia) ltac:(lia) I1) as (h2 & m2 & y2 & E2 & I2 & B2). rewrite E2.
        apply IHi; auto.
        * intros j J. apply IT. right. auto.
        * intros a D La. apply B2; [apply B1; auto|lia].
  Qed.
End Total.

Lemma ordered_closed : forall h, ordered h -> closed h.
Proof.
  intros h O l c i E I. pose proof (O _ _ _ E I). assert (l < List.length h) by (apply nth_error_Some; congruence). lia.
Qed.

Lemma deepcopy_total : forall h l fuel, ordered h -> l < List.length h -> l < fuel ->
  exists h' y, deepcopy fuel h l = Some (h', y).
Proof.
  intros h l fuel O L F. unfold deepcopy.
  destruct (deep_total h O fuel l h [] F L) as (h' & m' & y & E & _); [split; auto|]. rewrite E. eauto.
Qed.

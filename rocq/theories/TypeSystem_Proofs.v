From Coq Require Import ZArith List Ascii String Bool Permutation Lia.
From Verif Require Import Base Base_Proofs Str Str_Proofs TypeSystem_Model TypeSystem_Spec.
Import ListNotations.
Open Scope list_scope.

Section Proofs.
  Context {A X H B C : Type} (matches : adapter A X H -> B -> H -> result bool)
    (adapt : adapter A X H -> B -> H -> result C).
  Notation adapter := (adapter A X H).
  Notation system := (system A X H).

  (** The adapter that decides, on plain lists. *)
  Definition decides_in (l : list adapter) (x : B) (h : H) (a : adapter) (answer : result bool) : Prop :=
    exists before after, l = before ++ a :: after /\ matches a x h = answer /\
      (forall b, In b before -> (a_priority a <= a_priority b)%Z -> matches b x h = Ok false) /\
      (forall b, In b after -> (a_priority a < a_priority b)%Z -> matches b x h = Ok false).

  Fixpoint first_decides (l : list adapter) (x : B) (h : H) : option adapter :=
    match l with
    | [] => None
    | a :: l' => match matches a x h with Ok false => first_decides l' x h | _ => Some a end
    end.
  Lemma try_first : forall l x h, try_adapters matches adapt l x h =
    match first_decides l x h with
    | None => None
    | Some a => Some (match matches a x h with Ok true => adapt a x h | Ok false => adapt a x h | Err e => Err e end)
    end.
  Proof.
    induction l as [|a l IH]; intros x h; cbn; [reflexivity|]. destruct (matches a x h) as [[]|e] eqn:E; try rewrite E; auto.
  Qed.

  Lemma insert_In : forall (a : adapter) l b, In b (insert_priority a l) <-> b = a \/ In b l.
  Proof.
    induction l as [|c l IH]; intro b; cbn; [intuition congruence|].
    destruct (a_priority c <=? a_priority a)%Z; cbn; [intuition congruence|]. rewrite IH. tauto.
  Qed.
  Lemma sort_In : forall (l : list adapter) b, In b (fold_right insert_priority [] l) <-> In b l.
  Proof. induction l as [|a l IH]; intro b; cbn; [tauto|]. rewrite insert_In, IH. intuition congruence. Qed.

  Lemma first_None : forall l x h, first_decides l x h = None <-> (forall b, In b l -> matches b x h = Ok false).
  Proof.
    induction l as [|a l IH]; intros x h; cbn; [tauto|]. destruct (matches a x h) as [[]|e] eqn:E.
    - split; [discriminate|]. intro Hm. rewrite (Hm a) in E by now left. discriminate.
    - rewrite IH. split; intros Hm b; [intros [<-|Hb]; auto|auto].
    - split; [discriminate|]. intro Hm. rewrite (Hm a) in E by now left. discriminate.
  Qed.

  (** Inserting in front of a sorted list. *)
  Fixpoint descending (l : list adapter) : Prop :=
    match l with [] => True | a :: l' => (forall b, In b l' -> (a_priority b <= a_priority a)%Z) /\ descending l' end.
  Lemma insert_descending : forall a l, descending l -> descending (insert_priority a l).
  Proof.
    induction l as [|b l IH]; intro D; cbn; [tauto|]. destruct D as [D D'].
    destruct (Z.leb_spec (a_priority b) (a_priority a)).
    - cbn. split; [|tauto]. intros c [<-|Hc]; [lia|]. apply D in Hc. lia.
    - cbn. split; [|auto]. intros c Hc. apply insert_In in Hc. destruct Hc as [->|Hc]; [lia|auto].
  Qed.
  Lemma sort_descending : forall l : list adapter, descending (fold_right insert_priority [] l).
  Proof. induction l; cbn; [tauto|]. now apply insert_descending. Qed.

  Lemma first_insert : forall a l x h, descending l -> first_decides (insert_priority a l) x h =
    match matches a x h with
    | Ok false => first_decides l x h
    | _ => match first_decides l x h with
           | Some b => if (a_priority b <=? a_priority a)%Z then Some a else Some b
           | None => Some a
           end
    end.
  Proof.
    induction l as [|b l IH]; intros x h D; cbn.
    - destruct (matches a x h) as [[]|]; reflexivity.
    - destruct D as [D D']. destruct (Z.leb_spec (a_priority b) (a_priority a)).
      + cbn. destruct (matches a x h) as [[]|e] eqn:E; try reflexivity;
          (destruct (matches b x h) as [[]|] eqn:F;
           [destruct (Z.leb_spec (a_priority b) (a_priority a)); [reflexivity|lia]| |
            destruct (Z.leb_spec (a_priority b) (a_priority a)); [reflexivity|lia]]);
          (destruct (first_decides l x h) as [c|] eqn:G; [|reflexivity]);
          (assert (Hc : In c l) by
             (clear -G; revert G; induction l as [|d l IHl]; cbn; [discriminate|];
              destruct (matches d x h) as [[]|]; intro G; try (inversion G; subst; now left); right; auto));
          (apply D in Hc; destruct (Z.leb_spec (a_priority c) (a_priority a)); [reflexivity|lia]).
      + cbn. rewrite IH by exact D'. destruct (matches b x h) as [[]|e] eqn:F.
        * destruct (matches a x h) as [[]|]; destruct (Z.leb_spec (a_priority b) (a_priority a)); try reflexivity; lia.
        * reflexivity.
        * destruct (matches a x h) as [[]|]; destruct (Z.leb_spec (a_priority b) (a_priority a)); try reflexivity; lia.
  Qed.

  Lemma first_decides_in : forall l x h a, first_decides l x h = Some a -> In a l /\ matches a x h <> Ok false.
  Proof.
    induction l as [|b l IH]; intros x h a E; cbn in *; [discriminate|].
    destruct (matches b x h) as [[]|e] eqn:F; try (inversion E; subst; split; [now left|congruence]).
    destruct (IH _ _ _ E). auto.
  Qed.

  Lemma sort_decides : forall l x h a, first_decides (fold_right insert_priority [] l) x h = Some a ->
    decides_in l x h a (matches a x h) /\ matches a x h <> Ok false.
  Proof.
    induction l as [|c l IH]; intros x h a E; [discriminate|]. cbn [fold_right] in E.
    rewrite first_insert in E by apply sort_descending.
    assert (K : forall a, first_decides (fold_right insert_priority [] l) x h = Some a ->
      (matches c x h <> Ok false -> (a_priority c < a_priority a)%Z) ->
      decides_in (c :: l) x h a (matches a x h) /\ matches a x h <> Ok false).
    { intros b Eb Hc. destruct (IH x h b Eb) as [(bf & af & -> & _ & Hb & Ha) N]. split; [|exact N].
      exists (c :: bf), af. repeat split; auto. intros d [<-|Hd] Hp; [|auto].
      destruct (matches c x h) as [[]|e] eqn:F; [|reflexivity|]; exfalso; assert (a_priority c < a_priority b)%Z by (apply Hc; congruence); lia. }
    destruct (matches c x h) as [[]|e] eqn:F.
    - destruct (first_decides (fold_right insert_priority [] l) x h) as [b|] eqn:G.
      + destruct (Z.leb_spec (a_priority b) (a_priority c)).
        * inversion E; subst. split; [|congruence]. exists [], l. repeat split; auto; [intros ? []|].
          intros d Hd Hp. destruct (IH x h b G) as [(bf & af & -> & _ & Hb & Ha) _]. apply in_app_iff in Hd.
          destruct Hd as [Hd|[<-|Hd]]; [apply Hb; [exact Hd|lia]|lia|apply Ha; [exact Hd|lia]].
        * apply K; [congruence|]. intro. inversion E; subst. lia.
      + inversion E; subst. split; [|congruence]. exists [], l. repeat split; auto; [intros ? []|].
        intros d Hd _. rewrite first_None in G. apply G. now apply sort_In.
    - apply K; [congruence|]. congruence.
    - destruct (first_decides (fold_right insert_priority [] l) x h) as [b|] eqn:G.
      + destruct (Z.leb_spec (a_priority b) (a_priority c)).
        * inversion E; subst. split; [|congruence]. exists [], l. repeat split; auto; [intros ? []|].
          intros d Hd Hp. destruct (IH x h b G) as [(bf & af & -> & _ & Hb & Ha) _]. apply in_app_iff in Hd.
          destruct Hd as [Hd|[<-|Hd]]; [apply Hb; [exact Hd|lia]|lia|apply Ha; [exact Hd|lia]].
        * apply K; [congruence|]. intro. inversion E; subst. lia.
      + inversion E; subst. split; [|congruence]. exists [], l. repeat split; auto; [intros ? []|].
        intros d Hd _. rewrite first_None in G. apply G. now apply sort_In.
  Qed.

  (** Two deciding adapters are the same occurrence. *)
  Lemma decides_unique : forall l x h a b ra rb, decides_in l x h a ra -> decides_in l x h b rb ->
    ra <> Ok false -> rb <> Ok false -> a = b.
  Proof.
    intros l x h a b ra rb (b1 & a1 & E1 & M1 & Hb1 & Ha1) (b2 & a2 & E2 & M2 & Hb2 & Ha2) Na Nb. subst l.
    revert b2 E2 Hb2. induction b1 as [|c b1 IH]; intros [|d b2] E2 Hb2; cbn in E2; inversion E2; subst.
    - reflexivity.
    - exfalso. assert (Hin : In b (b2 ++ b :: a2)) by (apply in_app_iff; right; now left).
      destruct (Z.lt_ge_cases (a_priority d) (a_priority b)).
      + apply Nb. now apply Ha1.
      + apply Na. apply Hb2; [now left|lia].
    - exfalso. assert (Hin : In a (b1 ++ a :: a1)) by (apply in_app_iff; right; now left).
      destruct (Z.lt_ge_cases (a_priority b) (a_priority a)).
      + apply Na. now apply Ha2.
      + apply Nb. apply Hb1; [now left|lia].
    - apply (IH (fun b0 Hb0 => Hb1 b0 (or_intror Hb0)) b2); auto. intros e He. apply Hb2. now right.
  Qed.

  Lemma own_answer : forall registry x h,
    match try_adapters matches adapt (priority_sorted registry) x h with
    | None => none_matches matches registry x h
    | Some r => exists a answer, decides matches registry x h a answer /\
                  ((answer = Ok true /\ r = adapt a x h) \/ exists e, answer = Err e /\ r = Err e)
    end.
  Proof.
    intros registry x h. rewrite try_first. unfold priority_sorted.
    destruct (first_decides _ x h) as [a|] eqn:E.
    - destruct (sort_decides _ _ _ _ E) as [D N]. exists a, (matches a x h). split; [exact D|].
      destruct (matches a x h) as [[]|e]; [auto|congruence|eauto].
    - rewrite first_None in E. intros k b Hb. apply E, sort_In. apply in_map_iff. exists (k, b). auto.
  Qed.

  Section SystemInd.
    Variable P : system -> Prop.
    Hypothesis HP : forall l e, Forall P e -> P (TypeSystem l e).
    Fixpoint system_ind' (s : system) : P s :=
      match s with
      | TypeSystem l e => HP l e ((fix go e := match e return Forall P e with
                                               | [] => Forall_nil _
                                               | s :: e' => Forall_cons s (system_ind' s) (go e') end) e)
      end.
  End SystemInd.

  Definition consult (l : list system) (x : B) (h : H) : result C :=
    (fix consult (l : list system) : result C :=
       match l with
       | [] => Err NotImplementedError
       | s' :: l' => match convert matches adapt s' x h with Err NotImplementedError => consult l' | r => r end
       end) l.
  Lemma convert_eq : forall l e x h, convert matches adapt (TypeSystem l e) x h =
    match try_adapters matches adapt (priority_sorted l) x h with Some r => r | None => consult e x h end.
  Proof. reflexivity. Qed.

  Lemma convert_converts : forall s x h, converts matches adapt s x h (convert matches adapt s x h).
  Proof.
    induction s as [l e IH] using system_ind'. intros x h. rewrite convert_eq. assert (O := own_answer l x h).
    destruct (try_adapters _ _ _ x h) as [r|].
    - destruct O as (a & answer & D & [[-> ->]|(err & -> & ->)]); [now apply by_adapter|now apply (by_failure _ _ _ _ _ _ a)].
    - apply by_extension; [exact O|]. clear O. induction IH as [|s e Hs IHe IH']; cbn; [constructor|].
      specialize (Hs x h). destruct (convert matches adapt s x h) as [c|[]] eqn:E;
        try (apply answers; [exact Hs|discriminate]).
      apply passes; [exact Hs|exact IH'].
  Qed.

  Lemma decides_false : forall l x h a r, decides matches l x h a r -> r <> Ok false -> ~ none_matches matches l x h.
  Proof.
    intros l x h a r (bf & af & E & M & _) N No. apply N. rewrite <- M.
    assert (Ha : In a (map snd l)) by (rewrite E; apply in_app_iff; right; now left).
    apply in_map_iff in Ha. destruct Ha as ([k a'] & <- & Ha). now apply (No k).
  Qed.

  Scheme converts_mut := Minimality for converts Sort Prop
    with consults_mut := Minimality for consults Sort Prop.

  Lemma converts_convert : forall s x h r, converts matches adapt s x h r -> convert matches adapt s x h = r.
  Proof.
    apply (converts_mut A X H B C matches adapt
      (fun s x h r => convert matches adapt s x h = r) (fun e x h r => consult e x h = r)).
    - intros l e x h a D. rewrite convert_eq. assert (O := own_answer l x h).
      destruct (try_adapters _ _ _ x h) as [r|].
      + destruct O as (b & answer & D' & O). assert (answer <> Ok false) by (destruct O as [[-> _]|(? & -> & _)]; discriminate).
        assert (a = b) by (eapply decides_unique; [exact D|exact D'|discriminate|assumption]). subst b.
        destruct O as [[-> ->]|(err & -> & ->)]; [reflexivity|]. destruct D as (? & ? & _ & M & _), D' as (? & ? & _ & M' & _). congruence.
      + exfalso. eapply decides_false; [exact D|discriminate|exact O].
    - intros l e x h a err D. rewrite convert_eq. assert (O := own_answer l x h).
      destruct (try_adapters _ _ _ x h) as [r|].
      + destruct O as (b & answer & D' & O). assert (answer <> Ok false) by (destruct O as [[-> _]|(? & -> & _)]; discriminate).
        assert (a = b) by (eapply decides_unique; [exact D|exact D'|discriminate|assumption]). subst b.
        destruct D as (? & ? & _ & M & _), D' as (? & ? & _ & M' & _).
        destruct O as [[-> ->]|(err' & -> & ->)]; congruence.
      + exfalso. eapply decides_false; [exact D|discriminate|exact O].
    - intros l e x h r N _ IH. rewrite convert_eq. assert (O := own_answer l x h).
      destruct (try_adapters _ _ _ x h) as [r'|]; [|exact IH]. exfalso.
      destruct O as (b & answer & D' & O). assert (answer <> Ok false) by (destruct O as [[-> _]|(? & -> & _)]; discriminate).
      eapply decides_false; eassumption.
    - reflexivity.
    - intros s e x h r _ IH _ IH'. cbn. now rewrite IH.
    - intros s e x h r _ IH N. cbn. rewrite IH. destruct r as [c|[]]; try reflexivity. congruence.
  Qed.

  Theorem convert_spec : forall s x h r, convert matches adapt s x h = r <-> converts matches adapt s x h r.
  Proof. intros s x h r. split; [intros <-; apply convert_converts|apply converts_convert]. Qed.

  Theorem unmatched_unsupported : forall s x h, unmatched matches s x h -> convert matches adapt s x h = Err NotImplementedError.
  Proof.
    induction s as [l e IH] using system_ind'. intros x h U. inversion U; subst. apply converts_convert.
    apply by_extension; [assumption|]. clear U H2. induction IH as [|s e Hs IHe IH']; [constructor|].
    inversion H5; subst. apply passes; [|auto]. rewrite <- (Hs x h) by assumption. apply convert_converts.
  Qed.

  (** A permuted registry. *)
  Lemma best : forall l x h a b, decides matches l x h a (Ok true) -> In b (map snd l) -> matches b x h = Ok true ->
    (a_priority b <= a_priority a)%Z.
  Proof.
    intros l x h a b (bf & af & E & M & Hb & Ha) Ib Mb. destruct (Z.le_gt_cases (a_priority b) (a_priority a)) as [L|L]; [exact L|].
    rewrite E in Ib. apply in_app_iff in Ib. destruct Ib as [Ib|[<-|Ib]]; [|lia|].
    - rewrite (Hb b) in Mb by (auto; lia). discriminate.
    - rewrite (Ha b) in Mb by (auto; lia). discriminate.
  Qed.
  Lemma decides_In : forall l x h a r, decides matches l x h a r -> In a (map snd l) /\ matches a x h = r.
  Proof. intros l x h a r (bf & af & E & M & _). split; [|exact M]. rewrite E. apply in_app_iff. right. now left. Qed.

  Theorem registration_order : forall l l' e x h,
    Permutation l l' -> (forall k a, In (k, a) l -> exists b, matches a x h = Ok b) ->
    (forall k a k' a', In (k, a) l -> In (k', a') l -> matches a x h = Ok true -> matches a' x h = Ok true ->
       a_priority a = a_priority a' -> a = a') ->
    convert matches adapt (TypeSystem l e) x h = convert matches adapt (TypeSystem l' e) x h.
  Proof.
    intros l l' e x h P T U. rewrite !convert_eq. assert (O := own_answer l x h). assert (O' := own_answer l' x h).
    assert (Q : forall a, In a (map snd l') -> In a (map snd l)).
    { intro a. apply Permutation_in, Permutation_map, Permutation_sym, P. }
    assert (Q' : forall a, In a (map snd l) -> In a (map snd l')) by (intro a; apply Permutation_in, Permutation_map, P).
    assert (T' : forall a, In a (map snd l) -> exists b, matches a x h = Ok b).
    { intros a I. apply in_map_iff in I. destruct I as ([k a'] & <- & I). exact (T _ _ I). }
    assert (F : forall a r, In a (map snd l) -> matches a x h = r -> forall err, r <> Err err).
    { intros a r I M err ->. destruct (T' a I). congruence. }
    destruct (try_adapters _ _ (priority_sorted l) x h) as [r|], (try_adapters _ _ (priority_sorted l') x h) as [r'|]; [| | |reflexivity].
    - destruct O as (a & ra & D & O), O' as (a' & ra' & D' & O').
      destruct (decides_In _ _ _ _ _ D) as [I M]. destruct (decides_In _ _ _ _ _ D') as [I' M'].
      destruct O as [[-> ->]|(err & -> & _)]; [|exfalso; eapply (F a); eauto].
      destruct O' as [[-> ->]|(err & -> & _)]; [|exfalso; eapply (F a'); eauto].
      assert (L := best _ _ _ _ _ D (Q _ I') M'). assert (L' := best _ _ _ _ _ D' (Q' _ I) M).
      apply Q in I'. apply in_map_iff in I, I'. destruct I as ([k b] & <- & I), I' as ([k' b'] & <- & I'). cbn in *.
      rewrite (U _ _ _ _ I I' M M'); [reflexivity|lia].
    - exfalso. destruct O as (a & ra & D & O). assert (ra <> Ok false) by (destruct O as [[-> _]|(? & -> & _)]; discriminate).
      destruct (decides_In _ _ _ _ _ D) as [I M]. apply Q' in I. apply in_map_iff in I. destruct I as ([k b] & <- & I).
      cbn in M. rewrite (O' _ _ I) in M. congruence.
    - exfalso. destruct O' as (a & ra & D & O'). assert (ra <> Ok false) by (destruct O' as [[-> _]|(? & -> & _)]; discriminate).
      destruct (decides_In _ _ _ _ _ D) as [I M]. apply Q in I. apply in_map_iff in I. destruct I as ([k b] & <- & I).
      cbn in M. rewrite (O _ _ I) in M. congruence.
  Qed.

  Theorem added : forall l e k a x h, matches a x h = Ok false ->
    convert matches adapt (TypeSystem (l ++ [(k, a)]) e) x h = convert matches adapt (TypeSystem l e) x h.
  Proof.
    intros l e k a x h M. apply convert_spec. pose proof (proj1 (convert_spec (TypeSystem l e) x h _) eq_refl) as S.
    assert (D : forall b r, decides matches l x h b r -> decides matches (l ++ [(k, a)]) x h b r).
    { intros b r (before & after & E & R & Bf & F). exists before, (after ++ [a]). rewrite map_app, E, <- app_assoc. cbn [map snd app].
      split; [reflexivity|split; [exact R|split; [exact Bf|]]]. intros b' I L. apply in_app_iff in I.
      destruct I as [I|[ <- |[]]]; [now apply F|exact M]. }
    revert S. generalize (convert matches adapt (TypeSystem l e) x h). intros r S. inversion S; subst.
    - apply by_adapter. now apply D.
    - eapply by_failure. apply D. eassumption.
    - apply by_extension; [|assumption]. intros k' b I. apply in_app_iff in I. destruct I as [I|[E|[]]]; [eauto|congruence].
  Qed.
  Theorem added_first : forall l e k a x h, matches a x h = Ok true ->
    (forall k' b, In (k', b) l -> (a_priority a <= a_priority b)%Z -> matches b x h = Ok false) ->
    convert matches adapt (TypeSystem (l ++ [(k, a)]) e) x h = adapt a x h.
  Proof.
    intros l e k a x h M N. apply convert_spec. apply by_adapter. exists (map snd l), []. rewrite map_app.
    split; [reflexivity|split; [exact M|split; [|intros b []]]]. intros b I L. apply in_map_iff in I.
    destruct I as ([k' b'] & E & I). cbn [snd] in E. subst b'. eauto.
  Qed.
End Proofs.

Theorem adapter_registered : forall A X H l e (a : adapter A X H),
  (~ In (a_key a) (map fst l) -> register_adapter (TypeSystem l e) a = (Ok a, TypeSystem (l ++ [(a_key a, a)]) e)) /\
  (In (a_key a) (map fst l) -> register_adapter (TypeSystem l e) a = (Err ValueError, TypeSystem l e)).
Proof.
  intros A X H l e a. unfold register_adapter, Utils_Model.register. split; intro I.
  - apply (dget_None _ str_eqb_spec) in I. rewrite I. do 2 f_equal.
    induction l as [|[k b] l IH]; [reflexivity|]. cbn [dget] in I. cbn [dset app]. destruct (str_eqb k (a_key a)); [discriminate|].
    now rewrite IH.
  - destruct (dget str_eqb l (a_key a)) eqn:G; [reflexivity|]. now apply (dget_None _ str_eqb_spec) in G.
Qed.

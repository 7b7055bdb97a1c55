From Coq Require Import ZArith List Ascii String Bool Lia.
From Verif Require Import Base Base_Proofs Str Str_Proofs Types_Model PyTypes_Model Views_Model Views_Proofs Producers_Model Producers_Proofs Artifacts_Model
  Artifacts_Spec Artifacts_Proofs Instances_Model Instances_Spec Dispatch_Model Handlers_Model Handlers_Spec Handlers_Proofs.
Import ListNotations.
Open Scope list_scope.

Section Instances.
  Context {V A T P : Type} (class_of : P -> producer_class V A) (asub : A -> A -> bool) (type_eqb : ty -> ty -> bool)
    (can_read can_write : ty * T -> V -> result unit).
  Notation artifact := (artifact A T P).
  Notation producer := (producer A T P).
  Notation suits := (@suits V A T P asub type_eqb can_read can_write).
  Notation takes_input := (@takes_input V A T P asub type_eqb can_read can_write).
  Notation compatible := (compatible asub type_eqb can_read can_write).
  Notation create := (create class_of asub type_eqb can_read can_write).

  Lemma compatible_suits : forall v (a : artifact), compatible v a = Ok tt <-> suits v a.
  Proof.
    intros v [c t r o]. unfold compatible. rewrite artifact_spec. cbn. tauto.
  Qed.
  Lemma compatible_ok : forall v (a : artifact) u, compatible v a = Ok u -> suits v a.
  Proof. intros v a [] H. apply compatible_suits, H. Qed.
  Lemma compatible_err : forall v (a : artifact) e, compatible v a = Err e ->
    e = ValueError \/ exists x w, can_read x w = Err e \/ can_write x w = Err e.
  Proof.
    intros v [c t r o] e. unfold compatible, check_artifact, check_type. cbn. destruct (asub c (v_artifact v)); cbn; [|intros [= <-]; auto].
    destruct (type_eqb (v_type v) t); cbn; [|intros [= <-]; auto].
    destruct (reads (v_mode v)); cbn.
    - destruct (can_read (t, r) (v_class v)) as [[]|e'] eqn:R; cbn; [|intros [= <-]; eauto].
      destruct (writes (v_mode v)); [|discriminate]. intros X. eauto.
    - destruct (writes (v_mode v)); [|discriminate]. intros X. eauto.
  Qed.

  (** * Creation *)
  Notation arg := (validate_arg asub type_eqb can_read can_write).
  Lemma arg_valid : forall c args n cls a, NoDup (map fst args) -> named_apart c -> In (n, cls) (inputs c) ->
    (arg c args (n, cls) = Valid a <-> In (n, Some a) args /\ takes_input c n a).
  Proof.
    intros c args n cls a N [Ni Nb] I. unfold validate_arg. cbn [fst snd]. split.
    - destruct (dget str_eqb args n) as [[b|]|] eqn:G; try discriminate. destruct (asub (a_class b) cls) eqn:S; [|discriminate].
      destruct (dget str_eqb (build_inputs c) n) as [v|] eqn:B.
      + destruct (compatible v b) as [u|e] eqn:K; cbn; [|destruct (collected e); discriminate]. intros [= <-].
        split; [apply (dget_In _ str_eqb_spec), G|]. exists cls. split; [exact I|]. split; [destruct b; exact S|].
        intros w W. apply (dget_NoDup _ str_eqb_spec) in W; [|exact Nb]. rewrite W in B. injection B as ->. exact (compatible_ok _ _ _ K).
      + intros [= <-]. split; [apply (dget_In _ str_eqb_spec), G|]. exists cls. split; [exact I|]. split; [destruct b; exact S|].
        intros w W. apply (dget_NoDup _ str_eqb_spec) in W; [|exact Nb]. rewrite W in B. discriminate.
    - intros [G (cls' & I' & S & F)]. apply (dget_NoDup _ str_eqb_spec) in G; [|exact N]. rewrite G.
      assert (cls' = cls) as ->.
      { apply (dget_NoDup _ str_eqb_spec) in I; [|exact Ni]. apply (dget_NoDup _ str_eqb_spec) in I'; [|exact Ni]. congruence. }
      assert (X : asub (a_class a) cls = true) by (destruct a; exact S). rewrite X.
      destruct (dget str_eqb (build_inputs c) n) as [v|] eqn:B; [|reflexivity].
      apply (dget_In _ str_eqb_spec) in B. apply F, compatible_suits in B. rewrite B. reflexivity.
  Qed.
  Lemma gather_iff : forall (fields : list (str * outcome artifact)) l,
    gather fields = Some l <-> Forall2 (fun f na => fst f = fst na /\ snd f = Valid (snd na)) fields l.
  Proof.
    induction fields as [|[n o] fields IH]; intros l; cbn.
    - split; [intros [= <-]; constructor|intros H; inversion H; reflexivity].
    - destruct o as [a| |e]; cbn; try (split; [discriminate|intros H; inversion H as [|x y ? ? [_ K]]; discriminate K]).
      destruct (gather fields) as [l'|] eqn:G.
      + split.
        * intros [= <-]. constructor; [split; reflexivity|]. apply IH. reflexivity.
        * intros H. inversion H as [|x y ? ? [K1 K2] R]. subst. destruct y as [n' a']. cbn in *. subst. injection K2 as ->.
          apply IH in R. injection R as ->. reflexivity.
      + split; [discriminate|]. intros H. inversion H as [|x y ? ? [K1 K2] R]. subst. apply IH in R. discriminate.
  Qed.
  Lemma first_none : forall l, (forall e, In e l -> e = @None exn) -> first_of l = None.
  Proof. induction l as [|e l IH]; intros H; [reflexivity|]. cbn. rewrite (H e (or_introl eq_refl)). apply IH. intros x I. apply H. right. exact I. Qed.
  Lemma first_some : forall l e, first_of l = Some e -> In (Some e) l.
  Proof. induction l as [|[x|] l IH]; cbn; intros e H; [discriminate|left; exact H|right; apply IH, H]. Qed.

  Theorem created : forall k args p, named_apart (class_of k) -> NoDup (map fst args) ->
    (create k args = Ok p <-> exists l, p = Prod k l /\ map fst l = map fst (inputs (class_of k)) /\
       (forall n x, In (n, x) args <-> exists a, x = Some a /\ In (n, a) l) /\ forall n a, In (n, a) l -> takes_input (class_of k) n a).
  Proof.
    intros k args p NA N. unfold create. set (c := class_of k) in *. set (fields := map (fun f => (fst f, arg c args f)) (inputs c)).
    assert (L : forall l, gather fields = Some l <-> map fst l = map fst (inputs c) /\ forall n a, In (n, a) l -> In (n, Some a) args /\ takes_input c n a).
    { intros l. rewrite gather_iff. unfold fields.
      assert (Q : forall ins, (forall x, In x ins -> In x (inputs c)) ->
        Forall2 (fun f na => fst f = fst na /\ snd f = Valid (snd na)) (map (fun f => (fst f, arg c args f)) ins) l <->
        map fst l = map fst ins /\ forall n a, In (n, a) l -> In (n, Some a) args /\ takes_input c n a).
      { revert l. intros l ins. revert l. induction ins as [|[n cls] ins IH]; intros l S; cbn.
        - split; [intros H; inversion H; split; [reflexivity|intros ? ? []]|]. intros [H _]. destruct l; [constructor|discriminate].
        - split.
          + intros H. inversion H as [|x y ? ? [K1 K2] R]. subst. destruct y as [n' a]. cbn in *. subst n'.
            apply (arg_valid c args n cls a N NA (S _ (or_introl eq_refl))) in K2. apply IH in R; [|intros x I; apply S; right; exact I].
            destruct R as [R1 R2]. split; [congruence|]. intros m b [[= <- <-]|I]; [exact K2|apply R2, I].
          + intros [H1 H2]. destruct l as [|[n' a] l]; [discriminate|]. cbn in H1. injection H1 as <- H1. constructor.
            * cbn. split; [reflexivity|]. apply (arg_valid c args _ cls a N NA (S _ (or_introl eq_refl))), H2. left. reflexivity.
            * apply IH; [intros x I; apply S; right; exact I|]. split; [exact H1|]. intros m b I. apply H2. right. exact I. }
      apply Q. auto. }
    split.
    - destruct (first_of _); [discriminate|]. destruct (gather fields) as [l|] eqn:G; [|discriminate].
      destruct (forallb _ args) eqn:F; [|discriminate]. intros [= <-]. exists l. destruct (proj1 (L l) eq_refl) as [G1 G2].
      split; [reflexivity|]. split; [exact G1|]. split; [|intros n a I; apply G2, I].
      intros n x. split.
      + intros I. assert (M : In n (map fst l)).
        { rewrite G1. rewrite forallb_forall in F. specialize (F _ I). cbn in F. unfold dmem in F.
          destruct (dget str_eqb (inputs c) n) eqn:D; [|discriminate]. exact (dget_Some_key _ str_eqb_spec _ _ _ D). }
        apply in_map_iff in M as ([m a] & Em & Ia). cbn in Em. subst m. exists a. split; [|exact Ia].
        apply G2 in Ia as [Ia _]. apply (dget_NoDup _ str_eqb_spec) in I; [|exact N]. apply (dget_NoDup _ str_eqb_spec) in Ia; [|exact N]. congruence.
      + intros (a & -> & I). apply G2, I.
    - intros (l & -> & G1 & Q & F). assert (G : gather fields = Some l).
      { apply L. split; [exact G1|]. intros n a I. split; [apply Q; exists a; auto|apply F, I]. }
      rewrite first_none.
      + rewrite G. assert (FB : forallb (fun na => dmem str_eqb (inputs c) (fst na)) args = true).
        { apply forallb_forall. intros [n x] I. cbn. apply Q in I as (a & -> & I). unfold dmem.
          destruct (dget str_eqb (inputs c) n) eqn:D; [reflexivity|]. apply (dget_None _ str_eqb_spec) in D. destruct D. rewrite <- G1.
          apply in_map_iff. exists (n, a). auto. }
        rewrite FB. reflexivity.
      + intros e I. apply in_map_iff in I as ([n o] & <- & I). apply (proj1 (gather_iff fields l)) in G. clear - G I.
        induction G as [|x y xs ys [_ K] R IH]; [destruct I|]. destruct I as [->|I]; [cbn in *; subst; reflexivity|auto].
  Qed.
  Theorem inputs_given : forall k args p, named_apart (class_of k) -> NoDup (map fst args) -> create k args = Ok p ->
    map fst (producer_inputs p) = map fst (inputs (class_of k)) /\ forall n x, In (n, x) args <-> exists a, x = Some a /\ In (n, a) (producer_inputs p).
  Proof. intros k args p NA N H. apply created in H as (l & -> & H1 & H2 & _); [|exact NA|exact N]. split; [exact H1|exact H2]. Qed.
  Theorem creation_fails : forall k args e, create k args = Err e ->
    e = ValueError \/ (~ reported e /\ exists x w, can_read x w = Err e \/ can_write x w = Err e).
  Proof.
    intros k args e. unfold create. destruct (first_of _) as [e'|] eqn:F.
    - intros [= <-]. apply first_some in F. rewrite map_map in F. apply in_map_iff in F as ([n cls] & F & I). cbn in F. unfold validate_arg in F. cbn in F.
      destruct (dget str_eqb args n) as [[b|]|]; try discriminate. destruct (asub (a_class b) cls); [|discriminate].
      destruct (dget str_eqb _ n) as [v|]; [|discriminate]. destruct (compatible v b) as [u|e] eqn:K; cbn in F; [discriminate|].
      destruct (collected e) eqn:Co; [discriminate|]. injection F as ->. right.
      split; [intros R; inversion R; subst; discriminate|]. apply compatible_err in K as [->|K]; [discriminate|exact K].
    - destruct (gather _); [|intros [= <-]; auto]. destruct (forallb _ _); [discriminate|intros [= <-]; auto].
  Qed.

  (** * Outputs *)
  Context (make : A -> ty -> result T).
  Notation out := (out class_of asub type_eqb can_read can_write make).
  Notation iter := (iter class_of asub type_eqb can_read can_write make).
  Notation shaped := (@shaped A T P).
  Notation fitting := (@fitting V A T P asub type_eqb can_read can_write).
  Notation fresh := (@fresh V A T P make).
  Notation class p := (class_of (p_class p)).

  Lemma output_iff : forall p v i (a b : artifact),
    validate_output asub type_eqb can_read can_write p v i a = Ok b <-> suits v a /\ becomes p i a b.
  Proof.
    intros p v i a b. unfold validate_output. split.
    - destruct (compatible v a) as [u|] eqn:K; [|discriminate]. cbn. apply compatible_ok in K. destruct a as [c t r [o|]]; cbn; [discriminate|].
      intros [= <-]. split; [exact K|]. exists c, t, r. auto.
    - intros [K (c & t & r & -> & ->)]. apply compatible_suits in K. rewrite K. reflexivity.
  Qed.
  Lemma outputs_iff : forall p l views i bs, List.length l = List.length views ->
    (Instances_Model.validate_outputs asub type_eqb can_read can_write p views i l = Ok bs <->
     List.length bs = List.length l /\
     forall j v a b, nth_error views j = Some v -> nth_error l j = Some a -> nth_error bs j = Some b -> fitting p (i + j) v a b).
  Proof.
    induction l as [|a l IH]; intros [|v views] i bs Len; try discriminate; cbn.
    - split; [intros [= <-]; split; [reflexivity|]; intros [|j]; discriminate|]. intros [H _]. destruct bs; [reflexivity|discriminate].
    - injection Len as Len. split.
      + destruct (validate_output _ _ _ _ _ _ _ _) as [b|] eqn:O; [|discriminate]. cbn.
        destruct (Instances_Model.validate_outputs _ _ _ _ _ _ _ _) as [bs'|] eqn:R; [|discriminate]. cbn. intros [= <-].
        apply (IH views (S i) bs' Len) in R as [R1 R2]. split; [cbn; congruence|].
        intros [|j] v' a' b'; cbn.
        * intros [= <-] [= <-] [= <-]. rewrite Nat.add_0_r. apply output_iff, O.
        * intros X Y Z. replace (i + S j) with (S i + j) by lia. exact (R2 j _ _ _ X Y Z).
      + intros [H1 H2]. destruct bs as [|b bs]; [discriminate|]. pose proof (H2 0 v a b eq_refl eq_refl eq_refl) as H0. rewrite Nat.add_0_r in H0.
        apply output_iff in H0. rewrite H0. cbn. assert (R : Instances_Model.validate_outputs asub type_eqb can_read can_write p views (S i) l = Ok bs).
        { apply (IH views (S i) bs Len). split; [cbn in H1; congruence|]. intros j v' a' b' X Y Z.
          replace (S i + j) with (i + S j) by lia. exact (H2 (S j) _ _ _ X Y Z). }
        rewrite R. reflexivity.
  Qed.
  Lemma shaped_iff : forall l r, (match l with [a] => One a | _ => Several l end) = r <-> shaped l r.
  Proof.
    intros l r. unfold Instances_Spec.shaped. destruct l as [|a [|b l]]; cbn; split; intros H; subst; try (right; split; [discriminate|reflexivity]); eauto.
    - destruct H as [(b & X & _)|[_ ->]]; [discriminate|reflexivity].
    - destruct H as [(b & X & ->)|[X _]]; [injection X as ->; reflexivity|destruct X; reflexivity].
    - destruct H as [(c & X & _)|[_ ->]]; [discriminate|reflexivity].
  Qed.
  Lemma items_shaped : forall l r, shaped l r -> items r = l.
  Proof. intros l r [(b & -> & ->)|[_ ->]]; reflexivity. Qed.
  Lemma checked : forall p l r,
    (if Nat.eqb (List.length l) (List.length (outputs (class p)))
     then bind (Instances_Model.validate_outputs asub type_eqb can_read can_write p (outputs (class p)) 0 l) (fun l =>
          Ok (match l with [a] => One a | _ => Several l end))
     else Err ValueError) = Ok r <-> exists bs, each (fitting p) (outputs (class p)) l bs /\ shaped bs r.
  Proof.
    intros p l r. destruct (Nat.eqb_spec (List.length l) (List.length (outputs (class p)))) as [Len|Len].
    - split.
      + destruct (Instances_Model.validate_outputs _ _ _ _ _ _ _ _) as [bs|] eqn:O; [|discriminate]. cbn. intros H. injection H as H.
        apply outputs_iff in O as [O1 O2]; [|exact Len]. exists bs. split; [|apply shaped_iff, H].
        split; [exact Len|]. split; [congruence|]. exact O2.
      + intros (bs & (L1 & L2 & F) & S). assert (O : Instances_Model.validate_outputs asub type_eqb can_read can_write p (outputs (class p)) 0 l = Ok bs).
        { apply outputs_iff; [exact Len|]. split; [congruence|]. exact F. }
        rewrite O. cbn. f_equal. apply shaped_iff, S.
    - split; [discriminate|]. intros (bs & (L1 & _) & _). contradiction.
  Qed.
  Theorem out_given : forall p given r, given <> [] ->
    (out p given = Ok r <-> exists bs, each (fitting p) (outputs (class p)) given bs /\ shaped bs r).
  Proof. intros p [|a given] r H; [contradiction|]. unfold Instances_Model.out. cbn [bind]. apply checked. Qed.
  Lemma fresh_iff : forall views l, mapM (default_output (P := P) make) views = Ok l <-> Forall2 fresh views l.
  Proof.
    induction views as [|v views IH]; intros l; cbn.
    - split; [intros [= <-]; constructor|intros H; inversion H; reflexivity].
    - unfold default_output at 1. split.
      + destruct (make (v_artifact v) (v_type v)) as [r|] eqn:M; [|discriminate]. cbn. destruct (mapM _ views) as [l'|] eqn:R; [|discriminate].
        cbn. intros [= <-]. constructor; [exists r; auto|apply IH; reflexivity].
      + intros H. inversion H as [|x y xs ys (r & M & ->) R]. subst. rewrite M. cbn. apply IH in R. rewrite R. reflexivity.
  Qed.
  Theorem out_default : forall p r,
    out p [] = Ok r <-> exists defaults bs, Forall2 fresh (outputs (class p)) defaults /\ each (fitting p) (outputs (class p)) defaults bs /\ shaped bs r.
  Proof.
    intros p r. unfold Instances_Model.out. split.
    - destruct (mapM _ _) as [l|] eqn:M; [|discriminate]. cbn [bind]. intros H. apply checked in H as (bs & H). exists l, bs.
      split; [apply fresh_iff, M|exact H].
    - intros (l & bs & M & H). apply fresh_iff in M. rewrite M. cbn [bind]. apply checked. exists bs. exact H.
  Qed.
  Theorem iterated : forall p l,
    iter p = Ok l <-> exists defaults, Forall2 fresh (outputs (class p)) defaults /\ each (fitting p) (outputs (class p)) defaults l.
  Proof.
    intros p l. unfold Instances_Model.iter. split.
    - destruct (out p []) as [r|] eqn:O; [|discriminate]. cbn. intros H. injection H as H.
      apply out_default in O as (d & bs & F & G & S). exists d. split; [exact F|]. apply items_shaped in S.
      assert (bs = l) as <- by (rewrite <- S, <- H; destruct r; reflexivity). exact G.
    - intros (d & F & G). assert (O : out p [] = Ok (match l with [a] => One a | _ => Several l end)).
      { apply out_default. exists d, l. split; [exact F|]. split; [exact G|]. apply shaped_iff. reflexivity. }
      rewrite O. cbn. destruct l as [|a [|b l]]; reflexivity.
  Qed.
  Lemma each_left : forall X Y Z (R : nat -> X -> Y -> Z -> Prop) xs ys zs z, each R xs ys zs -> In z zs ->
    exists i x y, nth_error xs i = Some x /\ nth_error ys i = Some y /\ nth_error zs i = Some z /\ R i x y z.
  Proof.
    intros X Y Z R xs ys zs z (L1 & L2 & F) I. apply In_nth_error in I as [i I].
    assert (i < List.length zs) by (apply nth_error_Some; congruence).
    destruct (nth_error xs i) as [x|] eqn:Hx; [|apply nth_error_None in Hx; lia].
    destruct (nth_error ys i) as [y|] eqn:Hy; [|apply nth_error_None in Hy; lia].
    exists i, x, y. auto.
  Qed.
  Lemma each_middle : forall X Y Z (R : nat -> X -> Y -> Z -> Prop) xs ys zs y, each R xs ys zs -> In y ys ->
    exists i x z, nth_error xs i = Some x /\ R i x y z.
  Proof.
    intros X Y Z R xs ys zs y (L1 & L2 & F) I. apply In_nth_error in I as [i I].
    assert (i < List.length ys) by (apply nth_error_Some; congruence).
    destruct (nth_error xs i) as [x|] eqn:Hx; [|apply nth_error_None in Hx; lia].
    destruct (nth_error zs i) as [z|] eqn:Hz; [|apply nth_error_None in Hz; lia].
    exists i, x, z. auto.
  Qed.
  Lemma out_items : forall p l r b, out p l = Ok r -> In b (items r) ->
    exists i v c t rest, nth_error (outputs (class p)) i = Some v /\ suits v (Art c t rest None) /\ b = Art c t rest (Some (p, i)).
  Proof.
    intros p l r b O I. assert (Q : exists given bs, each (fitting p) (outputs (class p)) given bs /\ shaped bs r).
    { destruct l as [|a l]; [apply out_default in O as (d & bs & _ & H); eauto|apply out_given in O as (bs & H); [eauto|discriminate]]. }
    destruct Q as (given & bs & G & S). apply items_shaped in S. rewrite S in I.
    destruct (each_left _ _ _ _ _ _ _ _ G I) as (i & v & a & Hv & _ & _ & K & (c & t & rest & -> & ->)). exists i, v, c, t, rest. auto.
  Qed.
  Theorem used_once : forall p l r b q given, out p l = Ok r -> In b (items r) -> In b given -> exists e, out q given = Err e.
  Proof.
    intros p l r b q given O I J. destruct (out q given) as [r'|e] eqn:O'; [|eauto]. exfalso.
    apply out_given in O' as (bs & G & _); [|intros ->; destruct J].
    destruct (out_items _ _ _ _ O I) as (i & v & c & t & rest & _ & _ & ->).
    destruct (each_middle _ _ _ _ _ _ _ _ G J) as (j & w & z & _ & _ & (c' & t' & r2 & X & _)). discriminate.
  Qed.
  Theorem out_fails : forall p l e, out p l = Err e ->
    e = ValueError \/ (exists x w, can_read x w = Err e \/ can_write x w = Err e) \/ (l = [] /\ exists a t, make a t = Err e).
  Proof.
    assert (Q : forall (p : producer) l views i e, Instances_Model.validate_outputs asub type_eqb can_read can_write p views i l = Err e ->
      e = ValueError \/ exists x w, can_read x w = Err e \/ can_write x w = Err e).
    { intros p. induction l as [|a l IH]; intros [|v views] i e; cbn; try discriminate. unfold validate_output.
      destruct (compatible v a) as [u|e'] eqn:K; cbn; [|intros [= <-]; exact (compatible_err _ _ _ K)].
      destruct (a_output a); cbn; [intros [= <-]; auto|]. destruct (Instances_Model.validate_outputs _ _ _ _ _ _ _ _) eqn:R; cbn; [discriminate|].
      intros [= <-]. exact (IH _ _ _ R). }
    intros p l e. unfold Instances_Model.out. set (views := outputs (class p)). clearbody views.
    destruct (match l with [] => mapM (default_output make) views | _ => Ok l end) as [l'|e'] eqn:M; cbn.
    - destruct (Nat.eqb _ _); [|intros [= <-]; auto]. destruct (Instances_Model.validate_outputs _ _ _ _ _ _ _ _) eqn:R; cbn; [discriminate|].
      intros [= <-]. apply Q in R. tauto.
    - intros [= <-]. destruct l; [|discriminate]. right. right. split; [reflexivity|]. clear - M.
      induction views as [|v views IH]; cbn in M; [discriminate|]. unfold default_output at 1 in M.
      destruct (make (v_artifact v) (v_type v)) as [r|] eqn:K; cbn in M; [|injection M as <-; eauto].
      destruct (mapM _ views); cbn in M; [discriminate|]. injection M as <-. apply IH. reflexivity.
  Qed.

  (** * Everything made is sound *)
  Context (resolve_storage : bool -> T -> result T).
  Context (NA : forall k, named_apart (class_of k)).
  Context (K : forall b r r', resolve_storage b r = Ok r' -> forall t w, can_read (t, r') w = can_read (t, r) w /\ can_write (t, r') w = can_write (t, r) w).
  Notation made := (made class_of asub type_eqb can_read can_write make resolve_storage).
  Notation made_producer := (made_producer class_of asub type_eqb can_read can_write make resolve_storage).
  Notation sound := (sound class_of asub type_eqb can_read can_write).
  Notation sound_producer := (sound_producer class_of asub type_eqb can_read can_write).
  Scheme made_mind := Induction for Instances_Spec.made Sort Prop
  with made_producer_mind := Induction for Instances_Spec.made_producer Sort Prop.

  Lemma created_sound : forall k args p, (forall n a, In (n, Some a) args -> sound a) -> create k args = Ok p -> sound_producer p.
  Proof.
    intros k args p S H. unfold Instances_Model.create in H. destruct (first_of _) eqn:Ff; [discriminate|].
    destruct (gather _) as [l|] eqn:G; [|discriminate]. destruct (forallb _ _); [|discriminate]. injection H as <-.
    apply (proj1 (gather_iff _ _)) in G.
    assert (Q : forall ins, (forall x, In x ins -> In x (inputs (class_of k))) -> forall l,
      Forall2 (fun f na => fst f = fst na /\ snd f = Valid (snd na)) (map (fun f => (fst f, arg (class_of k) args f)) ins) l ->
      map fst l = map fst ins /\ forall n a, In (n, a) l -> takes_input (class_of k) n a /\ sound a).
    { induction ins as [|[n cls] ins IH]; intros I l' F; inversion F as [|x y xs ys [K1 K2] R]; subst; [split; [reflexivity|intros ? ? []]|].
      destruct y as [n' a]. cbn in K1, K2. subst n'. destruct (IH (fun x J => I x (or_intror J)) _ R) as [R1 R2]. split; [cbn; congruence|].
      intros m b [[= <- <-]|J]; [|apply R2, J]. unfold validate_arg in K2. cbn in K2.
      destruct (dget str_eqb args n) as [[b|]|] eqn:D; try discriminate. apply (dget_In _ str_eqb_spec) in D.
      destruct (asub (a_class b) cls) eqn:Sb; [|discriminate]. destruct (NA k) as [_ Nb].
      destruct (dget str_eqb (build_inputs (class_of k)) n) as [v|] eqn:B.
      - destruct (compatible v b) as [u|e] eqn:Kc; cbn in K2; [|destruct (collected e); discriminate]. injection K2 as ->.
        split; [|apply (S n), D]. exists cls. split; [apply I; left; reflexivity|]. split; [destruct a; exact Sb|].
        intros w W. apply (dget_NoDup _ str_eqb_spec) in W; [|exact Nb]. rewrite W in B. injection B as ->. exact (compatible_ok _ _ _ Kc).
      - injection K2 as ->. split; [|apply (S n), D]. exists cls. split; [apply I; left; reflexivity|]. split; [destruct a; exact Sb|].
        intros w W. apply (dget_NoDup _ str_eqb_spec) in W; [|exact Nb]. rewrite W in B. discriminate. }
    destruct (Q _ (fun x J => J) _ G) as [G1 G2]. constructor; [exact G1|exact G2].
  Qed.
  Lemma out_sound : forall p l r a, sound_producer p -> out p l = Ok r -> In a (items r) -> sound a.
  Proof.
    intros p l r a S O I. destruct (out_items _ _ _ _ O I) as (i & v & c & t & rest & Hv & Su & ->).
    apply sound_output with v; [exact S|destruct p; exact Hv|exact Su].
  Qed.
  Lemma iter_out : forall p l, iter p = Ok l -> exists r, out p [] = Ok r /\ items r = l.
  Proof.
    intros p l. unfold Instances_Model.iter. destruct (out p []) as [r|]; [|discriminate]. cbn. intros [= <-]. exists r. split; [reflexivity|]. destruct r; reflexivity.
  Qed.
  Lemma assign_sound : forall a b, sound a -> assign resolve_storage a = Ok b -> sound b.
  Proof.
    intros a b S H. unfold assign in H. destruct a as [c t r o]. cbn in H.
    destruct (resolve_storage _ r) as [r'|] eqn:R; [|discriminate]. cbn in H. injection H as <-.
    inversion S as [|? ? ? p i v Sp Hv Su]; subst; [constructor|]. apply sound_output with v; [exact Sp|exact Hv|].
    destruct Su as (S1 & S2 & S3 & S4). split; [exact S1|]. split; [exact S2|]. specialize (K _ _ _ R t (v_class v)) as [Kr Kw].
    rewrite Kr, Kw. auto.
  Qed.
  Theorem all_sound : forall a, made a -> sound a.
  Proof.
    refine (made_mind _ _ _ _ class_of asub type_eqb can_read can_write make resolve_storage (fun a _ => sound a) (fun p _ => sound_producer p) _ _ _ _ _).
    - intros. constructor.
    - intros p l r a _ Sp _ _ O I. exact (out_sound _ _ _ _ Sp O I).
    - intros p l a _ Sp H I. apply iter_out in H as (r & O & <-). exact (out_sound _ _ _ _ Sp O I).
    - intros a b _ S H. exact (assign_sound _ _ S H).
    - intros k args p _ S H. exact (created_sound _ _ _ S H).
  Qed.
  Theorem all_sound_producers : forall p, made_producer p -> sound_producer p.
  Proof. intros p [k args q M H]. refine (created_sound _ _ _ _ H). intros n a I. exact (all_sound _ (M n a I)). Qed.
  Lemma behind_sound : forall p a, behind p a -> sound a -> sound_producer p.
  Proof.
    intros p a B. induction B as [c t r p i|c t r k args i n a p I B IH]; intros S.
    - inversion S; subst; assumption.
    - apply IH. inversion S as [|? ? ? ? ? v Sp]; subst. inversion Sp as [? ? _ Q]; subst. apply (Q n), I.
  Qed.
  Lemma reached_sound : forall b a, reached b a -> sound a -> sound b.
  Proof.
    intros b a [->|(k & args & n & B & I)] S; [exact S|]. apply behind_sound in B; [|exact S]. inversion B as [? ? _ Q]; subst. apply (Q n), I.
  Qed.
  (** What one producer writes is what another one reads. *)
  Theorem ends_agree : (forall s t, type_eqb s t = true -> type_eqb t s = true) ->
    (forall s t u, type_eqb s t = true -> type_eqb t u = true -> type_eqb s u = true) -> forall a k args n b v, made a -> behind (Prod k args) a -> In (n, b) args -> In (n, v) (build_inputs (class_of k)) ->
    suits v b /\ forall c t r k' args' i, b = Art c t r (Some (Prod k' args', i)) ->
      exists w, nth_error (outputs (class_of k')) i = Some w /\ suits w b /\ type_eqb (v_type v) (v_type w) = true.
  Proof.
    intros Sy Tr a k args n b v M B I Iv. apply behind_sound in B; [|apply all_sound, M]. inversion B as [? ? _ Q]; subst.
    destruct (Q _ _ I) as [(cls & _ & _ & F) S]. specialize (F v Iv). split; [exact F|]. intros c t r k' args' i ->.
    inversion S as [|? ? ? ? ? w Sp Hw Sw]; subst. exists w. split; [exact Hw|]. split; [exact Sw|].
    destruct F as (_ & F & _), Sw as (_ & Sw & _). exact (Tr _ _ _ F (Sy _ _ Sw)).
  Qed.
End Instances.

(** * Classes *)
Section Classes.
  Context {V A : Type} (from_annotation : annotation V A -> mode -> result (view V A)) (aeqb : A -> A -> bool) (same : phint -> phint -> bool).
  Context (Mode : forall ann m v, from_annotation ann m = Ok v -> v_mode v = m).
  Lemma mapM_all_ok : forall {X Y} (f : X -> result Y) (Q : X -> Y -> Prop) l ys, (forall x y, In x l -> f x = Ok y -> Q x y) -> mapM f l = Ok ys -> Forall2 Q l ys.
  Proof.
    intros X Y f Q. induction l as [|x l IH]; intros ys F H; cbn in H; [injection H as <-; constructor|].
    destruct (f x) as [y|] eqn:Fx; [|discriminate]. cbn in H. destruct (mapM f l) as [ys'|] eqn:M; [|discriminate]. injection H as <-.
    constructor; [apply F; [left; reflexivity|exact Fx]|]. apply IH; [intros a b I; apply F; right; exact I|reflexivity].
  Qed.
  Theorem class_made : forall d c, NoDup (map fst (d_fields d)) -> (forall m, d_build d = Some m -> NoDup (map par_name (m_params m))) ->
    define from_annotation aeqb same d = Ok c ->
    named_apart c /\ (forall n v, In (n, v) (build_inputs c) -> v_mode v = READ) /\ (forall v, In v (outputs c) -> v_mode v = WRITE) /\ outputs c <> [].
  Proof.
    intros d c N Np H. unfold define in H. destruct (validate_fields (d_fields d)) as [ins|] eqn:F; [|discriminate]. cbn [bind] in H.
    assert (Ni := NoDup_filter_fields _ _ N F). destruct (validate_build _ _ ins (d_build d)) as [[[[ps bins] outs] hints]|] eqn:B; [|discriminate]. cbn [bind] in H.
    destruct (validate_validate _ _ _) as [u|]; [|discriminate]. cbn [bind] in H. destruct (validate_map _ _ _ _) as [[m mins]|]; [|discriminate]. cbn [bind] in H.
    destruct (forallb _ ins); [|discriminate]. injection H as <-. cbn.
    unfold validate_build in B. destruct (d_build d) as [bm|]; [|discriminate]. specialize (Np bm eq_refl).
    destruct (m_static bm); [|discriminate]. cbn [negb] in B.
    destruct (validate_parameters _ _ _) as [bins'|] eqn:VP; [|discriminate]. cbn [bind] in B. destruct (m_return bm) as [rh|]; [|discriminate].
    destruct (is_none_only _); [discriminate|]. destruct (mapM (fun ann => from_annotation ann WRITE) _) as [outs'|] eqn:Mo; [|discriminate]. cbn [bind] in B.
    destruct (mapM _ outs') as [keys|] eqn:Mk; [|discriminate]. cbn [bind] in B. destruct (same_scheme keys) eqn:SS; [|discriminate]. injection B as <- <- <- <-.
    unfold validate_parameters in VP. destruct (forallb _ _); [|discriminate].
    apply (mapM_all_ok _ (fun p nv => par_name p = fst nv /\ v_mode (snd nv) = READ)) in VP.
    - assert (Fst : map fst bins' = map par_name (without_owner (m_params bm))).
      { clear - VP. induction VP as [|x y xs ys [X _] R IH]; [reflexivity|]. cbn. congruence. }
      split; [split; [exact Ni|]|split; [|split]].
      + cbn. rewrite Fst. clear - Np. unfold without_owner. induction (m_params bm) as [|p l IH]; cbn; [constructor|]. cbn in Np. inversion Np as [|? ? Hn Hr]; subst.
        destruct (negb _); [|auto]. cbn. constructor; [|auto]. intros I. apply Hn. apply in_map_iff in I as (q & Eq & I). apply filter_In in I as [I _].
        apply in_map_iff. exists q. auto.
      + intros n v I. clear - VP I. induction VP as [|x y xs ys [_ X] R IH]; [destruct I|]. destruct I as [->|I]; [exact X|auto].
      + intros v I. apply (mapM_all_ok _ (fun _ v => v_mode v = WRITE)) in Mo; [|intros ann w _ W; exact (Mode _ _ _ W)].
        clear - Mo I. induction Mo as [|x y xs ys X R IH]; [destruct I|]. destruct I as [->|I]; [exact X|auto].
      + intros ->. cbn in Mk. injection Mk as <-. discriminate.
    - intros p nv _ V0. unfold validate_parameter in V0. destruct (par_hint p) as [h|]; [|discriminate]. destruct (par_default p); [discriminate|].
      destruct (negb _); [discriminate|]. unfold validate_build_param in V0. destruct (dget _ _ _) as [a|]; [|discriminate].
      destruct (item_of _ _) as [found|]; [|discriminate]. cbn [bind] in V0. destruct (from_annotation _ READ) as [v|] eqn:FA; [|discriminate]. cbn [bind] in V0.
      destruct (aeqb _ _); [|discriminate]. injection V0 as <-. cbn. split; [reflexivity|exact (Mode _ _ _ FA)].
  Qed.
End Classes.

(** * Handlers *)
Section Handled.
  Context {C H A T P : Type} (issub : C -> C -> bool) (list_class tuple_class : C) (abstract : H -> bool) (readers writers : table C H) (python_type : C -> C)
    (classes_of : ty * T -> classes C).
  Context (class_of : P -> producer_class C A) (asub : A -> A -> bool) (type_eqb : ty -> ty -> bool) (make : A -> ty -> result T) (resolve_storage : bool -> T -> result T).
  Notation read := (fun x => Handlers_Model.can_read issub list_class abstract readers (classes_of x)).
  Notation write := (fun x => Handlers_Model.can_write issub abstract writers python_type (classes_of x)).
  Theorem handled : (forall k, named_apart (class_of k)) ->
    (forall b r r', resolve_storage b r = Ok r' -> forall t, classes_of (t, r') = classes_of (t, r)) ->
    sequences issub list_class tuple_class readers -> any_data writers ->
    forall a k args, made class_of asub type_eqb read write make resolve_storage a -> behind (Prod k args) a ->
    (forall n c t r o v, In (n, Art c t r o) args -> In (n, v) (build_inputs (class_of k)) -> v_mode v = READ ->
       exists h, call issub abstract readers (called_read tuple_class (classes_of (t, r)) (v_class v)) = Ok h) /\
    (forall c t r i v, reached (Art c t r (Some (Prod k args, i))) a -> nth_error (outputs (class_of k)) i = Some v -> v_mode v = WRITE ->
       forall data, exists h, call issub abstract writers (called_write data (classes_of (t, r)) (v_class v)) = Ok h).
  Proof.
    intros N K Q D a k args M B.
    assert (K' : forall b r r', resolve_storage b r = Ok r' -> forall t w,
      Handlers_Model.can_read issub list_class abstract readers (classes_of (t, r')) w = Handlers_Model.can_read issub list_class abstract readers (classes_of (t, r)) w /\
      Handlers_Model.can_write issub abstract writers python_type (classes_of (t, r')) w = Handlers_Model.can_write issub abstract writers python_type (classes_of (t, r)) w)
      by (intros b r r' R t w; rewrite (K _ _ _ R t); auto).
    assert (Acc : forall v c t r, Instances_Spec.suits (P := P) asub type_eqb read write v (Art c t r None) ->
      check_artifact asub type_eqb (Handlers_Model.can_read issub list_class abstract readers) (Handlers_Model.can_write issub abstract writers python_type) v c t (classes_of (t, r)) = Ok tt).
    { intros v c t r (S1 & S2 & S3 & S4). apply artifact_spec. split; [exact S1|]. split; [exact S2|]. split; assumption. }
    split.
    - intros n c t r o v I Iv Mv.
      assert (Sp := behind_sound class_of asub type_eqb read write _ _ B (all_sound class_of asub type_eqb read write make resolve_storage N K' _ M)).
      inversion Sp as [? ? _ Sn]; subst. destruct (Sn _ _ I) as [(cls & _ & _ & F) _]. specialize (F v Iv) as S.
      destruct (accepted issub list_class tuple_class abstract A asub type_eqb readers writers python_type v c t (classes_of (t, r)) Q D (Acc v c t r S)) as [R _].
      apply R. rewrite Mv. discriminate.
    - intros c t r i v R Iv Mv data.
      assert (S := reached_sound class_of asub type_eqb read write _ _ R (all_sound class_of asub type_eqb read write make resolve_storage N K' _ M)).
      inversion S as [|? ? ? ? ? w Sp Hw Su]; subst. cbn in Hw. rewrite Iv in Hw. injection Hw as ->.
      destruct (accepted issub list_class tuple_class abstract A asub type_eqb readers writers python_type w c t (classes_of (t, r)) Q D (Acc w c t r Su)) as [_ W].
      apply W. rewrite Mv. discriminate.
  Qed.
  (** ... for classes that were accepted. *)
  Theorem handled_classes : forall (from_annotation : annotation C A -> mode -> result (view C A)) aeqb same,
    (forall ann m v, from_annotation ann m = Ok v -> v_mode v = m) ->
    (forall k, exists d, NoDup (map fst (d_fields d)) /\ (forall m, d_build d = Some m -> NoDup (map par_name (m_params m))) /\
       define from_annotation aeqb same d = Ok (class_of k)) ->
    (forall b r r', resolve_storage b r = Ok r' -> forall t, classes_of (t, r') = classes_of (t, r)) ->
    sequences issub list_class tuple_class readers -> any_data writers ->
    forall a k args, made class_of asub type_eqb read write make resolve_storage a -> behind (Prod k args) a ->
    (forall n c t r o v, In (n, Art c t r o) args -> In (n, v) (build_inputs (class_of k)) ->
       exists h, call issub abstract readers (called_read tuple_class (classes_of (t, r)) (v_class v)) = Ok h) /\
    (forall c t r i, reached (Art c t r (Some (Prod k args, i))) a -> exists v, nth_error (outputs (class_of k)) i = Some v /\
       forall data, exists h, call issub abstract writers (called_write data (classes_of (t, r)) (v_class v)) = Ok h).
  Proof.
    intros from_annotation aeqb same Mode D K Q Dw a k args M B.
    assert (X : forall k, named_apart (class_of k) /\ (forall n v, In (n, v) (build_inputs (class_of k)) -> v_mode v = READ) /\
                (forall v, In v (outputs (class_of k)) -> v_mode v = WRITE) /\ outputs (class_of k) <> []).
    { intros k'. destruct (D k') as (d & N & Np & Hd). exact (class_made _ _ _ Mode d _ N Np Hd). }
    destruct (handled (fun k => proj1 (X k)) K Q Dw a k args M B) as [R W]. destruct (X k) as (_ & Xr & Xw & _). split.
    - intros n c t r o v I Iv. exact (R n c t r o v I Iv (Xr _ _ Iv)).
    - intros c t r i Re.
      assert (K' : forall b r r', resolve_storage b r = Ok r' -> forall t w,
        Handlers_Model.can_read issub list_class abstract readers (classes_of (t, r')) w = Handlers_Model.can_read issub list_class abstract readers (classes_of (t, r)) w /\
        Handlers_Model.can_write issub abstract writers python_type (classes_of (t, r')) w = Handlers_Model.can_write issub abstract writers python_type (classes_of (t, r)) w)
        by (intros b x x' Rx u w; rewrite (K _ _ _ Rx u); auto).
      assert (S := reached_sound class_of asub type_eqb read write _ _ Re
        (all_sound class_of asub type_eqb read write make resolve_storage (fun k => proj1 (X k)) K' _ M)).
      inversion S as [|? ? ? ? ? v Sp Hv Su]; subst. cbn in Hv. exists v. split; [exact Hv|].
      exact (W c t r i v Re Hv (Xw v (nth_error_In _ _ Hv))).
  Qed.
End Handled.

(** The views of annotations have the mode asked for. *)
Lemma view_mode : forall (V A : Type) vsub view_artifact artifact_type to_system infer type_eqb same cls reg (ann : annotation V A) m v,
  Views_Model.from_annotation vsub view_artifact artifact_type to_system infer type_eqb same cls reg ann m = Ok v -> v_mode v = m.
Proof.
  intros V A vsub view_artifact artifact_type to_system infer type_eqb same cls reg ann m v H. unfold Views_Model.from_annotation in H.
  destruct (get_class_for _ _ _ _) as [c|]; [|discriminate]. cbn [bind] in H. destruct (kwargs_of _ _ _ _ _) as [at_|]; [|discriminate]. cbn [bind] in H.
  unfold new_view in H. destruct (match artifact_type (fst at_) with Some _ => _ | None => _ end); [|discriminate]. cbn [bind] in H.
  destruct (check_annotation _ _ _ _); [|discriminate]. injection H as <-. reflexivity.
Qed.

(** Artifacts made of a type only. *)
Lemma made_of_type : forall F S N M A P V (format_visit : F -> ty -> result F) (storage_visit_type : S -> ty -> result S)
    (storage_visit_format : S -> F -> result S) f0 s0 (bodies : A -> list (body ty F S N M)) (v : view V A) a,
  fresh (P := P) (fun a t => construct format_visit storage_visit_type storage_visit_format f0 s0 (bodies a) (only_type t)) v a <->
  exists i, Artifacts_Spec.made format_visit storage_visit_type storage_visit_format f0 s0 (bodies (v_artifact v)) (only_type (v_type v)) i /\
    i_type i = v_type v /\ a = Art (v_artifact v) (v_type v) i None.
Proof.
  intros F S N M A P V fv st sf f0 s0 bodies v a. unfold fresh. split.
  - intros (i & H & ->). apply Artifacts_Proofs.created in H. exists i. split; [exact H|]. split; [|reflexivity].
    destruct H as (_ & (d & _ & [[X|[X _]] _]) & _); [injection X as ->; reflexivity|discriminate].
  - intros (i & H & _ & ->). exists i. split; [apply Artifacts_Proofs.created, H|reflexivity].
Qed.

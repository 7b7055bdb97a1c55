(** Proofs for C66. *)
From Coq Require Import ZArith List Ascii String Bool Lia Permutation.
From Verif Require Import Base Str Str_Proofs Hints_Model Dispatch_Model Views_Model IO_Model Handlers_Model Handlers_Spec.
Import ListNotations.
Open Scope list_scope.

Section Handlers.
  Context {C : Type} (issub : C -> C -> bool).
  Notation hint := (hint C).
  Notation fits := (fits issub). Notation handles := (handles issub). Notation below := (below issub).
  Notation accepts := (accepts issub).

  Lemma below_fits : forall a h, below a h = true <-> fits a h.
  Proof.
    intros a h. split.
    - intros B. destruct h; try (constructor; fail); destruct a as [| | |?|? [|[] []]| | | | | |]; cbn in B; try discriminate; try (constructor; exact B).
      destruct args as [|[] []]; try discriminate. apply andb_true_iff in B. constructor; tauto.
    - destruct 1; cbn; try assumption; try reflexivity.
      + destruct a; try reflexivity. destruct args as [|[] []]; reflexivity.
      + destruct l as [|[] []]; assumption.
      + rewrite H, H0. reflexivity.
  Qed.
  Lemma accepts_handles : forall key args, accepts key args = true <-> handles key args.
  Proof.
    unfold Handlers_Spec.handles. induction key as [|h key IH]; intros [|a args]; cbn; split; intros X; try discriminate; try (inversion X; fail); try constructor.
    - apply below_fits. apply andb_true_iff in X. tauto.
    - apply IH. apply andb_true_iff in X. tauto.
    - inversion X; subst. apply andb_true_iff. split; [apply below_fits; assumption|apply IH; assumption].
  Qed.

  Context (O : ordered issub).
  Lemma fits_refl : forall h, simple h -> fits h h.
  Proof. destruct O as [R T]. destruct 1; constructor; apply R. Qed.
  Lemma handles_refl : forall key, Forall simple key -> handles key key.
  Proof. unfold Handlers_Spec.handles. induction 1; constructor; [apply fits_refl; assumption|assumption]. Qed.
  Lemma fits_trans : forall a b c, fits a b -> fits b c -> fits a c.
  Proof.
    destruct O as [R T]. intros a b c F G. destruct F; inversion G; subst; try (constructor; eauto; fail).
  Qed.
  Lemma handles_trans : forall c b a, handles b a -> handles c b -> handles c a.
  Proof.
    unfold Handlers_Spec.handles. induction c as [|x c IH]; intros b a F G.
    - inversion G; subst. inversion F; subst. constructor.
    - inversion G; subst. inversion F; subst. constructor; [eapply fits_trans; eassumption|eapply IH; eassumption].
  Qed.

  Section Table.
  Context {H : Type}.
  Notation table := (table C H).
  Definition above (t : table) (k : list hint * H) : nat := List.length (filter (fun kh' => refines_strictly issub (fst kh') (fst k)) t).
  Lemma strictly_spec : forall a b, refines_strictly issub a b = true <-> handles b a /\ ~ handles a b.
  Proof.
    intros a b. unfold refines_strictly. rewrite andb_true_iff, negb_true_iff, accepts_handles.
    split; intros [X Y]; split; try exact X.
    - intros Z. apply accepts_handles in Z. congruence.
    - destruct (accepts a b) eqn:E; [|reflexivity]. apply accepts_handles in E. contradiction.
  Qed.
  Lemma filter_le : forall A (f g : A -> bool) l, (forall x, f x = true -> g x = true) -> List.length (filter f l) <= List.length (filter g l).
  Proof.
    intros A f g l I. induction l as [|x l IH]; [constructor|]. cbn. destruct (f x) eqn:F.
    - rewrite (I x F). cbn. lia.
    - destruct (g x); cbn; lia.
  Qed.
  Lemma filter_lt : forall A (f g : A -> bool) l y, (forall x, f x = true -> g x = true) -> In y l -> f y = false -> g y = true ->
    List.length (filter f l) < List.length (filter g l).
  Proof.
    intros A f g l y I M F G. induction l as [|x l IH]; [contradiction|]. destruct M as [->|M].
    - cbn. rewrite F, G. cbn. pose proof (filter_le A f g l I). lia.
    - cbn. specialize (IH M). destruct (f x) eqn:E; [rewrite (I x E); cbn; lia|destruct (g x); cbn; lia].
  Qed.
  Lemma strictly_trans : forall a b c, refines_strictly issub a b = true -> refines_strictly issub b c = true -> refines_strictly issub a c = true.
  Proof.
    intros a b c X Y. apply strictly_spec in X, Y. apply strictly_spec. destruct X as [X1 X2], Y as [Y1 Y2].
    split; [eapply handles_trans; eassumption|]. intros Z. apply X2. eapply handles_trans; eassumption.
  Qed.
  (** Below every handler there is a most specific one. *)
  Lemma has_specific : forall (t : table), (forall x, In x t -> Forall simple (fst x)) -> forall n x, above t x < n -> In x t ->
    exists y, In y (most_specific issub t) /\ handles (fst x) (fst y).
  Proof.
    intros t S n. induction n as [|n IH]; intros x L I; [lia|].
    destruct (existsb (fun kh' => refines_strictly issub (fst kh') (fst x)) t) eqn:E.
    - apply existsb_exists in E. destruct E as (y & Y & R). pose proof R as R0. apply strictly_spec in R0. destruct R0 as [R1 R2].
      assert (LT : above t y < above t x).
      { apply filter_lt with (y := y); [|exact Y| |exact R].
        - intros z Z. exact (strictly_trans _ _ _ Z R).
        - unfold refines_strictly. destruct (accepts (fst y) (fst y)); reflexivity. }
      destruct (IH y ltac:(lia) Y) as (z & Z & HZ). exists z. split; [exact Z|]. eapply handles_trans; eassumption.
    - exists x. split; [|apply handles_refl; apply S; exact I]. apply filter_In. split; [exact I|]. rewrite E. reflexivity.
  Qed.
  Lemma specific_in : forall (t : table) x, In x (most_specific issub t) <-> In x t /\ forall y, In y t -> handles (fst x) (fst y) -> handles (fst y) (fst x).
  Proof.
    intros t x. unfold most_specific. rewrite filter_In, negb_true_iff. split; intros [I E]; split; try exact I.
    - intros y Y F. destruct (accepts (fst y) (fst x)) eqn:A; [apply accepts_handles; exact A|].
      enough (existsb (fun kh' => refines_strictly issub (fst kh') (fst x)) t = true) by congruence.
      apply existsb_exists. exists y. split; [exact Y|]. unfold refines_strictly. rewrite A. apply accepts_handles in F. rewrite F. reflexivity.
    - destruct (existsb _ t) eqn:X; [|reflexivity]. apply existsb_exists in X. destruct X as (y & Y & R). apply strictly_spec in R. destruct R as [R1 R2].
      exfalso. apply R2. apply E; assumption.
  Qed.
  Lemma nodup_filter_fst : forall A B (f : A * B -> bool) l, NoDup (map fst l) -> NoDup (map fst (filter f l)).
  Proof.
    intros A B f l N. induction l as [|x l IH]; [constructor|]. cbn in *. inversion N; subst. destruct (f x); [|auto].
    cbn. constructor; [|auto]. intros I. apply H2. apply in_map_iff in I. destruct I as (y & <- & Y). apply filter_In in Y. apply in_map. tauto.
  Qed.

  Theorem resolve_chosen : forall (t : table) args h, separate issub t -> (resolve issub t args = Ok h <-> chosen issub t args h).
  Proof.
    intros t args h (S & N & A). unfold resolve. remember (applicable issub t args) as l eqn:L.
    assert (SL : forall x, In x l -> Forall simple (fst x)).
    { intros [k h'] I. subst l. apply filter_In in I. exact (S k h' (proj1 I)). }
    assert (IL : forall x, In x l <-> In x t /\ handles (fst x) args).
    { intros x. subst l. unfold applicable. rewrite filter_In, accepts_handles. reflexivity. }
    assert (ND : NoDup (map fst (most_specific issub l))).
    { unfold most_specific. apply nodup_filter_fst. subst l. apply nodup_filter_fst. exact N. }
    split.
    - destruct (most_specific issub l) as [|[k h0] [|]] eqn:M; try discriminate. intros E. injection E as ->.
      assert (K : In (k, h) (most_specific issub l)) by (rewrite M; left; reflexivity).
      apply specific_in in K. destruct K as [K1 K2]. exists k. apply IL in K1. split; [apply K1|split; [apply K1|]].
      intros key' h' I' H'. destruct (has_specific l SL (Datatypes.S (above l (key', h'))) (key', h')) as (y & Y & HY).
      + lia.
      + apply IL. split; assumption.
      + rewrite M in Y. destruct Y as [<-|[]]. exact HY.
    - intros (k & I & HK & LEAST).
      assert (X : forall y, In y (most_specific issub l) -> y = (k, h)).
      { intros [k' h'] Y. apply specific_in in Y. destruct Y as [Y1 Y2]. apply IL in Y1. cbn [fst] in *.
        pose proof (LEAST k' h' (proj1 Y1) (proj2 Y1)) as G. pose proof (Y2 (k, h) (proj2 (IL (k, h)) (conj I HK)) G) as G'.
        pose proof (A k h k' h' I (proj1 Y1) G' G). subst k'.
        f_equal. clear - N I Y1. destruct Y1 as [J _]. induction t as [|[a b] t IH]; [contradiction|]. cbn in N. inversion N; subst.
        destruct I as [E|I], J as [F|J].
        - congruence.
        - injection E as -> ->. exfalso. apply H2. apply (in_map fst) in J. exact J.
        - injection F as -> ->. exfalso. apply H2. apply (in_map fst) in I. exact I.
        - auto. }
      destruct (has_specific l SL (Datatypes.S (above l (k, h))) (k, h)) as (y & Y & _); [lia|apply IL; split; assumption|].
      destruct (most_specific issub l) as [|[k1 h1] [|[k2 h2] m]]; [contradiction| |].
      + pose proof (X (k1, h1) (or_introl eq_refl)) as E. congruence.
      + pose proof (X (k1, h1) (or_introl eq_refl)) as E. pose proof (X (k2, h2) (or_intror (or_introl eq_refl))) as F.
        exfalso. injection E as -> ->. injection F as -> ->. cbn in ND. inversion ND; subst. apply H2. left. reflexivity.
  Qed.
  Lemma resolve_error : forall (t : table) args e, resolve issub t args = Err e -> e = TypeError.
  Proof. intros t args e. unfold resolve. destruct (most_specific _ _) as [|[] []]; congruence. Qed.
  Theorem resolve_none : forall (t : table) args, separate issub t ->
    (resolve issub t args = Err TypeError <-> forall h, ~ chosen issub t args h).
  Proof.
    intros t args S. split.
    - intros E h X. apply (resolve_chosen t args h S) in X. congruence.
    - intros N. destruct (resolve issub t args) as [h|e] eqn:E; [|f_equal; exact (resolve_error _ _ _ E)].
      exfalso. apply (N h). apply resolve_chosen; assumption.
  Qed.
  Lemma chosen_ext : forall (t t' : table), (forall x, In x t <-> In x t') -> forall args h, chosen issub t args h -> chosen issub t' args h.
  Proof.
    intros t t' E args h (k & I & A & L). exists k. split; [apply E; exact I|split; [exact A|]]. intros k' h' I'. apply (L k' h'). apply E. exact I'.
  Qed.
  Lemma separate_perm : forall (t t' : table), Permutation t t' -> separate issub t -> separate issub t'.
  Proof.
    intros t t' P (S & N & A). assert (E : forall x, In x t' -> In x t) by (intros x; apply Permutation_in; symmetry; exact P).
    split; [|split].
    - intros k h I. exact (S k h (E _ I)).
    - eapply Permutation_NoDup; [|exact N]. apply Permutation_map. exact P.
    - intros k h k' h' I I'. exact (A k h k' h' (E _ I) (E _ I')).
  Qed.
  Theorem resolve_perm : forall (t t' : table) args, separate issub t -> Permutation t t' -> resolve issub t args = resolve issub t' args.
  Proof.
    intros t t' args S P. pose proof (separate_perm _ _ P S) as S'.
    assert (E : forall x, In x t <-> In x t') by (intros x; split; apply Permutation_in; [exact P|symmetry; exact P]).
    destruct (resolve issub t args) as [h|e] eqn:R.
    - symmetry. apply (resolve_chosen t' args h S'). apply (chosen_ext t t' E). apply (resolve_chosen t args h S). exact R.
    - pose proof (resolve_error _ _ _ R). subst e. symmetry. apply (resolve_none t' args S'). intros h X.
      apply (chosen_ext t' t) in X; [|intros x; symmetry; apply E]. apply (resolve_chosen t args h S) in X. congruence.
  Qed.
  Theorem resolve_added : forall (t more : table) args, (forall k h, In (k, h) more -> ~ handles k args) ->
    resolve issub (t ++ more) args = resolve issub t args.
  Proof.
    intros t more args N. unfold resolve. replace (applicable issub (t ++ more) args) with (applicable issub t args); [reflexivity|].
    unfold applicable. rewrite filter_app. replace (filter _ more) with (@nil (list hint * H)); [symmetry; apply app_nil_r|].
    symmetry. induction more as [|[k h] more IH]; [reflexivity|]. cbn. destruct (accepts k args) eqn:A.
    - exfalso. apply (N k h); [left; reflexivity|]. apply accepts_handles. exact A.
    - apply IH. intros k' h' I. apply (N k' h'). right. exact I.
  Qed.

  (** Exact matches are found without importing anything. *)
  Context (c_eqb : C -> C -> bool) (EQ : forall a b, c_eqb a b = true <-> a = b).
  Lemma hint_eqb_eq : forall a b, hint_eqb c_eqb a b = true -> a = b.
  Proof.
    intros a b. destruct a as [| | |?|? [|[] []]| | | | | |], b as [| | |?|? [|[] []]| | | | | |]; cbn; intros E; try discriminate; try reflexivity.
    - apply EQ in E. congruence.
    - apply andb_true_iff in E. destruct E as [E F]. apply EQ in E, F. congruence.
  Qed.
  Lemma key_eqb_eq : forall a b, key_eqb c_eqb a b = true -> a = b.
  Proof.
    induction a as [|x a IH]; intros [|y b] E; cbn in E; try discriminate; [reflexivity|]. apply andb_true_iff in E.
    f_equal; [apply hint_eqb_eq; tauto|apply IH; tauto].
  Qed.
  Lemma dget_in : forall (t : table) k h, dget (key_eqb c_eqb) t k = Some h -> In (k, h) t.
  Proof.
    induction t as [|[k' h'] t IH]; intros k h E; [discriminate|]. cbn in E. destruct (key_eqb c_eqb k' k) eqn:K.
    - apply key_eqb_eq in K. injection E as ->. subst. left. reflexivity.
    - right. apply IH. exact E.
  Qed.
  Theorem found_lazily : forall (t submodules : table) args, separate issub (t ++ submodules) ->
    find_handler c_eqb issub t submodules args = resolve issub (t ++ submodules) args.
  Proof.
    intros t more args S. unfold find_handler. destruct (dget _ t args) as [h|] eqn:D; [|reflexivity]. symmetry.
    apply (resolve_chosen _ _ _ S). apply dget_in in D. exists args. split; [apply in_or_app; left; exact D|].
    split; [|intros key' h' _ X; exact X]. apply handles_refl. apply (proj1 S args h). apply in_or_app. left. exact D.
  Qed.

  Lemma same_applicable : forall (t : table) args args', (forall k h, In (k, h) t -> accepts k args = accepts k args') ->
    resolve issub t args = resolve issub t args'.
  Proof.
    intros t args args' E. unfold resolve. replace (applicable issub t args') with (applicable issub t args); [reflexivity|].
    unfold applicable. induction t as [|[k h] t IH]; [reflexivity|]. cbn. rewrite (E k h (or_introl eq_refl)). rewrite IH; [reflexivity|].
    intros k' h' I. apply (E k' h'). right. exact I.
  Qed.
  Context (list_class tuple_class : C).
  Theorem read_alike : forall (t : table) k view, sequences issub list_class tuple_class t ->
    resolve issub t (checked_read list_class k view) = resolve issub t (called_read tuple_class k view).
  Proof.
    intros t k view Q. apply same_applicable. intros key h I. unfold checked_read, called_read.
    destruct key as [|h0 [|h1 [|h2 key]]]; cbn [Handlers_Model.accepts]; try reflexivity.
    assert (B : below (HAlias list_class [HClass (partition_class k)]) h2 = below (HAlias tuple_class [HClass (partition_class k)]) h2).
    { specialize (Q _ _ h2 I eq_refl). destruct Q as [->|(o & [[l ->]| ->] & E)]; cbn; [reflexivity| |exact E].
      destruct l as [|[] []]; try reflexivity. rewrite E. reflexivity. }
    rewrite B. reflexivity.
  Qed.
  Theorem write_alike : forall (t : table) k view a b, any_data t ->
    resolve issub t (called_write a k view) = resolve issub t (checked_write b k view).
  Proof.
    intros t k view a b Q. apply same_applicable. intros [|h0 key] h I; [reflexivity|]. pose proof (Q _ _ h0 I eq_refl). subst h0. reflexivity.
  Qed.
  Context (abstract : H -> bool).
  Lemma looked_up : forall (t : table) args, rmap (fun _ => tt) (lookup abstract (resolve issub t) args) = Ok tt -> exists h, call issub abstract t args = Ok h.
  Proof.
    intros t args. unfold lookup, call. destruct (resolve issub t args) as [h|[]]; cbn; try discriminate. destruct (abstract h) eqn:A; [discriminate|].
    intros _. exists h. reflexivity.
  Qed.
  Theorem accepted : forall A (asub : A -> A -> bool) type_eqb (readers writers : table) python_type (v : Views_Model.view C A) a ty k,
    sequences issub list_class tuple_class readers -> any_data writers ->
    check_artifact asub type_eqb (can_read issub list_class abstract readers) (can_write issub abstract writers python_type) v a ty k = Ok tt ->
    (v_mode v <> WRITE -> exists h, call issub abstract readers (called_read tuple_class k (v_class v)) = Ok h) /\
    (v_mode v <> READ -> forall data, exists h, call issub abstract writers (called_write data k (v_class v)) = Ok h).
  Proof.
    intros A asub type_eqb readers writers pt v a ty k Q D. unfold check_artifact. destruct (asub a (v_artifact v)); [|discriminate]. cbn [negb].
    destruct (check_type _ _ _) as [[]|]; [|discriminate]. cbn [bind]. intros E.
    assert (R : reads (v_mode v) = true -> can_read issub list_class abstract readers k (v_class v) = Ok tt).
    { intros X. rewrite X in E. destruct (can_read _ _ _ _ _ _) as [[]|]; [reflexivity|discriminate]. }
    assert (W : writes (v_mode v) = true -> can_write issub abstract writers pt k (v_class v) = Ok tt).
    { intros X. rewrite X in E. destruct (if reads _ then _ else _) as [[]|]; [exact E|discriminate]. }
    split.
    - intros M. destruct (looked_up readers (checked_read list_class k (v_class v))) as [h X].
      + apply R. destruct (v_mode v); [reflexivity|contradiction|reflexivity].
      + exists h. unfold call in *. rewrite <- (read_alike readers k (v_class v) Q). exact X.
    - intros M data. destruct (looked_up writers (checked_write (pt (v_class v)) k (v_class v))) as [h X].
      + apply W. destruct (v_mode v); [contradiction|reflexivity|reflexivity].
      + exists h. unfold call in *. rewrite (write_alike writers k (v_class v) data (pt (v_class v)) D). exact X.
  Qed.
  End Table.
End Handlers.

(** * The handlers of the package *)
Lemma known_eqb_eq : forall a b, known_eqb a b = true <-> a = b.
Proof. intros a b; split; [destruct a, b; cbn; intros E; try discriminate; reflexivity|intros ->; destruct b; reflexivity]. Qed.
Lemma cls_eqb_eq : forall a b, cls_eqb a b = true <-> a = b.
Proof.
  induction a as [k|a IH n]; intros [l|b m]; cbn; split; intros E; try discriminate.
  - apply known_eqb_eq in E. congruence.
  - apply known_eqb_eq. congruence.
  - apply andb_true_iff in E. destruct E as [E F]. apply IH in E. apply str_eqb_spec in F. congruence.
  - injection E as -> ->. rewrite (proj2 (IH b) eq_refl). cbn. apply str_eqb_spec. reflexivity.
Qed.
Lemma subclass_known : forall k b, subclass (Known k) b = true <-> b = Known k \/ b = Known (known_base k) \/ b = Known KObject.
Proof.
  intros k b. cbn [subclass]. rewrite !orb_true_iff, !cls_eqb_eq. intuition.
Qed.
Lemma subclass_sub : forall a n b, subclass (Sub a n) b = true <-> b = Sub a n \/ subclass a b = true.
Proof.
  intros a n b. cbn [subclass]. rewrite orb_true_iff, cls_eqb_eq. intuition.
Qed.
Lemma subclass_ordered : ordered subclass.
Proof.
  split.
  - intros [k|a n]; [apply subclass_known|apply subclass_sub]; left; reflexivity.
  - induction a as [k|a IH n]; intros b c X Y.
    + apply subclass_known in X. apply subclass_known. destruct X as [-> | [-> | ->]]; apply subclass_known in Y.
      * exact Y.
      * destruct Y as [-> | [-> | ->]]; [auto| |auto]. destruct k; cbn; auto.
      * cbn in Y. intuition.
    + apply subclass_sub in X. destruct X as [-> | X]; [exact Y|]. apply subclass_sub. right. eapply IH; eassumption.
Qed.

(** What a class descends from among the known ones. *)
Fixpoint root (c : cls) : known := match c with Known k => k | Sub b _ => root b end.
Lemma subclass_root : forall c k, subclass c (Known k) = true <-> k = root c \/ k = known_base (root c) \/ k = KObject.
Proof.
  induction c as [l|c IH n]; intros k.
  - rewrite subclass_known. cbn [root]. split; (intros [E|[E|E]]; [left|right; left|right; right]); congruence.
  - rewrite subclass_sub. cbn [root]. rewrite <- IH. intuition. discriminate.
Qed.

Definition readers_alike := fun fp : known * known => (reader_key (fst fp) (snd fp) KBuiltin, Handler (fst fp) (snd fp)).
Lemma provided_supported : forall f p, In (f, p) provided <-> supported f p.
Proof.
  intros f p. split.
  - cbn. intuition; match goal with E : (_, _) = _ |- _ => injection E as <- <-; constructor end.
  - destruct 1; cbn; auto 10.
Qed.
Lemma in_readers : forall k h, In (k, h) builtin_readers <->
  (k = reader_key KFormat KPartition KView /\ h = Spec) \/ exists f p, supported f p /\ k = reader_key f p KBuiltin /\ h = Handler f p.
Proof.
  intros k h. unfold builtin_readers. cbn [In]. rewrite in_map_iff. split.
  - intros [E|((f & p) & E & I)]; [injection E as <- <-; auto|]. injection E as <- <-. right. exists f, p. apply provided_supported in I. auto.
  - intros [[-> ->]|(f & p & S & -> & ->)]; [auto|]. right. exists (f, p). apply provided_supported in S. auto.
Qed.
Lemma in_writers : forall k h, In (k, h) builtin_writers <->
  (k = writer_key KFormat KPartition KView /\ h = Spec) \/ exists f p, supported f p /\ k = writer_key f p KBuiltin /\ h = Handler f p.
Proof.
  intros k h. unfold builtin_writers. cbn [In]. rewrite in_map_iff. split.
  - intros [E|((f & p) & E & I)]; [injection E as <- <-; auto|]. injection E as <- <-. right. exists f, p. apply provided_supported in I. auto.
  - intros [[-> ->]|(f & p & S & -> & ->)]; [auto|]. right. exists (f, p). apply provided_supported in S. auto.
Qed.
Lemma reader_fits : forall f p v a b c l d, handles subclass (reader_key f p v) [HClass a; HClass b; HAlias l [HClass c]; HClass d] <->
  subclass a (Known KType) = true /\ subclass b (Known f) = true /\ subclass l (Known KSequence) = true /\ subclass c (Known p) = true /\ subclass d (Known v) = true.
Proof.
  intros. unfold handles, reader_key. split.
  - intros F. repeat match goal with G : Forall2 _ (_ :: _) _ |- _ => inversion G; clear G; subst | G : fits _ _ _ |- _ => inversion G; clear G; subst end. auto 10.
  - intros (A & B & C & D & E). repeat constructor; assumption.
Qed.
Lemma writer_fits : forall f p v x a b c d, handles subclass (writer_key f p v) [x; HClass a; HClass b; HClass c; HClass d] <->
  subclass a (Known KType) = true /\ subclass b (Known f) = true /\ subclass c (Known p) = true /\ subclass d (Known v) = true.
Proof.
  intros. unfold handles, writer_key. split.
  - intros F. repeat match goal with G : Forall2 _ (_ :: _) _ |- _ => inversion G; clear G; subst | G : fits _ _ _ |- _ => inversion G; clear G; subst end. auto 10.
  - intros (A & B & C & D). repeat constructor; assumption.
Qed.
Lemma readers_separate : separate subclass builtin_readers.
Proof.
  split; [|split].
  - intros k h I. apply in_readers in I. destruct I as [[-> _]|(f & p & _ & -> & _)]; repeat constructor.
  - cbn. repeat constructor; cbn; intuition discriminate.
  - intros k h k' h' I I' A B. apply in_readers in I, I'.
    destruct I as [[-> _]|(f & p & S & -> & _)], I' as [[-> _]|(f' & p' & S' & -> & _)]; try reflexivity;
      apply reader_fits in A, B; destruct A as (_ & A & _ & C & E), B as (_ & B & _ & D & F); try discriminate.
    destruct S, S'; cbn in *; try discriminate; reflexivity.
Qed.
Lemma writers_separate : separate subclass builtin_writers.
Proof.
  split; [|split].
  - intros k h I. apply in_writers in I. destruct I as [[-> _]|(f & p & _ & -> & _)]; repeat constructor.
  - cbn. repeat constructor; cbn; intuition discriminate.
  - intros k h k' h' I I' A B. apply in_writers in I, I'.
    destruct I as [[-> _]|(f & p & S & -> & _)], I' as [[-> _]|(f' & p' & S' & -> & _)]; try reflexivity;
      apply writer_fits in A, B; destruct A as (_ & A & C & E), B as (_ & B & D & F); try discriminate.
    destruct S, S'; cbn in *; try discriminate; reflexivity.
Qed.
Lemma readers_sequences : sequences subclass (Known KList) (Known KTuple) builtin_readers.
Proof.
  intros k h x I E. right. exists (Known KSequence). split; [left|reflexivity]. apply in_readers in I.
  destruct I as [[-> _]|(f & p & _ & -> & _)]; injection E as <-; eauto.
Qed.
Lemma writers_any : any_data builtin_writers.
Proof. intros k h x I E. apply in_writers in I. destruct I as [[-> _]|(f & p & _ & -> & _)]; injection E as <-; reflexivity. Qed.

(** Known classes none of which is a subclass of another have no common subclasses. *)
Lemma formats_apart : forall c f g p q, supported f p -> supported g q -> subclass c (Known f) = true -> subclass c (Known g) = true -> f = g.
Proof.
  intros c f g p q S T A B. apply subclass_root in A, B. destruct S, T; try reflexivity;
    destruct (root c); cbn in *; intuition discriminate.
Qed.
Lemma places_apart : forall c f g p q, supported f p -> supported g q -> subclass c (Known p) = true -> subclass c (Known q) = true -> p = q.
Proof.
  intros c f g p q S T A B. apply subclass_root in A, B. destruct S, T; try reflexivity;
    destruct (root c); cbn in *; intuition discriminate.
Qed.
Lemma widen : forall c a b, subclass c (Known a) = true -> subclass (Known a) (Known b) = true -> subclass c (Known b) = true.
Proof. intros c a b. apply (proj2 subclass_ordered). Qed.

Theorem builtin_readers_found : forall k v h,
  lookup is_spec (resolve subclass builtin_readers) (checked_read (Known KList) k v) = Ok h <->
  exists f p, h = Handler f p /\ supported f p /\ subclass (type_class k) (Known KType) = true /\
    subclass (format_class k) (Known f) = true /\ subclass (partition_class k) (Known p) = true /\ subclass v (Known KBuiltin) = true.
Proof.
  intros k v h. unfold lookup. destruct (resolve subclass builtin_readers (checked_read (Known KList) k v)) as [h0|e] eqn:R.
  - apply (resolve_chosen subclass subclass_ordered _ _ _ readers_separate) in R. destruct R as (key & I & A & L). split.
    + intros E. apply in_readers in I. destruct I as [[_ ->]|(f & p & S & -> & ->)]; [discriminate|]. injection E as <-.
      apply reader_fits in A. exists f, p. intuition.
    + intros (f & p & -> & S & T & F & P & V).
      pose proof (L (reader_key f p KBuiltin) (Handler f p) (proj2 (in_readers _ _) (or_intror (ex_intro _ f (ex_intro _ p (conj S (conj eq_refl eq_refl))))))) as X.
      assert (Y : handles subclass (reader_key f p KBuiltin) key) by (apply X; apply reader_fits; auto).
      apply in_readers in I. destruct I as [[-> ->]|(f' & p' & S' & -> & ->)].
      * exfalso. apply reader_fits in Y. destruct Y as (_ & _ & _ & _ & Y). discriminate Y.
      * cbn. apply reader_fits in A. destruct A as (_ & A & _ & B & _). rewrite (formats_apart _ _ _ _ _ S S' F A), (places_apart _ _ _ _ _ S S' P B). reflexivity.
  - split; [destruct e; discriminate|]. intros (f & p & -> & S & T & F & P & V). exfalso.
    assert (X : chosen subclass builtin_readers (checked_read (Known KList) k v) (Handler f p)).
    { exists (reader_key f p KBuiltin). split; [apply in_readers; eauto 10|]. split; [apply reader_fits; auto|].
      intros key' h' I A. apply in_readers in I. destruct I as [[-> _]|(f' & p' & S' & -> & _)].
      - apply reader_fits. destruct S; auto.
      - apply reader_fits in A. destruct A as (_ & A & _ & B & _). rewrite (formats_apart _ _ _ _ _ S S' F A), (places_apart _ _ _ _ _ S S' P B).
        apply handles_refl; [exact subclass_ordered|repeat constructor]. }
    apply (resolve_chosen subclass subclass_ordered _ _ _ readers_separate) in X. congruence.
Qed.
Theorem builtin_writers_found : forall data k v h,
  lookup is_spec (resolve subclass builtin_writers) (checked_write data k v) = Ok h <->
  exists f p, h = Handler f p /\ supported f p /\ subclass (type_class k) (Known KType) = true /\
    subclass (format_class k) (Known f) = true /\ subclass (partition_class k) (Known p) = true /\ subclass v (Known KBuiltin) = true.
Proof.
  intros data k v h. unfold lookup. destruct (resolve subclass builtin_writers (checked_write data k v)) as [h0|e] eqn:R.
  - apply (resolve_chosen subclass subclass_ordered _ _ _ writers_separate) in R. destruct R as (key & I & A & L). split.
    + intros E. apply in_writers in I. destruct I as [[_ ->]|(f & p & S & -> & ->)]; [discriminate|]. injection E as <-.
      apply writer_fits in A. exists f, p. intuition.
    + intros (f & p & -> & S & T & F & P & V).
      pose proof (L (writer_key f p KBuiltin) (Handler f p) (proj2 (in_writers _ _) (or_intror (ex_intro _ f (ex_intro _ p (conj S (conj eq_refl eq_refl))))))) as X.
      assert (Y : handles subclass (writer_key f p KBuiltin) key) by (apply X; apply writer_fits; auto).
      apply in_writers in I. destruct I as [[-> ->]|(f' & p' & S' & -> & ->)].
      * exfalso. apply writer_fits in Y. destruct Y as (_ & _ & _ & Y). discriminate Y.
      * cbn. apply writer_fits in A. destruct A as (_ & A & B & _). rewrite (formats_apart _ _ _ _ _ S S' F A), (places_apart _ _ _ _ _ S S' P B). reflexivity.
  - split; [destruct e; discriminate|]. intros (f & p & -> & S & T & F & P & V). exfalso.
    assert (X : chosen subclass builtin_writers (checked_write data k v) (Handler f p)).
    { exists (writer_key f p KBuiltin). split; [apply in_writers; eauto 10|]. split; [apply writer_fits; auto|].
      intros key' h' I A. apply in_writers in I. destruct I as [[-> _]|(f' & p' & S' & -> & _)].
      - apply writer_fits. destruct S; auto.
      - apply writer_fits in A. destruct A as (_ & A & B & _). rewrite (formats_apart _ _ _ _ _ S S' F A), (places_apart _ _ _ _ _ S S' P B).
        apply handles_refl; [exact subclass_ordered|repeat constructor]. }
    apply (resolve_chosen subclass subclass_ordered _ _ _ writers_separate) in X. congruence.
Qed.
(** They are those IO_Model reads and writes with. *)
Lemma implemented_supported : forall f p v fc pc vc, format_of f fc -> place_of p pc -> view_of v vc ->
  (implemented f p v = true <-> exists kf kp, supported kf kp /\ subclass fc (Known kf) = true /\ subclass pc (Known kp) = true /\ subclass vc (Known KBuiltin) = true).
Proof.
  intros f p v fc pc vc F P V.
  assert (NP : forall kf kp, supported kf kp -> subclass pc (Known kp) = true -> kp = match p with LocalPart _ => KLocal | GCSPart _ => KGCS | LiteralPart _ _ => KLiteral end).
  { intros kf kp S B. destruct p; cbn in P; [apply (places_apart pc kf KJSON kp KLocal)|apply (places_apart pc kf KJSON kp KGCS)|apply (places_apart pc kf KJSON kp KLiteral)]; try assumption; constructor. }
  assert (NF : forall kf kp, supported kf kp -> subclass fc (Known kf) = true -> match f with JSON => kf = KJSON | Pickle => kf = KPickle | OtherFormat => False end).
  { intros kf kp S B. destruct f; cbn in F; [apply (formats_apart fc kf KJSON kp KLocal)|apply (formats_apart fc kf KPickle kp KLocal)|]; try assumption; try constructor.
    destruct F as [F1 F2]. destruct S; congruence. }
  split.
  - destruct f, v; try discriminate; destruct p; try discriminate; intros _; cbn in *;
      [exists KJSON, KLocal|exists KJSON, KGCS|exists KJSON, KLiteral|exists KPickle, KLocal|exists KPickle, KGCS]; repeat split; try assumption; constructor.
  - intros (kf & kp & S & A & B & D). destruct v; cbn in V; [|congruence]. specialize (NP kf kp S B). specialize (NF kf kp S A).
    destruct f; [subst kf|subst kf|contradiction]; destruct p; subst kp; try reflexivity; inversion S.
Qed.
Theorem reader_implemented : forall f p v k vc, format_of f (format_class k) -> place_of p (partition_class k) -> view_of v vc ->
  subclass (type_class k) (Known KType) = true ->
  ((exists h, lookup is_spec (resolve subclass builtin_readers) (checked_read (Known KList) k vc) = Ok h) <-> implemented f p v = true).
Proof.
  intros f p v k vc F P V T. rewrite (implemented_supported f p v _ _ _ F P V). split.
  - intros [h X]. apply builtin_readers_found in X. destruct X as (kf & kp & _ & S & _ & A & B & D). eauto 10.
  - intros (kf & kp & S & A & B & D). exists (Handler kf kp). apply builtin_readers_found. eauto 10.
Qed.
Theorem writer_implemented : forall f p v k vc data, format_of f (format_class k) -> place_of p (partition_class k) -> view_of v vc ->
  subclass (type_class k) (Known KType) = true ->
  ((exists h, lookup is_spec (resolve subclass builtin_writers) (checked_write data k vc) = Ok h) <-> implemented f p v = true).
Proof.
  intros f p v k vc data F P V T. rewrite (implemented_supported f p v _ _ _ F P V). split.
  - intros [h X]. apply builtin_writers_found in X. destruct X as (kf & kp & _ & S & _ & A & B & D). eauto 10.
  - intros (kf & kp & S & A & B & D). exists (Handler kf kp). apply builtin_writers_found. eauto 10.
Qed.

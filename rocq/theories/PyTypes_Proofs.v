(** Proofs about the Python type system. *)
From Coq Require Import ZArith List Ascii String Bool Lia Arith.
From Verif Require Import Base Str Str_Proofs Hints_Model TypeSystem_Model Types_Model PyTypes_Model PyTypes_Spec.
Import ListNotations.
Open Scope list_scope.

(** * Induction over types *)
Section Induction.
  Context (P : ty -> Prop)
    (Hscalar : forall s m, P (Scalar s m)) (Hbinary : forall b m, P (Binary b m))
    (Hdatetime : forall p m, P (DateTime p m)) (Henum : forall n t i m, P t -> P (Enum n t i m))
    (Hgeo : forall f s m, P (Geography f s m)) (Hlist : forall e m, P e -> P (List e m))
    (Hcoll : forall n e p c m, P e -> P (Collection n e p c m)) (Hmap : forall k v m, P k -> P v -> P (Map k v m))
    (Hset : forall e m, P e -> P (Set_ e m))
    (Hstruct : forall n fs m, Forall (fun nf => P (snd nf)) fs -> P (Struct n fs m))
    (Htime : forall p m, P (Time p m)) (Hts : forall p m, P (Timestamp p m)).
  Fixpoint ty_ind' (t : ty) : P t :=
    match t with
    | Scalar s m => Hscalar s m
    | Binary b m => Hbinary b m
    | DateTime p m => Hdatetime p m
    | Enum n t i m => Henum n t i m (ty_ind' t)
    | Geography f s m => Hgeo f s m
    | List e m => Hlist e m (ty_ind' e)
    | Collection n e p c m => Hcoll n e p c m (ty_ind' e)
    | Map k v m => Hmap k v m (ty_ind' k) (ty_ind' v)
    | Set_ e m => Hset e m (ty_ind' e)
    | Struct n fs m => Hstruct n fs m
        ((fix all l : Forall (fun nf => P (snd nf)) l :=
            match l with [] => Forall_nil _ | nf :: l' => Forall_cons nf (ty_ind' (snd nf)) (all l') end) fs)
    | Time p m => Htime p m
    | Timestamp p m => Hts p m
    end.
End Induction.

(** * What the sorted registry does *)
Lemma sorted_adapters : forall f,
  priority_sorted (map (fun a => (a_key a, a)) (python_adapters f)) =
  [py_optional; py_boolean; py_float64; py_int64; py_float32; py_int32; py_float16; py_int16; py_int8;
   py_datetime; py_list; py_set; py_binary; py_date; py_string; py_none; py_tuple; py_frozenset;
   py_literal f; py_map; py_struct].
Proof. intros f. reflexivity. Qed.

Definition hint_step (conv : ty -> result phint) (t : ty) : result phint :=
  if is_nullable t then rmap optional (conv (set_nullable false t)) else
  match t with
  | Scalar Boolean _ => Ok (HClass PyBool)
  | Scalar Date _ => Ok (HClass PyDate)
  | Scalar (Float _) _ => Ok (HClass PyFloat)
  | Scalar (Int _) _ => Ok (HClass PyInt)
  | Scalar Null _ => Ok HNone
  | Scalar String _ => Ok (HClass PyStr)
  | Binary _ _ => Ok (HClass PyBytes)
  | Timestamp _ _ => Ok (HClass PyDatetime)
  | Enum _ _ items _ => Ok (HLiteral items)
  | List e _ | Collection _ e _ _ _ => rmap (fun x => HAlias PyList [x]) (conv e)
  | Set_ e _ => rmap (fun x => HAlias PySet [x]) (conv e)
  | Map k v _ => bind (conv k) (fun k' => rmap (fun v' => HAlias PyDict [k'; v']) (conv v))
  | Struct name fields _ => rmap (typed_dict name) (mapM (fun nf => rmap (pair (fst nf)) (conv (snd nf))) fields)
  | Scalar (UInt _) _ | DateTime _ _ | Time _ _ | Geography _ _ _ => Err NotImplementedError
  end.
Lemma to_hint_S : forall n t, to_hint (S n) t = hint_step (to_hint n) t.
Proof.
  intros n t. unfold to_hint. cbn [to_system system_of convert]. rewrite sorted_adapters.
  unfold hint_step. cbn [try_adapters matches_artigraph py_optional].
  destruct (is_nullable t); [reflexivity|].
  destruct t as [[]| | | | | | | | | | |]; try destruct w; reflexivity.
Qed.

Lemma to_hint_O : forall t, to_hint 0 t = Err RecursionError.
Proof. reflexivity. Qed.


(** [of_hint] with the conversion used by Enum's validator kept apart. *)
Definition of_hint_with (f : ty -> result phint) (n : nat) (h : phint) : result ty :=
  to_artigraph n (system_of (python_adapters f)) h tt.
Lemma of_hint_is : forall n h, of_hint n h = of_hint_with (to_hint n) n h.
Proof. reflexivity. Qed.

Section Steps.
  Context (f : ty -> result phint) (n : nat).
  Ltac start := unfold of_hint_with; cbn [to_artigraph system_of convert]; rewrite sorted_adapters.

  Lemma of_none : of_hint_with f (S n) HNone = Ok (Scalar Null plain).
  Proof. reflexivity. Qed.
  Lemma of_list : forall x, of_hint_with f (S n) (HAlias PyList [x]) = rmap (fun e => List e plain) (of_hint_with f n x).
  Proof. reflexivity. Qed.
  Lemma of_set : forall x, of_hint_with f (S n) (HAlias PySet [x]) = rmap (fun e => Set_ e plain) (of_hint_with f n x).
  Proof. reflexivity. Qed.
  Lemma of_dict : forall k v, of_hint_with f (S n) (HAlias PyDict [k; v]) =
    bind (of_hint_with f n k) (fun k' => rmap (fun v' => Map k' v' plain) (of_hint_with f n v)).
  Proof. reflexivity. Qed.
  Lemma of_typed_dict : forall name fields, of_hint_with f (S n) (HTypedDict name fields) =
    rmap (fun fs => Struct name fs plain)
      (mapM (fun nf => rmap (pair (fst nf)) (of_hint_with f n (snd nf))) (type_hints fields)).
  Proof. reflexivity. Qed.
  Lemma of_optional : forall h, is_none_type h = false ->
    of_hint_with f (S n) (HUnion false [h; HClass PyNoneType]) = rmap (set_nullable true) (of_hint_with f n h).
  Proof.
    intros h H. start. cbn [try_adapters matches_system py_optional].
    replace (is_optional _) with true by (unfold is_optional; cbn [is_union get_args existsb andb]; rewrite H; reflexivity).
    cbn [adapt_to_artigraph py_optional get_args filter]. rewrite H. reflexivity.
  Qed.
  Lemma of_literal : forall items, of_hint_with f (S n) (HLiteral items) =
    match items with
    | [] => Err NotImplementedError
    | i :: others =>
        if forallb (fun j => pyclass_eqb (item_class j) (item_class i)) others
        then bind (of_hint_with f n (HClass (item_class i))) (fun t => mk_enum f anon t items plain)
        else Err ValueError
    end.
  Proof. intros items. start. cbn. destruct items; reflexivity. Qed.

  Lemma of_class_chain : forall c, of_hint_with f (S n) (HClass c) =
    if issub c PyBool then Ok (Scalar Boolean plain)
    else if issub c PyFloat then Ok (Scalar (Float F64) plain)
    else if issub c PyInt then Ok (Scalar (Int B64) plain)
    else if issub c PyDatetime then Ok (Timestamp Microsecond plain)
    else if issub c PyBytes then Ok (Binary None plain)
    else if issub c PyDate then Ok (Scalar Date plain)
    else if issub c PyStr then Ok (Scalar String plain)
    else Err NotImplementedError.
  Proof.
    intros c. start. cbn -[issub].
    destruct (issub c PyBool); [reflexivity|].
    destruct (issub c PyFloat) eqn:E1; cbn -[issub]; rewrite ?E1; [reflexivity|].
    destruct (issub c PyInt) eqn:E2; cbn -[issub]; rewrite ?E1, ?E2; [reflexivity|].
    destruct (issub c PyDatetime) eqn:E3; cbn -[issub]; [reflexivity|].
    destruct (issub c PyBytes); cbn -[issub]; [reflexivity|].
    destruct (issub c PyDate); cbn -[issub]; [reflexivity|].
    destruct (issub c PyStr); reflexivity.
  Qed.
  Lemma of_class : forall c, of_hint_with f (S n) (HClass c) =
    match class_type c with Some t => Ok t | None => Err NotImplementedError end.
  Proof.
    intros c. rewrite of_class_chain. induction c; try reflexivity.
    cbn [issub class_type]. cbn [pyclass_eqb orb]. exact IHc.
  Qed.
End Steps.

Arguments of_hint_with : simpl never.
Arguments to_hint : simpl never.

(** * Classes and items *)
Lemma pyclass_eqb_spec : forall a b, pyclass_eqb a b = true <-> a = b.
Proof.
  induction a; destruct b; cbn; try (split; [discriminate|discriminate]); try (split; reflexivity).
  rewrite andb_true_iff, IHa, str_eqb_spec. split; [intros [-> ->]; reflexivity|intro E; inversion E; auto].
Qed.
Lemma pyclass_eqb_refl : forall a, pyclass_eqb a a = true.
Proof. intros a. apply pyclass_eqb_spec. reflexivity. Qed.
Lemma item_eqb_spec : forall a b, item_eqb a b = true <-> a = b.
Proof.
  intros [c s] [d t]. cbn. rewrite andb_true_iff, pyclass_eqb_spec, str_eqb_spec.
  split; [intros [-> ->]; reflexivity|intro E; inversion E; auto].
Qed.
Lemma filter_keeps : forall A (p : A -> bool) l, (forall x, In x l -> p x = true) -> filter p l = l.
Proof.
  induction l as [|x l IH]; intros H; cbn; [reflexivity|]. rewrite (H x (or_introl eq_refl)), IH; [reflexivity|].
  intros y I. exact (H y (or_intror I)).
Qed.
Lemma distinct_same : forall l, NoDup l -> distinct_items l = l.
Proof.
  induction l as [|i l IH]; intros N; [reflexivity|]. inversion N; subst. cbn. rewrite IH by assumption.
  rewrite filter_keeps; [reflexivity|]. intros j I. apply negb_true_iff.
  destruct (item_eqb i j) eqn:E; [|reflexivity]. apply item_eqb_spec in E. subst j. contradiction.
Qed.
Lemma distinct_NoDup : forall l, NoDup (distinct_items l).
Proof.
  induction l as [|i l IH]; cbn; constructor.
  - intros I. apply filter_In in I. destruct I as [_ H]. apply negb_true_iff in H.
    assert (item_eqb i i = true) by (apply item_eqb_spec; reflexivity). congruence.
  - apply NoDup_filter. exact IH.
Qed.

(** What a class of a typed item is a subclass of. *)
Lemma class_type_hint : forall c t n, class_type c = Some t ->
  exists k, to_hint (S n) t = Ok (HClass k) /\ issub c k = true.
Proof.
  induction c; intros t n H; cbn in H; try discriminate; try (injection H as <-);
    try (rewrite to_hint_S; eexists; split; [reflexivity|reflexivity]).
  destruct (IHc t n H) as (k & E & S). exists k. split; [exact E|]. cbn [issub].
  rewrite S. rewrite !orb_true_r. reflexivity.
Qed.
Lemma mk_enum_typed : forall n name t items c, items <> [] -> NoDup items ->
  Forall (fun i => item_class i = c) items -> class_type c = Some t ->
  mk_enum (to_hint (S n)) name t items plain = Ok (Enum name t items plain).
Proof.
  intros n name t items c NE ND F T. unfold mk_enum. destruct items as [|i l] eqn:E; [contradiction|]. rewrite <- E in *. clear E NE.
  destruct (class_type_hint c t n T) as (k & -> & S). cbn [bind]. rewrite distinct_same by exact ND. clear ND.
  assert (M : mapM (fun i => py_issubclass (HClass (item_class i)) (HClass k)) items = Ok (map (fun _ => true) items)).
  { clear -F S. induction F as [|j l J F IH]; [reflexivity|]. cbn [mapM map]. rewrite IH.
    change (py_issubclass (HClass (item_class j)) (HClass k)) with (@Ok bool (issub (item_class j) k)).
    rewrite J, S. reflexivity. }
  rewrite M. cbn [bind]. replace (forallb _ _) with true; [reflexivity|]. clear. induction items; [reflexivity|exact IHitems].
Qed.

(** * Conversions to hints *)
Lemma set_nullable_meta : forall b t, meta_of (set_nullable b t) = Meta (description (meta_of t)) b.
Proof. intros b []; reflexivity. Qed.
Lemma levels_nullable : forall t, is_nullable t = true -> levels t = S (levels (set_nullable false t)).
Proof. intros t N. unfold is_nullable in N. destruct t as [? []|? []|? []|? ? ? []|? ? []|? []|? ? ? ? []|? ? []|? []|? ? []|? []|? []]; cbn in N; subst; reflexivity. Qed.
Lemma set_same : forall t, is_nullable t = false -> set_nullable false t = t.
Proof. intros t N. unfold is_nullable in N. destruct t as [? []|? []|? []|? ? ? []|? ? []|? []|? ? ? ? []|? ? []|? []|? ? []|? []|? []]; cbn in N; subst; reflexivity. Qed.
Lemma levels_pos : forall t, 1 <= levels t.
Proof. destruct t; cbn [levels]; lia. Qed.

Lemma field_levels : forall (fields : list (str * ty)) nf, In nf fields ->
  levels (snd nf) <= fold_right (fun nf n => Nat.max (levels (snd nf)) n) 0 fields.
Proof.
  induction fields as [|g l IH]; intros nf I; [contradiction|]. cbn. destruct I as [->|I]; [lia|]. specialize (IH nf I). lia.
Qed.


Lemma hintable_nullable : forall t, hintable (set_nullable false t) <-> hintable t.
Proof. destruct t; cbn; split; intro H; inversion H; constructor; assumption. Qed.

Theorem hints_exist : forall n t, levels t <= n ->
  (hintable t /\ exists h, to_hint n t = Ok h) \/ (~ hintable t /\ to_hint n t = Err NotImplementedError).
Proof.
  induction n as [|n IH]; intros t L; [pose proof (levels_pos t); lia|]. rewrite to_hint_S. unfold hint_step.
  destruct (is_nullable t) eqn:N.
  { rewrite (levels_nullable t N) in L. destruct (IH (set_nullable false t)) as [[H [h E]]|[H E]]; [lia| |].
    - left. split; [apply hintable_nullable; exact H|]. rewrite E. exists (optional h). reflexivity.
    - right. split; [intro K; apply H, hintable_nullable, K|]. rewrite E. reflexivity. }
  assert (K : forall e, levels e <= n -> (hintable e /\ exists h, to_hint n e = Ok h) \/ (~ hintable e /\ to_hint n e = Err NotImplementedError)) by exact IH.
  destruct t as [s m|b m|p m|nm t i m|f s m|e m|nm e p c m|k v m|e m|nm fs m|p m|p m]; cbn [levels] in L; rewrite ?N in L; cbn [plus] in L.
  - destruct s; (left; split; [constructor; intros ? X; discriminate X|eexists; reflexivity]) || (right; split; [intro H; inversion H; subst; eapply H1; reflexivity|reflexivity]).
  - left. split; [constructor|eexists; reflexivity].
  - right. split; [intro H; inversion H|reflexivity].
  - left. split; [constructor|eexists; reflexivity].
  - right. split; [intro H; inversion H|reflexivity].
  - destruct (K e) as [[H [h E]]|[H E]]; [lia|left|right]; rewrite E.
    + split; [constructor; exact H|eexists; reflexivity].
    + split; [intro X; inversion X; contradiction|reflexivity].
  - destruct (K e) as [[H [h E]]|[H E]]; [lia|left|right]; rewrite E.
    + split; [constructor; exact H|eexists; reflexivity].
    + split; [intro X; inversion X; contradiction|reflexivity].
  - destruct (K k) as [[H [h E]]|[H E]]; [lia| |].
    + destruct (K v) as [[H' [h' E']]|[H' E']]; [lia|left|right]; rewrite E, E'.
      * split; [constructor; assumption|eexists; reflexivity].
      * split; [intro X; inversion X; contradiction|reflexivity].
    + right. rewrite E. split; [intro X; inversion X; contradiction|reflexivity].
  - destruct (K e) as [[H [h E]]|[H E]]; [lia|left|right]; rewrite E.
    + split; [constructor; exact H|eexists; reflexivity].
    + split; [intro X; inversion X; contradiction|reflexivity].
  - assert (A : (Forall (fun nf => hintable (snd nf)) fs /\ exists l, mapM (fun nf => rmap (pair (fst nf)) (to_hint n (snd nf))) fs = Ok l) \/
                (~ Forall (fun nf => hintable (snd nf)) fs /\ mapM (fun nf => rmap (pair (fst nf)) (to_hint n (snd nf))) fs = Err NotImplementedError)).
    { clear N. induction fs as [|g l IHl]; [left; split; [constructor|exists []; reflexivity]|].
      cbn [fold_right] in L. cbn [mapM]. destruct (K (snd g)) as [[H [h E]]|[H E]]; [lia| |].
      - destruct IHl as [[F [l' E']]|[F E']]; [lia|left|right]; rewrite E, E'; cbn.
        + split; [constructor; assumption|eexists; reflexivity].
        + split; [intro X; inversion X; contradiction|reflexivity].
      - right. rewrite E. split; [intro X; inversion X; contradiction|reflexivity]. }
    destruct A as [[F [l E]]|[F E]]; [left|right]; rewrite E.
    + split; [constructor; exact F|eexists; reflexivity].
    + split; [intro X; inversion X; contradiction|reflexivity].
  - right. split; [intro H; inversion H|reflexivity].
  - left. split; [constructor|eexists; reflexivity].
Qed.

(** * There and back *)
(** Hints of types contain no Annotated, and are not None's class unless the type is a
    nullable Null. *)
Lemma hint_shape : forall n t h, to_hint n t = Ok h ->
  strip_annotated h = h /\ (is_nullable t = false -> is_none_type h = false /\ is_union h = false) /\
  (h = HNone <-> is_nullable t = false /\ ~ never_null t).
Proof.
  induction n as [|n IH]; intros t h; [rewrite to_hint_O; discriminate|]. rewrite to_hint_S. unfold hint_step.
  destruct (is_nullable t) eqn:N.
  - destruct (to_hint n (set_nullable false t)) as [x|] eqn:E; [|discriminate]. cbn [rmap]. intro H. injection H as <-.
    destruct (IH _ _ E) as (S & U & _). destruct U as [U1 U2]; [unfold is_nullable; rewrite set_nullable_meta; reflexivity|].
    split; [|split; [discriminate|split; [|intros [X _]; discriminate]]].
    + destruct x; cbn in *; try discriminate; try reflexivity; try (rewrite S; reflexivity).
      rewrite U1. reflexivity.
    + destruct x; cbn in *; try discriminate. rewrite U1. discriminate.
  - assert (NV : (forall m, t <> Scalar Null m) -> h <> HNone -> (h = HNone <-> false = false /\ ~ never_null t)).
    { intros A B. split; [contradiction|]. intros [_ C]. exfalso. apply C. exact A. }
    destruct t as [s m|b m|p m|nm t i m|f s m|e m|nm e p c m|k v m|e m|nm fs m|p m|p m].
    + destruct s; intro H; inversion H; subst h; try (split; [reflexivity|split; [auto|apply NV; [intros ? X; discriminate X|discriminate]]]).
      split; [reflexivity|split; [auto|]]. split; [intros _; split; [reflexivity|intro X; exact (X m eq_refl)]|reflexivity].
    + intro H; inversion H; subst h. split; [reflexivity|split; [auto|apply NV; [intros ? X; discriminate X|discriminate]]].
    + discriminate.
    + intro H; inversion H; subst h. split; [reflexivity|split; [auto|apply NV; [intros ? X; discriminate X|discriminate]]].
    + discriminate.
    + destruct (to_hint n e) as [x|] eqn:E; [|discriminate]. intro H; inversion H; subst h. destruct (IH _ _ E) as (S & _).
      split; [cbn; rewrite S; reflexivity|split; [auto|apply NV; [intros ? X; discriminate X|discriminate]]].
    + destruct (to_hint n e) as [x|] eqn:E; [|discriminate]. intro H; inversion H; subst h. destruct (IH _ _ E) as (S & _).
      split; [cbn; rewrite S; reflexivity|split; [auto|apply NV; [intros ? X; discriminate X|discriminate]]].
    + destruct (to_hint n k) as [x|] eqn:E; [|discriminate]. cbn [bind]. destruct (to_hint n v) as [y|] eqn:E'; [|discriminate].
      intro H; inversion H; subst h. destruct (IH _ _ E) as (S & _). destruct (IH _ _ E') as (S' & _).
      split; [cbn; rewrite S, S'; reflexivity|split; [auto|apply NV; [intros ? X; discriminate X|discriminate]]].
    + destruct (to_hint n e) as [x|] eqn:E; [|discriminate]. intro H; inversion H; subst h. destruct (IH _ _ E) as (S & _).
      split; [cbn; rewrite S; reflexivity|split; [auto|apply NV; [intros ? X; discriminate X|discriminate]]].
    + destruct (mapM _ fs) as [l|] eqn:E; [|discriminate]. intro H; inversion H; subst h.
      split; [reflexivity|split; [auto|apply NV; [intros ? X; discriminate X|discriminate]]].
    + discriminate.
    + intro H; inversion H; subst h. split; [reflexivity|split; [auto|apply NV; [intros ? X; discriminate X|discriminate]]].
Qed.

Lemma null_or_not : forall t, (exists m, t = Scalar Null m) \/ never_null t.
Proof.
  intros t. destruct t; try (right; intros ? X; discriminate X).
  destruct s; try (right; intros ? X; discriminate X). left. eexists. reflexivity.
Qed.
Lemma expressible_nullable : forall t, never_null t -> (expressible (set_nullable false t) <-> expressible t).
Proof.
  intros t NN. destruct t; cbn; split; intro H; inversion H; subst; try (constructor; assumption); try (econstructor; eassumption).
  - constructor; [assumption|]. intros ->. destruct (NN m eq_refl).
  - constructor; [assumption|]. reflexivity.
Qed.
Lemma widened_nullable : forall b t, widened (set_nullable b t) = set_nullable b (widened t).
Proof. intros b t. destruct t as [[]| | | | | | | | | | |]; reflexivity. Qed.
Lemma widened_meta : forall t, meta_of (widened t) = undescribed (meta_of t).
Proof. intros t. destruct t as [[]| | | | | | | | | | |]; reflexivity. Qed.
Lemma set_nullable_inj : forall x y, meta_of x = plain -> meta_of y = plain -> set_nullable true x = set_nullable true y -> x = y.
Proof.
  intros x y. destruct x, y; cbn; intros Hx Hy E; try discriminate; subst; inversion E; subst; reflexivity.
Qed.
Lemma class_type_plain : forall c t, class_type c = Some t -> meta_of t = plain.
Proof. induction c; intros t H; cbn in H; try discriminate; try (injection H as <-; reflexivity). exact (IHc t H). Qed.
Lemma mk_enum_is : forall f name t items m x, mk_enum f name t items m = Ok x -> x = Enum name t (distinct_items items) m /\ items <> [].
Proof.
  unfold mk_enum. intros f name t items m x H. destruct items; [discriminate|].
  destruct (f t); [|discriminate]. cbn [bind] in H. destruct (mapM _ _); [|discriminate]. cbn [bind] in H.
  destruct (forallb _ _); [|discriminate]. injection H as <-. split; [reflexivity|discriminate].
Qed.

Section Back.
  Context (k : nat).
  Notation back := (of_hint_with (to_hint (S k))).

  Lemma back_plain : forall n m t h x, is_nullable t = false -> to_hint n t = Ok h -> back m h = Ok x -> meta_of x = plain.
  Proof.
    intros [|n] [|m] t h x N T; try (rewrite to_hint_O in T; discriminate T); [discriminate|].
    rewrite to_hint_S in T. unfold hint_step in T. rewrite N in T.
    assert (C : forall c, back (S m) (HClass c) = Ok x -> meta_of x = plain).
    { intros c B. rewrite of_class in B. destruct (class_type c) eqn:E; [|discriminate]. injection B as <-. exact (class_type_plain _ _ E). }
    destruct t as [s mt|b mt|p mt|nm t i mt|f s mt|e mt|nm e p c mt|kt v mt|e mt|nm fs mt|p mt|p mt].
    - destruct s; inversion T; subst h; try apply C. rewrite of_none. intro B; injection B as <-. reflexivity.
    - inversion T; subst h. apply C.
    - discriminate.
    - inversion T; subst h. rewrite of_literal. destruct i as [|i others]; [discriminate|].
      destruct (forallb _ _); [|discriminate]. destruct (back m _); [|discriminate]. cbn [bind]. intro B.
      apply mk_enum_is in B. destruct B as [-> _]. reflexivity.
    - discriminate.
    - destruct (to_hint n e); [|discriminate]. inversion T; subst h. rewrite of_list. destruct (back m _); [|discriminate]. intro B; injection B as <-. reflexivity.
    - destruct (to_hint n e); [|discriminate]. inversion T; subst h. rewrite of_list. destruct (back m _); [|discriminate]. intro B; injection B as <-. reflexivity.
    - destruct (to_hint n kt); [|discriminate]. cbn [bind] in T. destruct (to_hint n v); [|discriminate]. inversion T; subst h. rewrite of_dict.
      destruct (back m _); [|discriminate]. cbn [bind]. destruct (back m _); [|discriminate]. intro B; injection B as <-. reflexivity.
    - destruct (to_hint n e); [|discriminate]. inversion T; subst h. rewrite of_set. destruct (back m _); [|discriminate]. intro B; injection B as <-. reflexivity.
    - destruct (mapM _ fs); [|discriminate]. inversion T; subst h. unfold typed_dict. rewrite of_typed_dict. destruct (mapM _ _); [|discriminate]. intro B; injection B as <-. reflexivity.
    - discriminate.
    - inversion T; subst h. apply C.
  Qed.

  Lemma optional_of : forall h, is_none_type h = false -> is_union h = false -> h <> HNone -> optional h = HUnion false [h; HClass PyNoneType].
  Proof. intros h N U H. destruct h; try discriminate; try reflexivity; [contradiction|]. cbn in *. rewrite N. reflexivity. Qed.

  Lemma undescribed_plain : forall m, nullable m = false -> undescribed m = plain.
  Proof. intros m H. unfold undescribed. rewrite H. reflexivity. Qed.

  Lemma back_fields : forall n m (fs : list (str * ty)) l,
    (forall g h, In g fs -> to_hint n (snd g) = Ok h -> back (S m) h = Ok (widened (snd g)) <-> expressible (snd g)) ->
    mapM (fun nf => rmap (pair (fst nf)) (to_hint n (snd nf))) fs = Ok l ->
    (mapM (fun nf => rmap (pair (fst nf)) (back (S m) (snd nf)))
       (type_hints (map (fun nh => (fst nh, none_class (snd nh))) l)) =
     Ok (map (fun nf => (fst nf, widened (snd nf))) fs) <->
     Forall (fun nf => expressible (snd nf) /\ never_null (snd nf)) fs).
  Proof.
    intros n m. induction fs as [|g fs IH]; intros l A M.
    - injection M as <-. cbn. split; [constructor|reflexivity].
    - cbn [mapM] in M. destruct (to_hint n (snd g)) as [h|] eqn:H; [|discriminate]. cbn [rmap bind] in M.
      destruct (mapM _ fs) as [l'|] eqn:E; [|discriminate]. cbn [bind] in M. injection M as <-.
      assert (A' : forall g h, In g fs -> to_hint n (snd g) = Ok h -> back (S m) h = Ok (widened (snd g)) <-> expressible (snd g))
        by (intros g' h' I; exact (A g' h' (or_intror I))).
      specialize (IH l' A' eq_refl). specialize (A g h (or_introl eq_refl) H).
      cbn [map type_hints fst snd mapM]. unfold type_hints in *. cbn [map fst snd mapM].
      destruct (hint_shape _ _ _ H) as (St & _ & Hn).
      assert (Q : back (S m) (strip_annotated (none_class h)) = Ok (widened (snd g)) <->
                  expressible (snd g) /\ never_null (snd g)).
      { destruct (null_or_not (snd g)) as [[mt Z]|NV].
        - assert (X : back (S m) (strip_annotated (none_class h)) = Err NotImplementedError).
          { destruct (is_nullable (snd g)) eqn:NL.
            - destruct n as [|n]; [rewrite to_hint_O in H; discriminate|]. rewrite to_hint_S in H. unfold hint_step in H. rewrite NL in H.
              rewrite Z in H. cbn [set_nullable with_meta] in H. destruct n as [|n]; [discriminate|]. rewrite to_hint_S in H.
              injection H as <-. reflexivity.
            - rewrite (proj2 Hn); [reflexivity|]. split; [reflexivity|]. intro NV. exact (NV _ Z). }
          rewrite X. split; [discriminate|]. intros [_ NV]. destruct (NV _ Z).
        - assert (h <> HNone) by (intro; subst; destruct (proj1 Hn eq_refl); contradiction).
          replace (none_class h) with h by (destruct h; solve [reflexivity|contradiction]).
          rewrite St, A. tauto. }
      destruct (back (S m) (strip_annotated _)) as [x|] eqn:B.
      + cbn [rmap bind]. destruct (mapM _ (map _ (map _ l'))) as [xs|] eqn:B'.
        * cbn [bind]. split.
          -- intro Y. assert (x = widened (snd g) /\ xs = map (fun nf => (fst nf, widened (snd nf))) fs) as [-> ->] by (inversion Y; auto).
             constructor; [apply Q; reflexivity|apply IH; reflexivity].
          -- intro Y. apply Forall_cons_iff in Y. destruct Y as [Y1 Y2]. apply Q in Y1. apply IH in Y2. inversion Y1; inversion Y2; reflexivity.
        * cbn [bind]. split; [discriminate|]. intro Y. apply Forall_cons_iff in Y. destruct Y as [_ Y2]. apply IH in Y2. discriminate.
      + cbn [rmap bind]. split; [discriminate|]. intro Y. apply Forall_cons_iff in Y. destruct Y as [Y1 _]. apply Q in Y1. discriminate.
  Qed.

  Theorem round_trip : forall n t h, levels t <= n -> to_hint n t = Ok h ->
    (back n h = Ok (widened t) <-> expressible t).
  Proof.
    induction n as [|n IH]; intros t h L T; [discriminate|]. rewrite to_hint_S in T. unfold hint_step in T.
    destruct (is_nullable t) eqn:N.
    - rewrite (levels_nullable t N) in L. destruct (to_hint n (set_nullable false t)) as [x|] eqn:E; [|discriminate].
      injection T as <-. assert (N' : is_nullable (set_nullable false t) = false) by (unfold is_nullable; rewrite set_nullable_meta; reflexivity).
      destruct (hint_shape _ _ _ E) as (_ & U & Hn). destruct (U N') as [U1 U2].
      destruct (null_or_not t) as [[m Z]|NV].
      + subst t. assert (x = HNone) by (apply Hn; split; [exact N'|intro NV; exact (NV _ eq_refl)]). subst x.
        cbn [optional]. rewrite of_class. cbn [class_type]. split; [discriminate|]. intro X. inversion X; subst.
        unfold is_nullable in N. cbn in N. rewrite H2 in N by reflexivity. discriminate.
      + assert (NV' : never_null (set_nullable false t)) by (intros m X; destruct t; try discriminate X; injection X as -> _; exact (NV _ eq_refl)).
        rewrite optional_of by (try assumption; intros ->; destruct (proj1 Hn eq_refl); contradiction).
        rewrite of_optional by exact U1. rewrite <- (expressible_nullable t NV), <- (IH _ _ (le_S_n _ _ L) E).
        destruct (back n x) as [y|] eqn:B; cbn [rmap].
        * assert (P : meta_of y = plain) by exact (back_plain _ _ _ _ _ N' E B).
          assert (P' : meta_of (widened (set_nullable false t)) = plain) by (rewrite widened_meta, set_nullable_meta; reflexivity).
          assert (Q : set_nullable true (widened (set_nullable false t)) = widened t).
          { rewrite widened_nullable. unfold is_nullable in N. destruct t as [[] []|? []|? []|? ? ? []|? ? []|? []|? ? ? ? []|? ? []|? []|? ? []|? []|? []]; cbn in N; subst; reflexivity. }
          split; intro Y; injection Y as Y.
          -- f_equal. apply set_nullable_inj; [exact P|exact P'|]. rewrite Q. exact Y.
          -- subst y. rewrite Q. reflexivity.
        * split; discriminate.
    - destruct t as [s m|b m|p m|nm t i m|f s m|e m|nm e p c m|kt v m|e m|nm fs m|p m|p m];
        cbn [levels] in L; rewrite ?N in L; cbn [plus] in L; unfold is_nullable in N; cbn [meta_of] in N.
      + destruct s; inversion T; subst h; rewrite ?of_class, ?of_none; cbn [class_type widened]; rewrite (undescribed_plain _ N);
          (split; [intros _; constructor; [intros ? X; discriminate X|intro; assumption]|reflexivity]).
      + inversion T; subst h. rewrite of_class. cbn [class_type widened]. rewrite (undescribed_plain _ N). split; [constructor|reflexivity].
      + discriminate.
      + inversion T; subst h. rewrite of_literal. cbn [widened]. rewrite (undescribed_plain _ N). destruct n as [|n]; [lia|]. split.
        * destruct i as [|j others]; [discriminate|]. destruct (forallb _ _) eqn:F; [|discriminate]. rewrite of_class.
          destruct (class_type (item_class j)) as [u|] eqn:C; [|discriminate]. cbn [bind]. intro B. apply mk_enum_is in B.
          destruct B as [B _]. injection B as Bt Bi. econstructor; [discriminate| | |].
          -- rewrite Bi. exact (distinct_NoDup (j :: others)).
          -- constructor; [reflexivity|]. rewrite forallb_forall in F. apply Forall_forall. intros y I. apply pyclass_eqb_spec, F, I.
          -- rewrite Bt. exact C.
        * intro X. inversion X as [| | |? ? ? ? cl NE ND FA CT| | | | |]; subst. destruct i as [|j others]; [contradiction|].
          apply Forall_cons_iff in FA. destruct FA as [<- FO]. replace (forallb _ _) with true.
          -- rewrite of_class, CT. cbn [bind]. apply mk_enum_typed with (item_class j); try assumption. constructor; [reflexivity|exact FO].
          -- symmetry. apply forallb_forall. intros y I. apply pyclass_eqb_spec. rewrite Forall_forall in FO. exact (FO y I).
      + discriminate.
      + destruct (to_hint n e) as [x|] eqn:E; [|discriminate]. inversion T; subst h. rewrite of_list. cbn [widened]. rewrite (undescribed_plain _ N).
        specialize (IH e x ltac:(lia) E). split.
        * destruct (back n x); [|discriminate]. intro Y. injection Y as ->. constructor. apply IH. reflexivity.
        * intro X. inversion X; subst. rewrite (proj2 IH) by assumption. reflexivity.
      + destruct (to_hint n e) as [x|] eqn:E; [|discriminate]. inversion T; subst h. rewrite of_list. cbn [widened]. rewrite (undescribed_plain _ N).
        specialize (IH e x ltac:(lia) E). split.
        * destruct (back n x); [|discriminate]. intro Y. injection Y as ->. constructor. apply IH. reflexivity.
        * intro X. inversion X; subst. rewrite (proj2 IH) by assumption. reflexivity.
      + destruct (to_hint n kt) as [x|] eqn:E; [|discriminate]. cbn [bind] in T. destruct (to_hint n v) as [y|] eqn:E'; [|discriminate].
        inversion T; subst h. rewrite of_dict. cbn [widened]. rewrite (undescribed_plain _ N).
        pose proof (IH kt x ltac:(lia) E) as I1. pose proof (IH v y ltac:(lia) E') as I2. split.
        * destruct (back n x); [|discriminate]. cbn [bind]. destruct (back n y); [|discriminate]. intro Y. injection Y as -> ->.
          constructor; [apply I1|apply I2]; reflexivity.
        * intro X. inversion X; subst. rewrite (proj2 I1), (proj2 I2) by assumption. reflexivity.
      + destruct (to_hint n e) as [x|] eqn:E; [|discriminate]. inversion T; subst h. rewrite of_set. cbn [widened]. rewrite (undescribed_plain _ N).
        specialize (IH e x ltac:(lia) E). split.
        * destruct (back n x); [|discriminate]. intro Y. injection Y as ->. constructor. apply IH. reflexivity.
        * intro X. inversion X; subst. rewrite (proj2 IH) by assumption. reflexivity.
      + destruct (mapM _ fs) as [l|] eqn:E; [|discriminate]. inversion T; subst h. unfold typed_dict. rewrite of_typed_dict. cbn [widened]. rewrite (undescribed_plain _ N).
        destruct n as [|n].
        * destruct fs as [|g fs]; [|cbn in E; rewrite to_hint_O in E; discriminate]. injection E as <-. cbn. split; [intros _; constructor; constructor|reflexivity].
        * pose proof (back_fields (S n) n fs l) as BF.
          assert (BF' := BF (fun g h I => IH (snd g) h (Nat.le_trans _ _ _ (field_levels fs g I) (le_S_n _ _ L))) E).
          split.
          -- destruct (mapM _ (type_hints _)) as [ys|] eqn:B; [|discriminate]. intro Y. injection Y as ->. constructor. apply BF'. reflexivity.
          -- intro X. inversion X; subst. rewrite (proj2 BF') by assumption. reflexivity.
      + discriminate.
      + inversion T; subst h. rewrite of_class. cbn [class_type widened]. rewrite (undescribed_plain _ N). split; [constructor|reflexivity].
  Qed.
End Back.

(** * Converting again *)
Theorem widened_idem : forall t, widened (widened t) = widened t.
Proof.
  induction t using ty_ind'; cbn [widened]; try reflexivity; try (rewrite ?IHt, ?IHt1, ?IHt2; reflexivity).
  - destruct s; reflexivity.
  - f_equal. rewrite map_map. apply map_ext_Forall. apply Forall_impl with (2 := H). intros nf E. cbn [fst snd]. rewrite E. reflexivity.
Qed.
Lemma widened_never_null : forall t, never_null t -> never_null (widened t).
Proof. intros t N m X. destruct t as [[]| | | | | | | | | | |]; try discriminate X. exact (N _ eq_refl). Qed.
Theorem widened_expressible : forall t, expressible t -> expressible (widened t).
Proof.
  induction t using ty_ind'; intro X; inversion X; subst; cbn [widened]; try (constructor; auto; fail).
  - destruct s; (apply exp_scalar; [intros ? Y; first [discriminate Y|eapply H1; reflexivity]|intro Y; first [discriminate Y|cbn; auto]]).
  - econstructor; try eassumption. rewrite widened_idem. assumption.
  - constructor. apply Forall_map. cbn [snd]. rewrite Forall_forall in *. intros nf I. destruct (H1 nf I) as [A B].
    split; [exact (H nf I A)|exact (widened_never_null _ B)].
Qed.
Lemma expressible_hintable : forall t, expressible t -> hintable t.
Proof.
  induction t using ty_ind'; intro X; inversion X; subst; constructor; auto.
  rewrite Forall_forall in *. intros nf I. destruct (H1 nf I) as [A _]. exact (H nf I A).
Qed.
Theorem widened_hint : forall n t, to_hint n (widened t) = to_hint n t.
Proof.
  induction n as [|n IH]; intros t; [reflexivity|]. rewrite !to_hint_S. unfold hint_step.
  assert (N : is_nullable (widened t) = is_nullable t) by (unfold is_nullable; rewrite widened_meta; reflexivity).
  rewrite N. destruct (is_nullable t).
  - rewrite <- (IH (set_nullable false t)), widened_nullable. reflexivity.
  - destruct t as [[]| | | | | | | | | | |]; cbn [widened]; rewrite ?IH; try reflexivity.
    f_equal. clear N. induction fields as [|g l IHl]; [reflexivity|]. cbn [map mapM fst snd]. rewrite IH, IHl. reflexivity.
Qed.

(** * Any hint *)
Section AnyHint.
  Context (k n : nat).
  Notation f := (to_hint (S k)).
  Definition first_of (r : result bool) (yes : result ty) (no : result ty) : result ty :=
    match r with Ok true => yes | Ok false => no | Err e => Err e end.
  Lemma of_any : forall h, of_hint_with f (S n) h =
    let q c := py_issubclass h (HClass c) in
    let part x := of_hint_with f n x in
    if is_optional h then adapt_to_artigraph py_optional (fun x _ => part x) h tt else
    first_of (q PyBool) (Ok (Scalar Boolean plain)) (
    first_of (q PyFloat) (Ok (Scalar (Float F64) plain)) (
    first_of (q PyInt) (Ok (Scalar (Int B64) plain)) (
    first_of (q PyDatetime) (Ok (Timestamp Microsecond plain)) (
    if origin_in h [PyList] then adapt_to_artigraph py_list (fun x _ => part x) h tt else
    if origin_in h [PySet] then adapt_to_artigraph py_set (fun x _ => part x) h tt else
    first_of (q PyBytes) (Ok (Binary None plain)) (
    first_of (q PyDate) (Ok (Scalar Date plain)) (
    first_of (q PyStr) (Ok (Scalar String plain)) (
    match h with HNone => Ok (Scalar Null plain) | _ =>
    if origin_in h [PyTuple] && match get_args h with [_; HEllipsis] => true | _ => false end
    then adapt_to_artigraph py_tuple (fun x _ => part x) h tt else
    if origin_in h [PyFrozenset] then adapt_to_artigraph py_frozenset (fun x _ => part x) h tt else
    if is_literal h || (is_union h && forallb is_literal (get_args h))
    then adapt_to_artigraph (py_literal f) (fun x _ => part x) h tt else
    if origin_in h [PyDict; PyMapping] then adapt_to_artigraph py_map (fun x _ => part x) h tt else
    match h with HTypedDict _ _ => adapt_to_artigraph py_struct (fun x _ => part x) h tt | _ => Err NotImplementedError end
    end))))))).
  Proof.
    intros h. unfold of_hint_with at 1. cbn [to_artigraph system_of convert]. rewrite sorted_adapters.
    cbn [try_adapters]. unfold first_of.
    unfold py_optional at 1; cbn [matches_system]. destruct (is_optional h); [reflexivity|].
    unfold py_boolean at 1, scalar_adapter at 1; cbn [matches_system]. destruct (py_issubclass h (HClass PyBool)) as [[]|]; try reflexivity.
    unfold py_float64 at 1, scalar_adapter at 1; cbn [matches_system]. destruct (py_issubclass h (HClass PyFloat)) as [[]|] eqn:Q1; try reflexivity.
    unfold py_int64 at 1, scalar_adapter at 1; cbn [matches_system]. destruct (py_issubclass h (HClass PyInt)) as [[]|] eqn:Q2; try reflexivity.
    unfold py_float32 at 1, scalar_adapter at 1; cbn [matches_system]. rewrite Q1.
    unfold py_int32 at 1, scalar_adapter at 1; cbn [matches_system]. rewrite Q2.
    unfold py_float16 at 1, scalar_adapter at 1; cbn [matches_system]. rewrite Q1.
    unfold py_int16 at 1, scalar_adapter at 1; cbn [matches_system]. rewrite Q2.
    unfold py_int8 at 1, scalar_adapter at 1; cbn [matches_system]. rewrite Q2.
    unfold py_datetime at 1, scalar_adapter at 1; cbn [matches_system]. destruct (py_issubclass h (HClass PyDatetime)) as [[]|]; try reflexivity.
    unfold py_list at 1, container_adapter at 1; cbn [matches_system]. destruct (origin_in h [PyList]); [reflexivity|].
    unfold py_set at 1, container_adapter at 1; cbn [matches_system]. destruct (origin_in h [PySet]); [reflexivity|].
    unfold py_binary at 1, scalar_adapter at 1; cbn [matches_system]. destruct (py_issubclass h (HClass PyBytes)) as [[]|]; try reflexivity.
    unfold py_date at 1, scalar_adapter at 1; cbn [matches_system]. destruct (py_issubclass h (HClass PyDate)) as [[]|]; try reflexivity.
    unfold py_string at 1, scalar_adapter at 1; cbn [matches_system]. destruct (py_issubclass h (HClass PyStr)) as [[]|]; try reflexivity.
    unfold py_none at 1; cbn [matches_system]. destruct h; try reflexivity;
    cbn [matches_system py_tuple py_frozenset container_adapter py_literal py_map py_struct];
    repeat match goal with |- context [if ?b then _ else _] => destruct b; try reflexivity end.
  Qed.
End AnyHint.

Section HintInduction.
  Context (P : phint -> Prop) (Hany : P HAny) (Hnone : P HNone) (Hdots : P HEllipsis) (Hclass : forall c, P (HClass c))
    (Halias : forall o args, Forall P args -> P (HAlias o args)) (Hunion : forall b args, Forall P args -> P (HUnion b args))
    (Hlit : forall items, P (HLiteral items)) (Hann : forall h, P h -> P (HAnnotated h)) (Hvar : forall b, P (HTypeVar b))
    (Hdict : forall n fs, P (HTypedDict n fs)) (Hmodel : forall c fs, P (HModel c fs)).
  Fixpoint hint_ind' (h : phint) : P h :=
    let all := fix all l : Forall P l :=
      match l with [] => Forall_nil _ | x :: l' => Forall_cons x (hint_ind' x) (all l') end in
    match h with
    | HAny => Hany | HNone => Hnone | HEllipsis => Hdots | HClass c => Hclass c
    | HAlias o args => Halias o args (all args)
    | HUnion b args => Hunion b args (all args)
    | HLiteral items => Hlit items
    | HAnnotated h => Hann h (hint_ind' h)
    | HTypeVar b => Hvar b
    | HTypedDict n fs => Hdict n fs
    | HModel c fs => Hmodel c fs
    end.
End HintInduction.

Lemma strip_formed : forall h, well_formed h -> well_formed (strip_annotated h) /\ (h <> HNone -> strip_annotated h <> HNone).
Proof.
  induction h using hint_ind'; intro W; inversion W; subst; cbn [strip_annotated]; try (split; [constructor|auto]; fail).
  - split; [|discriminate]. constructor. apply Forall_map. rewrite Forall_forall in *. intros x I. exact (proj1 (H x I (H1 x I))).
  - split; [|discriminate]. constructor. apply Forall_map. rewrite Forall_forall in *. intros x I. destruct (H1 x I) as [A B].
    destruct (H x I A) as [C D]. split; [exact C|exact (D B)].
  - destruct (IHh H0) as [A B]. split; [exact A|intros _; exact (B H1)].
  - split; [constructor; assumption|discriminate].
Qed.

Lemma union_formed : forall b args x, well_formed (HUnion b args) -> union_of (filter (fun a => negb (is_none_type a)) args) = Ok x ->
  well_formed x /\ x <> HNone.
Proof.
  intros b args x W U. inversion W; subst. set (l := filter _ args) in *.
  assert (F : Forall (fun a => well_formed a /\ a <> HNone) l) by (unfold l; apply Forall_forall; intros y I; apply filter_In in I; destruct I as [I _]; rewrite Forall_forall in H0; exact (H0 y I)).
  clearbody l. destruct l as [|y [|z l']]; [discriminate| |]; injection U as <-.
  - apply Forall_cons_iff in F. exact (proj1 F).
  - split; [constructor; exact F|discriminate].
Qed.

Lemma literal_enum : forall k n items t,
  match items with
  | [] => Err NotImplementedError
  | i :: others =>
      if forallb (fun j => pyclass_eqb (item_class j) (item_class i)) others
      then bind (of_hint_with (to_hint (S k)) n (HClass (item_class i))) (fun t => mk_enum (to_hint (S k)) anon t items plain)
      else Err ValueError
  end = Ok t -> expressible t /\ widened t = t /\ levels t <= S n /\ never_null t.
Proof.
  intros k n items t H. destruct items as [|i others]; [discriminate|]. destruct (forallb _ _) eqn:F; [|discriminate].
  destruct n as [|n]; [discriminate|]. rewrite of_class in H. destruct (class_type (item_class i)) as [u|] eqn:C; [|discriminate].
  cbn [bind] in H. apply mk_enum_is in H. destruct H as [-> _].
  assert (U : widened u = u).
  { clear -C. revert C. generalize (item_class i). intro c. revert u. induction c; intros u C; cbn in C; try discriminate; try (injection C as <-; reflexivity). exact (IHc u C). }
  split; [|split; [|split; [cbn [levels is_nullable meta_of plain nullable]; cbn; lia|intros ? X; discriminate X]]].
  - apply exp_enum with (item_class i); [discriminate|apply distinct_NoDup| |rewrite U; exact C].
    apply Forall_forall. intros j I. assert (J : In j (i :: others)).
    { clear -I. revert I. generalize (i :: others). intro l. induction l as [|x l IH]; [auto|]. cbn. intros [->|I]; [auto|].
      apply filter_In in I. right. apply IH, I. }
    destruct J as [->|J]; [reflexivity|]. rewrite forallb_forall in F. apply pyclass_eqb_spec, F, J.
  - cbn [widened]. rewrite U. reflexivity.
Qed.

Theorem of_hint_expressible : forall k n h t, well_formed h -> of_hint_with (to_hint (S k)) n h = Ok t ->
  expressible t /\ widened t = t /\ levels t <= n /\ (h <> HNone -> never_null t).
Proof.
  intros k. induction n as [|n IH]; intros h t W B; [discriminate|]. rewrite of_any in B. cbv zeta in B.
  assert (SC : forall s, (forall w, s <> UInt w) -> s <> Null -> widened (Scalar s plain) = Scalar s plain ->
    expressible (Scalar s plain) /\ widened (Scalar s plain) = Scalar s plain /\ levels (Scalar s plain) <= S n /\ (h <> HNone -> never_null (Scalar s plain))).
  { intros s U NN WD. split; [constructor; [exact U|contradiction]|]. split; [exact WD|]. split; [cbn; lia|]. intros _ m X. injection X as X _. contradiction. }
  assert (LST : forall (make : ty -> ty) args, (make = fun e => List e plain) \/ (make = fun e => Set_ e plain) -> Forall well_formed args ->
    match args with [e] => rmap make (of_hint_with (to_hint (S k)) n e) | _ => Err ValueError end = Ok t ->
    expressible t /\ widened t = t /\ levels t <= S n /\ (h <> HNone -> never_null t)).
  { intros make args MK FA E. destruct args as [|e [|]]; try discriminate. destruct (of_hint_with _ n e) as [u|] eqn:E'; [|discriminate].
    injection E as <-. apply Forall_cons_iff in FA. destruct FA as [FE _]. destruct (IH e u FE E') as (A & B' & C & _).
    destruct MK as [->| ->]; (split; [constructor; exact A|]; split; [cbn [widened]; rewrite B'; reflexivity|]; split; [cbn; lia|intros _ m X; discriminate X]). }
  assert (AL : forall cs, origin_in h cs = true -> Forall well_formed (get_args h)).
  { intros cs O. inversion W; subst; cbn in O |- *; try constructor; try assumption. rewrite Forall_forall in *. intros x I. exact (proj1 (H x I)). }
  destruct (is_optional h) eqn:OP.
  { cbn [adapt_to_artigraph py_optional] in B. destruct h; try discriminate OP. cbn [get_args] in B.
    destruct (union_of _) as [x|] eqn:U; [|discriminate]. destruct (union_formed _ _ _ W U) as [WX NX]. cbn [bind] in B.
    destruct (of_hint_with _ n x) as [u|] eqn:E; [|discriminate]. injection B as <-. destruct (IH x u WX E) as (A & B' & C & D). specialize (D NX).
    assert (X : forall v, never_null v -> expressible v -> expressible (set_nullable true v)).
    { intros v NV Ev. destruct v; inversion Ev; subst; try (constructor; assumption); try (econstructor; eassumption). constructor; [assumption|]. intros ->. destruct (NV m eq_refl). }
    split; [exact (X u D A)|]. split; [rewrite widened_nullable, B'; reflexivity|]. split.
    - destruct (is_nullable u) eqn:NU; [|].
      + replace (set_nullable true u) with u; [lia|]. unfold is_nullable in NU. destruct u as [? []|? []|? []|? ? ? []|? ? []|? []|? ? ? ? []|? ? []|? []|? ? []|? []|? []]; cbn in NU; subst; reflexivity.
      + assert (levels (set_nullable true u) = S (levels u)); [|lia]. rewrite levels_nullable by (unfold is_nullable; rewrite set_nullable_meta; reflexivity).
        f_equal. f_equal. unfold is_nullable in NU. destruct u as [? []|? []|? []|? ? ? []|? ? []|? []|? ? ? ? []|? ? []|? []|? ? []|? []|? []]; cbn in NU; subst; reflexivity.
    - intros _ m X'. destruct u; try discriminate X'. injection X' as -> _. exact (D _ eq_refl). }
  unfold first_of in B.
  destruct (py_issubclass h (HClass PyBool)) as [[]|]; [injection B as <-; apply SC; discriminate || reflexivity| |discriminate].
  destruct (py_issubclass h (HClass PyFloat)) as [[]|]; [injection B as <-; apply SC; discriminate || reflexivity| |discriminate].
  destruct (py_issubclass h (HClass PyInt)) as [[]|]; [injection B as <-; apply SC; discriminate || reflexivity| |discriminate].
  destruct (py_issubclass h (HClass PyDatetime)) as [[]|]; [injection B as <-; split; [constructor|split; [reflexivity|split; [cbn; lia|intros _ m X; discriminate X]]]| |discriminate].
  destruct (origin_in h [PyList]) eqn:OL; [exact (LST _ _ (or_introl eq_refl) (AL _ OL) B)|].
  destruct (origin_in h [PySet]) eqn:OS; [exact (LST _ _ (or_intror eq_refl) (AL _ OS) B)|].
  destruct (py_issubclass h (HClass PyBytes)) as [[]|]; [injection B as <-; split; [constructor|split; [reflexivity|split; [cbn; lia|intros _ m X; discriminate X]]]| |discriminate].
  destruct (py_issubclass h (HClass PyDate)) as [[]|]; [injection B as <-; apply SC; discriminate || reflexivity| |discriminate].
  destruct (py_issubclass h (HClass PyStr)) as [[]|]; [injection B as <-; apply SC; discriminate || reflexivity| |discriminate].
  assert (NH : h = HNone \/ h <> HNone) by (destruct h; (left; reflexivity) || (right; discriminate)).
  destruct NH as [->|NH].
  { injection B as <-. split; [constructor; [discriminate|reflexivity]|]. split; [reflexivity|]. split; [cbn; lia|contradiction]. }
  assert (B' : (if origin_in h [PyTuple] && match get_args h with [_; HEllipsis] => true | _ => false end
    then adapt_to_artigraph py_tuple (fun x _ => of_hint_with (to_hint (S k)) n x) h tt else
    if origin_in h [PyFrozenset] then adapt_to_artigraph py_frozenset (fun x _ => of_hint_with (to_hint (S k)) n x) h tt else
    if is_literal h || (is_union h && forallb is_literal (get_args h))
    then adapt_to_artigraph (py_literal (to_hint (S k))) (fun x _ => of_hint_with (to_hint (S k)) n x) h tt else
    if origin_in h [PyDict; PyMapping] then adapt_to_artigraph py_map (fun x _ => of_hint_with (to_hint (S k)) n x) h tt else
    match h with HTypedDict _ _ => adapt_to_artigraph py_struct (fun x _ => of_hint_with (to_hint (S k)) n x) h tt | _ => Err NotImplementedError end) = Ok t)
    by (destruct h; try exact B; contradiction).
  clear B. rename B' into B.
  destruct (origin_in h [PyTuple]) eqn:OT.
  { destruct (match get_args h with [_; HEllipsis] => true | _ => false end) eqn:AR; cbn [andb] in B.
    - cbn [adapt_to_artigraph py_tuple] in B. destruct (get_args h) as [|e [|[] [|]]] eqn:G; try discriminate AR.
      apply (LST (fun e => List e plain) [e]); [left; reflexivity| |exact B]. pose proof (AL _ OT) as FA. apply Forall_cons_iff in FA. constructor; [exact (proj1 FA)|constructor].
    - destruct (origin_in h [PyFrozenset]) eqn:OF; [exact (LST _ _ (or_intror eq_refl) (AL _ OF) B)|].
      destruct h; try discriminate OT; try (match type of OT with context[HUnion ?b _] => destruct b; discriminate OT end). cbn [is_literal is_union orb andb] in B. destruct (origin_in _ [PyDict; PyMapping]) eqn:OD; [|discriminate].
      cbn [adapt_to_artigraph py_map get_args] in B. destruct args as [|ka [|va [|]]]; try discriminate.
      pose proof (AL _ OD) as FA. apply Forall_cons_iff in FA. destruct FA as [F1 FA]. apply Forall_cons_iff in FA. destruct FA as [F2 _].
      destruct (of_hint_with _ n ka) as [x|] eqn:E1; [|discriminate]. cbn [bind] in B. destruct (of_hint_with _ n va) as [y|] eqn:E2; [|discriminate].
      injection B as <-. destruct (IH _ _ F1 E1) as (A1 & W1 & L1 & _). destruct (IH _ _ F2 E2) as (A2 & W2 & L2 & _).
      split; [constructor; assumption|]. split; [cbn [widened]; rewrite W1, W2; reflexivity|]. split; [cbn; lia|intros _ m X; discriminate X]. }
  cbn [andb] in B.
  destruct (origin_in h [PyFrozenset]) eqn:OF; [exact (LST _ _ (or_intror eq_refl) (AL _ OF) B)|].
  destruct (is_literal h || (is_union h && forallb is_literal (get_args h))) eqn:LT.
  { cbn [adapt_to_artigraph py_literal] in B.
    assert (I : exists items, match items with
      | [] => Err NotImplementedError
      | i :: others => if forallb (fun j => pyclass_eqb (item_class j) (item_class i)) others
          then bind (of_hint_with (to_hint (S k)) n (HClass (item_class i))) (fun t => mk_enum (to_hint (S k)) anon t items plain)
          else Err ValueError end = Ok t).
    { destruct h; try discriminate LT; cbn [is_union is_literal] in B.
      - destruct (is_optional _); [discriminate|]. destruct (forallb _ _); [|discriminate]. eexists. exact B.
      - eexists. exact B. }
    destruct I as [items I]. destruct (literal_enum _ _ _ _ I) as (A1 & A2 & A3 & A4). auto. }
  destruct (origin_in h [PyDict; PyMapping]) eqn:OD.
  { cbn [adapt_to_artigraph py_map] in B. pose proof (AL _ OD) as FA. destruct (get_args h) as [|ka [|va [|]]]; try discriminate.
    apply Forall_cons_iff in FA. destruct FA as [F1 FA]. apply Forall_cons_iff in FA. destruct FA as [F2 _].
    destruct (of_hint_with _ n ka) as [x|] eqn:E1; [|discriminate]. cbn [bind] in B. destruct (of_hint_with _ n va) as [y|] eqn:E2; [|discriminate].
    injection B as <-. destruct (IH _ _ F1 E1) as (A1 & W1 & L1 & _). destruct (IH _ _ F2 E2) as (A2 & W2 & L2 & _).
    split; [constructor; assumption|]. split; [cbn [widened]; rewrite W1, W2; reflexivity|]. split; [cbn; lia|intros _ m X; discriminate X]. }
  destruct h; try discriminate B. cbn [adapt_to_artigraph py_struct] in B. inversion W; subst. clear -H0 B IH.
  unfold convert_fields in B. destruct (mapM _ _) as [l|] eqn:M; [|discriminate]. injection B as <-.
  assert (R : Forall (fun nf => expressible (snd nf) /\ never_null (snd nf)) l /\ map (fun nf => (fst nf, widened (snd nf))) l = l /\
              fold_right (fun nf n => Nat.max (levels (snd nf)) n) 0 l <= n).
  { revert l M. induction fields as [|g fs IHf]; intros l M; [injection M as <-; cbn; repeat split; [constructor|lia]|].
    apply Forall_cons_iff in H0. destruct H0 as [[G1 G2] H0]. unfold type_hints in M. cbn [map mapM fst snd] in M.
    destruct (strip_formed _ G1) as [S1 S2]. destruct (of_hint_with _ n (strip_annotated (snd g))) as [u|] eqn:E; [|discriminate]. cbn [rmap bind] in M.
    fold (type_hints fs) in M. destruct (mapM _ (type_hints fs)) as [l'|] eqn:M'; [|discriminate]. injection M as <-.
    destruct (IH _ _ S1 E) as (A1 & A2 & A3 & A4). destruct (IHf H0 l' eq_refl) as (R1 & R2 & R3).
    cbn [map fst snd fold_right]. rewrite A2, R2. split; [constructor; [split; [exact A1|exact (A4 (S2 G2))]|exact R1]|]. split; [reflexivity|lia]. }
  destruct R as (R1 & R2 & R3). split; [constructor; exact R1|]. split; [cbn [widened]; rewrite R2; reflexivity|]. split; [cbn; lia|intros _ m X; discriminate X].
Qed.

Theorem of_hint_again : forall n h t, well_formed h -> of_hint n h = Ok t ->
  exists h', to_hint n t = Ok h' /\ of_hint n h' = Ok t.
Proof.
  intros [|n] h t W H; [discriminate H|]. rewrite of_hint_is in H.
  destruct (of_hint_expressible n (S n) h t W H) as (E & Wd & L & _).
  destruct (hints_exist (S n) t L) as [[_ [h' T]]|[N _]]; [|destruct N; apply expressible_hintable, E].
  exists h'. split; [exact T|]. rewrite of_hint_is, <- Wd. apply (round_trip n (S n) t h' L T), E.
Qed.

From Coq Require Import ZArith List Ascii String Bool Lia.
From Verif Require Import Base Base_Proofs Str Str_Proofs Hints_Model TypeSystem_Model Types_Model
  PyTypes_Model PyTypes_Spec PyTypes_Proofs PyMeaning_Spec.
Import ListNotations.
Open Scope list_scope.

(** ** Classes *)

Fixpoint root (c : pyclass) : pyclass := match c with PySub b _ => root b | c => c end.
Definition builtin (c : pyclass) : Prop := match c with PySub _ _ => False | _ => True end.

Lemma issub_root : forall c b, builtin b -> issub c b = issub (root c) b.
Proof.
  induction c; intros b B; try reflexivity. cbn [root]. rewrite <- (IHc b B).
  destruct b; cbn in *; try contradiction; try reflexivity. now destruct c.
Qed.
Lemma class_type_root : forall c, class_type c = class_type (root c).
Proof. induction c; try reflexivity. exact IHc. Qed.
Lemma root_builtin : forall c, builtin (root c).
Proof. induction c; cbn; auto. Qed.

Lemma issub_inherits : forall c d, issub c d = true <-> inherits c d.
Proof.
  intros c d. split.
  - revert d. induction c; intros d H;
      try (destruct d; cbn in H; try discriminate; constructor; fail).
    cbn [issub] in H. rewrite !orb_true_iff in H. destruct H as [[H|H]|H].
    + destruct d; try discriminate. constructor.
    + apply pyclass_eqb_spec in H. subst. constructor.
    + constructor. now apply IHc.
  - induction 1; try reflexivity.
    + destruct c; cbn [issub]; rewrite pyclass_eqb_refl, orb_true_r; reflexivity.
    + destruct c; reflexivity.
    + cbn [issub]. rewrite IHinherits. now rewrite orb_true_r.
Qed.

Lemma inherits_root : forall c b, builtin b -> (inherits c b <-> inherits (root c) b).
Proof. intros c b B. rewrite <- !issub_inherits. now rewrite issub_root. Qed.

(** ** The class a hint names *)

Definition target (h : phint) : phint := bound (discard_annotated h).
Definition plain_named (h : phint) : result (option pyclass) :=
  match h with
  | HAny => Ok None
  | HClass c | HModel c _ | HAlias c _ => Ok (Some c)
  | HTypedDict _ _ => Ok (Some PyDict)
  | HUnion true _ => Ok (Some PyUnionType)
  | _ => Err TypeError
  end.
Definition named (h : phint) : result (option pyclass) :=
  if negb (accepted h) then Ok None else plain_named (target h).

Lemma issubclass_named : forall h c, py_issubclass h (HClass c) =
  rmap (fun o => match o with Some k => issub k c | None => false end) (named h).
Proof.
  intros h c. unfold py_issubclass, lenient_issubclass, named. cbn [lenient].
  destruct (accepted h); [|reflexivity]. cbn [negb]. unfold target.
  destruct (bound (discard_annotated h)) as [| | |k|k args|[] args|items|h'|b|n fs|k fs]; reflexivity.
Qed.

Definition class_of_hint (h : phint) : option ty :=
  match named h with Ok (Some c) => class_type c | _ => None end.

Lemma names_exact : forall h t, class_of_hint h = Some t <-> exists c, names h c /\ class_type c = Some t.
Proof.
  intros h t. unfold class_of_hint, named. split.
  - destruct (accepted h) eqn:A; cbn [negb]; [|discriminate]. unfold target.
    assert (P : forall g, match plain_named g with Ok (Some c) => class_type c | _ => None end = Some t ->
      exists c, plainly g c /\ class_type c = Some t).
    { intros [| | |k|k args|[] args|items|h'|b|n fs|k fs] E; try discriminate;
        exists k; (split; [constructor|exact E]). }
    destruct h as [| | |k|k args|b args|items|h'|[b|]|n fs|k fs]; try discriminate A;
      cbn [discard_annotated bound]; intro E.
    1: discriminate.
    1-2: apply P in E; destruct E as (c & Hc & Ht); exists c; split; [constructor; exact Hc|exact Ht].
    + destruct h' as [| | |k|k args|b args|items|h'|[b|]|n fs|k fs]; try discriminate E; cbn [bound] in E;
        apply P in E; destruct E as (c & Hc & Ht); exists c;
        (split; [|exact Ht]); first [now apply names_annotated_var | now apply names_annotated | inversion Hc].
    + apply P in E. destruct E as (c & Hc & Ht). exists c. split; [now apply names_var|exact Ht].
    + discriminate.
    + discriminate.
    + apply P in E; destruct E as (c & Hc & Ht); exists c; split; [constructor; exact Hc|exact Ht].
  - intros (c & N & T).
    assert (P : forall g, plainly g c -> accepted g = true /\ discard_annotated g = g /\ bound g = g /\
      plain_named g = Ok (Some c)).
    { intros g H. destruct H; auto. }
    unfold target. destruct N as [g c H|g c H|g c H|g c H]; destruct (P g H) as (A & D & B & E);
      cbn [accepted negb discard_annotated bound].
    + rewrite A, D, B. cbn [negb]. now rewrite E.
    + rewrite B. now rewrite E.
    + now rewrite E.
    + now rewrite E.
Qed.

(** ** One step of the conversion *)

Section Step.
  Context (k n : nat).
  Notation f := (to_hint (S k)).
  Notation part := (of_hint_with f n).

  Definition literal_step (items : list item) : result ty :=
    match items with
    | [] => Err NotImplementedError
    | i :: others =>
        if forallb (fun j => pyclass_eqb (item_class j) (item_class i)) others
        then bind (part (HClass (item_class i))) (fun t => mk_enum f anon t items plain)
        else Err ValueError
    end.
  Definition one_step (make : ty -> ty) (args : list phint) : result ty :=
    match args with [x] => rmap make (part x) | _ => Err ValueError end.
  Definition other_step (h : phint) : result ty :=
    match h with
    | HNone => Ok (Scalar Null plain)
    | HAlias o args =>
        match root o with
        | PyList => one_step (fun e => List e plain) args
        | PySet | PyFrozenset => one_step (fun e => Set_ e plain) args
        | PyTuple => match args with [x; HEllipsis] => rmap (fun e => List e plain) (part x)
                     | _ => Err NotImplementedError end
        | PyDict | PyMapping =>
            match args with
            | [x; y] => bind (part x) (fun k' => rmap (fun v' => Map k' v' plain) (part y))
            | _ => Err ValueError end
        | _ => Err NotImplementedError
        end
    | HLiteral items => literal_step items
    | HUnion _ args => if forallb is_literal args then literal_step (flat_map literal_items args)
                       else Err NotImplementedError
    | HTypedDict name fields =>
        rmap (fun fs => Struct name fs plain)
          (mapM (fun nf => rmap (pair (fst nf)) (part (snd nf))) (type_hints fields))
    | _ => Err NotImplementedError
    end.
  Definition optional_step (args : list phint) : result ty :=
    bind (union_of (filter (fun a => negb (is_none_type a)) args)) (fun x =>
    rmap (set_nullable true) (part x)).
  Definition whole_step (h : phint) : result ty :=
    if is_optional h then optional_step (get_args h) else
    match named h with
    | Err e => Err e
    | Ok o => match match o with Some c => class_type c | None => None end with
              | Some t => Ok t
              | None => other_step h
              end
    end.

  Lemma literal_not_none : forall args, forallb is_literal args = true -> existsb is_none_type args = false.
  Proof.
    induction args as [|a args IH]; [reflexivity|]. cbn [forallb existsb]. intro H.
    apply andb_true_iff in H. destruct H as [H1 H2]. rewrite (IH H2). destruct a; try discriminate H1. reflexivity.
  Qed.

  Lemma no_chain : forall c, class_type c = None ->
    issub c PyBool = false /\ issub c PyFloat = false /\ issub c PyInt = false /\
    issub c PyDatetime = false /\ issub c PyBytes = false /\ issub c PyDate = false /\ issub c PyStr = false.
  Proof.
    intros c H. rewrite class_type_root in H.
    rewrite !(issub_root c) by exact I. pose proof (root_builtin c) as B.
    destruct (root c); try discriminate H; try contradiction; repeat split; reflexivity.
  Qed.

  Lemma origin_alias : forall o args classes, Forall builtin classes ->
    origin_in (HAlias o args) classes = existsb (issub (root o)) classes.
  Proof.
    intros o args classes B. unfold origin_in. cbn [get_origin].
    induction B as [|b l B F IH]; [reflexivity|]. cbn [existsb]. now rewrite IH, issub_root.
  Qed.

  Lemma of_whole : forall h, of_hint_with f (S n) h = whole_step h.
  Proof.
    intro h. rewrite of_any. cbv zeta. unfold whole_step.
    destruct (is_optional h) eqn:OP; [reflexivity|].
    rewrite !issubclass_named.
    destruct (named h) as [o|e] eqn:K; [|reflexivity]. cbn [rmap bind].
    assert (NC : forall c, o = Some c -> origin_in h [PyList] = true \/ origin_in h [PySet] = true ->
      class_type c = None).
    { intros c -> H. unfold named in K. destruct (accepted h) eqn:A; [|discriminate]. cbn [negb] in K.
      destruct h as [| | |k'|k' args|b args|items|h'|b|nm fs|k' fs]; try discriminate A;
        try (destruct H as [H|H]; discriminate H).
      cbn in K. injection K as ->. rewrite !origin_alias in H by (repeat constructor).
      rewrite class_type_root. pose proof (root_builtin c) as B.
      destruct (root c); cbn in H; try reflexivity; try contradiction; destruct H as [H|H]; discriminate H. }
    assert (U : (if origin_in h [PyList] then adapt_to_artigraph py_list (fun x _ => part x) h tt else
      if origin_in h [PySet] then adapt_to_artigraph py_set (fun x _ => part x) h tt else
      match h with HNone => Ok (Scalar Null plain) | _ =>
      if origin_in h [PyTuple] && match get_args h with [_; HEllipsis] => true | _ => false end
      then adapt_to_artigraph py_tuple (fun x _ => part x) h tt else
      if origin_in h [PyFrozenset] then adapt_to_artigraph py_frozenset (fun x _ => part x) h tt else
      if is_literal h || (is_union h && forallb is_literal (get_args h))
      then adapt_to_artigraph (py_literal f) (fun x _ => part x) h tt else
      if origin_in h [PyDict; PyMapping] then adapt_to_artigraph py_map (fun x _ => part x) h tt else
      match h with HTypedDict _ _ => adapt_to_artigraph py_struct (fun x _ => part x) h tt | _ => Err NotImplementedError end
      end) = other_step h).
    { destruct h as [| | |k'|k' args|b args|items|h'|b|nm fs|k' fs]; try reflexivity.
      - rewrite !origin_alias by (repeat constructor). pose proof (root_builtin k') as B.
        cbn [other_step get_args is_literal is_union orb andb].
        destruct (root k'); cbn; try contradiction; try reflexivity.
        destruct args as [|x [|[] [|]]]; reflexivity.
      - cbn [other_step get_args is_literal is_union orb andb].
        destruct b; cbn [origin_in get_origin existsb issub pyclass_eqb orb andb];
          (destruct (forallb is_literal args) eqn:L; [|reflexivity]);
          cbn [adapt_to_artigraph py_literal is_union get_args]; rewrite OP, L; reflexivity. }
    destruct o as [c|].
    - destruct (class_type c) as [t|] eqn:T.
      + assert (CH := of_class_chain f n c). rewrite of_class, T in CH.
        destruct (origin_in h [PyList]) eqn:L; [specialize (NC c eq_refl (or_introl eq_refl)); congruence|].
        destruct (origin_in h [PySet]) eqn:S; [specialize (NC c eq_refl (or_intror eq_refl)); congruence|].
        destruct (issub c PyBool); [symmetry; exact CH|]. destruct (issub c PyFloat); [symmetry; exact CH|].
        destruct (issub c PyInt); [symmetry; exact CH|]. destruct (issub c PyDatetime); [symmetry; exact CH|].
        cbn [first_of]. destruct (issub c PyBytes); [symmetry; exact CH|].
        destruct (issub c PyDate); [symmetry; exact CH|].
        destruct (issub c PyStr); [symmetry; exact CH|discriminate CH].
      + destruct (no_chain c T) as (-> & -> & -> & -> & -> & -> & ->). cbn [first_of]. exact U.
    - cbn [first_of]. exact U.
  Qed.
End Step.

(** ** Items *)

Lemma firsts_distinct : forall l seen,
  firsts seen l (filter (fun i => negb (existsb (item_eqb i) seen)) (distinct_items l)).
Proof.
  assert (M : forall i seen, existsb (item_eqb i) seen = true <-> In i seen).
  { intros i seen. rewrite existsb_exists. split.
    - intros (j & H & E). apply item_eqb_spec in E. now subst.
    - intro H. exists i. split; [exact H|]. now apply item_eqb_spec. }
  induction l as [|i l IH]; intro seen; cbn [distinct_items filter]; [constructor|].
  destruct (existsb (item_eqb i) seen) eqn:E; cbn [negb].
  - apply M in E. apply firsts_seen; [exact E|].
    replace (filter (fun j => negb (existsb (item_eqb j) seen)) (filter (fun j => negb (item_eqb i j)) (distinct_items l)))
      with (filter (fun j => negb (existsb (item_eqb j) seen)) (distinct_items l)); [apply IH|].
    generalize (distinct_items l). intro m. induction m as [|j m IHm]; [reflexivity|]. cbn [filter].
    destruct (item_eqb i j) eqn:Ej; cbn [negb].
    + apply item_eqb_spec in Ej. subst j. apply M in E. rewrite E. cbn [negb]. exact IHm.
    + cbn [filter]. destruct (existsb (item_eqb j) seen); cbn [negb]; [exact IHm|now f_equal].
  - apply firsts_new; [intro H; apply M in H; congruence|].
    replace (filter (fun j => negb (existsb (item_eqb j) seen)) (filter (fun j => negb (item_eqb i j)) (distinct_items l)))
      with (filter (fun j => negb (existsb (item_eqb j) (i :: seen))) (distinct_items l)); [apply IH|].
    generalize (distinct_items l). intro m. induction m as [|j m IHm]; [reflexivity|]. cbn [filter existsb].
    assert (Sy : item_eqb j i = item_eqb i j).
    { destruct (item_eqb j i) eqn:E1, (item_eqb i j) eqn:E2; try reflexivity.
      - apply item_eqb_spec in E1. subst. rewrite (proj2 (item_eqb_spec i i) eq_refl) in E2. discriminate.
      - apply item_eqb_spec in E2. subst. rewrite (proj2 (item_eqb_spec j j) eq_refl) in E1. discriminate. }
    rewrite Sy. destruct (item_eqb i j); cbn [orb negb]; [exact IHm|]. cbn [filter].
    destruct (existsb (item_eqb j) seen); cbn [negb]; [exact IHm|now f_equal].
Qed.

Lemma firsts_unique : forall seen l r, firsts seen l r -> forall r', firsts seen l r' -> r = r'.
Proof.
  induction 1 as [seen|seen i l r I H IH|seen i l r I H IH]; intros r' H'; inversion H'; subst;
    try contradiction; auto. f_equal. auto.
Qed.

Lemma distinct_firsts : forall l r, firsts [] l r <-> r = distinct_items l.
Proof.
  assert (E : forall l, firsts [] l (distinct_items l)).
  { intro l. assert (H := firsts_distinct l []). cbn [existsb negb] in H.
    rewrite filter_keeps in H by reflexivity. exact H. }
  intros l r. split; [|intros ->; apply E]. intro H. exact (firsts_unique _ _ _ H _ (E l)).
Qed.

Lemma distinct_in : forall i l, In i (distinct_items l) <-> In i l.
Proof.
  intros i l. induction l as [|j l IH]; [reflexivity|]. cbn [distinct_items In].
  rewrite filter_In, IH, negb_true_iff. split.
  - intros [H|[H _]]; auto.
  - intros [H|H]; [auto|]. destruct (item_eqb j i) eqn:E; [apply item_eqb_spec in E; auto|auto].
Qed.

Lemma enum_made : forall k name t items c, items <> [] -> Forall (fun i => item_class i = c) items ->
  class_type c = Some t -> mk_enum (to_hint (S k)) name t items plain = Ok (Enum name t (distinct_items items) plain).
Proof.
  intros k name t items c N F T.
  assert (D : distinct_items (distinct_items items) = distinct_items items)
    by (apply distinct_same, distinct_NoDup).
  assert (G := mk_enum_typed k name t (distinct_items items) c).
  assert (N' : distinct_items items <> []) by (destruct items; [congruence|discriminate]).
  specialize (G N' (distinct_NoDup items)).
  assert (F' : Forall (fun i => item_class i = c) (distinct_items items)).
  { rewrite Forall_forall in *. intros i I. apply F. now apply distinct_in. }
  specialize (G F' T). unfold mk_enum in G |- *. rewrite D in G.
  destruct (distinct_items items) eqn:Ei; [congruence|]. rewrite <- Ei in *.
  destruct items; [congruence|]. rewrite Ei in *. exact G.
Qed.

Lemma literal_exact : forall k n items t,
  (literal_step k (S n) items = Ok t <-> enum_of items t) /\
  (forall t, literal_step k 0 items = Ok t -> enum_of items t).
Proof.
  assert (A : forall k n items t, literal_step k n items = Ok t -> enum_of items t).
  { intros k n items t H. destruct items as [|i others]; [discriminate|]. cbn [literal_step] in H.
    destruct (forallb _ others) eqn:F; [|discriminate].
    destruct n as [|n]; [discriminate|]. rewrite of_class in H.
    destruct (class_type (item_class i)) as [u|] eqn:C; [|discriminate]. cbn [bind] in H.
    apply mk_enum_is in H. destruct H as [-> _].
    apply enum_items with (item_class i); [discriminate| |exact C|now apply distinct_firsts].
    constructor; [reflexivity|]. rewrite Forall_forall. rewrite forallb_forall in F.
    intros j J. apply pyclass_eqb_spec. now apply F. }
  intros k n items t. split; [|intros t'; apply A]. split; [apply A|].
  intro H. destruct H as [c u items distinct N F C D]. apply distinct_firsts in D. subst distinct.
  destruct items as [|i others]; [congruence|]. cbn [literal_step].
  inversion F as [|? ? Fi Fo]; subst.
  replace (forallb _ others) with true.
  - rewrite of_class, C. cbn [bind]. apply enum_made with (item_class i); assumption.
  - symmetry. rewrite forallb_forall. rewrite Forall_forall in Fo. intros j J.
    apply pyclass_eqb_spec. now apply Fo.
Qed.

(** ** Unions *)

Lemma none_type_spec : forall h, is_none_type h = true <-> h = HClass PyNoneType.
Proof.
  intro h. split; [|intros ->; reflexivity]. destruct h; try discriminate. cbn. unfold is_none.
  intro E. apply pyclass_eqb_spec in E. now subst.
Qed.

Lemma without_none_exact : forall args r,
  without_none args r <-> r = filter (fun a => negb (is_none_type a)) args.
Proof.
  intros args r. split.
  - induction 1 as [|l r H IH|h l r N H IH]; [reflexivity|exact IH|]. cbn [filter].
    destruct (is_none_type h) eqn:E; [apply none_type_spec in E; congruence|]. cbn [negb]. now f_equal.
  - intros ->. induction args as [|a args IH]; [constructor|]. cbn [filter].
    destruct (is_none_type a) eqn:E; cbn [negb].
    + apply none_type_spec in E. subst. now constructor.
    + constructor; [|exact IH]. intros ->. discriminate E.
Qed.

Lemma optional_spec : forall h, is_optional h = true <->
  exists b args, h = HUnion b args /\ In (HClass PyNoneType) args.
Proof.
  intro h. unfold is_optional. split.
  - destruct h as [| | | | |b args| | | | |]; try discriminate. cbn [is_union andb get_args]. intro H. exists b, args. split; [reflexivity|].
    apply existsb_exists in H. destruct H as (x & I & E). apply none_type_spec in E. now subst.
  - intros (b & args & -> & H). cbn [is_union andb get_args]. apply existsb_exists.
    exists (HClass PyNoneType). split; [exact H|reflexivity].
Qed.

Lemma literals_exact : forall args, forallb is_literal args = true <-> exists lists, args = map HLiteral lists.
Proof.
  intro args. split.
  - induction args as [|a args IH]; intro H; [now exists []|]. cbn [forallb] in H.
    apply andb_true_iff in H. destruct H as [H1 H2]. destruct (IH H2) as (lists & ->).
    destruct a; try discriminate H1. now exists (items :: lists).
  - intros (lists & ->). induction lists; [reflexivity|exact IHlists].
Qed.
Lemma literals_items : forall lists, flat_map literal_items (map HLiteral lists) = List.concat lists.
Proof. induction lists as [|l lists IH]; [reflexivity|]. cbn. now rewrite IH. Qed.

(** ** Soundness *)

Lemma named_class : forall h o, named h = Ok o -> (match o with Some c => class_type c | None => None end) = class_of_hint h.
Proof. intros h o E. unfold class_of_hint. rewrite E. now destruct o. Qed.

Lemma root_inherits : forall o c, root o = c -> inherits o c.
Proof.
  intros o c <-. apply inherits_root; [apply root_builtin|constructor].
Qed.

Lemma sound : forall k n h t, of_hint_with (to_hint (S k)) n h = Ok t -> means h t.
Proof.
  intro k. induction n as [|n IH]; intros h t H; [discriminate|]. rewrite of_whole in H.
  unfold whole_step in H. destruct (is_optional h) eqn:OP.
  { apply optional_spec in OP. destruct OP as (b & args & -> & I). cbn [get_args] in H.
    unfold optional_step in H. set (rest := filter _ args) in H.
    assert (R := proj2 (without_none_exact args rest) eq_refl).
    destruct rest as [|x [|y rest]]; [discriminate| |]; cbn [union_of bind] in H.
    - destruct (of_hint_with _ n x) as [u|] eqn:E; [|discriminate]. injection H as <-.
      eapply means_optional_one; [exact I|exact R|]. now apply IH.
    - destruct (of_hint_with _ n _) as [u|] eqn:E; [|discriminate]. injection H as <-.
      eapply means_optional_more; [exact I|exact R|]. now apply IH. }
  destruct (named h) as [o|e] eqn:K; [|discriminate]. rewrite (named_class h o K) in H.
  destruct (class_of_hint h) as [u|] eqn:C.
  { injection H as ->. apply names_exact in C. destruct C as (c & N & T). eapply means_class; eassumption. }
  assert (ONE : forall make args, one_step k n make args = Ok t -> exists x u, args = [x] /\ means x u /\ t = make u).
  { intros make args E. unfold one_step in E. destruct args as [|x [|]]; try discriminate.
    destruct (of_hint_with _ n x) as [u|] eqn:E'; [|discriminate]. injection E as <-. exists x, u. split; [reflexivity|]. split; [now apply IH|reflexivity]. }
  destruct h as [| | |k'|o' args|b args|items|h'|b|nm fields|k' fs]; try discriminate H; cbn [other_step] in H.
  - injection H as <-. constructor.
  - destruct (root o') eqn:R; try discriminate H; apply root_inherits in R.
    + apply ONE in H. destruct H as (x & u & -> & M & ->). now apply means_list.
    + destruct args as [|x [|[] [|]]]; try discriminate H.
      destruct (of_hint_with _ n x) as [u|] eqn:E; [|discriminate]. injection H as <-. apply means_tuple; auto.
    + apply ONE in H. destruct H as (x & u & -> & M & ->). now apply means_set.
    + apply ONE in H. destruct H as (x & u & -> & M & ->). now apply means_frozenset.
    + destruct args as [|x [|y [|]]]; try discriminate H.
      destruct (of_hint_with _ n x) as [u|] eqn:E; [|discriminate]. cbn [bind] in H.
      destruct (of_hint_with _ n y) as [v|] eqn:E'; [|discriminate]. injection H as <-. apply means_map; auto.
    + destruct args as [|x [|y [|]]]; try discriminate H.
      destruct (of_hint_with _ n x) as [u|] eqn:E; [|discriminate]. cbn [bind] in H.
      destruct (of_hint_with _ n y) as [v|] eqn:E'; [|discriminate]. injection H as <-. apply means_map; auto.
  - destruct (forallb is_literal args) eqn:L; [|discriminate]. apply literals_exact in L.
    destruct L as (lists & ->). rewrite literals_items in H. apply means_literals.
    destruct n as [|n]; [|now apply literal_exact in H].
    destruct (literal_exact k 0 (List.concat lists) t) as [_ A]. now apply A.
  - apply means_literal. destruct n as [|n]; [|now apply literal_exact in H].
    destruct (literal_exact k 0 items t) as [_ A]. now apply A.
  - destruct (mapM _ _) as [ts|] eqn:M; [|discriminate]. injection H as <-. apply means_struct.
    clear -M IH. revert ts M. induction fields as [|[nm h] fields IHf]; intros ts M.
    + injection M as <-. constructor.
    + unfold type_hints in M. cbn [map mapM fst snd] in M.
      destruct (of_hint_with _ n (strip_annotated h)) as [u|] eqn:E; [|discriminate]. cbn [rmap bind] in M.
      fold (type_hints fields) in M. destruct (mapM _ (type_hints fields)) as [ts'|]; [|discriminate].
      injection M as <-. constructor; [now apply IH|now apply IHf].
Qed.

(** ** Completeness *)

Scheme means_mut := Induction for means Sort Prop
  with fields_mut := Induction for means_fields Sort Prop.

Lemma names_not_optional : forall h c, names h c -> is_optional h = false.
Proof. intros h c H. destruct H as [h c P|h c P|h c P|h c P]; destruct P; reflexivity. Qed.

Lemma inherits_is : forall o c, builtin c -> c <> PyObject -> c <> PyInt -> c <> PyDate -> c <> PyMapping ->
  inherits o c -> root o = c.
Proof.
  intros o c B N1 N2 N3 N4 H. apply (inherits_root o c B) in H. pose proof (root_builtin o) as B'.
  inversion H; subst; try congruence. rewrite <- H0 in B'. destruct B'.
Qed.

Lemma alias_named : forall o args, class_type o = None ->
  named (HAlias o args) = Ok (Some o) /\ class_of_hint (HAlias o args) = None.
Proof. intros o args T. split; [reflexivity|]. unfold class_of_hint. cbn. exact T. Qed.

Lemma complete : forall h t, means h t -> exists n0, forall k n, n0 <= n ->
  of_hint_with (to_hint (S k)) n h = Ok t.
Proof.
  assert (AL : forall o args t n0, class_type o = None ->
    (forall k n, n0 <= n -> other_step k n (HAlias o args) = Ok t) ->
    exists n0, forall k n, n0 <= n -> of_hint_with (to_hint (S k)) n (HAlias o args) = Ok t).
  { intros o args t n0 T H. exists (S n0). intros k [|n] L; [lia|]. rewrite of_whole. unfold whole_step.
    cbn [is_optional is_union andb]. destruct (alias_named o args T) as [-> _]. rewrite T.
    apply H. lia. }
  assert (RT : forall o c, root o = c -> class_type c = None -> class_type o = None).
  { intros o c E T. rewrite class_type_root, E. exact T. }
  apply (means_mut
    (fun h t _ => exists n0, forall k n, n0 <= n -> of_hint_with (to_hint (S k)) n h = Ok t)
    (fun fields ts _ => exists n0, forall k n, n0 <= n ->
       mapM (fun nf => rmap (pair (fst nf)) (of_hint_with (to_hint (S k)) n (snd nf))) (type_hints fields) = Ok ts)).
  - exists 1. intros k [|n] L; [lia|]. apply of_none.
  - intros h c t N T. exists 1. intros k [|n] L; [lia|]. rewrite of_whole. unfold whole_step.
    rewrite (names_not_optional h c N).
    assert (C : class_of_hint h = Some t) by (apply names_exact; eauto).
    unfold class_of_hint in C. destruct (named h) as [[c'|]|]; try discriminate. now rewrite C.
  - intros o x t I _ (n0 & H). apply inherits_is in I; try exact Logic.I; try discriminate.
    apply AL with n0; [now apply (RT o PyList)|]. intros k n L. cbn [other_step]. rewrite I. unfold one_step.
    now rewrite H.
  - intros o x t I _ (n0 & H). apply inherits_is in I; try exact Logic.I; try discriminate.
    apply AL with n0; [now apply (RT o PyTuple)|]. intros k n L. cbn [other_step]. rewrite I. now rewrite H.
  - intros o x t I _ (n0 & H). apply inherits_is in I; try exact Logic.I; try discriminate.
    apply AL with n0; [now apply (RT o PySet)|]. intros k n L. cbn [other_step]. rewrite I. unfold one_step.
    now rewrite H.
  - intros o x t I _ (n0 & H). apply inherits_is in I; try exact Logic.I; try discriminate.
    apply AL with n0; [now apply (RT o PyFrozenset)|]. intros k n L. cbn [other_step]. rewrite I. unfold one_step.
    now rewrite H.
  - intros o x y u v I _ (n0 & H) _ (n1 & H').
    assert (R : root o = PyDict \/ root o = PyMapping).
    { pose proof (root_builtin o) as B.
      destruct I as [I|I]; apply inherits_root in I; try exact Logic.I; inversion I; subst; auto;
        match goal with E : PySub _ _ = root o |- _ => rewrite <- E in B; destruct B end. }
    apply AL with (Nat.max n0 n1); [destruct R as [R|R]; now apply (RT o _ R)|]. intros k n L. cbn [other_step].
    rewrite H, H' by lia. destruct R as [-> | ->]; reflexivity.
  - intros items t E. exists 2. intros k [|[|n]] L; try lia. rewrite of_whole. unfold whole_step.
    cbn [is_optional is_union andb named accepted negb other_step]. now apply literal_exact.
  - intros b lists t E. exists 2. intros k [|[|n]] L; try lia. rewrite of_whole. unfold whole_step.
    assert (LT : forallb is_literal (map HLiteral lists) = true) by (apply literals_exact; eauto).
    unfold is_optional. cbn [is_union andb get_args]. rewrite (literal_not_none _ LT).
    cbn [named accepted negb other_step]. rewrite LT, literals_items. now apply literal_exact.
  - intros b args x t I R _ (n0 & H). exists (S n0). intros k [|n] L; [lia|]. rewrite of_whole. unfold whole_step.
    rewrite (proj2 (optional_spec (HUnion b args))) by eauto. cbn [get_args]. unfold optional_step.
    apply without_none_exact in R. rewrite <- R. cbn [union_of bind]. rewrite H by lia. reflexivity.
  - intros b args x y rest t I R _ (n0 & H). exists (S n0). intros k [|n] L; [lia|]. rewrite of_whole.
    unfold whole_step. rewrite (proj2 (optional_spec (HUnion b args))) by eauto. cbn [get_args].
    unfold optional_step. apply without_none_exact in R. rewrite <- R. cbn [union_of bind].
    rewrite H by lia. reflexivity.
  - intros name fields ts _ (n0 & H). exists (S n0). intros k [|n] L; [lia|]. rewrite of_whole.
    unfold whole_step. cbn [is_optional is_union andb named accepted negb target bound discard_annotated class_type other_step].
    now rewrite H by lia.
  - exists 0. reflexivity.
  - intros n h t fields ts _ (n0 & H) _ (n1 & H'). exists (Nat.max n0 n1). intros k m L.
    unfold type_hints. cbn [map mapM fst snd]. rewrite H by lia. cbn [rmap bind].
    fold (type_hints fields). rewrite H' by lia. reflexivity.
Qed.

Theorem meaning_sound : forall n h t, of_hint n h = Ok t -> means h t.
Proof. intros [|n] h t H; [discriminate|]. rewrite of_hint_is in H. now apply sound in H. Qed.
Theorem meaning_complete : forall h t, means h t -> exists n0, forall n, n0 <= n -> of_hint n h = Ok t.
Proof.
  intros h t M. destruct (complete h t M) as (n0 & H). exists (S n0). intros [|n] L; [lia|].
  rewrite of_hint_is. apply H. lia.
Qed.

(** ** Enums *)

Definition scalar_class (t : ty) : option phint :=
  match t with
  | Scalar Boolean _ => Some (HClass PyBool)
  | Scalar Date _ => Some (HClass PyDate)
  | Scalar (Float _) _ => Some (HClass PyFloat)
  | Scalar (Int _) _ => Some (HClass PyInt)
  | Scalar Null _ => Some HNone
  | Scalar String _ => Some (HClass PyStr)
  | Binary _ _ => Some (HClass PyBytes)
  | Timestamp _ _ => Some (HClass PyDatetime)
  | _ => None
  end.

Lemma simple_hint : forall n t, simple t -> exists h, to_hint (S (S n)) t = Ok h /\
  forall c, exists b, py_issubclass (HClass c) h = Ok b /\ (b = true <-> of_type t c).
Proof.
  intros n t Sm. rewrite to_hint_S. unfold hint_step.
  assert (IN : forall c d (P : Prop), (inherits c d -> P) -> (P -> inherits c d) ->
    exists b, Ok (issub c d) = Ok b /\ (b = true <-> P)).
  { intros c d P H1 H2. exists (issub c d). split; [reflexivity|]. rewrite issub_inherits. tauto. }
  assert (NN : forall c, is_none c = true <-> c = PyNoneType) by (intro c; apply pyclass_eqb_spec).
  destruct (is_nullable t) eqn:NU.
  - rewrite to_hint_S. unfold hint_step.
    assert (SN : is_nullable (set_nullable false t) = false) by now destruct t as [? []|? []|? []|? ? ? []|? ? []|? []|? ? ? ? []|? ? []|? []|? ? []|? []|? []].
    rewrite SN.
    assert (ON : forall c (P : Prop), (inherits c PyNoneType -> P) -> (P -> inherits c PyNoneType) ->
      exists b, py_issubclass (HClass c) (HClass PyNoneType) = Ok b /\ (b = true <-> P)).
    { intros c P H1 H2. exact (IN c PyNoneType P H1 H2). }
    assert (UN : forall c d (P : Prop), (inherits c d \/ inherits c PyNoneType <-> P) ->
      exists b, py_issubclass (HClass c) (HUnion false [HClass d; HClass PyNoneType]) = Ok b /\ (b = true <-> P)).
    { intros c d P H. exists (issub c d || issub c PyNoneType). split.
      - change (py_issubclass (HClass c) (HUnion false [HClass d; HClass PyNoneType])) with
          (bind (Ok (issub c d)) (fun b : bool => if b then Ok true else
           bind (Ok (issub c PyNoneType)) (fun b : bool => if b then Ok true else Ok false))).
        cbn [bind]. destruct (issub c d); [reflexivity|]. cbn [orb]. now destruct (issub c PyNoneType).
      - rewrite orb_true_iff, !issub_inherits. exact H. }
    destruct t as [[] m|bs m| | | | | | | | | |p m]; cbn in Sm; try contradiction; cbn [set_nullable with_meta rmap bind optional is_none pyclass_eqb];
      (eexists; split; [reflexivity|]; intro c);
      first [ apply UN; split; [intros [H|H]; [constructor; exact H|apply of_nullable; [exact NU|exact H]]
                               |intro H; inversion H; subst; auto]
            | apply ON; [intro H; apply of_nullable; [exact NU|exact H]
                        |intro H; inversion H; subst; [constructor|assumption]] ].
  - assert (NO : forall c, ~ (is_nullable t = true /\ inherits c PyNoneType)) by (intros c [X _]; congruence).
    destruct t as [[] m|bs m| | | | | | | | | |p m]; cbn in Sm; try contradiction;
      (eexists; split; [reflexivity|]; intro c);
      first [ apply IN; [intro H; constructor; exact H|intro H; inversion H; subst; [assumption|congruence]]
            | exists (is_none c); split; [reflexivity|]; rewrite NN;
              split; [intros ->; constructor|intro H; inversion H; subst; [reflexivity|congruence]] ].
Qed.

Lemma all_belong : forall (h : phint) (P : pyclass -> Prop),
  (forall c, exists b, py_issubclass (HClass c) h = Ok b /\ (b = true <-> P c)) ->
  forall l, exists oks, mapM (fun i => py_issubclass (HClass (item_class i)) h) l = Ok oks /\
    (forallb (fun b : bool => b) oks = true <-> Forall (fun i => P (item_class i)) l).
Proof.
  intros h P H. induction l as [|i l (oks & E & IH)].
  - exists []. split; [reflexivity|]. split; [constructor|reflexivity].
  - destruct (H (item_class i)) as (b & Eb & Hb). exists (b :: oks). cbn [mapM]. rewrite Eb, E. cbn [bind].
    split; [reflexivity|]. cbn [forallb]. rewrite andb_true_iff, Hb, IH. split.
    + intros [X Y]. now constructor.
    + intro F. inversion F; subst. auto.
Qed.

Theorem enum_exact : forall n name t items m, simple t ->
  (forall x, new_enum (S (S n)) name t items m = Ok x <->
     items <> [] /\ Forall (fun i => of_type t (item_class i)) items /\
     exists l, firsts [] items l /\ x = Enum name t l m) /\
  (forall e, new_enum (S (S n)) name t items m = Err e -> e = ValueError).
Proof.
  intros n name t items m Sm. destruct (simple_hint n t Sm) as (h & E & H).
  destruct (all_belong h (of_type t) H (distinct_items items)) as (oks & M & A).
  assert (FD : Forall (fun i => of_type t (item_class i)) (distinct_items items) <->
               Forall (fun i => of_type t (item_class i)) items).
  { rewrite !Forall_forall. split; intros X i I; apply X; now apply distinct_in. }
  rewrite FD in A. unfold new_enum, mk_enum. destruct items as [|i items].
  - split; [|intros e X; congruence]. intro x. split; [discriminate|]. intros [X _]. congruence.
  - rewrite E. cbn [bind]. rewrite M. cbn [bind].
    destruct (forallb (fun b => b) oks); (split; [|intros e X; congruence]); intro x; split.
    + intros [= <-]. split; [discriminate|]. split; [now apply A|]. eexists. split; [|reflexivity].
      now apply distinct_firsts.
    + intros (_ & _ & l & L & ->). apply distinct_firsts in L. now subst.
    + discriminate.
    + intros (_ & X & _). apply A in X. discriminate.
Qed.

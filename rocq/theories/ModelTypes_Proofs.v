(** Proofs about the pydantic type system. *)
From Coq Require Import ZArith List Ascii String Bool Lia Arith.
From Verif Require Import Base Str Str_Proofs Hints_Model TypeSystem_Model Types_Model PyTypes_Model PyTypes_Spec
  PyTypes_Proofs ModelTypes_Model ModelTypes_Spec.
Import ListNotations.
Open Scope list_scope.

(** * What the systems do *)
(** The Python system on hints, for any conversion of parts. *)
Definition py_step (f : ty -> result phint) (conv : phint -> unit -> result ty) (h : phint) : result ty :=
  let q c := py_issubclass h (HClass c) in
  if is_optional h then adapt_to_artigraph py_optional conv h tt else
  first_of (q PyBool) (Ok (Scalar Boolean plain)) (
  first_of (q PyFloat) (Ok (Scalar (Float F64) plain)) (
  first_of (q PyInt) (Ok (Scalar (Int B64) plain)) (
  first_of (q PyDatetime) (Ok (Timestamp Microsecond plain)) (
  if origin_in h [PyList] then adapt_to_artigraph py_list conv h tt else
  if origin_in h [PySet] then adapt_to_artigraph py_set conv h tt else
  first_of (q PyBytes) (Ok (Binary None plain)) (
  first_of (q PyDate) (Ok (Scalar Date plain)) (
  first_of (q PyStr) (Ok (Scalar String plain)) (
  match h with HNone => Ok (Scalar Null plain) | _ =>
  if origin_in h [PyTuple] && match get_args h with [_; HEllipsis] => true | _ => false end
  then adapt_to_artigraph py_tuple conv h tt else
  if origin_in h [PyFrozenset] then adapt_to_artigraph py_frozenset conv h tt else
  if is_literal h || (is_union h && forallb is_literal (get_args h))
  then adapt_to_artigraph (py_literal f) conv h tt else
  if origin_in h [PyDict; PyMapping] then adapt_to_artigraph py_map conv h tt else
  match h with HTypedDict _ _ => adapt_to_artigraph py_struct conv h tt | _ => Err NotImplementedError end
  end))))))).
Lemma py_step_is : forall f conv h,
  convert matches_system (fun a => adapt_to_artigraph a conv) (system_of (python_adapters f)) h tt = py_step f conv h.
Proof.
  intros f conv h. unfold py_step, first_of. cbn [system_of convert]. rewrite sorted_adapters. cbn [try_adapters].
  unfold py_optional at 1; cbn [matches_system]. destruct (is_optional h); [reflexivity|].
  unfold py_boolean at 1, scalar_adapter at 1; cbn [matches_system]. destruct (py_issubclass h (HClass PyBool)) as [[]|]; try reflexivity.
  unfold py_float64 at 1, scalar_adapter at 1; cbn [matches_system]. destruct (py_issubclass h (HClass PyFloat)) as [[]|] eqn:Q1; try reflexivity.
  unfold py_int64 at 1, scalar_adapter at 1; cbn [matches_system]. destruct (py_issubclass h (HClass PyInt)) as [[]|] eqn:Q2; try reflexivity.
  unfold py_float32 at 1, scalar_adapter at 1; cbn [matches_system]. rewrite Q1.
  unfold py_int32 at 1, scalar_adapter at 1; cbn [matches_system]. rewrite Q2.
  unfold py_float16 at 1, scalar_adapter at 1; cbn [matches_system]. rewrite Q1.
  unfold py_int16 at 1, scalar_adapter at 1; cbn [matches_system]. rewrite Q2.
  unfold py_int8 at 1, scalar_adapter at 1; cbn [matches_system]. rewrite Q2.
  unfold py_datetime at 1, scalar_adapter at 1; cbn [matches_system]. destruct (py_issubclass h (HClass PyDatetime)) as [[]|]; try reflexivity.
  unfold py_list at 1, container_adapter at 1; cbn [matches_system]. destruct (origin_in h [PyList]); [reflexivity|].
  unfold py_set at 1, container_adapter at 1; cbn [matches_system]. destruct (origin_in h [PySet]); [reflexivity|].
  unfold py_binary at 1, scalar_adapter at 1; cbn [matches_system]. destruct (py_issubclass h (HClass PyBytes)) as [[]|]; try reflexivity.
  unfold py_date at 1, scalar_adapter at 1; cbn [matches_system]. destruct (py_issubclass h (HClass PyDate)) as [[]|]; try reflexivity.
  unfold py_string at 1, scalar_adapter at 1; cbn [matches_system]. destruct (py_issubclass h (HClass PyStr)) as [[]|]; try reflexivity.
  unfold py_none at 1; cbn [matches_system]. destruct h; try reflexivity;
  cbn [matches_system py_tuple py_frozenset container_adapter py_literal py_map py_struct];
  repeat match goal with |- context [if ?b then _ else _] => destruct b; try reflexivity end.
Qed.
Lemma hint_step_is : forall f conv t,
  convert matches_artigraph (fun a => adapt_to_system a conv) (system_of (python_adapters f)) t tt = hint_step (fun x => conv x tt) t.
Proof.
  intros f conv t. cbn [system_of convert]. rewrite sorted_adapters.
  unfold hint_step. cbn [try_adapters matches_artigraph py_optional].
  destruct (is_nullable t); [reflexivity|].
  destruct t as [[]| | | | | | | | | | |]; try destruct w; reflexivity.
Qed.
Lemma consulted : forall A (r : unit -> result A),
  match r tt with Err NotImplementedError => Err NotImplementedError | r => r end = r tt.
Proof. intros A r. destruct (r tt) as [a|[]]; reflexivity. Qed.

Section Models.
  Context (reserved : str -> bool).
  Notation to_model := (to_model reserved).
  Notation of_model := (of_model reserved).
  Definition of_model_with (f : ty -> result phint) (n : nat) (h : phint) : result ty :=
    to_artigraph n (model_system reserved f) h tt.
  Lemma of_model_is : forall n h, of_model n h = of_model_with (to_hint n) n h.
  Proof. reflexivity. Qed.

  Lemma to_model_S : forall n t, to_model (S n) t =
    match t with
    | Struct name fields _ => bind (mapM (fun nf => rmap (pair (fst nf)) (to_model n (snd nf))) fields) (create_model reserved name)
    | _ => hint_step (to_model n) t
    end.
  Proof.
    intros n t. unfold ModelTypes_Model.to_model at 1, model_system. cbn [to_system convert map].
    rewrite hint_step_is. destruct t; try reflexivity; exact (consulted _ (fun _ => hint_step (to_model n) _)).
  Qed.
  Lemma to_model_O : forall t, to_model 0 t = Err RecursionError.
  Proof. reflexivity. Qed.

  Lemma of_model_S : forall f n h, of_model_with f (S n) h =
    match py_issubclass h (HClass base_model) with
    | Ok true => adapt_to_artigraph (base_model_adapter reserved) (fun x _ => of_model_with f n x) h tt
    | Ok false => py_step f (fun x _ => of_model_with f n x) h
    | Err e => Err e
    end.
  Proof.
    intros f n h. unfold of_model_with at 1, model_system. cbn [to_artigraph convert].
    rewrite py_step_is. cbn [priority_sorted map fold_right insert_priority snd try_adapters matches_system base_model_adapter].
    destruct (py_issubclass h (HClass base_model)) as [[]|]; [reflexivity| |reflexivity].
    exact (consulted _ (fun _ => py_step f (fun x _ => of_model_with f n x) h)).
  Qed.
  Lemma of_model_O : forall f h, of_model_with f 0 h = Err RecursionError.
  Proof. reflexivity. Qed.

  (** * Which types have a model *)
  Lemma private_spec : forall s, private s = true <-> underscored s.
  Proof.
    intros s. unfold underscored. split.
    - destruct s as [|a s]; [discriminate|]. intro H. exists s. f_equal. cbn in H. destruct a as [[] [] [] [] [] [] [] []]; try discriminate H; reflexivity.
    - intros [r ->]. reflexivity.
  Qed.
  Definition public (nh : str * phint) : bool := negb (private (fst nh)).
  Definition ok_field (nh : str * phint) : Prop := private (fst nh) = true \/ (snd nh <> HNone /\ reserved (fst nh) = false).
  Lemma create_ok : forall name l, Forall ok_field l ->
    create_model reserved name l = Ok (HModel (PySub base_model name) (filter public l)).
  Proof.
    intros name l F. unfold create_model. fold public.
    assert (A : forall nh, In nh (filter public l) -> snd nh <> HNone /\ reserved (fst nh) = false).
    { intros nh I. apply filter_In in I. destruct I as [I P]. rewrite Forall_forall in F. destruct (F nh I) as [Q|Q]; [|exact Q].
      unfold public in P. rewrite Q in P. discriminate. }
    destruct (existsb _ (filter public l)) eqn:E1.
    { apply existsb_exists in E1. destruct E1 as (nh & I & H). destruct (A nh I) as [N _]. destruct (snd nh); try discriminate; contradiction. }
    destruct (existsb (fun nh => reserved _) (filter public l)) eqn:E2; [|reflexivity].
    apply existsb_exists in E2. destruct E2 as (nh & I & H). destruct (A nh I) as [_ N]. rewrite N in H. discriminate.
  Qed.
  Lemma create_err : forall name l h, create_model reserved name l = Ok h -> Forall ok_field l.
  Proof.
    intros name l h. unfold create_model. fold public. destruct (existsb _ (filter public l)) eqn:E1; [discriminate|].
    destruct (existsb (fun nh => reserved _) (filter public l)) eqn:E2; [discriminate|]. intros _.
    apply Forall_forall. intros nh I. unfold ok_field. destruct (private (fst nh)) eqn:P; [left; reflexivity|right].
    assert (J : In nh (filter public l)) by (apply filter_In; split; [exact I|unfold public; rewrite P; reflexivity]).
    split.
    - intro H. assert (X : existsb (fun nh : str * phint => match snd nh with HNone => true | _ => false end) (filter public l) = true)
        by (apply existsb_exists; exists nh; rewrite H; auto). congruence.
    - destruct (reserved (fst nh)) eqn:R; [|reflexivity].
      assert (X : existsb (fun nh : str * phint => reserved (fst nh)) (filter public l) = true) by (apply existsb_exists; exists nh; auto). congruence.
  Qed.
  Lemma create_errors : forall name l e, create_model reserved name l = Err e -> e = TypeError \/ e = UserError 1.
  Proof.
    intros name l e. unfold create_model. destruct (existsb _ _); [intro H; injection H as <-; auto|].
    destruct (existsb _ _); [intro H; injection H as <-; auto|discriminate].
  Qed.

  Definition structy (t : ty) : bool := match t with Struct _ _ _ => true | _ => false end.
  Lemma to_model_step : forall n t, structy t = false -> to_model (S n) t = hint_step (to_model n) t.
  Proof. intros n t S. rewrite to_model_S. destruct t; try reflexivity. discriminate. Qed.
  Lemma to_model_struct : forall n name fields m, to_model (S n) (Struct name fields m) =
    bind (mapM (fun nf => rmap (pair (fst nf)) (to_model n (snd nf))) fields) (create_model reserved name).
  Proof. intros. rewrite to_model_S. reflexivity. Qed.
  Lemma structy_nullable : forall b t, structy (set_nullable b t) = structy t.
  Proof. intros b []; reflexivity. Qed.

  Lemma model_shape : forall n t h, to_model n t = Ok h ->
    (is_nullable t = false \/ structy t = true -> is_none_type h = false /\ is_union h = false) /\
    (h = HNone <-> is_nullable t = false /\ ~ never_null t).
  Proof.
    induction n as [|n IH]; intros t h; [rewrite to_model_O; discriminate|].
    destruct (structy t) eqn:ST.
    { destruct t; try discriminate. rewrite to_model_struct. destruct (mapM _ fields) as [l|]; [|discriminate]. cbn [bind]. intro C.
      pose proof (create_err _ _ _ C) as F. rewrite create_ok in C by exact F. injection C as <-. split; [auto|]. split; [discriminate|].
      intros [_ X]. exfalso. apply X. intros ? Y. discriminate Y. }
    rewrite to_model_step by exact ST. unfold hint_step.
    destruct (is_nullable t) eqn:N.
    - destruct (to_model n (set_nullable false t)) as [x|] eqn:E; [|discriminate]. cbn [rmap]. intro H. injection H as <-.
      split; [intros [X|X]; discriminate|]. split; [|intros [X _]; discriminate].
      destruct (IH _ _ E) as [U _]. destruct U as [U1 U2]; [left; unfold is_nullable; rewrite set_nullable_meta; reflexivity|].
      destruct x; cbn in *; try discriminate. rewrite U1. discriminate.
    - assert (NV : (forall m, t <> Scalar Null m) -> h <> HNone -> (h = HNone <-> false = false /\ ~ never_null t)).
      { intros A B. split; [contradiction|]. intros [_ C]. exfalso. apply C. exact A. }
      assert (NV' : (forall m, t <> Scalar Null m) -> h <> HNone -> is_none_type h = false -> is_union h = false ->
        (false = false \/ false = true -> is_none_type h = false /\ is_union h = false) /\ (h = HNone <-> false = false /\ ~ never_null t)) by (intros; split; auto).
      destruct t as [s m|b m|p m|nm t i m|f s m|e m|nm e p c m|k v m|e m|nm fs m|p m|p m]; try discriminate ST.
      + destruct s; intro H; inversion H; subst h; try (apply NV'; [intros ? X; discriminate X|discriminate|reflexivity|reflexivity]).
        split; [auto|]. split; [intros _; split; [reflexivity|intro X; exact (X m eq_refl)]|reflexivity].
      + intro H; inversion H; subst h. apply NV'; [intros ? X; discriminate X|discriminate|reflexivity|reflexivity].
      + discriminate.
      + intro H; inversion H; subst h. apply NV'; [intros ? X; discriminate X|discriminate|reflexivity|reflexivity].
      + discriminate.
      + destruct (to_model n e) as [x|] eqn:E; [|discriminate]. intro H; inversion H; subst h. apply NV'; [intros ? X; discriminate X|discriminate|reflexivity|reflexivity].
      + destruct (to_model n e) as [x|] eqn:E; [|discriminate]. intro H; inversion H; subst h. apply NV'; [intros ? X; discriminate X|discriminate|reflexivity|reflexivity].
      + destruct (to_model n k) as [x|] eqn:E; [|discriminate]. cbn [bind]. destruct (to_model n v) as [y|] eqn:E'; [|discriminate].
        intro H; inversion H; subst h. apply NV'; [intros ? X; discriminate X|discriminate|reflexivity|reflexivity].
      + destruct (to_model n e) as [x|] eqn:E; [|discriminate]. intro H; inversion H; subst h. apply NV'; [intros ? X; discriminate X|discriminate|reflexivity|reflexivity].
      + discriminate.
      + intro H; inversion H; subst h. apply NV'; [intros ? X; discriminate X|discriminate|reflexivity|reflexivity].
  Qed.

  Lemma has_model_nullable : forall t, has_model reserved (set_nullable false t) <-> has_model reserved t.
  Proof. destruct t; cbn; split; intro H; inversion H; constructor; assumption. Qed.

  Definition refusal (e : exn) : Prop := e = NotImplementedError \/ e = TypeError \/ e = UserError 1.
  Definition field_fine (nf : str * ty) : Prop :=
    underscored (fst nf) \/ (reserved (fst nf) = false /\ forall m, snd nf = Scalar Null m -> nullable m = true).
  Lemma fields_fine : forall n fs l, mapM (fun nf => rmap (pair (fst nf)) (to_model n (snd nf))) fs = Ok l ->
    (Forall ok_field l <-> Forall field_fine fs).
  Proof.
    intros n. induction fs as [|g fs IH]; intros l M; [injection M as <-; split; constructor|].
    cbn [mapM] in M. destruct (to_model n (snd g)) as [h|] eqn:E; [|discriminate]. cbn [rmap bind] in M.
    destruct (mapM _ fs) as [l'|] eqn:E'; [|discriminate]. injection M as <-. rewrite !Forall_cons_iff, (IH l' eq_refl).
    destruct (model_shape _ _ _ E) as [_ [H1 H2]].
    assert (Q : h <> HNone <-> forall m, snd g = Scalar Null m -> nullable m = true).
    { split.
      - intros N m S. destruct (nullable m) eqn:B; [reflexivity|]. exfalso. apply N, H2. rewrite S. split; [exact B|]. intro X. exact (X m eq_refl).
      - intros A ->. destruct (H1 eq_refl) as [B C]. apply C. intros m S. specialize (A m S). rewrite S in B. unfold is_nullable in B. cbn in B. congruence. }
    assert (K : ok_field (fst g, h) <-> field_fine g) by (unfold ok_field, field_fine; cbn [fst snd]; rewrite private_spec, Q; tauto).
    rewrite K. tauto.
  Qed.

  Theorem models_exist : forall n t, levels t <= n ->
    (has_model reserved t /\ exists h, to_model n t = Ok h) \/ (~ has_model reserved t /\ exists e, to_model n t = Err e /\ refusal e).
  Proof.
    induction n as [|n IH]; intros t L; [pose proof (levels_pos t); lia|].
    assert (NI : forall e, e = NotImplementedError -> refusal e) by (left; assumption).
    destruct (structy t) eqn:ST.
    { destruct t as [| | | | | | | | |nm fs m| |]; try discriminate. rewrite to_model_struct. cbn [levels] in L.
      assert (A : (Forall (fun nf => has_model reserved (snd nf)) fs /\ exists l, mapM (fun nf => rmap (pair (fst nf)) (to_model n (snd nf))) fs = Ok l) \/
                  (~ Forall (fun nf => has_model reserved (snd nf)) fs /\ exists e, mapM (fun nf => rmap (pair (fst nf)) (to_model n (snd nf))) fs = Err e /\ refusal e)).
      { assert (L' : fold_right (fun nf n => Nat.max (levels (snd nf)) n) 0 fs <= n) by lia. clear L ST.
        induction fs as [|g l IHl]; [left; split; [constructor|exists []; reflexivity]|].
        cbn [fold_right] in L'. cbn [mapM]. destruct (IH (snd g)) as [[H [h E]]|[H [e [E R]]]]; [lia| |].
        - destruct IHl as [[F [l' E']]|[F [e [E' R]]]]; [lia|left|right]; rewrite E, E'; cbn.
          + split; [constructor; assumption|eexists; reflexivity].
          + split; [intro X; inversion X; contradiction|eexists; split; [reflexivity|exact R]].
        - right. rewrite E. split; [intro X; inversion X; contradiction|eexists; split; [reflexivity|exact R]]. }
      destruct A as [[F [l E]]|[F [e [E R]]]]; rewrite E; cbn [bind].
      - pose proof (fields_fine _ _ _ E) as FF. destruct (create_model reserved nm l) as [h|e] eqn:C; [left|right].
        + split; [|eexists; reflexivity]. constructor. apply create_err in C. apply FF in C. rewrite Forall_forall in *. intros nf I. exact (conj (F nf I) (C nf I)).
        + split; [|exists e; split; [reflexivity|]]. 2: { destruct (create_errors _ _ _ C); [right; left; assumption|right; right; assumption]. }
          intro X. inversion X as [| | | | | | | |? ? ? HF]; subst. assert (Y : Forall ok_field l) by (apply FF; rewrite Forall_forall in *; intros nf I; exact (proj2 (HF nf I))).
          rewrite create_ok in C by exact Y. discriminate.
      - right. split; [|exists e; auto]. intro X. inversion X as [| | | | | | | |? ? ? HF]; subst. apply F. rewrite Forall_forall in *. intros nf I. exact (proj1 (HF nf I)). }
    rewrite to_model_step by exact ST. unfold hint_step.
    destruct (is_nullable t) eqn:N.
    { rewrite (levels_nullable t N) in L. destruct (IH (set_nullable false t)) as [[H [h E]]|[H [e [E R]]]]; [lia| |].
      - left. split; [apply has_model_nullable; exact H|]. rewrite E. exists (optional h). reflexivity.
      - right. split; [intro K; apply H, has_model_nullable, K|]. rewrite E. exists e. auto. }
    destruct t as [s m|b m|p m|nm t i m|f s m|e m|nm e p c m|k v m|e m|nm fs m|p m|p m]; cbn [levels] in L; rewrite ?N in L; cbn [plus] in L; try discriminate ST.
    - destruct s; (left; split; [constructor; intros ? X; discriminate X|eexists; reflexivity]) || (right; split; [intro H; inversion H; subst; eapply H1; reflexivity|eexists; split; [reflexivity|left; reflexivity]]).
    - left. split; [constructor|eexists; reflexivity].
    - right. split; [intro H; inversion H|eexists; split; [reflexivity|left; reflexivity]].
    - left. split; [constructor|eexists; reflexivity].
    - right. split; [intro H; inversion H|eexists; split; [reflexivity|left; reflexivity]].
    - destruct (IH e) as [[H [h E]]|[H [x [E R]]]]; [lia|left|right]; rewrite E.
      + split; [constructor; exact H|eexists; reflexivity].
      + split; [intro X; inversion X; contradiction|eexists; split; [reflexivity|exact R]].
    - destruct (IH e) as [[H [h E]]|[H [x [E R]]]]; [lia|left|right]; rewrite E.
      + split; [constructor; exact H|eexists; reflexivity].
      + split; [intro X; inversion X; contradiction|eexists; split; [reflexivity|exact R]].
    - destruct (IH k) as [[H [h E]]|[H [x [E R]]]]; [lia| |].
      + destruct (IH v) as [[H' [h' E']]|[H' [x [E' R]]]]; [lia|left|right]; rewrite E, E'.
        * split; [constructor; assumption|eexists; reflexivity].
        * split; [intro X; inversion X; contradiction|eexists; split; [reflexivity|exact R]].
      + right. rewrite E. split; [intro X; inversion X; contradiction|eexists; split; [reflexivity|exact R]].
    - destruct (IH e) as [[H [h E]]|[H [x [E R]]]]; [lia|left|right]; rewrite E.
      + split; [constructor; exact H|eexists; reflexivity].
      + split; [intro X; inversion X; contradiction|eexists; split; [reflexivity|exact R]].
    - right. split; [intro H; inversion H|eexists; split; [reflexivity|left; reflexivity]].
    - left. split; [constructor|eexists; reflexivity].
  Qed.

  (** * There and back *)
  Section Steps.
    Context (f : ty -> result phint) (n : nat).
    Lemma ofm_none : of_model_with f (S n) HNone = Ok (Scalar Null plain).
    Proof. reflexivity. Qed.
    Lemma ofm_list : forall x, of_model_with f (S n) (HAlias PyList [x]) = rmap (fun e => List e plain) (of_model_with f n x).
    Proof. intros. rewrite of_model_S. reflexivity. Qed.
    Lemma ofm_set : forall x, of_model_with f (S n) (HAlias PySet [x]) = rmap (fun e => Set_ e plain) (of_model_with f n x).
    Proof. intros. rewrite of_model_S. reflexivity. Qed.
    Lemma ofm_dict : forall k v, of_model_with f (S n) (HAlias PyDict [k; v]) =
      bind (of_model_with f n k) (fun k' => rmap (fun v' => Map k' v' plain) (of_model_with f n v)).
    Proof. intros. rewrite of_model_S. reflexivity. Qed.
    Lemma ofm_optional : forall h, is_none_type h = false ->
      of_model_with f (S n) (HUnion false [h; HClass PyNoneType]) = rmap (set_nullable true) (of_model_with f n h).
    Proof.
      intros h H. rewrite of_model_S. change (py_issubclass (HUnion false [h; HClass PyNoneType]) (HClass base_model)) with (@Ok bool false).
      cbv iota. unfold py_step.
      replace (is_optional _) with true by (unfold is_optional; cbn [is_union get_args existsb andb]; rewrite H; reflexivity).
      cbn [adapt_to_artigraph py_optional get_args filter]. rewrite H. reflexivity.
    Qed.
    Lemma ofm_literal : forall items, of_model_with f (S n) (HLiteral items) =
      match items with
      | [] => Err NotImplementedError
      | i :: others =>
          if forallb (fun j => pyclass_eqb (item_class j) (item_class i)) others
          then bind (of_model_with f n (HClass (item_class i))) (fun t => mk_enum f anon t items plain)
          else Err ValueError
      end.
    Proof. intros items. rewrite of_model_S. destruct items; reflexivity. Qed.
    Lemma ofm_class : forall c, of_model_with f (S n) (HClass c) =
      if issub c base_model then Ok (Struct (class_name c) [] plain)
      else match class_type c with Some t => Ok t | None => Err NotImplementedError end.
    Proof.
      intros c. rewrite of_model_S. change (py_issubclass (HClass c) (HClass base_model)) with (@Ok bool (issub c base_model)).
      destruct (issub c base_model); [reflexivity|]. rewrite <- (of_class f n c). unfold of_hint_with. cbn [to_artigraph]. rewrite py_step_is. reflexivity.
    Qed.
    Lemma ofm_model : forall name fields, of_model_with f (S n) (HModel (PySub base_model name) fields) =
      rmap (fun fs => Struct name fs plain)
        (mapM (fun nf => rmap (fun t => (fst nf, renamed (fst nf) t)) (of_model_with f n (snd nf))) fields).
    Proof.
      intros name fields. rewrite of_model_S.
      replace (py_issubclass _ _) with (@Ok bool true); [reflexivity|]. symmetry.
      change (@Ok bool (issub (PySub base_model name) base_model) = Ok true). reflexivity.
    Qed.
  End Steps.
  Arguments of_model_with : simpl never.

  Lemma class_type_no_model : forall c t, class_type c = Some t -> issub c base_model = false.
  Proof.
    induction c; intros t H; cbn in H; try discriminate H; try reflexivity. cbn [issub]. rewrite (IHc t H).
    cbn. destruct c; try reflexivity. discriminate.
  Qed.
  (** A Literal of models is no Enum. *)
  Lemma no_model_enum : forall k name items cls, items <> [] -> mk_enum (to_hint (S k)) anon (Struct cls [] plain) items plain = Ok name -> False.
  Proof.
    intros k name items cls NE. unfold mk_enum. destruct items as [|i l]; [contradiction|].
    rewrite to_hint_S. cbn [hint_step is_nullable meta_of plain nullable mapM rmap bind distinct_items typed_dict map].
    change (py_issubclass (HClass (item_class i)) (typed_dict cls [])) with (@Err bool TypeError). discriminate.
  Qed.

  Definition name_of (t : ty) : option str :=
    match t with Enum n _ _ _ | Collection n _ _ _ _ | Struct n _ _ => Some n | _ => None end.
  Lemma renamed_is : forall n t, renamed n t = named_after n t.
  Proof. intros n []; reflexivity. Qed.
  Lemma named_inj : forall n x y, name_of x = name_of y -> named_after n x = named_after n y -> x = y.
  Proof. intros n x y N E. destruct x, y; cbn in *; try discriminate; try congruence. Qed.
  Lemma name_nullable : forall b t, name_of (set_nullable b t) = name_of t.
  Proof. intros b []; reflexivity. Qed.
  Lemma modelled_nullable : forall b t, modelled (set_nullable b t) = set_nullable b (modelled t).
  Proof. intros b t. destruct t as [[]| | | | | | | | | | |]; reflexivity. Qed.
  Lemma modelled_meta : forall t, meta_of (modelled t) = undescribed (meta_of t).
  Proof. intros t. destruct t as [[]| | | | | | | | | | |]; reflexivity. Qed.
  Lemma faithful_nullable : forall t, never_null t -> structy t = false -> (faithful (set_nullable false t) <-> faithful t).
  Proof.
    intros t NN S. destruct t; try discriminate S; cbn; split; intro H; inversion H; subst; try (constructor; assumption); try (econstructor; eassumption).
    - constructor; [assumption|]. intros ->. destruct (NN m eq_refl).
    - constructor; [assumption|]. reflexivity.
  Qed.

  Section Back.
    Context (k : nat).
    Notation back := (of_model_with (to_hint (S k))).

    (** What comes back has the same name, and is plain unless the type is nullable. *)
    Lemma comes_back : forall n m t h x, to_model n t = Ok h -> back m h = Ok x ->
      name_of x = name_of (modelled t) /\ (is_nullable t = false -> meta_of x = plain).
    Proof.
      induction n as [|n IH]; intros m t h x T B; [discriminate T|]. destruct m as [|m]; [discriminate B|].
      destruct (structy t) eqn:ST.
      { destruct t as [| | | | | | | | |nm fs mt| |]; try discriminate. rewrite to_model_struct in T.
        destruct (mapM _ fs) as [l|]; [|discriminate]. cbn [bind] in T.
        rewrite create_ok in T by exact (create_err _ _ _ T). injection T as <-. rewrite ofm_model in B.
        destruct (mapM _ _); [|discriminate]. injection B as <-. split; reflexivity. }
      rewrite to_model_step in T by exact ST. unfold hint_step in T. destruct (is_nullable t) eqn:N.
      { destruct (to_model n (set_nullable false t)) as [y|] eqn:E; [|discriminate]. injection T as <-. split; [|discriminate].
        destruct (model_shape _ _ _ E) as [U Hn]. destruct U as [U1 U2]; [left; unfold is_nullable; rewrite set_nullable_meta; reflexivity|].
        assert (D : y = HNone \/ optional y = HUnion false [y; HClass PyNoneType]).
        { destruct y; try (right; reflexivity); [left; reflexivity| |discriminate U2]. right. cbn in *. rewrite U1. reflexivity. }
        destruct D as [->|D]; [discriminate B|]. rewrite D, ofm_optional in B by exact U1.
        destruct (back m y) as [z|] eqn:E'; [|discriminate]. injection B as <-. rewrite name_nullable.
        destruct (IH _ _ _ _ E E') as [A _]. rewrite modelled_nullable, name_nullable in A. exact A. }
      assert (C : forall c, (exists u, class_type c = Some u) -> back (S m) (HClass c) = Ok x -> name_of x = None /\ (false = false -> meta_of x = plain)).
      { intros c [u E] B'. rewrite ofm_class, (class_type_no_model _ _ E), E in B'. injection B' as <-. split; [|intros _; exact (class_type_plain _ _ E)].
        clear -E. revert u E. induction c; intros u E; cbn in E; try discriminate; try (injection E as <-; reflexivity). exact (IHc u E). }
      destruct t as [s mt|b mt|p mt|nm t i mt|f s mt|e mt|nm e p c mt|kt v mt|e mt|nm fs mt|p mt|p mt]; try discriminate ST.
      - destruct s; inversion T; subst h; try (eapply C; [|exact B]; eexists; reflexivity). rewrite ofm_none in B. injection B as <-. split; reflexivity.
      - inversion T; subst h. eapply C; [|exact B]; eexists; reflexivity.
      - discriminate.
      - inversion T; subst h. rewrite ofm_literal in B. destruct i as [|i others]; [discriminate|].
        destruct (forallb _ _); [|discriminate]. destruct (back m _); [|discriminate]. cbn [bind] in B.
        apply mk_enum_is in B. destruct B as [-> _]. split; reflexivity.
      - discriminate.
      - destruct (to_model n e); [|discriminate]. inversion T; subst h. rewrite ofm_list in B. destruct (back m _); [|discriminate]. injection B as <-. split; reflexivity.
      - destruct (to_model n e); [|discriminate]. inversion T; subst h. rewrite ofm_list in B. destruct (back m _); [|discriminate]. injection B as <-. split; reflexivity.
      - destruct (to_model n kt); [|discriminate]. cbn [bind] in T. destruct (to_model n v); [|discriminate]. inversion T; subst h. rewrite ofm_dict in B.
        destruct (back m _); [|discriminate]. cbn [bind] in B. destruct (back m _); [|discriminate]. injection B as <-. split; reflexivity.
      - destruct (to_model n e); [|discriminate]. inversion T; subst h. rewrite ofm_set in B. destruct (back m _); [|discriminate]. injection B as <-. split; reflexivity.
      - discriminate.
      - inversion T; subst h. eapply C; [|exact B]; eexists; reflexivity.
    Qed.

    Definition made (nf : str * ty) : str * ty := (fst nf, named_after (fst nf) (modelled (snd nf))).
    Lemma back_model_fields : forall n m (fs : list (str * ty)) l,
      (forall g h, In g fs -> to_model n (snd g) = Ok h -> back m h = Ok (modelled (snd g)) <-> faithful (snd g)) ->
      mapM (fun nf => rmap (pair (fst nf)) (to_model n (snd nf))) fs = Ok l ->
      (mapM (fun nf => rmap (fun t => (fst nf, renamed (fst nf) t)) (back m (snd nf))) (filter public l) = Ok (map made fs) <->
       Forall (fun nf => faithful (snd nf) /\ ~ underscored (fst nf)) fs).
    Proof.
      intros n m fs l A M. split.
      - (* the number of fields shows that none was left out *)
        intro B.
        assert (LEN : forall (A B : Type) (g : A -> result B) l l', mapM g l = Ok l' -> List.length l' = List.length l).
        { clear. intros A B g. induction l as [|a l IH]; intros l' H; cbn [mapM] in H; [injection H as <-; reflexivity|].
          destruct (g a); [|discriminate]. cbn [bind] in H. destruct (mapM g l); [|discriminate]. injection H as <-. cbn. f_equal. apply IH. reflexivity. }
        assert (K : filter public l = l).
        { pose proof (LEN _ _ _ _ _ B) as L1. pose proof (LEN _ _ _ _ _ M) as L2. rewrite map_length in L1.
          assert (L3 : List.length (filter public l) = List.length l) by congruence. clear -L3.
          induction l as [|x l IH]; [reflexivity|]. cbn in *. destruct (public x); [cbn in L3; f_equal; apply IH; lia|].
          assert (List.length (filter public l) <= List.length l) by (clear; induction l as [|y l IH]; cbn; [lia|]; destruct (public y); cbn; lia). lia. }
        assert (P : Forall (fun nh => public nh = true) l) by (apply Forall_forall; intros nh I; rewrite <- K in I; apply filter_In in I; apply I).
        rewrite K in B. clear K. revert l M B P. induction fs as [|g fs IH]; intros l M B P; [constructor|].
        cbn [mapM] in M. destruct (to_model n (snd g)) as [h|] eqn:H; [|discriminate]. cbn [rmap bind] in M.
        destruct (mapM _ fs) as [l'|] eqn:E; [|discriminate]. injection M as <-. cbn [mapM fst snd map] in B.
        destruct (back m h) as [x|] eqn:BH; [|discriminate]. cbn [rmap bind] in B. destruct (mapM _ l') as [ys|] eqn:E'; [|discriminate].
        cbn [bind] in B. injection B as B1 B2. apply Forall_cons_iff in P. destruct P as [P1 P2]. constructor.
        + split.
          * apply (A g h (or_introl eq_refl) H). rewrite BH. f_equal. destruct (comes_back _ _ _ _ _ H BH) as [Nm _]. rewrite renamed_is in B1. exact (named_inj _ _ _ Nm B1).
          * intro U. apply private_spec in U. unfold public in P1. cbn [fst] in P1. rewrite U in P1. discriminate.
        + apply (IH (fun g h I => A g h (or_intror I)) l' eq_refl); [|exact P2]. subst ys. exact E'.
      - intro F. revert l M. induction F as [|g fs [F1 F2] F IH]; intros l M; [injection M as <-; reflexivity|].
        cbn [mapM] in M. destruct (to_model n (snd g)) as [h|] eqn:H; [|discriminate]. cbn [rmap bind] in M.
        destruct (mapM _ fs) as [l'|] eqn:E; [|discriminate]. injection M as <-. cbn [filter]. unfold public at 1. cbn [fst].
        destruct (private (fst g)) eqn:P; [destruct (F2 (proj1 (private_spec _) P))|]. cbn [negb mapM fst snd map].
        rewrite (proj2 (A g h (or_introl eq_refl) H) F1). cbn [rmap bind]. rewrite (IH (fun g h I => A g h (or_intror I)) l' eq_refl). cbn [bind]. rewrite renamed_is. reflexivity.
    Qed.

    Theorem model_round_trip : forall n t h, levels t <= n -> to_model n t = Ok h ->
      (back n h = Ok (modelled t) <-> faithful t).
    Proof.
      induction n as [|n IH]; intros t h L T; [discriminate|]. destruct (structy t) eqn:ST.
      { destruct t as [| | | | | | | | |nm fs m| |]; try discriminate. rewrite to_model_struct in T.
        destruct (mapM _ fs) as [l|] eqn:E; [|discriminate]. cbn [bind] in T. rewrite create_ok in T by exact (create_err _ _ _ T). injection T as <-.
        rewrite ofm_model. cbn [modelled]. fold made. cbn [levels] in L.
        assert (LF : forall g, In g fs -> levels (snd g) <= n) by (intros g I; pose proof (field_levels fs g I); lia).
        pose proof (back_model_fields n n fs l (fun g h I => IH (snd g) h (LF g I)) E) as BF. split.
        - destruct (mapM _ (filter _ _)) as [ys|] eqn:B; [|discriminate]. cbn [rmap]. intro Y. injection Y as Y1 Y2. subst ys.
          constructor; [rewrite <- Y2; reflexivity|apply BF; reflexivity].
        - intro X. inversion X as [| | | | | | | |? ? ? X1 X2]; subst. rewrite (proj2 BF) by exact X2. cbn [rmap]. rewrite (undescribed_plain _ X1). reflexivity. }
      rewrite to_model_step in T by exact ST. unfold hint_step in T. destruct (is_nullable t) eqn:N.
      - rewrite (levels_nullable t N) in L. destruct (to_model n (set_nullable false t)) as [x|] eqn:E; [|discriminate].
        injection T as <-. assert (N' : is_nullable (set_nullable false t) = false) by (unfold is_nullable; rewrite set_nullable_meta; reflexivity).
        destruct (model_shape _ _ _ E) as (U & Hn). destruct (U (or_introl N')) as [U1 U2].
        destruct (null_or_not t) as [[m Z]|NV].
        + subst t. assert (x = HNone) by (apply Hn; split; [exact N'|intro NV; exact (NV _ eq_refl)]). subst x.
          cbn [optional]. rewrite ofm_class. split; [discriminate|]. intro X. inversion X as [? ? H1 H2| | | | | | | |]; subst.
          unfold is_nullable in N. cbn in N. rewrite H2 in N by reflexivity. discriminate.
        + assert (NV' : never_null (set_nullable false t)) by (intros m X; destruct t; try discriminate X; injection X as -> _; exact (NV _ eq_refl)).
          rewrite optional_of by (try assumption; intros ->; destruct (proj1 Hn eq_refl); contradiction).
          rewrite ofm_optional by exact U1. rewrite <- (faithful_nullable t NV ST), <- (IH _ _ (le_S_n _ _ L) E).
          destruct (back n x) as [y|] eqn:B; cbn [rmap].
          * assert (P : meta_of y = plain) by exact (proj2 (comes_back _ _ _ _ _ E B) N').
            assert (P' : meta_of (modelled (set_nullable false t)) = plain) by (rewrite modelled_meta, set_nullable_meta; reflexivity).
            assert (Q : set_nullable true (modelled (set_nullable false t)) = modelled t).
            { rewrite modelled_nullable. unfold is_nullable in N. destruct t as [[] []|? []|? []|? ? ? []|? ? []|? []|? ? ? ? []|? ? []|? []|? ? []|? []|? []]; cbn in N; subst; reflexivity. }
            split; intro Y; injection Y as Y.
            -- f_equal. apply set_nullable_inj; [exact P|exact P'|]. rewrite Q. exact Y.
            -- subst y. rewrite Q. reflexivity.
          * split; discriminate.
      - destruct t as [s m|b m|p m|nm t i m|f s m|e m|nm e p c m|kt v m|e m|nm fs m|p m|p m]; try discriminate ST;
          cbn [levels] in L; rewrite ?N in L; cbn [plus] in L; unfold is_nullable in N; cbn [meta_of] in N.
        + destruct s; inversion T; subst h; rewrite ?ofm_class, ?ofm_none; cbn [class_type modelled widened]; rewrite (undescribed_plain _ N);
            (split; [intros _; constructor; [intros ? X; discriminate X|intro; assumption]|reflexivity]).
        + inversion T; subst h. rewrite ofm_class. cbn [class_type modelled widened]. rewrite (undescribed_plain _ N). split; [constructor|reflexivity].
        + discriminate.
        + inversion T; subst h. rewrite ofm_literal. cbn [modelled widened]. rewrite (undescribed_plain _ N). destruct n as [|n]; [lia|]. split.
          * destruct i as [|j others]; [discriminate|]. destruct (forallb _ _) eqn:F; [|discriminate]. rewrite ofm_class.
            destruct (issub (item_class j) base_model).
            { cbn [bind]. intro B. destruct (no_model_enum k _ (j :: others) (class_name (item_class j)) ltac:(discriminate) B). }
            destruct (class_type (item_class j)) as [u|] eqn:C; [|discriminate]. cbn [bind]. intro B. apply mk_enum_is in B.
            destruct B as [B _]. injection B as Bt Bi. econstructor; [discriminate| | |].
            -- rewrite Bi. exact (distinct_NoDup (j :: others)).
            -- constructor; [reflexivity|]. rewrite forallb_forall in F. apply Forall_forall. intros y I. apply pyclass_eqb_spec, F, I.
            -- rewrite Bt. exact C.
          * intro X. inversion X as [| | |? ? ? ? cl NE ND FA CT| | | | |]; subst. destruct i as [|j others]; [contradiction|].
            apply Forall_cons_iff in FA. destruct FA as [<- FO]. replace (forallb _ _) with true.
            -- rewrite ofm_class, (class_type_no_model _ _ CT), CT. cbn [bind]. apply mk_enum_typed with (item_class j); try assumption. constructor; [reflexivity|exact FO].
            -- symmetry. apply forallb_forall. intros y I. apply pyclass_eqb_spec. rewrite Forall_forall in FO. exact (FO y I).
        + discriminate.
        + destruct (to_model n e) as [x|] eqn:E; [|discriminate]. inversion T; subst h. rewrite ofm_list. cbn [modelled]. rewrite (undescribed_plain _ N).
          specialize (IH e x ltac:(lia) E). split.
          * destruct (back n x); [|discriminate]. intro Y. injection Y as ->. constructor. apply IH. reflexivity.
          * intro X. inversion X; subst. rewrite (proj2 IH) by assumption. reflexivity.
        + destruct (to_model n e) as [x|] eqn:E; [|discriminate]. inversion T; subst h. rewrite ofm_list. cbn [modelled]. rewrite (undescribed_plain _ N).
          specialize (IH e x ltac:(lia) E). split.
          * destruct (back n x); [|discriminate]. intro Y. injection Y as ->. constructor. apply IH. reflexivity.
          * intro X. inversion X; subst. rewrite (proj2 IH) by assumption. reflexivity.
        + destruct (to_model n kt) as [x|] eqn:E; [|discriminate]. cbn [bind] in T. destruct (to_model n v) as [y|] eqn:E'; [|discriminate].
          inversion T; subst h. rewrite ofm_dict. cbn [modelled]. rewrite (undescribed_plain _ N).
          pose proof (IH kt x ltac:(lia) E) as I1. pose proof (IH v y ltac:(lia) E') as I2. split.
          * destruct (back n x); [|discriminate]. cbn [bind]. destruct (back n y); [|discriminate]. intro Y. injection Y as -> ->.
            constructor; [apply I1|apply I2]; reflexivity.
          * intro X. inversion X; subst. rewrite (proj2 I1), (proj2 I2) by assumption. reflexivity.
        + destruct (to_model n e) as [x|] eqn:E; [|discriminate]. inversion T; subst h. rewrite ofm_set. cbn [modelled]. rewrite (undescribed_plain _ N).
          specialize (IH e x ltac:(lia) E). split.
          * destruct (back n x); [|discriminate]. intro Y. injection Y as ->. constructor. apply IH. reflexivity.
          * intro X. inversion X; subst. rewrite (proj2 IH) by assumption. reflexivity.
        + discriminate.
        + inversion T; subst h. rewrite ofm_class. cbn [class_type modelled widened]. rewrite (undescribed_plain _ N). split; [constructor|reflexivity].
    Qed.
  End Back.

  (** * Converting again *)
  Lemma named_modelled : forall n t, named_after n (modelled (named_after n t)) = named_after n (modelled t).
  Proof. intros n t. destruct t as [[]| | | | | | | | | | |]; reflexivity. Qed.
  Theorem modelled_idem : forall t, modelled (modelled t) = modelled t.
  Proof.
    induction t using ty_ind'; cbn [modelled]; try reflexivity; try (rewrite ?IHt, ?IHt1, ?IHt2; reflexivity).
    - destruct s; reflexivity.
    - cbn [widened modelled]. rewrite widened_idem. reflexivity.
    - f_equal. rewrite map_map. apply map_ext_Forall. apply Forall_impl with (2 := H). intros nf E. cbn [fst snd]. rewrite named_modelled, E. reflexivity.
  Qed.
  Lemma faithful_named : forall n t, faithful (named_after n t) <-> faithful t.
  Proof. intros n t. destruct t; cbn; split; intro H; inversion H; subst; try (constructor; assumption); econstructor; eassumption. Qed.
  Theorem faithful_modelled : forall t, faithful t -> faithful (modelled t).
  Proof.
    induction t using ty_ind'; intro X; inversion X; subst; cbn [modelled widened]; try (constructor; auto; fail).
    - destruct s; (apply fth_scalar; [intros ? Y; first [discriminate Y|eapply H1; reflexivity]|intro Y; first [discriminate Y|cbn; auto]]).
    - econstructor; try eassumption. rewrite widened_idem. assumption.
    - constructor; [assumption|]. apply Forall_map. cbn [fst snd]. rewrite Forall_forall in *. intros nf I.
      match goal with Q : forall x, In x fs -> _ /\ _ |- _ => destruct (Q nf I) as [A B] end.
      split; [apply faithful_named; exact (H nf I A)|exact B].
  Qed.
  Lemma levels_named : forall n t, levels (named_after n t) = levels t.
  Proof. intros n []; reflexivity. Qed.
  Lemma levels_modelled : forall t, levels (modelled t) = levels t.
  Proof.
    induction t using ty_ind'; cbn [modelled]; try (destruct m; reflexivity).
    - destruct s; reflexivity.
    - cbn [levels is_nullable meta_of undescribed nullable]. rewrite IHt. reflexivity.
    - cbn [levels is_nullable meta_of undescribed nullable]. rewrite IHt. reflexivity.
    - cbn [levels is_nullable meta_of undescribed nullable]. rewrite IHt1, IHt2. reflexivity.
    - cbn [levels is_nullable meta_of undescribed nullable]. rewrite IHt. reflexivity.
    - cbn [levels]. f_equal. f_equal. induction H as [|g l E H IH]; [reflexivity|]. cbn [map fold_right snd fst]. rewrite IH, levels_named, E. reflexivity.
  Qed.
  Lemma has_model_named : forall n t, has_model reserved (named_after n t) <-> has_model reserved t.
  Proof. intros n t. destruct t; cbn; split; intro H; inversion H; constructor; assumption. Qed.
  Lemma modelled_null : forall n t m, named_after n (modelled t) = Scalar Null m -> exists m', t = Scalar Null m' /\ nullable m' = nullable m.
  Proof. intros n t m X. destruct t as [[]| | | | | | | | | | |]; try discriminate X. cbn in X. injection X as <-. eexists. split; reflexivity. Qed.
  Lemma null_modelled : forall n m, named_after n (modelled (Scalar Null m)) = Scalar Null (undescribed m).
  Proof. reflexivity. Qed.
  Lemma has_model_modelled : forall t, has_model reserved t -> has_model reserved (modelled t).
  Proof.
    induction t using ty_ind'; intro X; inversion X; subst; cbn [modelled widened]; try (constructor; auto; fail).
    - destruct s; apply mod_scalar; intros ? Y; first [discriminate Y|eapply H0; reflexivity].
    - constructor. apply Forall_map. cbn [fst snd]. rewrite Forall_forall in *. intros nf I.
      match goal with Q : forall x, In x fs -> _ /\ _ |- _ => destruct (Q nf I) as [A B] end.
      split; [apply has_model_named; exact (H nf I A)|]. destruct B as [B|[B C]]; [left; exact B|right; split; [exact B|]].
      intros m' Y. destruct (modelled_null _ _ _ Y) as (m2 & Z & <-). exact (C m2 Z).
  Qed.
  Theorem modelled_again : forall n t h, levels t <= n -> to_model n t = Ok h -> of_model n h = Ok (modelled t) ->
    exists h', to_model n (modelled t) = Ok h' /\ of_model n h' = Ok (modelled t).
  Proof.
    intros [|n] t h L T B; [discriminate T|]. rewrite of_model_is in B. apply (model_round_trip n (S n) t h L T) in B.
    destruct (models_exist (S n) t L) as [[M _]|[_ (e & E & _)]]; [|congruence].
    rewrite <- levels_modelled in L. destruct (models_exist (S n) (modelled t) L) as [[_ [h' T']]|[N _]]; [|destruct (N (has_model_modelled _ M))].
    exists h'. split; [exact T'|]. rewrite of_model_is. rewrite <- (modelled_idem t) at 1. apply (model_round_trip n (S n) _ h' L T'), faithful_modelled, B.
  Qed.

  (** * Without models *)
  Theorem structless_same : forall n t, structless t -> to_model n t = to_hint n t.
  Proof.
    induction n as [|n IH]; intros t S; [reflexivity|]. rewrite to_model_S, to_hint_S.
    assert (Q : match t with Struct _ _ _ => False | _ => True end) by (destruct t; try exact I; inversion S).
    replace (match t with Struct _ _ _ => _ | _ => hint_step (to_model n) t end) with (hint_step (to_model n) t) by (destruct t; try reflexivity; destruct Q).
    unfold hint_step. destruct (is_nullable t); [rewrite IH; [reflexivity|destruct t; inversion S; constructor; assumption]|].
    destruct t as [[]| | | | | | | | | | |]; inversion S; subst; rewrite ?IH by assumption; reflexivity.
  Qed.

  Notation free := (modelless base_model).
  Notation args_err := (fun _ : list phint => @Err bool (UserError 0)).
  Lemma check_free : forall x, free x ->
    check_issubclass issub is_none PyDict PyUnionType x (HClass base_model) args_err = Ok false \/
    exists e, check_issubclass issub is_none PyDict PyUnionType x (HClass base_model) args_err = Err e /\
              check_issubclass issub is_none PyDict PyUnionType x (HClass PyBool) args_err = Err e.
  Proof.
    intros x F. inversion F; subst; try (left; reflexivity); try (right; eexists; split; reflexivity).
    - left. cbn -[issub]. rewrite H. reflexivity.
    - left. cbn -[issub]. rewrite H. reflexivity.
    - destruct b; [left; reflexivity|right; eexists; split; reflexivity].
  Qed.
  Lemma issubclass_free : forall h, free h ->
    py_issubclass h (HClass base_model) = Ok false \/
    (is_optional h = false /\ exists e, py_issubclass h (HClass base_model) = Err e /\ py_issubclass h (HClass PyBool) = Err e).
  Proof.
    intros h F. inversion F; subst; try (left; reflexivity).
    - left. change (@Ok bool (issub c base_model) = Ok false). rewrite H. reflexivity.
    - left. change (@Ok bool (issub o base_model) = Ok false). rewrite H. reflexivity.
    - assert (B : free (bound h0)) by (inversion H; subst; try exact H; [constructor|assumption]).
      destruct (check_free _ B) as [E|(e & E1 & E2)]; [left; exact E|right]. split; [reflexivity|]. exists e. split; assumption.
    - destruct (check_free _ H) as [E|(e & E1 & E2)]; [left; exact E|right]. split; [reflexivity|]. exists e. split; assumption.
  Qed.
  Lemma strip_free : forall h, free h -> free (strip_annotated h).
  Proof.
    induction h using hint_ind'; intro F; inversion F; subst; cbn [strip_annotated]; try exact F; try (constructor; auto; fail).
    - constructor; [assumption|]. apply Forall_map. rewrite Forall_forall in *. auto.
    - constructor. apply Forall_map. rewrite Forall_forall in *. auto.
    - auto.
  Qed.
  Lemma py_step_ext : forall f g1 g2 h, (forall x, free x -> g1 x tt = g2 x tt) -> free h -> py_step f g1 h = py_step f g2 h.
  Proof.
    intros f g1 g2 h G F. unfold py_step. cbv zeta.
    assert (ARGS : Forall free (get_args h)) by (inversion F; subst; try constructor; assumption).
    assert (CONT : forall (key : str) is make c p, adapt_to_artigraph (container_adapter key is make c p) g1 h tt = adapt_to_artigraph (container_adapter key is make c p) g2 h tt).
    { intros. cbn [adapt_to_artigraph container_adapter]. destruct (get_args h) as [|e [|]]; try reflexivity. rewrite G; [reflexivity|]. now inversion ARGS. }
    destruct (is_optional h) eqn:OP.
    { cbn [adapt_to_artigraph py_optional]. destruct (union_of _) as [x|] eqn:U; [|reflexivity]. cbn [bind]. rewrite G; [reflexivity|].
      set (l := filter _ (get_args h)) in U. assert (L : Forall free l) by (unfold l; apply Forall_forall; intros y I; apply filter_In in I; rewrite Forall_forall in ARGS; apply ARGS, I).
      clearbody l. destruct l as [|y [|z l]]; [discriminate| |]; injection U as <-; [now inversion L|constructor; exact L]. }
    unfold py_list, py_set, py_frozenset. rewrite !CONT.
    assert (TUP : adapt_to_artigraph py_tuple g1 h tt = adapt_to_artigraph py_tuple g2 h tt).
    { cbn [adapt_to_artigraph py_tuple]. destruct (get_args h) as [|e [|[] [|]]]; try reflexivity. rewrite G; [reflexivity|]. now inversion ARGS. }
    assert (MAP : adapt_to_artigraph py_map g1 h tt = adapt_to_artigraph py_map g2 h tt).
    { cbn [adapt_to_artigraph py_map]. destruct (get_args h) as [|ka [|va [|]]]; try reflexivity. apply Forall_cons_iff in ARGS. destruct ARGS as [A1 A2].
      apply Forall_cons_iff in A2. rewrite (G ka A1), (G va (proj1 A2)). reflexivity. }
    assert (DICT : match h with HTypedDict _ _ => adapt_to_artigraph py_struct g1 h tt | _ => Err NotImplementedError end =
                   match h with HTypedDict _ _ => adapt_to_artigraph py_struct g2 h tt | _ => Err NotImplementedError end).
    { destruct h; try reflexivity. cbn [adapt_to_artigraph py_struct]. f_equal. inversion F; subst. unfold convert_fields, type_hints.
      clear -H0 G. induction H0 as [|nh l E H IH]; [reflexivity|]. cbn [map mapM fst snd]. rewrite G by (apply strip_free, E). rewrite IH. reflexivity. }
    assert (LIT : adapt_to_artigraph (py_literal f) g1 h tt = adapt_to_artigraph (py_literal f) g2 h tt).
    { cbn [adapt_to_artigraph py_literal].
      assert (IT : forall items, Forall (fun i => issub (item_class i) base_model = false) items ->
        match items with [] => Err NotImplementedError | i :: others =>
          if forallb (fun j => pyclass_eqb (item_class j) (item_class i)) others
          then bind (g1 (HClass (item_class i)) tt) (fun t => mk_enum f anon t items plain) else Err ValueError end =
        match items with [] => Err NotImplementedError | i :: others =>
          if forallb (fun j => pyclass_eqb (item_class j) (item_class i)) others
          then bind (g2 (HClass (item_class i)) tt) (fun t => mk_enum f anon t items plain) else Err ValueError end).
      { intros [|i others] FI; [reflexivity|]. rewrite G; [reflexivity|]. constructor. now inversion FI. }
      destruct (is_union h) eqn:IU.
      - rewrite OP. destruct (forallb is_literal (get_args h)); [|reflexivity]. cbn [bind]. apply IT.
        apply Forall_forall. intros i I. apply in_flat_map in I. destruct I as (a & I1 & I2). rewrite Forall_forall in ARGS. specialize (ARGS a I1).
        destruct a; try destruct I2. inversion ARGS; subst. rewrite Forall_forall in H0. exact (H0 i I2).
      - destruct (is_literal h) eqn:IL; [|reflexivity]. cbn [bind]. apply IT. destruct h; try discriminate IL. now inversion F. }
    rewrite TUP, MAP, DICT, LIT. reflexivity.
  Qed.
  Theorem modelless_same : forall f n h, free h -> of_model_with f n h = of_hint_with f n h.
  Proof.
    intros f. induction n as [|n IH]; intros h F; [reflexivity|]. rewrite of_model_S.
    assert (P : of_hint_with f (S n) h = py_step f (fun x _ => of_hint_with f n x) h).
    { unfold of_hint_with at 1. cbn [to_artigraph]. rewrite py_step_is. apply py_step_ext; [reflexivity|exact F]. }
    rewrite P. destruct (issubclass_free h F) as [->|(O & e & E1 & E2)].
    - apply py_step_ext; [|exact F]. intros x. exact (IH x).
    - rewrite E1. unfold py_step. rewrite O, E2. reflexivity.
  Qed.

  (** * Any model *)
  Inductive outcome (f : ty -> result phint) (conv : phint -> result ty) (h : phint) : ty -> Prop :=
  | out_optional : forall b args x u, h = HUnion b args -> union_of (filter (fun a => negb (is_none_type a)) args) = Ok x -> conv x = Ok u ->
      outcome f conv h (set_nullable true u)
  | out_plain : forall c u, class_type c = Some u -> outcome f conv h u
  | out_none : h = HNone -> outcome f conv h (Scalar Null plain)
  | out_list : forall o args x u, h = HAlias o args -> In x args -> conv x = Ok u -> outcome f conv h (List u plain)
  | out_set : forall o args x u, h = HAlias o args -> In x args -> conv x = Ok u -> outcome f conv h (Set_ u plain)
  | out_map : forall o args x y u v, h = HAlias o args -> In x args -> In y args -> conv x = Ok u -> conv y = Ok v -> outcome f conv h (Map u v plain)
  | out_literal : forall i others t u, forallb (fun j => pyclass_eqb (item_class j) (item_class i)) others = true ->
      conv (HClass (item_class i)) = Ok t -> mk_enum f anon t (i :: others) plain = Ok u -> outcome f conv h u
  | out_dict : forall n fields u, h = HTypedDict n fields -> outcome f conv h u.
  Lemma alias_of : forall h cs, ~ In PyObject cs -> ~ In PyUnionType cs -> origin_in h cs = true -> exists o args, h = HAlias o args.
  Proof.
    intros h cs N1 N2 O. destruct h as [| | |c|o args|b args| | | | |]; try discriminate O; [eauto|]. exfalso. unfold origin_in in O. cbn [get_origin] in O.
    destruct b; [|discriminate]. apply existsb_exists in O. destruct O as (c & I & S). destruct c; cbn in S; try discriminate S; contradiction.
  Qed.
  Lemma py_step_outcome : forall f conv h t, py_step f (fun x _ => conv x) h = Ok t -> outcome f conv h t.
  Proof.
    intros f conv h t. unfold py_step. cbv zeta.
    destruct (is_optional h) eqn:OP.
    { cbn [adapt_to_artigraph py_optional]. destruct h; try discriminate OP. cbn [get_args]. destruct (union_of _) as [x|] eqn:U; [|discriminate]. cbn [bind].
      destruct (conv x) as [u|] eqn:C; [|discriminate]. intro H. injection H as <-. exact (out_optional f conv _ bar args x u eq_refl U C). }
    assert (AL : forall o args key is make c p, h = HAlias o args -> adapt_to_artigraph (container_adapter key is make c p) (fun x _ => conv x) h tt = Ok t ->
              exists x u, In x args /\ conv x = Ok u /\ t = make u).
    { intros o args key is make c p -> E. cbn [adapt_to_artigraph container_adapter get_args] in E. destruct args as [|x [|]]; try discriminate.
      destruct (conv x) as [u|] eqn:C; [|discriminate]. injection E as <-. exists x, u. split; [left; reflexivity|auto]. }
    unfold first_of.
    destruct (py_issubclass h (HClass PyBool)) as [[]|]; [intro H; injection H as <-; exact (out_plain f conv h PyBool _ eq_refl)| |discriminate].
    destruct (py_issubclass h (HClass PyFloat)) as [[]|]; [intro H; injection H as <-; exact (out_plain f conv h PyFloat _ eq_refl)| |discriminate].
    destruct (py_issubclass h (HClass PyInt)) as [[]|]; [intro H; injection H as <-; exact (out_plain f conv h PyInt _ eq_refl)| |discriminate].
    destruct (py_issubclass h (HClass PyDatetime)) as [[]|]; [intro H; injection H as <-; exact (out_plain f conv h PyDatetime _ eq_refl)| |discriminate].
    destruct (origin_in h [PyList]) eqn:O1.
    { destruct (alias_of h [PyList] ltac:(intros [X|[]]; discriminate X) ltac:(intros [X|[]]; discriminate X) O1) as (o & args & E). intro H.
      destruct (AL _ _ _ _ _ _ _ E H) as (x & u & I & C & ->). exact (out_list f conv h o args x u E I C). }
    destruct (origin_in h [PySet]) eqn:O2.
    { destruct (alias_of h [PySet] ltac:(intros [X|[]]; discriminate X) ltac:(intros [X|[]]; discriminate X) O2) as (o & args & E). intro H.
      destruct (AL _ _ _ _ _ _ _ E H) as (x & u & I & C & ->). exact (out_set f conv h o args x u E I C). }
    destruct (py_issubclass h (HClass PyBytes)) as [[]|]; [intro H; injection H as <-; exact (out_plain f conv h PyBytes _ eq_refl)| |discriminate].
    destruct (py_issubclass h (HClass PyDate)) as [[]|]; [intro H; injection H as <-; exact (out_plain f conv h PyDate _ eq_refl)| |discriminate].
    destruct (py_issubclass h (HClass PyStr)) as [[]|]; [intro H; injection H as <-; exact (out_plain f conv h PyStr _ eq_refl)| |discriminate].
    assert (NH : h = HNone \/ h <> HNone) by (destruct h; (left; reflexivity) || (right; discriminate)).
    destruct NH as [->|NH]; [intro H; injection H as <-; exact (out_none f conv HNone eq_refl)|].
    intro B. assert (B' : (if origin_in h [PyTuple] && match get_args h with [_; HEllipsis] => true | _ => false end
      then adapt_to_artigraph py_tuple (fun x _ => conv x) h tt else
      if origin_in h [PyFrozenset] then adapt_to_artigraph py_frozenset (fun x _ => conv x) h tt else
      if is_literal h || (is_union h && forallb is_literal (get_args h))
      then adapt_to_artigraph (py_literal f) (fun x _ => conv x) h tt else
      if origin_in h [PyDict; PyMapping] then adapt_to_artigraph py_map (fun x _ => conv x) h tt else
      match h with HTypedDict _ _ => adapt_to_artigraph py_struct (fun x _ => conv x) h tt | _ => Err NotImplementedError end) = Ok t)
      by (destruct h; try exact B; contradiction).
    clear B. revert B'.
    destruct (origin_in h [PyTuple] && _) eqn:O3.
    { apply andb_prop in O3. destruct O3 as [O3 O3'].
      destruct (alias_of h [PyTuple] ltac:(intros [X|[]]; discriminate X) ltac:(intros [X|[]]; discriminate X) O3) as (o & args & ->). cbn [adapt_to_artigraph py_tuple get_args].
      destruct args as [|e [|[] [|]]]; try discriminate. destruct (conv e) as [u|] eqn:C; [|discriminate]. intro H. injection H as <-.
      eapply out_list; [reflexivity|left; reflexivity|exact C]. }
    destruct (origin_in h [PyFrozenset]) eqn:O4.
    { destruct (alias_of h [PyFrozenset] ltac:(intros [X|[]]; discriminate X) ltac:(intros [X|[]]; discriminate X) O4) as (o & args & E). intro H.
      destruct (AL _ _ _ _ _ _ _ E H) as (x & u & I & C & ->). exact (out_set f conv h o args x u E I C). }
    destruct (is_literal h || _) eqn:LT.
    { cbn [adapt_to_artigraph py_literal]. rewrite OP. match goal with |- bind ?q _ = _ -> _ => destruct q as [[|i others]|]; try discriminate end. cbn [bind].
      destruct (forallb (fun j => pyclass_eqb (item_class j) (item_class i)) others) eqn:Fb; [|discriminate]. destruct (conv (HClass (item_class i))) as [u|] eqn:C; [|discriminate]. cbn [bind]. intro H.
      exact (out_literal f conv h i others u t Fb C H). }
    destruct (origin_in h [PyDict; PyMapping]) eqn:O5.
    { destruct (alias_of h [PyDict; PyMapping] ltac:(intros [X|[X|[]]]; discriminate X) ltac:(intros [X|[X|[]]]; discriminate X) O5) as (o & args & ->). cbn [adapt_to_artigraph py_map get_args].
      destruct args as [|x [|y [|]]]; try discriminate. destruct (conv x) as [u|] eqn:C; [|discriminate]. cbn [bind]. destruct (conv y) as [v|] eqn:C'; [|discriminate]. intro H. injection H as <-.
      eapply out_map; [reflexivity|left; reflexivity|right; left; reflexivity|exact C|exact C']. }
    destruct h; try discriminate. intros _. eapply out_dict. reflexivity.
  Qed.

  Record good (n : nat) (h : phint) (t : ty) : Prop := {
    g_model : has_model reserved t; g_faithful : strict t -> faithful t; g_modelled : modelled t = t; g_levels : levels t <= n;
    g_null : h <> HNone -> never_null t }.
  Lemma model_union : forall b args x, model_hint base_model reserved (HUnion b args) -> union_of (filter (fun a => negb (is_none_type a)) args) = Ok x ->
    model_hint base_model reserved x /\ x <> HNone.
  Proof.
    intros b args x W U. inversion W; subst. set (l := filter _ args) in *.
    assert (F : Forall (fun a => model_hint base_model reserved a /\ a <> HNone) l) by (unfold l; apply Forall_forall; intros y I; apply filter_In in I; destruct I as [I _]; rewrite Forall_forall in *; auto).
    clearbody l. destruct l as [|y [|z l']]; [discriminate| |]; injection U as <-.
    - apply Forall_cons_iff in F. exact (proj1 F).
    - split; [constructor; exact F|discriminate].
  Qed.
  Lemma levels_set_true : forall u, levels (set_nullable true u) <= S (levels u).
  Proof. destruct u as [? [? []]|? [? []]|? [? []]|? ? ? [? []]|? ? [? []]|? [? []]|? ? ? ? [? []]|? ? [? []]|? [? []]|? ? [? []]|? [? []]|? [? []]]; cbn; lia. Qed.
  Theorem of_model_good : forall k n h t, model_hint base_model reserved h -> of_model_with (to_hint (S k)) n h = Ok t -> good n h t.
  Proof.
    intros k. induction n as [|n IH]; intros h t W B; [discriminate|]. rewrite of_model_S in B.
    destruct (py_issubclass h (HClass base_model)) as [[]|] eqn:Q; [| |discriminate].
    { cbn [adapt_to_artigraph base_model_adapter] in B. destruct h as [| | |c| | | | | | |c fields]; try discriminate B.
      - injection B as <-. split; [constructor; constructor|intros _; constructor; [reflexivity|constructor]|reflexivity|cbn; lia|intros _ m X; discriminate X].
      - destruct (mapM _ fields) as [l|] eqn:M; [|discriminate]. injection B as <-. inversion W as [| | | | | | | | |? ? IB FF]; subst. clear Q W.
        assert (R : Forall (fun nf => has_model reserved (snd nf) /\ never_null (snd nf) /\ reserved (fst nf) = false /\ ~ underscored (fst nf) /\ (strict (snd nf) -> faithful (snd nf))) l /\
                    map made l = l /\ fold_right (fun nf n => Nat.max (levels (snd nf)) n) 0 l <= n).
        { revert l M. induction FF as [|g fs (G1 & G2 & G3 & G4) FF IHf]; intros l M; [injection M as <-; cbn; repeat split; [constructor|lia]|].
          cbn [mapM] in M. destruct (of_model_with _ n (snd g)) as [u|] eqn:E; [|discriminate]. cbn [rmap bind] in M.
          destruct (mapM _ fs) as [l'|] eqn:M'; [|discriminate]. injection M as <-. destruct (IH _ _ G1 E) as [A1 A2 A3 A4 A5]. destruct (IHf l' eq_refl) as (R1 & R2 & R3).
          rewrite renamed_is. cbn [map fold_right]. rewrite R2. unfold made at 1. cbn [fst snd]. rewrite named_modelled, A3, levels_named. split; [|split; [reflexivity|lia]].
          constructor; [|exact R1]. cbn [fst snd]. split; [apply has_model_named, A1|]. split.
          { intros m X. specialize (A5 G2). destruct u; try discriminate X. exact (A5 _ X). }
          split; [exact G3|]. split; [exact G4|]. intro S. apply faithful_named, A2. destruct u; cbn in S; try exact S; inversion S; constructor; assumption. }
        destruct R as (R1 & R2 & R3). split.
        + constructor. rewrite Forall_forall in *. intros nf I. destruct (R1 nf I) as (X1 & X2 & X3 & X4 & _). split; [exact X1|]. right. split; [exact X3|]. intros m Z. destruct (X2 m Z).
        + intro S. inversion S as [| | | | | | | | | | |? ? ? S1 S2]; subst. constructor; [reflexivity|]. rewrite Forall_forall in *. intros nf I. destruct (R1 nf I) as (X1 & X2 & X3 & X4 & X5). split; [exact (X5 (S2 nf I))|exact X4].
        + cbn [modelled]. fold made. rewrite R2. reflexivity.
        + cbn [levels is_nullable meta_of plain nullable]. lia.
        + intros _ m X. discriminate X. }
    apply py_step_outcome in B.
    assert (AR : forall o args x, h = HAlias o args -> In x args -> model_hint base_model reserved x) by (intros o args x -> I; inversion W; subst; rewrite Forall_forall in *; auto).
    destruct B as [b args x u E U C|c u E|E|o args x u E I C|o args x u E I C|o args x y u v E I I' C C'|i others t u Fb C ME|nm fields u E].
    - subst h. destruct (model_union _ _ _ W U) as [WX NX]. destruct (IH x u WX C) as [A1 A2 A3 A4 A5]. specialize (A5 NX). split.
      + apply has_model_nullable. apply has_model_nullable in A1. destruct u; exact A1.
      + intro S. destruct u as [s m|sz m|p m|name t0 items m|format srid m|u m|name u partition_by cluster_by m|u1 u2 m|u m|name fs m|p m|p m]; cbn in S |- *; try (inversion S; subst; discriminate).
        * assert (X : faithful (Scalar s m)) by (apply A2; constructor). inversion X; subst. constructor; [assumption|]. intros ->. destruct (A5 m eq_refl).
        * constructor.
        * assert (X : faithful (DateTime p m)) by (apply A2; constructor). inversion X.
        * assert (X : faithful (Enum name t0 items m)) by (apply A2; constructor). inversion X; subst. econstructor; eassumption.
        * assert (X : faithful (Geography format srid m)) by (apply A2; constructor). inversion X.
        * inversion S; subst. assert (X : faithful (List u m)) by (apply A2; constructor; assumption). inversion X; constructor; assumption.
        * inversion S; subst. assert (X : faithful (Map u1 u2 m)) by (apply A2; constructor; assumption). inversion X; constructor; assumption.
        * inversion S; subst. assert (X : faithful (Set_ u m)) by (apply A2; constructor; assumption). inversion X; constructor; assumption.
        * assert (X : faithful (Time p m)) by (apply A2; constructor). inversion X.
        * constructor.
      + rewrite modelled_nullable, A3. reflexivity.
      + pose proof (levels_set_true u). lia.
      + intros _ m X. destruct u; try discriminate X. injection X as -> _. exact (A5 _ eq_refl).
    - assert (X : good 1 (HClass c) u).
      { clear -E. revert u E. induction c; intros u E; cbn in E; try discriminate; try (injection E as <-; split; [constructor; discriminate|intros _; constructor; discriminate|reflexivity|reflexivity|intros _ ? X; discriminate X]);
          try (injection E as <-; split; [constructor|intros _; constructor|reflexivity|reflexivity|intros _ ? X; discriminate X]).
        destruct (IHc u E) as [A1 A2 A3 A4 A5]. split; try assumption. intros _. apply A5. discriminate. }
      destruct X as [A1 A2 A3 A4 A5]. split; try assumption; [lia|]. intros _. apply A5. discriminate.
    - subst h. split; [constructor; discriminate|intros _; constructor; [discriminate|reflexivity]|reflexivity|cbn; lia|contradiction].
    - destruct (IH x u (AR _ _ _ E I) C) as [A1 A2 A3 A4 A5]. split; [constructor; exact A1|intro S; inversion S; constructor; auto|cbn [modelled]; rewrite A3; reflexivity|cbn; lia|intros _ m X; discriminate X].
    - destruct (IH x u (AR _ _ _ E I) C) as [A1 A2 A3 A4 A5]. split; [constructor; exact A1|intro S; inversion S; constructor; auto|cbn [modelled]; rewrite A3; reflexivity|cbn; lia|intros _ m X; discriminate X].
    - destruct (IH x u (AR _ _ _ E I) C) as [A1 A2 A3 A4 A5]. destruct (IH y v (AR _ _ _ E I') C') as [B1 B2 B3 B4 B5].
      split; [constructor; assumption|intro S; inversion S; constructor; auto|cbn [modelled]; rewrite A3, B3; reflexivity|cbn; lia|intros _ m X; discriminate X].
    - destruct n as [|n]; [discriminate C|]. rewrite ofm_class in C. destruct (issub (item_class i) base_model).
      { injection C as <-. destruct (no_model_enum k u (i :: others) (class_name (item_class i)) ltac:(discriminate) ME). }
      destruct (class_type (item_class i)) as [v|] eqn:CT; [|discriminate]. injection C as ->.
      assert (LE : expressible u /\ widened u = u /\ levels u <= S (S n) /\ never_null u).
      { apply (literal_enum k (S n) (i :: others) u). rewrite Fb, of_class, CT. exact ME. }
      destruct LE as (E1 & E2 & E3 & E4). apply mk_enum_is in ME. destruct ME as [-> _].
      split; [constructor|intros _; inversion E1; subst; econstructor; eassumption|exact E2|exact E3|intros _; exact E4].
    - subst h. inversion W.
  Qed.
  Lemma faithful_strict : forall t, faithful t -> strict t.
  Proof.
    induction t using ty_ind'; intro X; inversion X; subst; try (constructor; auto; fail). constructor; [assumption|]. rewrite Forall_forall in *. intros nf I.
    match goal with Q : forall x, In x fs -> _ /\ _ |- _ => exact (H nf I (proj1 (Q nf I))) end.
  Qed.
  Theorem of_model_again : forall n h t, model_hint base_model reserved h -> of_model n h = Ok t ->
    exists h', to_model n t = Ok h' /\ (of_model n h' = Ok t <-> strict t).
  Proof.
    intros [|n] h t W H; [discriminate H|]. rewrite of_model_is in H. destruct (of_model_good n (S n) h t W H) as [A1 A2 A3 A4 _].
    destruct (models_exist (S n) t A4) as [[_ [h' T]]|[N _]]; [|destruct (N A1)].
    exists h'. split; [exact T|]. rewrite of_model_is. rewrite <- A3 at 1. rewrite (model_round_trip n (S n) t h' A4 T). split; [apply faithful_strict|exact A2].
  Qed.
End Models.

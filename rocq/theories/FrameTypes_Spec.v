(** What NumPy and pandas can say about types. *)
From Coq Require Import ZArith List Ascii String Bool.
From Verif Require Import Base Str Types_Model Types_Spec PyTypes_Model ArrowTypes_Spec FrameTypes_Model.
Import ListNotations.
Open Scope list_scope.

(** The types of scalars. *)
Inductive np_scalar_type : ty -> npclass -> Prop :=
| ns_binary : forall b m, np_scalar_type (Binary b m) NpBytes
| ns_boolean : forall m, np_scalar_type (Scalar Boolean m) NpBool
| ns_string : forall m, np_scalar_type (Scalar String m) NpStr
| ns_float : forall w m, np_scalar_type (Scalar (Float w) m) (NpFloat w)
| ns_int : forall w m, np_scalar_type (Scalar (Int w) m) (NpInt w)
| ns_uint : forall w m, np_scalar_type (Scalar (UInt w) m) (NpUInt w).

(** ** NumPy: [k] Lists of a scalar, at most 64 *)
Inductive arrayable : nat -> ty -> npclass -> Prop :=
| ar_scalar : forall t c, np_scalar_type t c -> arrayable 0 t c
| ar_list : forall k e m c, arrayable k e c -> arrayable (S k) (List e m) c.
Definition np_storable (t : ty) : Prop := exists k c, arrayable k t c /\ k <= 64.
(** The example of it: one row in each dimension. *)
Definition np_example (k : nat) (c : npclass) : obj := match k with 0 => Class c | _ => Array (repeat 1 k) c end.

(** Why types are refused: there is no scalar for them, or they are too deep. *)
Inductive np_refused : ty -> exn -> Prop :=
| nr_other : forall t, (forall c, ~ np_scalar_type t c) -> (forall e m, t <> List e m) -> np_refused t NotImplementedError
| nr_list : forall e m x, np_refused e x -> np_refused (List e m) x
| nr_deep : forall k t c, arrayable k t c -> 64 < k -> np_refused t ValueError.

(** What comes back is not nullable and has neither descriptions nor sizes. *)
Fixpoint np_stored (t : ty) : ty :=
  match t with
  | Scalar s _ => Scalar s plain
  | Binary _ _ => Binary None plain
  | List e _ => List (np_stored e) plain
  | t => t
  end.
(** Nothing else is lost. *)
Inductive np_kept : ty -> Prop :=
| nk_scalar : forall s, np_kept (Scalar s plain)
| nk_binary : np_kept (Binary None plain)
| nk_list : forall e, np_kept e -> np_kept (List e plain).

(** ** pandas: a scalar, a List of scalars, or a List or Collection of Structs of scalars *)
Definition columns_of (t : ty) (fields : list (str * ty)) : Prop :=
  (exists n m m', t = List (Struct n fields m) m') \/ (exists n n' m p c m', t = Collection n (Struct n' fields m) p c m').
Inductive pd_storable : ty -> Prop :=
| ps_scalar : forall t c, np_scalar_type t c -> pd_storable t
| ps_series : forall e m c, np_scalar_type e c -> pd_storable (List e m)
| ps_frame : forall t fields, columns_of t fields -> Forall (fun nf => exists c, np_scalar_type (snd nf) c) fields -> pd_storable t.

(** Why types are refused. *)
Inductive pd_refused : ty -> exn -> Prop :=
| pr_other : forall t, (forall c, ~ np_scalar_type t c) -> (forall e m, t <> List e m) -> (forall n e p c m, t <> Collection n e p c m) ->
    pd_refused t NotImplementedError
| pr_element : forall e m x, (forall n fields m', e <> Struct n fields m') -> pd_refused e x -> pd_refused (List e m) x
| pr_nested : forall e m m', pd_storable (List e m) -> pd_refused (List (List e m) m') TypeError
| pr_tables : forall n e p c m m', pd_storable (Collection n e p c m) -> pd_refused (List (Collection n e p c m) m') TypeError
| pr_column : forall t fields nf m x, columns_of t fields -> In nf fields -> pd_refused (List (snd nf) m) x -> pd_refused t x
| pr_structs : forall t fields f n sub m, columns_of t fields -> In (f, Struct n sub m) fields -> pd_refused t ValueError.

(** Lists of bytes do not come back. *)
Definition no_bytes (t : ty) : Prop := forall b m, t <> Binary b m.
Inductive pd_restorable : ty -> Prop :=
| pb_scalar : forall t c, np_scalar_type t c -> pd_restorable t
| pb_series : forall e m c, np_scalar_type e c -> no_bytes e -> pd_restorable (List e m)
| pb_frame : forall t fields, columns_of t fields -> Forall (fun nf => (exists c, np_scalar_type (snd nf) c) /\ no_bytes (snd nf)) fields ->
    pd_restorable t.
(** The others come back like from NumPy; Collections are Lists; Structs have no name. *)
Definition pd_stored (t : ty) : ty :=
  match t with
  | List (Struct _ fields _) _ | Collection _ (Struct _ fields _) _ _ _ =>
      List (Struct anon (map (fun nf => (fst nf, np_stored (snd nf))) fields) plain) plain
  | t => np_stored t
  end.
(** The examples. *)
Definition example_column (c : npclass) : column :=
  match c with
  | NpStr => ColObjects (Some true)
  | NpBytes => ColOf NpBytes true
  | c => ColOf c false
  end.
Inductive pd_example : ty -> obj -> Prop :=
| px_scalar : forall t c, np_scalar_type t c -> pd_example t (Class c)
| px_series : forall e m c, np_scalar_type e c -> pd_example (List e m) (Series (example_column c))
| px_frame : forall t fields cols, columns_of t fields ->
    Forall2 (fun nf lc => fst lc = Name (fst nf) /\ exists c, np_scalar_type (snd nf) c /\ snd lc = example_column c) fields cols ->
    pd_example t (DataFrame cols).

(** ** The other way around *)
Definition known (c : npclass) : Prop := exists t, np_scalar_type t c.
(** Arrays of known scalars with a row in each dimension. *)
Inductive np_readable : obj -> Prop :=
| re_class : forall c, known c -> np_readable (Class c)
| re_dtype : forall c sized, known c -> (sized = true -> c <> NpBytes /\ c <> NpStr) -> np_readable (Dtype c sized)
| re_array : forall shape c, known c -> shape <> [] -> Forall (fun k => 0 < k) shape -> np_readable (Array shape c)
| re_objects : forall shape f, np_readable f -> shape <> [] -> Forall (fun k => 0 < k) shape -> np_readable (Objects shape f).
Fixpoint np_depth (x : obj) : nat :=
  match x with
  | Array shape _ => S (Datatypes.length shape)
  | Objects shape f => Datatypes.length shape + np_depth f
  | _ => 1
  end.
(** Columns of known dtypes, or of objects the first of which is a string. *)
Inductive column_type : column -> ty -> Prop :=
| ct_dtype : forall c sized t, np_scalar_type t c -> np_stored t = t -> (sized = true -> c <> NpBytes /\ c <> NpStr) -> column_type (ColOf c sized) t
| ct_strings : column_type (ColObjects (Some true)) (Scalar String plain).
(** How many dimensions of which scalar there are, also through arrays in arrays. *)
Inductive dims : obj -> nat -> npclass -> Prop :=
| dm_class : forall c, dims (Class c) 0 c
| dm_dtype : forall c sized, dims (Dtype c sized) 0 c
| dm_array : forall shape c, dims (Array shape c) (Datatypes.length shape) c
| dm_objects : forall shape f k c, dims f k c -> dims (Objects shape f) (Datatypes.length shape + k) c.
(** Nothing is lost of these. *)
Inductive pd_kept : ty -> Prop :=
| pk_array : forall t, np_kept t -> pd_kept t
| pk_frame : forall fields, Forall (fun nf => np_kept (snd nf)) fields -> pd_kept (List (Struct anon fields plain) plain).

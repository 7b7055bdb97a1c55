(** What the theorems about model serialization talk about. *)
From Coq Require Import ZArith List Ascii String Bool Permutation Sorted.
From Verif Require Import Base Str Models_Model.
Import ListNotations.
Open Scope list_scope.

(** Class definitions Python and pydantic accept: distinct field names, none of them
    [_arti_type_], at most one SkipFingerprint each. *)
Definition class_ok (c : class) : Prop :=
  NoDup (map d_name (c_decls c)) /\ ~ In $"_arti_type_" (map d_name (c_decls c)) /\
  Forall (fun d => List.length (d_skips d) <= 1) (c_decls c).

(** An instance of [c] with these field values. *)
Definition instance (c : class) (fields : list (str * value)) (v : value) : Prop :=
  class_ok c /\ map fst fields = map d_name (c_decls c) /\ instantiate c fields = Ok v.

(** Fields that count: neither excluded nor marked. *)
Definition fingerprinted (c : class) (n : str) : Prop :=
  exists d, In d (c_decls c) /\ d_name d = n /\ d_exclude d = false /\ ~ In true (d_skips d).

(** Fields that count for one instance: a version above 0 only has its major number. *)
Definition counts (c : class) (fields : list (str * value)) (n : str) : Prop :=
  fingerprinted c n /\
  (c_kind c = SemVer -> forall z, In ($"major", VInt z) fields -> (0 < z)%Z -> n = $"major").

(** [n] counts and its value is serialized as [j]. *)
Definition shows (c : class) (fields : list (str * value)) (n : str) (j : json) : Prop :=
  counts c fields n /\ exists v, In (n, v) fields /\ serialize v = j.

(** Values made of [None], booleans, integers, text, tuples and mappings. *)
Inductive simple : value -> Prop :=
| simple_none : simple VNone
| simple_bool : forall b, simple (VBool b)
| simple_int : forall z, simple (VInt z)
| simple_str : forall s, simple (VStr s)
| simple_tuple : forall l, Forall simple l -> simple (VTuple l)
| simple_map : forall l, Forall (fun kv => simple (snd kv)) l -> simple (VMap l).

(** Python's [==]: mappings and sets do not depend on the order; models of one class are
    compared field by field. With [numeric], [True == 1] and [False == 0] as in Python. *)
Inductive py_eq (numeric : bool) : value -> value -> Prop :=
| eq_none : py_eq numeric VNone VNone
| eq_bool : forall b, py_eq numeric (VBool b) (VBool b)
| eq_int : forall z, py_eq numeric (VInt z) (VInt z)
| eq_bool_int : forall b, numeric = true -> py_eq numeric (VBool b) (VInt (Z.b2z b))
| eq_int_bool : forall b, numeric = true -> py_eq numeric (VInt (Z.b2z b)) (VBool b)
| eq_str : forall s, py_eq numeric (VStr s) (VStr s)
| eq_tuple : forall l m, Forall2 (py_eq numeric) l m -> py_eq numeric (VTuple l) (VTuple m)
| eq_set : forall l m m', Permutation m m' -> Forall2 (py_eq numeric) l m' -> py_eq numeric (VSet l) (VSet m)
| eq_map : forall l m m', Permutation m m' ->
    Forall2 (fun a b => fst a = fst b /\ py_eq numeric (snd a) (snd b)) l m' -> py_eq numeric (VMap l) (VMap m)
| eq_model : forall c names names' l m,
    Forall2 (fun a b => fst a = fst b /\ py_eq numeric (snd a) (snd b)) l m ->
    py_eq numeric (VModel c names l) (VModel c names' m).

(** Ordered: mappings have been filled in key order, sets have at most one element; models
    are instances. *)
Definition key_lt (a b : str) : Prop := str_leb a b = true /\ a <> b.
Inductive ordered : value -> Prop :=
| ord_none : ordered VNone
| ord_bool : forall b, ordered (VBool b)
| ord_int : forall z, ordered (VInt z)
| ord_str : forall s, ordered (VStr s)
| ord_tuple : forall l, Forall ordered l -> ordered (VTuple l)
| ord_set : forall l, List.length l <= 1 -> Forall ordered l -> ordered (VSet l)
| ord_map : forall l, StronglySorted key_lt (map fst l) -> Forall (fun kv => ordered (snd kv)) l -> ordered (VMap l)
| ord_model : forall c names l, instance_fp_fields c l = Ok names -> Forall (fun kv => ordered (snd kv)) l ->
    ordered (VModel c names l).

(** SemVer and its subclasses: the fingerprinted fields are the three numbers. *)
Definition version_class (c : class) : Prop :=
  c_kind c = SemVer /\ forall n, fingerprinted c n <-> In n [$"major"; $"minor"; $"patch"].
Definition version (c : class) (major minor patch : Z) (v : value) : Prop :=
  exists fields, instance c fields v /\ In ($"major", VInt major) fields /\
    In ($"minor", VInt minor) fields /\ In ($"patch", VInt patch) fields.

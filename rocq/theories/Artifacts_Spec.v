(** What an artifact is made of. *)
From Coq Require Import ZArith List Ascii String Bool.
From Verif Require Import Base Str Partitions_Model Storage_Model Types_Model Placement_Model Artifacts_Model.
Import ListNotations.
Open Scope list_scope.

(** The declaration of a field that counts in a class, given the bodies of the class and its bases,
    nearest first: that of the first one which declares the field, else that of [Artifact]. *)
Definition counts {B X D} (field : B -> option (declared X D)) (base : declared X D) (bodies : list B) (d : declared X D) : Prop :=
  (exists above b below, bodies = above ++ b :: below /\ field b = Some d /\ forall a, In a above -> field a = None) \/
  (d = base /\ forall b, In b bodies -> field b = None).
Definition open {X D} (x : option D) : declared X D := {| admits := fun _ => true; default := x |}.

(** The value a field starts from: the one given, else the default; of the class asked for. *)
Definition supplied {X} (d : declared X X) (arg : argument X) (x : X) : Prop :=
  (arg = Given x \/ arg = Absent /\ default d = Some x) /\ admits d x = true.

(** The class's own annotations (or statistics). *)
Definition own {X} (d : declared X (list X)) (l : list X) : Prop :=
  default d = Some l \/ default d = None /\ l = [].
Definition all_admitted {X} (d : declared X (list X)) (l : list X) : Prop := forall x, In x l -> admits d x = true.
(** The items given after those of the class; with none given, the items of the class twice. *)
Definition gathered {X} (d : declared X (list X)) (arg : arguments X) (l : list X) : Prop :=
  all_admitted d l /\ exists l0, own d l0 /\
  ((exists given, arg = Items (map Some given) /\ l = l0 ++ given) \/ (arg = NoItems /\ default d = Some l0 /\ l = l0 ++ l0)).

(** Exceptions that are ValueErrors or AssertionErrors: pydantic reports them as a ValueError. *)
Inductive reported : exn -> Prop :=
| reported_value : reported ValueError
| reported_cycle : reported CycleError
| reported_assertion : reported AssertionError.

Section Spec.
  Context {T F S N M : Type}.
  Context (format_visit : F -> T -> result F).
  Context (storage_visit_type : S -> T -> result S) (storage_visit_format : S -> F -> result S).

  (** The format has seen the type; the storage has seen the type and then this format. *)
  Definition visited (t : T) (f f' : F) (s s' : S) : Prop :=
    format_visit f t = Ok f' /\ exists s1, storage_visit_type s t = Ok s1 /\ storage_visit_format s1 f' = Ok s'.

  (** The instance made of these arguments by a class with these bodies. *)
  Definition made (f0 : F) (s0 : S) (bodies : list (body T F S N M)) (k : keywords T F S N M) (i : instance T F S N M) : Prop :=
    k_unknown k = false /\
    (exists d, counts b_type (open None) bodies d /\ supplied d (k_type k) (i_type i)) /\
    (exists df ds f s, counts b_format (open (Some f0)) bodies df /\ supplied df (k_format k) f /\
       counts b_storage (open (Some s0)) bodies ds /\ supplied ds (k_storage k) s /\
       visited (i_type i) f (i_format i) s (i_storage i)) /\
    (exists d, counts b_annotations (open (Some [])) bodies d /\ gathered d (k_annotations k) (i_annotations i)) /\
    (exists d, counts b_statistics (open (Some [])) bodies d /\ gathered d (k_statistics k) (i_statistics i)).

  (** The arguments to make an artifact like an existing one. *)
  Definition like (i : instance T F S N M) : keywords T F S N M :=
    {| k_type := Given (i_type i); k_format := Given (i_format i); k_storage := Given (i_storage i);
       k_annotations := Items (map Some (i_annotations i)); k_statistics := Items (map Some (i_statistics i)); k_unknown := false |}.
End Spec.

(** The fields there can be partition keys of, and the keys of a type. *)
Inductive key_class : ty -> fclass -> Prop :=
| key_date : forall m, key_class (Scalar Date m) DateField
| key_int8 : forall m, key_class (Scalar (Int B8) m) (IntField W8)
| key_int16 : forall m, key_class (Scalar (Int B16) m) (IntField W16)
| key_int32 : forall m, key_class (Scalar (Int B32) m) (IntField W32)
| key_int64 : forall m, key_class (Scalar (Int B64) m) (IntField W64)
| key_null : forall m, key_class (Scalar Null m) NullField.
Definition field_type (element : ty) (name : str) (t : ty) : Prop :=
  exists s fs m, element = Struct s fs m /\ dget str_eqb fs name = Some t.
Definition no_collection (t : ty) : Prop := forall n e p c m, t <> Collection n e p c m.
Inductive keyed : ty -> list (str * fclass) -> Prop :=
| keyed_none : forall t, no_collection t -> keyed t []
| keyed_by : forall n e p c m kts, NoDup p ->
    Forall2 (fun f nc => fst nc = f /\ exists t, field_type e f t /\ key_class t (snd nc)) p kts ->
    keyed (Collection n e p c m) kts.
(** A collection partitioned by a field there are no keys for. *)
Definition unkeyable (t : ty) : Prop := exists n e p c m, t = Collection n e p c m /\
  (forall f, In f p -> exists t, field_type e f t) /\
  exists f t, In f p /\ field_type e f t /\ forall cls, ~ key_class t cls.

(** Where the artifact is stored, before it is put in a graph. *)
Definition unplaced (root : str) (kts : key_types) (extension : str) : str :=
  root ++ $"{graph_name}/{path_tags}/{names}/" ++
  match kts with [] => [] | _ => partition_key_spec kts ++ $"/" end ++ $"{input_fingerprint}/{name}" ++ extension.
(** [Artifact(type=t)] and [Artifact(type=t, format=f, storage=LocalFile.rooted_at(root))], where
    the extension of the format is [ext]. *)
Definition only_type {N M} (t : ty) : keywords ty python_format storage N M :=
  {| k_type := Given t; k_format := Absent; k_storage := Absent; k_annotations := NoItems; k_statistics := NoItems; k_unknown := false |}.
Definition in_local_file {N M} (t : ty) (ext root : str) : keywords ty python_format storage N M :=
  {| k_type := Given t; k_format := Given ext; k_storage := Given (rooted_at root); k_annotations := NoItems; k_statistics := NoItems;
     k_unknown := false |}.

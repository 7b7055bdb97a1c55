(** What the theorems about storage classes talk about. *)
From Coq Require Import ZArith List Ascii String Bool.
From Verif Require Import Base Str Partitions_Model Storage_Model StorageClass_Model.
Import ListNotations.
Open Scope list_scope.

(** A class declares a field with this hint. *)
Definition declares {A M} (c : mclass A M) (n : str) (a : A) : Prop :=
  exists f, In (n, f) (m_fields c) /\ f_ann f = a.
(** The fields every partition has. *)
Definition every_partition : list str := [$"input_fingerprint"; $"partition_key"; $"storage"].
(** A storage class and a partition class declare the same, apart from those. *)
Definition alike {A M} (s p : mclass A M) : Prop :=
  forall n a, declares s n a <-> declares p n a /\ ~ In n every_partition.

Section Made.
  Context {A M : Type} (ann_eqb : A -> A -> bool).
  (** The model classes that can be defined from some given ones. *)
  Inductive model_made (given : mclass A M) : mclass A M -> Prop :=
  | made_given : model_made given given
  | made_model : forall bases b, (forall m, In m bases -> model_made given m) -> model_made given (define_model bases b).
  (** Classes that are no storages, and those of partitions. *)
  Definition plain_model : mclass A M := {| m_fields := []; m_abstract := true; m_missing := false |}.
  Definition mixin := model_made plain_model.
  (** [StoragePartition], given the hints of its fields. Classes of partitions have it among
      their ancestors. *)
  Definition storage_partition (fp key st : finfo A M) : mclass A M :=
    {| m_fields := [($"input_fingerprint", fp); ($"partition_key", key); ($"storage", st)]; m_abstract := false; m_missing := true |}.
  Inductive partition_class (root : mclass A M) : mclass A M -> Prop :=
  | part_root : partition_class root root
  | part_made : forall l m r b, (forall x, In x (l ++ r) -> mixin x \/ partition_class root x) -> partition_class root m ->
      partition_class root (define_model (l ++ m :: r) b).

  (** The arguments of [Storage[...]]: type variables and classes of partitions. *)
  Definition proper (root : mclass A M) (i : item A M) : Prop := match i with ItemVar => True | ItemClass p => partition_class root p end.
  (** The storage classes that a program can ever have: [Storage], those it defines, and those
      that it gets by subscripting. *)
  Inductive storage_made (root : mclass A M) : sclass A M -> Prop :=
  | made_storage : storage_made root storage_class
  | made_class : forall bases b own c, (forall m, In (Mixin m) bases -> mixin m) -> (forall s, In (Stores s) bases -> storage_made root s) ->
      (forall i, own = Some i -> proper root i) -> define_storage ann_eqb bases b own = Ok c -> storage_made root c
  | made_item : forall c i c', storage_made root c -> proper root i -> subscript ann_eqb c i = Ok c' -> storage_made root c'.
End Made.

(** A field comes from the leftmost base that has it. *)
Definition inherits {A M} (bases : list (mclass A M)) (n : str) (f : finfo A M) : Prop :=
  exists l m r, bases = l ++ m :: r /\ (forall x, In x l -> ~ In n (map fst (m_fields x))) /\ In (n, f) (m_fields m).
(** The class that a class statement makes has the type of partitions that its body sets, or that
    of the leftmost base with one. *)
Definition has_item {A M} (own : option (item A M)) (bases : list (base A M)) (i : item A M) : Prop :=
  own = Some i \/ own = None /\ exists l s r, bases = l ++ Stores s :: r /\ c_item s = Some i /\
    forall s', In (Stores s') l -> c_item s' = None.

(** Classes that can be called. *)
Definition concrete {A M} (m : mclass A M) : Prop := m_abstract m = false /\ m_missing m = false.
(** An instance has a value for each field of its class. *)
Definition instance {A M} (c : mclass A M) (st : storage) : Prop :=
  concrete c /\ map fst (s_fields st) = map fst (m_fields c).

(** A partition suits its class: each of its values suits the hint and the metadata of the field. *)
Definition fits_class {A M} (suits : A -> arg -> bool) (holds : M -> arg -> bool) (c : mclass A M) (q : partition) : Prop :=
  forall n f, In (n, f) (m_fields c) ->
    forall v, (n = $"input_fingerprint" /\ v = AFingerprint (p_fp q)) \/ (n = $"partition_key" /\ v = AKey (p_key q)) \/
              (n = $"storage" /\ v = AStorage (p_storage q)) \/ (~ In n every_partition /\ exists x, In (n, x) (p_fields q) /\ v = AField x) ->
    suits (f_ann f) v = true /\ holds (f_meta f) v = true.

(** Whether a value suits a hint does not depend on what a text says. *)
Definition any_text {A} (suits : A -> arg -> bool) : Prop := forall a s s', suits a (AField (Some s)) = suits a (AField (Some s')).
(** A class of partitions that takes what all partitions have, and asks no more of its own fields
    than that they suit their hints. *)
Definition undemanding {A M} (suits : A -> arg -> bool) (holds : M -> arg -> bool) (p : mclass A M) : Prop :=
  forall n f, In (n, f) (m_fields p) ->
    (~ In n every_partition -> forall v, holds (f_meta f) v = true) /\
    forall v, match v with AFingerprint _ => n = $"input_fingerprint" | AKey _ => n = $"partition_key" | AStorage _ => n = $"storage" | AField _ => False end ->
      suits (f_ann f) v = true /\ holds (f_meta f) v = true.
(** The values of a storage suit the hints of its class. *)
Definition validated {A M} (suits : A -> arg -> bool) (c : mclass A M) (st : storage) : Prop :=
  forall n f v, In (n, f) (m_fields c) -> In (n, v) (s_fields st) -> suits (f_ann f) (AField v) = true.

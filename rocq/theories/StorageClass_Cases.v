(** Classes for the examples of C65. *)
From Coq Require Import ZArith List Ascii String Bool Arith.
From Verif Require Import Base Str Partitions_Model Storage_Model StorageClass_Model StorageClass_Spec.
Import ListNotations.
Open Scope list_scope.

(** Hints: [Fingerprint | None], [PartitionKey], [Storage], [str], [str | None] and [int]; metadata:
    a largest length. *)
Inductive hint := HFingerprint | HKey | HStorage | HStr | HOptional | HInt.
Definition hint_eqb (a b : hint) : bool :=
  match a, b with
  | HFingerprint, HFingerprint | HKey, HKey | HStorage, HStorage | HStr, HStr | HOptional, HOptional | HInt, HInt => true
  | _, _ => false
  end.
Definition meta := option nat.
Definition suits (h : hint) (v : arg) : bool :=
  match h, v with
  | HFingerprint, AFingerprint _ | HKey, AKey _ | HStorage, AStorage _ | HStr, AField (Some _) | HOptional, AField _ | HInt, AField None => true
  | _, _ => false
  end.
Definition holds (m : meta) (v : arg) : bool :=
  match m, v with
  | Some n, AField (Some s) => (List.length s <=? n)%nat
  | _, _ => true
  end.
Definition no_other : cvalue -> str -> result str := fun _ _ => Err TypeError.

Definition root : mclass hint meta :=
  storage_partition {| f_ann := HFingerprint; f_meta := None; f_required := false |} {| f_ann := HKey; f_meta := None; f_required := false |}
    {| f_ann := HStorage; f_meta := None; f_required := true |}.
Definition field (h : hint) (required : bool) : finfo hint meta := {| f_ann := h; f_meta := None; f_required := required |}.

(** storage/local.py 19-30 *)
Definition file_partition : mclass hint meta := define_model [root] (Body [($"path", field HStr true)] None true).
Definition file_body : body hint meta := Body [($"path", field HStr false)] None true.
Definition file_item : sclass hint meta :=
  {| c_model := {| m_fields := []; m_abstract := true; m_missing := true |}; c_item := Some (ItemClass file_partition); c_params := false |}.
Definition file_class : sclass hint meta :=
  {| c_model := define_model [c_model file_item] file_body; c_item := Some (ItemClass file_partition); c_params := false |}.

(** storage/google/cloud/storage.py 18-43 *)
Definition gcs_mixin : mclass hint meta := define_model [plain_model] (Body [($"bucket", field HStr true); ($"path", field HStr true)] None false).
Definition gcs_partition : mclass hint meta := define_model [gcs_mixin; root] (Body [] None true).
Definition gcs_item : sclass hint meta :=
  {| c_model := {| m_fields := []; m_abstract := true; m_missing := true |}; c_item := Some (ItemClass gcs_partition); c_params := false |}.
Definition gcs_class : sclass hint meta :=
  {| c_model := define_model [gcs_mixin; c_model gcs_item] file_body; c_item := Some (ItemClass gcs_partition); c_params := false |}.

(** A storage class of unspecified partitions. *)
Definition loose_class : sclass hint meta :=
  {| c_model := define_model [c_model storage_class] file_body; c_item := None; c_params := true |}.
(** [class Base[SP](Storage[SP]): _abstract_ = True] *)
Definition var_item : sclass hint meta :=
  {| c_model := {| m_fields := []; m_abstract := true; m_missing := true |}; c_item := Some ItemVar; c_params := true |}.
Definition generic_class : sclass hint meta :=
  {| c_model := define_model [c_model var_item] (Body [] (Some true) false); c_item := Some ItemVar; c_params := true |}.
(** Partitions whose path has at most three characters. *)
Definition short_partition : mclass hint meta :=
  define_model [root] (Body [($"path", {| f_ann := HStr; f_meta := Some 3%nat; f_required := true |})] None true).
Definition short_item : sclass hint meta :=
  {| c_model := {| m_fields := []; m_abstract := true; m_missing := true |}; c_item := Some (ItemClass short_partition); c_params := false |}.
Definition short_class : sclass hint meta :=
  {| c_model := define_model [c_model short_item] file_body; c_item := Some (ItemClass short_partition); c_params := false |}.
(** Partitions that ask for another kind of storage. *)
Definition other_partition : mclass hint meta := define_model [root] (Body [($"path", field HStr true); ($"storage", field HInt true)] None true).
Definition other_item : sclass hint meta :=
  {| c_model := {| m_fields := []; m_abstract := true; m_missing := true |}; c_item := Some (ItemClass other_partition); c_params := false |}.
Definition other_class : sclass hint meta :=
  {| c_model := define_model [c_model other_item] file_body; c_item := Some (ItemClass other_partition); c_params := false |}.

Definition file_at (path : str) : storage := {| s_fields := [($"path", Some path)]; s_key_types := Some [] |}.
Definition partition_at (path : str) (fp : option Z) (generated : str) : partition :=
  {| p_fp := fp; p_key := []; p_storage := file_at path; p_fields := [($"path", Some generated)] |}.

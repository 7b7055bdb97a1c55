(** What a storage in a bucket should do. *)
From Coq Require Import ZArith List Ascii String Bool.
From Verif Require Import Base Str Partitions_Model Format_Model Template_Spec Storage_Model Paths_Spec Placement_Model Placement_Spec Gcs_Model.
Import ListNotations.
Open Scope list_scope.

(** The template of the objects, from those of the bucket and of the path. *)
Definition in_bucket (bucket path : template) : template := bucket ++ TLit $"/" :: path.

(** The hash an object is known by: the md5, or the crc32c of objects without one. *)
Inductive known_by (i : object_info) : str -> Prop :=
| by_md5 : forall h, md5_hash i = Some h -> known_by i h
| by_crc32c : md5_hash i = None -> known_by i (crc32c i).

(** Listing finds every object that matches; it may know further wildcards. *)
Definition lists_all {content : Type} (listed : str -> list str) (objects : list (str * content)) : Prop :=
  forall w object, In object (map fst objects) -> glob_match w object = true -> In object (listed w).

(** The object of an artifact at the default path: levels as in a LocalFile, and a file called like
    the artifact, a dot and the extension. *)
Definition gcs_place (g : context) (names : list str) (x : defaulted) : str :=
  flat_map (fun n => n ++ $"/") (levels g names) ++
  match d_key_types x with [] => [] | kts => partition_key_spec kts ++ $"/" end ++
  (if d_produced x then $"{input_fingerprint}/" else []) ++ last names [] ++ $"." ++ d_extension x.

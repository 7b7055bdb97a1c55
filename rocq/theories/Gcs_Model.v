(** Model of src/arti/storage/google/cloud/storage.py lines 18-64. Definitions only.

    The bucket and the path are the two text fields of the storage; partitions are generated by
    [Storage.generate_partition] (Storage_Model). Objects are a mapping from "bucket/object" to
    contents. What [GCSFileSystem] lists for a wildcard is an argument, since its dialect differs
    from that of [glob] (names starting with a dot are not special); so are the hashes it reports
    for an object. It is taken to raise FileNotFoundError for an object that is not there and to
    know a crc32c for every other one. The order of the two fields only decides which error is
    raised when both are wrong. *)
From Coq Require Import ZArith List Ascii String Bool.
From Verif Require Import Base Str Partitions_Model Format_Model Storage_Model Placement_Model.
Import ListNotations.
Open Scope list_scope.

(** [info(...)] of an object (30-32): only these two entries are read. *)
Record object_info := { md5_hash : option str; crc32c : str }.

(** [path.split("/", 1)] *)
Fixpoint split_once (c : ascii) (s : str) : list str :=
  match s with
  | [] => [[]]
  | a :: s' =>
      if Ascii.eqb a c then [[]; s']
      else match split_once c s' with
           | p :: ps => (a :: p) :: ps
           | [] => [[a]]
           end
  end.
Definition names_eqb (a b : list str) : bool := if list_eq_dec (list_eq_dec ascii_dec) a b then true else false.

Section Gcs.
  Context (other : cvalue -> str -> result str).
  (** [Fingerprint.from_string] as an integer. *)
  Context {content : Type} (from_string : str -> Z) (info : content -> object_info).
  Context (listed : str -> list str).

  (** [GCSFile] (35-43) with its default path (36-43). *)
  Definition gcs_file (bucket path : str) (kts : option key_types) : storage :=
    {| s_fields := [($"bucket", Some bucket); ($"path", Some path)]; s_key_types := kts |}.
  Definition gcs_template : str :=
    $"{graph_name}/{path_tags}/{names}/{partition_key_spec}/{input_fingerprint}/{name}.{extension}".

  (** [_GCSMixin.qualified_path] (22-24) of a partition. *)
  Definition qualified_path (p : partition) : result str :=
    match dget str_eqb (p_fields p) $"bucket", dget str_eqb (p_fields p) $"path" with
    | Some (Some bucket), Some (Some path) => Ok (bucket ++ $"/" ++ path)
    | _, _ => Err AttributeError
    end.

  (** [compute_content_fingerprint] (28-32) of what an object contains. *)
  Definition object_fp (c : content) : Z :=
    from_string (match md5_hash (info c) with Some h => h | None => crc32c (info c) end).
  (** [snapshot] (storage/__init__.py 35-38) *)
  Definition gcs_snapshot (objects : list (str * content)) (p : partition) : result (Z * partition) :=
    bind (qualified_path p) (fun q =>
    match dget str_eqb objects q with
    | Some c => Ok (object_fp c, p)
    | None => Err FileNotFoundError
    end).

  (** [discover_partitions] (45-64). The listed paths are parsed and filtered, then keyed again by
      what is before and after their first separator (62); unpacking such a key fails when there is
      no separator (61). *)
  Definition gcs_discover (objects : list (str * content)) (bucket path : str) (kts : key_types)
      (fps : list (pkey * option Z)) : result (list (Z * partition)) :=
    let spec := bucket ++ $"/" ++ path in
    bind (spec_to_wildcard other spec kts) (fun wildcard =>
    bind (parse_spec (listed wildcard) fps kts spec) (fun metadata =>
    mapM (fun km => match fst km with
                    | [_; _] => bind (generate_partition other (gcs_file bucket path (Some kts)) (fst (snd km)) (snd (snd km)))
                                     (gcs_snapshot objects)
                    | _ => Err ValueError
                    end)
      (dict_of names_eqb (map (fun pm => (split_once "/"%char (fst pm), snd pm)) metadata)))).

  (** An artifact stored in a bucket at the default path, created and assigned in a graph. *)
  Definition gcs_place_default (bucket : str) (g : context) (names : list str) (x : defaulted) : result artifact :=
    bind (artifact_storage other (gcs_file bucket gcs_template None) (d_key_types x) (d_extension x)) (fun st =>
    place other (Some g) names {| a_storage := st; a_produced := d_produced x |}).
End Gcs.

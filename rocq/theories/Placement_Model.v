(** Model of the storage of an artifact on its way into a graph: src/arti/artifacts/__init__.py
    lines 65-72, src/arti/graphs/__init__.py lines 56-83 and the default template of
    src/arti/storage/local.py lines 30-42. Definitions only.

    Of an artifact only the storage, and whether a producer made it, are kept. The root is
    the text of the directory, as [Path] writes it: it has no trailing separator. *)
From Coq Require Import ZArith List Ascii String Bool.
From Verif Require Import Base Str Numerals_Model Partitions_Model Format_Model Storage_Model TypedBox_Model.
Import ListNotations.
Open Scope list_scope.

Section Placement.
  Context (other : cvalue -> str -> result str).

  (** [LocalFile._DEFAULT_PATH_TEMPLATE] (local.py 34-41) under a root: [LocalFile.path] (43),
      [LocalFile.rooted_at(root)] (60-63). *)
  Definition default_template : str :=
    $"{graph_name}/{path_tags}/{names}/{partition_key_spec}/{input_fingerprint}/{name}{extension}".
  Definition rooted_at (root : str) : storage :=
    {| s_fields := [($"path", Some (root ++ $"/" ++ default_template))]; s_key_types := None |}.

  (** [Artifact._validate_storage] (artifacts/__init__.py 65-72), given the key types of the
      artifact's type and the extension of its format. *)
  Definition artifact_storage (st : storage) (kts : key_types) (extension : str) : result storage :=
    bind (visit_type other st kts) (fun st => visit_format other st extension).

  Record artifact := { a_storage : storage; a_produced : bool }.
  (** The graph being defined, if any: [arti.context.graph]. *)
  Record context := { g_name : str; g_tags : list (str * str) }.

  (** [ArtifactBox._cast_value] (graphs/__init__.py 57-83) of a box with this namespace, for a
      value that is an artifact already (see Cast_Model for the others). *)
  Definition place (ctx : option context) (names : list str) (a : artifact) : result artifact :=
    bind (match ctx with
          | Some g => bind (visit_graph other (a_storage a) (g_name g) (g_tags g)) (fun st =>
                      visit_names other st names)                                      (* 60-63 *)
          | None => Ok (a_storage a)
          end) (fun st =>
    rmap (fun st => {| a_storage := st; a_produced := a_produced a |})
      (if a_produced a then if includes_fp st then Ok st else Err ValueError           (* 73-76 *)
       else visit_input_fingerprint other st None)).                                   (* 71-72 *)
  (** The graph being defined may differ between assignments. *)
  Definition cast_artifact (namespace : list str) (key : str) (x : option context * artifact) : result artifact :=
    place (fst x) (namespace ++ [key]) (snd x).

  (** An artifact with the default LocalFile storage, created and assigned in a graph. *)
  Record defaulted := { d_key_types : key_types; d_extension : str; d_produced : bool }.
  Definition place_default (root : str) (g : context) (names : list str) (x : defaulted) : result artifact :=
    bind (artifact_storage (rooted_at root) (d_key_types x) (d_extension x)) (fun st =>
    place (Some g) names {| a_storage := st; a_produced := d_produced x |}).
  Definition cast_default (root : str) (g : context) (namespace : list str) (key : str) (x : defaulted)
      : result artifact := place_default root g (namespace ++ [key]) x.

  (** [artifact.storage.discover_partitions()] (graphs/__init__.py 235, 344) of an artifact in a
      LocalFile. *)
  Definition discover {content} (content_fp : content -> Z) (fs : list (str * content)) (a : artifact)
      (fps : list (pkey * option Z)) : result (list (Z * partition)) :=
    bind (get_key_types (a_storage a)) (fun kts =>
    match dget str_eqb (s_fields (a_storage a)) $"path" with
    | Some (Some path) => discover_partitions other content_fp fs path kts fps
    | _ => Err AttributeError
    end).
End Placement.

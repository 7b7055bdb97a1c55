(** The ids of literals in a graph. *)
From Coq Require Import ZArith List Ascii String.
From Verif Require Import Base Str Partitions_Model Template_Spec Storage_Model IO_Model IO_Spec Placement_Model Placement_Spec.
Import ListNotations.
Open Scope list_scope.

(** The id of an artifact under these names in the graph: one level each for the name of the graph, the
    path tags, the names, the components of the key and the input fingerprint of a produced artifact,
    then the name and the extension. *)
Definition literal_id (g : context) (names : list str) (x : defaulted) : str :=
  flat_map (fun n => n ++ $"/") (levels g names) ++
  match d_key_types x with [] => [] | kts => partition_key_spec kts ++ $"/" end ++
  (if d_produced x then $"{input_fingerprint}/" else []) ++ last names [] ++ d_extension x.
(** A value the literal may have from the start. *)
Definition preset_ok (value : option str) : Prop := forall v, value = Some v -> plain_text v.

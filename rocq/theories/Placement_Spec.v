(** Where the artifacts of a graph live. *)
From Coq Require Import ZArith List Ascii String Bool.
From Verif Require Import Base Str Partitions_Model Format_Model Template_Spec Storage_Model Paths_Spec
  TypedBox_Model TypedBox_Spec Placement_Model.
Import ListNotations.
Open Scope list_scope.

(** One directory or file name: not empty, no separator, no braces. *)
Definition segment (s : str) : Prop := s <> [] /\ avoids $"{}/" s.
(** The directory of an artifact: below the root one level for the name of the graph (if it has
    one), one per path tag "tag=value", and one per name of the artifact. *)
Definition levels (g : context) (names : list str) : list str :=
  match g_name g with [] => [] | n => [n] end ++ map (fun tv => fst tv ++ $"=" ++ snd tv) (g_tags g) ++ names.
Definition directory (root : str) (g : context) (names : list str) : str :=
  root ++ flat_map (fun n => $"/" ++ n) (levels g names) ++ $"/".
(** In it, one level per component of the key, one for the input fingerprint of a produced
    artifact, and a file called like the artifact. *)
Definition default_place (root : str) (g : context) (names : list str) (x : defaulted) : str :=
  directory root g names ++
  match d_key_types x with [] => [] | kts => partition_key_spec kts ++ $"/" end ++
  (if d_produced x then $"{input_fingerprint}/" else []) ++ last names [] ++ d_extension x.

(** Texts that do not interfere with the template. *)
Definition context_ok (g : context) : Prop :=
  avoids $"{}" (g_name g) /\ forall t v, In (t, v) (g_tags g) -> avoids $"{}" t /\ avoids $"{}" v.
Definition names_in_graph (names : list str) : Prop := names <> [] /\ Forall segment names.
(** Placeholders the storage of an artifact is asked to fill in once its key types are known. *)
Definition reserved : list str :=
  [$"extension"; $"graph_name"; $"path_tags"; $"name"; $"names"; $"input_fingerprint"].
Definition plain_names (kts : key_types) : Prop :=
  NoDup (map fst kts) /\ forall n c, In (n, c) kts -> word n /\ all_digits n = false.
Definition not_reserved (kts : key_types) : Prop := forall n, In n (map fst kts) -> ~ In n reserved.
Definition defaulted_ok (x : defaulted) : Prop :=
  plain_names (d_key_types x) /\ not_reserved (d_key_types x) /\ avoids $"{}/" (d_extension x).

(** The file of a partition. *)
Definition at_path (p : partition) (path : str) : Prop := dget str_eqb (p_fields p) $"path" = Some (Some path).
(** Text [glob] takes as it is. *)
Definition no_wildcard (s : str) : Prop := avoids $"*?[" s.

(** Neither place is inside the other. *)
Definition apart (a b : list str) : Prop := forall c, b <> a ++ c /\ a <> b ++ c.

(** Graphs whose artifacts all have the default storage under one root. *)
Definition cast_ok (other : cvalue -> str -> result str) (root : str) (g : context) (ns : list str) (key : str)
    (x : {x | defaulted_ok x}) : result artifact := cast_default other root g ns key (proj1_sig x).
(** The artifact found under these names in such a graph. *)
Definition has_artifact (s : state artifact) (names : list str) (a : artifact) : Prop :=
  find (Sub (st_data s)) names = Some (Leaf a).
(** A file of the artifact: that of any partition its storage generates. *)
Definition file_of (other : cvalue -> str -> result str) (a : artifact) (path : str) : Prop :=
  exists fp key p, generate_partition other (a_storage a) fp key = Ok p /\ at_path p path.

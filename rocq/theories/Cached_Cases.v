(** A file artifact of a graph whose path names the graph, and the graph. *)
From Coq Require Import ZArith List Ascii String Bool.
From Verif Require Import Base Str Models_Model Cached_Model.
Import ListNotations.
Open Scope list_scope.

Definition shown_field (n : string) : decl := {| d_name := $n; d_exclude := false; d_skips := [] |}.
Definition artifact_class : class :=
  {| c_name := $"Artifact"; c_abstract := false; c_kind := Plain;
     c_decls := [shown_field "type"; shown_field "format"; shown_field "storage"; shown_field "annotations";
                 shown_field "statistics"; {| d_name := $"producer_output"; d_exclude := false; d_skips := [true] |}] |}.
Definition graph_class : class :=
  {| c_name := $"Graph"; c_abstract := false; c_kind := Plain;
     c_decls := [shown_field "name"; shown_field "artifacts";
                 {| d_name := $"backend"; d_exclude := true; d_skips := [true] |}; shown_field "path_tags"] |}.
Definition named (n : string) (fields : list (str * value)) : value :=
  VModel {| c_name := $n; c_abstract := false; c_kind := Plain; c_decls := map (fun f => {| d_name := fst f; d_exclude := false; d_skips := [] |}) fields |}
         ($"_arti_type_" :: map fst fields) fields.
Definition file (path : string) : value := named "LocalFile" [($"path", VStr $path)].
Definition artifact_fields (path : string) : list (str * value) :=
  [($"type", named "Int64" []); ($"format", named "JSON" []); ($"storage", file path);
   ($"annotations", VTuple []); ($"statistics", VTuple []); ($"producer_output", VNone)].
Definition graph_fields (box : list (str * value)) : list (str * value) :=
  [($"name", VStr $"g"); ($"artifacts", VMap box); ($"backend", VNone); ($"path_tags", VMap [])].

(** The artifact is made, maybe looked at, and put into a graph called [g], which fills in the
    path; then a producer is set as [out] does. *)
Definition made : op := New artifact_class (artifact_fields "/data/{graph_name}/a").
Definition placed : op := Copy 0 [($"storage", file "/data/g/a")].
Definition quiet : list op := [made; placed].
Definition curious : list op := [made; Read 0; placed].

(** The file found under that path. *)
Definition found : object :=
  Object {| c_name := $"StoragePartitionSnapshot"; c_abstract := false; c_kind := Plain;
            c_decls := [shown_field "content_fingerprint"; shown_field "storage_partition"] |}
         [$"_arti_type_"; $"content_fingerprint"; $"storage_partition"]
         [($"content_fingerprint", Field (VInt 7)); ($"storage_partition", Field (named "LocalFilePartition" [($"path", VStr $"/data/g/a")]))].

(** Two texts are told apart by the number of [{] in them. *)
Definition braces (s : string) : Z :=
  Z.of_nat (List.length (filter (Ascii.eqb "{") (list_ascii_of_string s))).

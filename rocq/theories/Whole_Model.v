(** Model of producers without a [map] of their own, _validate_map_sig
    (src/arti/producers/__init__.py 271-297), and of artifacts stored as JSON
    (src/arti/io/json_localfile_python.py 24-38, json_gcsfile_python.py 26-41,
    json_stringliteral_python.py 23-37). Definitions only. *)
From Coq Require Import ZArith List Ascii String Bool Arith.
From Verif Require Import Base Str Graph_Model Backend_Model Executor_Model Json_Model.
Import ListNotations.
Open Scope list_scope.

(** 280-281: one partition without keys, built from all partitions of all inputs. *)
Definition default_map (inputs : list (str * list psnapshot)) : result (list (pkey * list (str * list psnapshot))) :=
  Ok [([], inputs)].
(** 285-292: its parameters are the fields that [build] takes. *)
Definition default_map_inputs (fields build_inputs : list str) : list str :=
  filter (fun n => existsb (str_eqb n) build_inputs) fields.

(** [_read] of artifacts in the JSON format: the readers of IO_Model, which check the type, for an
    artifact whose storage is partitioned if its type is. *)
Definition json_load {fl} (a : artifact) (ds : list str) : result (value fl) :=
  if st_partitioned (a_storage a) then rmap (fun l => VList (List.concat l)) (mapM (fun d => bind (loads d) elements) ds)
  else match ds with [d] => loads d | _ => Err AssertionError end.

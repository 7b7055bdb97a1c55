(** A process that builds and tags, changes raw data, builds and tags again. *)
From Coq Require Import ZArith List Ascii String Bool Arith.
From Verif Require Import Base Str Graph_Model Backend_Model Executor_Model Executor_Spec Executor_Cases Lasting_Model Lasting_Spec.
Import ListNotations.
Open Scope list_scope.

Definition tagged_as (s : state str) (sn : snapshot) (t : string) (o : bool) : state str := fst (tag sn $t o s).
Definition storage_of_b (t : storage) : Prop := t = a_storage b1.
(** Built and tagged "v1"; then a changes from "1" to "2"; built and tagged "v2"; tagging that as "v1"
    fails. *)
Definition snapped := fst (snap g1 ex1).
Definition first := tagged_as (run g1 ex1) sn1 "v1" false.
Definition changed := with_raw first [file "a" "" "2"].
Definition sn2 := snd (snap g1 changed).
Definition second := tagged_as (run g1 changed) sn2 "v2" false.
Definition third := tagged_as second sn2 "v1" false.
Definition before_first : list event := [Snapshotted g1; BuiltAt sn1; TaggedAs sn1 $"v1" false].
Definition after_first : list event := [RawChanged; Snapshotted g1; BuiltAt sn2; TaggedAs sn2 $"v2" false; TaggedAs sn2 $"v1" false].
Definition text_of (r : result str) : string := match r with Ok v => string_of_list_ascii v | Err _ => "!" end.
(** The first snapshot, tagged and built once more after all that. *)
Definition again := built third sn1.
Definition after_build : list event := TaggedAs sn1 $"v1" false :: after_first ++ [BuiltAt sn1].

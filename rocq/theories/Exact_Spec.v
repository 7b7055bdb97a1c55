(** Which graphs are finished, what readers and writers there are, and what producers return. *)
From Coq Require Import ZArith List Ascii String Bool.
From Verif Require Import Base Str Types_Model Graph_Model Graph_Spec.
From Verif Require IO_Model.
Import ListNotations.
Open Scope list_scope.

(** Operations from the start, the latest first, with what they returned. *)
Inductive history : list (operation * result unit) -> context * list nat -> Prop :=
| no_history : forall init, history [] (Context None (fun g => fresh_graph (init g)), [])
| one_more : forall l s o r s', history l s -> step s o r s' -> history ((o, r) :: l) s'.
(** The graph was closed and not opened since. *)
Inductive finished (g : nat) : list (operation * result unit) -> Prop :=
| finished_now : forall r l, finished g ((Exit g, r) :: l)
| finished_before : forall o r l, finished g l -> o <> Exit g -> (o, r) <> (Enter g, Ok tt) -> finished g ((o, r) :: l).

(** The kinds of storage, and the combinations with a reader and a writer: JSON everywhere, pickles not in literals. *)
Inductive storage_kind := OnDisk | InBucket | InGraph.
Definition kind_of (p : IO_Model.place) : storage_kind :=
  match p with IO_Model.LocalPart _ => OnDisk | IO_Model.GCSPart _ => InBucket | IO_Model.LiteralPart _ _ => InGraph end.
Inductive has_codec : IO_Model.format -> storage_kind -> IO_Model.view -> Prop :=
| json_codec : forall k, has_codec IO_Model.JSON k IO_Model.PythonBuiltin
| pickle_file : has_codec IO_Model.Pickle OnDisk IO_Model.PythonBuiltin
| pickle_blob : has_codec IO_Model.Pickle InBucket IO_Model.PythonBuiltin.
(** Partitions in one kind of storage. *)
Definition in_one (k : storage_kind) (ps : list IO_Model.place) : Prop := forall p, In p ps -> kind_of p = k.

(** The view for values of a Python type, None standing for the type of None (views/python.py). *)
From Verif Require Import PyTypes_Model Views_Model.
Inductive builtin_view_of : option pyclass -> builtin_view -> Prop :=
| of_date : builtin_view_of (Some PyDate) VDate
| of_datetime : builtin_view_of (Some PyDatetime) VDatetime
| of_dict : builtin_view_of (Some PyDict) VDict
| of_float : builtin_view_of (Some PyFloat) VFloat
| of_int : builtin_view_of (Some PyInt) VInt
| of_list : builtin_view_of (Some PyList) VList
| of_none : builtin_view_of None VNull
| of_str : builtin_view_of (Some PyStr) VStr.

(** Hints that are no types as far as [lenient_issubclass] is concerned. *)
From Verif Require Import Hints_Model.
Inductive no_type {C : Type} : hint C -> Prop :=
| no_type_none : no_type HNone
| no_type_dots : no_type HEllipsis
| no_type_union : forall bar args, no_type (HUnion bar args)
| no_type_literal : forall items, no_type (HLiteral items).

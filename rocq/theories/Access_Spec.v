(** What is read and written by hand. *)
From Coq Require Import ZArith List Ascii String Bool Arith.
From Verif Require Import Base Str Graph_Model Backend_Model Executor_Model Executor_Spec Access_Model.
Import ListNotations.
Open Scope list_scope.

Section Access.
  Context {V W N : Type} (E : env V) (X : views V W N).
  (** The view makes [v] of the data of some partitions. *)
  Definition gives (s : state V) (w : W) (a : artifact) (parts : list psnapshot) (v : V) : Prop :=
    parts <> [] /\ (List.length parts <= 1 \/ st_partitioned (a_storage a) = true) /\
    exists ds, Forall2 (holds_data s) parts ds /\ decode X w a ds = Ok v.
  (** The view found for an annotation is suitable. *)
  Definition suits (writing : bool) (n : N) (a : artifact) (w : W) : Prop :=
    view_for X writing n a = Ok w /\ fits_annotation X w n = Ok tt /\ fits_artifact X w a = Ok tt.
  (** The view data is written with: the one passed or the one found, and in either case suitable. *)
  Definition writes_with (v : V) (a : artifact) (view : option W) (w : W) : Prop :=
    match view with Some w' => w = w' | None => view_for X true (type_of X v) a = Ok w end /\
    fits_annotation X w (type_of X v) = Ok tt /\ fits_artifact X w a = Ok tt.
  (** A partition of an artifact has a key if the artifact is partitioned, a fingerprint if its
      storage has a place for one. *)
  Definition well_addressed (a : artifact) (f : option Z) (k : pkey) : Prop :=
    (st_partitioned (a_storage a) = true <-> k <> []) /\ (st_templated (a_storage a) = true <-> f <> None).
  Definition place (a : artifact) (f : option Z) (k : pkey) : location := (st_id (a_storage a), k, f).
End Access.

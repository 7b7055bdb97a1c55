(** What a build computes. *)
From Coq Require Import ZArith List Ascii String.
From Verif Require Import Base Str Graph_Model Backend_Model Executor_Model Executor_Spec.
Import ListNotations.
Open Scope list_scope.

(** The calls of [build] in a log: which producer, for which partition. *)
Definition calls {V} (l : list (action V)) : list (producer * pkey) :=
  flat_map (fun x => match x with Built p k _ => [(p, k)] | _ => [] end) l.
(** No output of the producer has this partition. *)
Definition missing {V} (s : state V) (g : artifacts) (p : producer) (k : pkey) (f : Z) : Prop :=
  forall i a, produces g p i a -> ~ available s (a_storage a) k f.

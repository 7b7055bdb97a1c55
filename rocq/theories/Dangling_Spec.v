(** Producers reading artifacts that are not in the graph. *)
From Coq Require Import ZArith List Ascii String.
From Verif Require Import Base Str Graph_Model Backend_Model Executor_Model.
Import ListNotations.
Open Scope list_scope.

(** [p] produces an artifact of the graph from [a], which is none. *)
Definition dangling (g : artifacts) (p : producer) (a : artifact) : Prop :=
  (exists k x i, In (k, x) g /\ a_output x = Some (p, i)) /\ In a (map snd (p_inputs p)) /\ ~ In a (map snd g).
(** Every input of every producer is in the graph. *)
Definition complete (g : artifacts) : Prop := forall p a, ~ dangling g p a.

(** A call of user code of the producer. *)
Inductive called {V} (p : producer) : action V -> Prop :=
| called_build : forall k args, called p (Built p k args)
| called_validate : forall k outputs, called p (Validated p k outputs).

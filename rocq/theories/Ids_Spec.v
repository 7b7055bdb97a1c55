(** What the id of a snapshot is made of. *)
From Coq Require Import ZArith List Ascii String Permutation.
From Verif Require Import Base Str Graph_Model Graph_Spec Backend_Model Executor_Model Executor_Spec.
Import ListNotations.
Open Scope list_scope.

(** The graph as a whole, its artifacts and producers, the names of its artifacts and the partitions of the raw ones. *)
Inductive piece := PGraph | PNode (n : node) | PName (a : artifact) | PData (a : artifact) (x : psnapshot).
Inductive has_piece {V} (E : env V) (g : graph_def) (s : state V) : piece -> Z -> Prop :=
| has_graph : has_piece E g s PGraph (graph_fp E g)
| has_artifact : forall k a, In (k, a) (g_arts g) -> has_piece E g s (PNode (NArtifact a)) (node_fp E (NArtifact a))
| has_producer : forall k a p i, In (k, a) (g_arts g) -> a_output a = Some (p, i) -> has_piece E g s (PNode (NProducer p)) (node_fp E (NProducer p))
| has_name : forall key a, last_key (g_arts g) a key -> has_piece E g s (PName a) (from_string E key)
| has_data : forall k a x, In (k, a) (g_arts g) -> a_output a = None -> raw_found E s (a_storage a) x -> has_piece E g s (PData a x) (part_fp E x).
(** All of them, each once, in some order. *)
Definition lists_pieces {V} (E : env V) (g : graph_def) (s : state V) (l : list (piece * Z)) : Prop :=
  NoDup (map fst l) /\ forall p z, In (p, z) l <-> has_piece E g s p z.

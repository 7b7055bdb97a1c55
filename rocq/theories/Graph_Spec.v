(** Dependency graphs, build orders and histories of graph definitions. *)
From Coq Require Import ZArith List Ascii String Bool Arith.
From Verif Require Import Base Str Graph_Model.
Import ListNotations.
Open Scope list_scope.

(** [x] needs [y] in a graph: a produced artifact its producer, the producer of an artifact of
    the graph its inputs. *)
Inductive needs (g : artifacts) : node -> node -> Prop :=
| needs_producer : forall k a p i, In (k, a) g -> a_output a = Some (p, i) ->
    needs g (NArtifact a) (NProducer p)
| needs_input : forall k a p i n b, In (k, a) g -> a_output a = Some (p, i) -> In (n, b) (p_inputs p) ->
    needs g (NProducer p) (NArtifact b).

(** The nodes a graph defines. *)
Inductive defines (g : artifacts) : node -> Prop :=
| defines_artifact : forall k a, In (k, a) g -> defines g (NArtifact a)
| defines_producer : forall k a p i, In (k, a) g -> a_output a = Some (p, i) -> defines g (NProducer p).

Definition depends (deps : list (node * list node)) (x y : node) : Prop := In y (predecessors deps x).
Definition vertex (deps : list (node * list node)) (x : node) : Prop :=
  exists n ps, In (n, ps) deps /\ (x = n \/ In x ps).

Inductive path {A} (R : A -> A -> Prop) : A -> A -> Prop :=
| path_step : forall x y, R x y -> path R x y
| path_more : forall x y z, R x y -> path R y z -> path R x z.
Definition cyclic {A} (R : A -> A -> Prop) : Prop := exists x, path R x x.

Definition before {A} (l : list A) (y x : A) : Prop := exists l1 l2 l3, l = l1 ++ y :: l2 ++ x :: l3.

(** Every vertex once, after everything it depends on. *)
Definition build_order (deps : list (node * list node)) (l : list node) : Prop :=
  NoDup l /\ (forall x, In x l <-> vertex deps x) /\ (forall x y, depends deps x y -> before l y x).

(** Histories: [with graph:] blocks run [exit] once for every successful [enter], in any order
    (ExitStack); assignments happen at any time. *)
Inductive operation := Enter (g : nat) | Exit (g : nat) | Assign (g : nat) (k : str) (a : artifact).
Inductive step : context * list nat -> operation -> result unit -> context * list nat -> Prop :=
| step_enter : forall c pending g c', enter c g = (c', Ok tt) -> step (c, pending) (Enter g) (Ok tt) (c', g :: pending)
| step_refused : forall c pending g c' e, enter c g = (c', Err e) -> step (c, pending) (Enter g) (Err e) (c', pending)
| step_exit : forall c before after g c' r, exit c g = (c', r) ->
    step (c, before ++ g :: after) (Exit g) r (c', before ++ after)
| step_assign : forall c pending g k a c' r, assign c g k a = (c', r) ->
    step (c, pending) (Assign g k a) r (c', pending).
Inductive reachable : context * list nat -> Prop :=
| reach_start : forall init, reachable (Context None (fun g => fresh_graph (init g)), [])
| reach_step : forall s o r s', reachable s -> step s o r s' -> reachable s'.

Definition open_in (c : context) (g : nat) : Prop := status (graph c g) = GOpen.
(** Any number of operations. *)
Inductive steps : context * list nat -> context * list nat -> Prop :=
| steps_refl : forall s, steps s s
| steps_step : forall s o r s' s'', step s o r s' -> steps s' s'' -> steps s s''.

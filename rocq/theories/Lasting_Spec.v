(** What happens in one process: raw data changes, graphs are snapshotted and built with any outcome,
    snapshots are tagged. *)
From Coq Require Import ZArith List Ascii String Bool Arith.
From Verif Require Import Base Str Graph_Model Graph_Spec Backend_Model Executor_Model Executor_Spec Lasting_Model.
Import ListNotations.
Open Scope list_scope.

(** Events of a process. *)
Inductive event :=
| RawChanged
| Limited
| Snapshotted (g : graph_def)
| BuiltAt (sn : snapshot)
| TaggedAs (sn : snapshot) (t : str) (overwrite : bool).

(** [U]: the storages of produced artifacts. *)
Definition one_each (U : storage -> Prop) : Prop := forall t t', U t -> U t' -> st_id t = st_id t' -> t = t'.
Definition produced_in (U : storage -> Prop) (g : artifacts) : Prop := forall p i a, produces g p i a -> U (a_storage a).

Section Process.
  Context {V : Type} (E : env V) (U : storage -> Prop).
  (** Files without fingerprint change in any way; the process may be bound to stop after some effects;
      snapshots, builds and tags end in any way, but only produced artifacts with storages in [U] are
      built. *)
  Inductive step : event -> state V -> state V -> Prop :=
  | step_raw : forall s fs, (forall i k f, dget location_eqb fs (i, k, Some f) = dget location_eqb (files s) (i, k, Some f)) ->
      step RawChanged s (State fs (db s) (log s) (fuel s))
  | step_limit : forall s n, step Limited s (State (files s) (db s) (log s) n)
  | step_snapshot : forall s g s' r, from_graph E g s = (s', r) -> step (Snapshotted g) s s'
  | step_build : forall s sn s' r, produced_in U (g_arts (s_graph sn)) -> build E sn s = (s', r) -> step (BuiltAt sn) s s'
  | step_tag : forall s sn t o s' r, tag sn t o s = (s', r) -> step (TaggedAs sn t o) s s'.
  Inductive steps : list event -> state V -> state V -> Prop :=
  | steps_none : forall s, steps [] s s
  | steps_more : forall e es s s1 s', step e s s1 -> steps es s1 s' -> steps (e :: es) s s'.
  (** The states of a process: it starts with an empty backend and any files. *)
  Definition in_process (s : state V) : Prop := exists fs l n es, steps es (State fs empty_backend l n) s.
End Process.

(** The tag [t] of graphs called [name] is not moved. *)
Definition leaves_tag (name t : str) (es : list event) : Prop :=
  forall sn, In (TaggedAs sn t true) es -> g_name (s_graph sn) <> name.
(** Nothing limits the process. *)
Definition unlimited {V} (s : state V) : state V := State (files s) (db s) (log s) None.

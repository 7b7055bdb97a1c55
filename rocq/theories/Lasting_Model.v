(** Model of tags and of reading through them: [GraphSnapshot.tag] and [GraphSnapshot.from_tag]
    (src/arti/graphs/__init__.py 370-385), and [GraphSnapshot.read] / [Graph.read] with a snapshot
    (205-246, 387-403), on top of the in-memory backend. Definitions only.

    Simplifications: [connect] of the in-memory backend (src/arti/backends/memory.py 133-138) hands
    out one connection to the same container, so that the backend of the state is used; views and types
    are folded into [load] (C52, C62, C66 treat them). *)
From Coq Require Import ZArith List Ascii String Bool Arith.
From Verif Require Import Base Str Graph_Model Backend_Model Executor_Model.
Import ListNotations.
Open Scope list_scope.

Section Tags.
  Context {V : Type} (E : env V).
  (** [GraphSnapshot.tag] (370-374). *)
  Definition tag (sn : snapshot) (t : str) (overwrite : bool) : M V unit := effect (fun s =>
    let '(b, r) := write_snapshot_tag (db s) sn t overwrite in (with_db s b, r)).
  (** [GraphSnapshot.from_tag] (376-385). *)
  Definition from_tag (name t : str) : M V snapshot := effect (fun s =>
    let '(b, r) := read_snapshot_tag (db s) name t in (with_db s b, r)).
  (** [GraphSnapshot.read] (387-403): the partitions linked to the snapshot are read, for raw and for
      produced artifacts (227-246). *)
  Definition read_at (sn : snapshot) (a : artifact) : M V V :=
    key <- ret (key_of (s_graph sn) a) ;; parts <- read_links E sn key ;; io_read E a parts.
  (** Reading through a tag: [GraphSnapshot.from_tag(name, t).read(a)]. *)
  Definition read_tagged (name t : str) (a : artifact) : M V V :=
    sn <- from_tag name t ;; read_at sn a.
End Tags.

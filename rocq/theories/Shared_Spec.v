(** Paths through objects. *)
From Coq Require Import List Arith ZArith.
From Verif Require Import Base Shared_Model.
Import ListNotations.
Open Scope list_scope.

(** References lead to objects that exist. *)
Definition closed (h : heap) : Prop := forall l c i, nth_error h l = Some c -> In i (c_items c) -> i < List.length h.

(** Not copied: immutable values and what is meant to be shared. *)
Definition kept (h : heap) (l : nat) : Prop :=
  exists c, nth_error h l = Some c /\ (c_kind c = Atomic \/ c_kind c = NoCopy).

(** Going from object [l] along the [n]-th references, through objects that are copied. *)
Inductive leads (h : heap) : nat -> list nat -> nat -> Prop :=
| leads_here : forall l, leads h l [] l
| leads_on : forall l c n i path k, nth_error h l = Some c -> c_kind c = Container \/ c_kind c = Instance ->
    nth_error (c_items c) n = Some i -> leads h i path k -> leads h l (n :: path) k.

(** Anything reachable, also through what is kept. *)
Inductive reaches (h : heap) : nat -> nat -> Prop :=
| reaches_here : forall l, reaches h l l
| reaches_on : forall l c i k, nth_error h l = Some c -> In i (c_items c) -> reaches h i k -> reaches h l k.

(** [k'] is a copy of [k]: the same object if it is kept, and otherwise a new one of the same kind
    with the same data and as many references. *)
Definition copy_of (h h' : heap) (k k' : nat) : Prop :=
  (kept h k /\ k' = k) \/
  (~ kept h k /\ List.length h <= k' /\
   exists c c', nth_error h k = Some c /\ nth_error h' k' = Some c' /\ c_kind c' = c_kind c /\
                c_data c' = c_data c /\ List.length (c_items c') = List.length (c_items c)).

Definition shared (h : heap) (k : nat) : Prop := exists c, nth_error h k = Some c /\ c_kind c = NoCopy.

(** Histories: copies of copies, shallow or deep, while shared objects are changed in any way. The
    places are the object at hand, before and after. *)
Inductive history : heap -> nat -> heap -> nat -> Prop :=
| h_none : forall h l, history h l h l
| h_shallow : forall h l h1 l1 h2 l2, history h l h1 l1 -> shallow h1 l1 = Some (h2, l2) -> history h l h2 l2
| h_deep : forall h l h1 l1 fuel h2 l2, history h l h1 l1 -> deepcopy fuel h1 l1 = Some (h2, l2) -> history h l h2 l2
| h_write : forall h l h1 l1 k items data, history h l h1 l1 -> shared h1 k ->
    (forall i, In i items -> i < List.length h1) -> history h l (assign h1 k items data) l1.

(** Objects that were made after what they refer to, as those of frozen models are. *)
Definition ordered (h : heap) : Prop := forall l c i, nth_error h l = Some c -> In i (c_items c) -> i < l.

(** When a value belongs to a type. *)
From Coq Require Import ZArith List Ascii String.
From Verif Require Import Base Str Types_Model PyTypes_Model Cast_Model.
Import ListNotations.
Open Scope list_scope.

(** By class. *)
Definition scalar_class (s : scalar) : option pyclass :=
  match s with
  | Boolean => Some PyBool
  | Int _ => Some PyInt
  | Float _ => Some PyFloat
  | String => Some PyStr
  | Date => Some PyDate
  | Null => Some PyNoneType
  | UInt _ => None
  end.
Inductive belongs : value -> ty -> Prop :=
| is_scalar : forall v s c m, scalar_class s = Some c -> issub (type_of v) c = true -> belongs v (Scalar s m)
| is_binary : forall v b m, issub (type_of v) PyBytes = true -> belongs v (Binary b m)
| is_timestamp : forall v p m, issub (type_of v) PyDatetime = true -> belongs v (Timestamp p m)
| is_list : forall c items e m, issub c PyList = true \/ issub c PyTuple = true ->
    Forall (fun x => belongs x e) items -> belongs (VSeq c items) (List e m)
| is_set : forall c items e m, issub c PySet = true \/ issub c PyFrozenset = true ->
    Forall (fun x => belongs x e) items -> belongs (VSeq c items) (Set_ e m)
| is_map : forall c items k x m, issub c PyDict = true ->
    Forall (fun kx => belongs (fst kx) k /\ belongs (snd kx) x) items -> belongs (VDict c items) (Map k x m).

(** Integers also have to fit. *)
Definition fits (z : Z) (w : bits) : Prop :=
  match w with
  | B8 => (- 2 ^ 7 <= z < 2 ^ 7)%Z | B16 => (- 2 ^ 15 <= z < 2 ^ 15)%Z
  | B32 => (- 2 ^ 31 <= z < 2 ^ 31)%Z | B64 => (- 2 ^ 63 <= z < 2 ^ 63)%Z
  end.
Inductive in_range : value -> ty -> Prop :=
| range_int : forall c z w m, fits z w -> in_range (VInt c z) (Scalar (Int w) m)
| range_items : forall c items e m, Forall (fun x => in_range x e) items -> in_range (VSeq c items) (List e m)
| range_set : forall c items e m, Forall (fun x => in_range x e) items -> in_range (VSeq c items) (Set_ e m)
| range_map : forall c items k x m, Forall (fun kx => in_range (fst kx) k /\ in_range (snd kx) x) items ->
    in_range (VDict c items) (Map k x m)
| range_other : forall v t, (forall w m, t <> Scalar (Int w) m) -> (forall e m, t <> List e m) ->
    (forall e m, t <> Set_ e m) -> (forall k x m, t <> Map k x m) -> in_range v t.

(** Values as Python has them: each kind of value is of a class of that kind. *)
Inductive proper : value -> Prop :=
| proper_int : forall c z, issub c PyInt = true -> proper (VInt c z)
| proper_seq : forall c items, (issub c PyList = true \/ issub c PyTuple = true \/ issub c PySet = true \/ issub c PyFrozenset = true) ->
    Forall proper items -> proper (VSeq c items)
| proper_dict : forall c items, issub c PyDict = true -> Forall (fun kx => proper (fst kx) /\ proper (snd kx)) items -> proper (VDict c items)
| proper_obj : forall c text, (forall k, In k [PyInt; PyList; PyTuple; PySet; PyFrozenset; PyDict] -> issub c k = false) -> proper (VObj c text).

(** All integers in a value are of 64 bits. *)
Inductive small : value -> Prop :=
| small_int : forall c z, fits z B64 -> small (VInt c z)
| small_seq : forall c items, Forall small items -> small (VSeq c items)
| small_dict : forall c items, Forall (fun kx => small (fst kx) /\ small (snd kx)) items -> small (VDict c items)
| small_obj : forall c text, small (VObj c text).

(** Classes of plain values. *)
Definition plain_classes : list pyclass := [PyBool; PyBytes; PyDate; PyDatetime; PyFloat; PyInt; PyStr].
Definition plain_value (v : value) : Prop := exists k, In k plain_classes /\ isinstance v k = true.
Definition containers : list pyclass := [PyList; PyTuple; PySet; PyFrozenset; PyDict].

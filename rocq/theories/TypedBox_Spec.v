(** Vocabulary for C09-C12. *)
From Coq Require Import ZArith List Bool Ascii String.
From Verif Require Import Base Str TypedBox_Model.
Import ListNotations.

(** What is stored under a path of plain keys. *)
Fixpoint find {V} (n : node V) (path : list str) : option (node V) :=
  match path with
  | [] => Some n
  | p :: rest =>
      match n with
      | Sub d => match dget str_eqb d p with Some n' => find n' rest | None => None end
      | Leaf _ => None
      end
  end.

(** Plain keys of a box: no dot, no leading underscore. *)
Definition plain_key (k : str) : Prop := ~ In "."%char k /\ private k = false.

(** Every value stays where it is and every nested box stays a nested box. *)
Definition extends {V} (d d' : list (str * node V)) : Prop :=
  forall path n, find (Sub d) path = Some n ->
    match n with
    | Leaf v => find (Sub d') path = Some (Leaf v)
    | Sub _ => exists sd, find (Sub d') path = Some (Sub sd)
    end.

(** A box that some history of creation and operations produced. *)
Definition reachable {V R} (cast : list str -> str -> R -> result V) (s : state V) : Prop :=
  exists items d es, box_new cast items = Ok d /\
    s = run cast {| st_status := Open; st_data := d |} es.

(** The object [n] found at [path] is what assigning [i] there should leave: the cast
    value, or a box holding each item of the mapping under its own dotted key. *)
Fixpoint holds {V R} (cast : list str -> str -> R -> result V)
    (i : input R) (path : list str) (n : node V) : Prop :=
  match i with
  | IVal x => exists v, cast (removelast path) (last path []) x = Ok v /\ n = Leaf v
  | IMap items =>
      (exists sd, n = Sub sd) /\
      (fix all (items : list (str * input R)) : Prop :=
         match items with
         | [] => True
         | (k, i') :: rest =>
             (exists n', find n (parts k) = Some n' /\ holds cast i' (path ++ parts k) n') /\ all rest
         end) items
  end.

(** Well-formed contents: keys are plain and unique at every level (true of every
    reachable box). *)
Inductive wf {V} : node V -> Prop :=
| wf_leaf : forall v, wf (Leaf v)
| wf_sub : forall d, NoDup (map fst d) ->
    (forall k n, In (k, n) d -> plain_key k /\ wf n) -> wf (Sub d).

(** No part of the dotted key starts with an underscore. *)
Definition public (key : str) : Prop := forall p, In p (parts key) -> private p = false.

(** No value sits on the way to (or at) [path]. *)
Definition clear_way {V} (d : list (str * node V)) (path : list str) : Prop :=
  forall a b v, path = a ++ b -> find (Sub d) a <> Some (Leaf v).

(** The event is an operation of a user, not closing or reopening. *)
Definition is_op {R} (e : event R) : Prop :=
  match e with EOp _ _ => True | ESetStatus _ => False end.

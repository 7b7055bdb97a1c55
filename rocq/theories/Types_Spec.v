(** When a Collection may exist and what its partition fields are. *)
From Coq Require Import List Ascii String.
From Verif Require Import Base Str Types_Model.
Import ListNotations.
Open Scope list_scope.

(** The element is a Struct, all names are fields of it, and no name is on both lists. *)
Definition valid_collection (element : ty) (partition_by cluster_by : list str) : Prop :=
  exists name fields m, element = Struct name fields m /\
    (forall n, In n partition_by -> In n (map fst fields)) /\
    (forall n, In n cluster_by -> In n (map fst fields)) /\
    (forall n, In n partition_by -> ~ In n cluster_by).

(** [l] holds exactly the fields [names] of [fields], with their types, each once and in the
    order of first mention. *)
Inductive first_mention : list str -> list str -> Prop :=
| fm_nil : first_mention [] []
| fm_new : forall names l n, first_mention names l -> ~ In n names -> first_mention (names ++ [n]) (l ++ [n])
| fm_again : forall names l n, first_mention names l -> In n names -> first_mention (names ++ [n]) l.
Definition declared (fields : list (str * ty)) (names : list str) (l : list (str * ty)) : Prop :=
  first_mention names (map fst l) /\ forall n t, In (n, t) l -> In (n, t) fields.

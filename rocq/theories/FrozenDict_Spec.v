(** Vocabulary for C07 and C08. *)
From Coq Require Import ZArith List.
Import ListNotations.

(** The last value given for a key in a list of pairs. *)
Definition last_given {K V} (k : K) (l : list (K * V)) (v : V) : Prop :=
  exists before after, l = before ++ (k, v) :: after /\ ~ In k (map fst after).

(** The items of a list without the repetitions of earlier ones. *)
Inductive first_given {K} : list K -> list K -> Prop :=
| first_none : first_given [] []
| first_new : forall l ks k, first_given l ks -> ~ In k l -> first_given (l ++ [k]) (ks ++ [k])
| first_repeated : forall l ks k, first_given l ks -> In k l -> first_given (l ++ [k]) ks.

(** Equal values have equal hashes, as Python requires of [__hash__]. *)
Definition hash_ok {K V} (veqb : V -> V -> bool) (ihash : K -> V -> option Z) : Prop :=
  forall k v w, veqb v w = true -> ihash k v = ihash k w.

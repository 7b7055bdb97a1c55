(** Shared vocabulary of the models: Python exceptions as values and small
    helpers for insertion-ordered dictionaries.  No repository code is modelled
    here. *)
From Coq Require Import ZArith List String Ascii Bool.
Import ListNotations.

(** The exception classes raised by the modelled code.  Messages are dropped
    (except in [WrapExc_Model], where they are the subject). *)
Inductive exn : Type :=
| ValueError
| TypeError
| KeyError
| IndexError
| AttributeError
| InvalidKeyError        (* arti.internal.mappings.InvalidKeyError, an AttributeError *)
| NotImplementedError
| AssertionError
| FileNotFoundError
| ZeroDivisionError
| StopIteration
| RecursionError
| CycleError             (* graphlib.CycleError, a ValueError *)
| UserError (n : nat).   (* anything raised by user supplied code *)

Inductive result (A : Type) : Type :=
| Ok (a : A)
| Err (e : exn).
Arguments Ok {A} a.
Arguments Err {A} e.

Definition bind {A B} (r : result A) (f : A -> result B) : result B :=
  match r with Ok a => f a | Err e => Err e end.
Definition rmap {A B} (f : A -> B) (r : result A) : result B :=
  match r with Ok a => Ok (f a) | Err e => Err e end.

Declare Scope result_scope.
Delimit Scope result_scope with result.
Notation "'let*' x ':=' e 'in' k" := (bind e (fun x => k))
  (at level 200, x pattern, e at level 100, k at level 200, right associativity) : result_scope.

(** List traversal stopping at the first exception, as a Python comprehension does. *)
Fixpoint mapM {A B} (f : A -> result B) (l : list A) : result (list B) :=
  match l with
  | [] => Ok []
  | a :: l' => bind (f a) (fun b => bind (mapM f l') (fun bs => Ok (b :: bs)))
  end.

(** Python's [dict]: an association list in insertion order.  Assigning an
    existing key keeps its position (as CPython does). *)
Section Dict.
  Context {K V : Type} (eqb : K -> K -> bool).
  Fixpoint dget (d : list (K * V)) (k : K) : option V :=
    match d with
    | [] => None
    | (k', v) :: d' => if eqb k' k then Some v else dget d' k
    end.
  Fixpoint dset (d : list (K * V)) (k : K) (v : V) : list (K * V) :=
    match d with
    | [] => [(k, v)]
    | (k', v') :: d' => if eqb k' k then (k', v) :: d' else (k', v') :: dset d' k v
    end.
  Definition dmem (d : list (K * V)) (k : K) : bool :=
    match dget d k with Some _ => true | None => false end.
  (** [dict(pairs)] / [{**d, **pairs}]: later pairs win. *)
  Definition dupdate (d : list (K * V)) (pairs : list (K * V)) : list (K * V) :=
    fold_left (fun acc kv => dset acc (fst kv) (snd kv)) pairs d.
  Definition dict_of (pairs : list (K * V)) : list (K * V) := dupdate [] pairs.
End Dict.

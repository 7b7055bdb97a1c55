(** Model of [frozendict], src/arti/internal/mappings.py lines 14-36. Definitions only.
    Keys are compared with a decidable equality that is Leibniz equality; values with an
    arbitrary boolean [==] and hash. *)
From Coq Require Import ZArith List Bool.
From Verif Require Import Base.
Import ListNotations.

Section FrozenDict.
  Context {K V : Type} (keqb : K -> K -> bool) (veqb : V -> V -> bool).
  (** [hash((k, v))]; [None] stands for an unhashable value (TypeError). *)
  Context (ihash : K -> V -> option Z).
  (** CPython's frozenset hash xors a bit mix of every element hash and then mixes in
      the size; the two mixing functions are arbitrary here. *)
  Context (shuffle : Z -> Z) (finish : nat -> Z -> Z).

  Record frozendict := { fd_data : list (K * V); fd_hash : Z }.

  (** [hash(frozenset(items))]: TypeError when an element cannot be hashed. *)
  Fixpoint xor_items (items : list (K * V)) : option Z :=
    match items with
    | [] => Some 0%Z
    | (k, v) :: rest =>
        match ihash k v, xor_items rest with
        | Some h, Some acc => Some (Z.lxor (shuffle h) acc)
        | _, _ => None
        end
    end.
  Definition hash_frozenset (items : list (K * V)) : result Z :=
    match xor_items items with
    | Some h => Ok (finish (length items) h)
    | None => Err TypeError
    end.

  (** mappings.py:15-19; [arg] is given as its list of pairs, [kwargs] come last. *)
  Definition fd_new (arg kwargs : list (K * V)) : result frozendict :=
    let data := dict_of keqb (arg ++ kwargs) in
    rmap (fun h => {| fd_data := data; fd_hash := h |}) (hash_frozenset data).

  (** mappings.py:21-31 *)
  Definition fd_getitem (f : frozendict) (k : K) : result V :=
    match dget keqb (fd_data f) k with Some v => Ok v | None => Err KeyError end.
  Definition fd_iter (f : frozendict) : list K := map fst (fd_data f).
  Definition fd_len (f : frozendict) : nat := length (fd_data f).

  (** mappings.py:33-34, [self | other] for any mapping [other] (its items in order). *)
  Definition fd_or (self : frozendict) (other : list (K * V)) : result frozendict :=
    fd_new (dupdate keqb (dict_of keqb (fd_data self)) other) [].

  (** mappings.py:36 [__ror__ = __or__]: Python evaluates [other | self] for a dict
      [other] as [self.__ror__(other)]. *)
  Definition fd_ror (self : frozendict) (other : list (K * V)) : result frozendict :=
    fd_or self other.

  (** [Mapping.__eq__]: [dict(self.items()) == dict(other.items())]. *)
  Definition dict_eqb (a b : list (K * V)) : bool :=
    (length a =? length b) &&
    forallb (fun kv => match dget keqb b (fst kv) with
                       | Some w => veqb (snd kv) w
                       | None => false
                       end) a.
  Definition fd_eqb (a b : frozendict) : bool := dict_eqb (fd_data a) (fd_data b).
End FrozenDict.
Arguments frozendict : clear implicits.

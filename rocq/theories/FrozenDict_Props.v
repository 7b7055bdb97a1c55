(** C07, C08: frozendict. *)
From Coq Require Import ZArith List Bool Permutation String.
From Verif Require Import Base FrozenDict_Model FrozenDict_Spec FrozenDict_Proofs.
Import ListNotations.

Section Props.
  (** Any key type with decidable equality, any values, any hash functions. *)
  Context (K V : Type) (keqb : K -> K -> bool) (keqb_spec : forall a b, keqb a b = true <-> a = b).
  Context (veqb : V -> V -> bool) (ihash : K -> V -> option Z).
  Context (shuffle : Z -> Z) (finish : nat -> Z -> Z).

  (** C07. A look-up returns exactly the last value given for the key ... *)
  Theorem C07_lookup_last_given : forall arg kw f k v,
    fd_new keqb ihash shuffle finish arg kw = Ok f ->
    fd_getitem keqb f k = Ok v <-> last_given k (arg ++ kw) v.
  Proof. exact (fd_lookup keqb keqb_spec ihash shuffle finish). Qed.

  (** ... and raises KeyError exactly for keys that were not given. *)
  Theorem C07_lookup_missing : forall arg kw f k,
    fd_new keqb ihash shuffle finish arg kw = Ok f ->
    fd_getitem keqb f k = Err KeyError <-> ~ In k (map fst (arg ++ kw)).
  Proof. exact (fd_lookup_missing keqb keqb_spec ihash shuffle finish). Qed.

  (** C07. Iterating yields every given key once, in the order they were first given; [len] counts them. *)
  Theorem C07_iteration : forall arg kw f,
    fd_new keqb ihash shuffle finish arg kw = Ok f ->
    first_given (map fst (arg ++ kw)) (fd_iter f) /\ NoDup (fd_iter f) /\
    (forall k, In k (fd_iter f) <-> In k (map fst (arg ++ kw))) /\ fd_len f = List.length (fd_iter f).
  Proof. exact (fd_iterates keqb keqb_spec veqb ihash shuffle finish). Qed.

  (** C07. Creation succeeds iff all kept items are hashable (frozen); otherwise TypeError. *)
  Theorem C07_created_iff_hashable : forall arg kw,
    (exists f, fd_new keqb ihash shuffle finish arg kw = Ok f) <->
    forall k v, last_given k (arg ++ kw) v -> ihash k v <> None.
  Proof. exact (fd_new_ok_iff keqb keqb_spec ihash shuffle finish). Qed.

  Theorem C07_creation_error : forall arg kw e,
    fd_new keqb ihash shuffle finish arg kw = Err e -> e = TypeError.
  Proof. exact (fd_new_error keqb ihash shuffle finish). Qed.

  (** C07. Two frozendicts are equal iff every look-up agrees, so insertion order and
      overwritten values are irrelevant. *)
  Theorem C07_equal_iff_same_lookups : forall arg kw arg' kw' f g,
    fd_new keqb ihash shuffle finish arg kw = Ok f ->
    fd_new keqb ihash shuffle finish arg' kw' = Ok g ->
    fd_eqb keqb veqb f g = true <->
    forall k, match fd_getitem keqb f k, fd_getitem keqb g k with
              | Ok v, Ok w => veqb v w = true
              | Err _, Err _ => True
              | _, _ => False
              end.
  Proof. exact (fd_eq_iff keqb keqb_spec veqb ihash shuffle finish). Qed.

  (** C07. Equal frozendicts have equal hashes (if equal values do). *)
  Theorem C07_equal_hash : hash_ok veqb ihash -> forall arg kw arg' kw' f g,
    fd_new keqb ihash shuffle finish arg kw = Ok f ->
    fd_new keqb ihash shuffle finish arg' kw' = Ok g ->
    fd_eqb keqb veqb f g = true -> fd_hash f = fd_hash g.
  Proof. exact (fd_eq_hash keqb keqb_spec veqb ihash shuffle finish). Qed.

  Theorem C07_insertion_order_irrelevant : (forall v, veqb v v = true) -> forall l l' f g,
    NoDup (map fst l) -> Permutation l l' ->
    fd_new keqb ihash shuffle finish l [] = Ok f ->
    fd_new keqb ihash shuffle finish l' [] = Ok g ->
    fd_eqb keqb veqb f g = true /\ fd_hash f = fd_hash g.
  Proof. exact (fd_any_order keqb keqb_spec veqb ihash shuffle finish). Qed.

  (** C07. [f | other] looks up [other] first, then [f]. *)
  Theorem C07_union_right_wins : forall arg kw f other g,
    fd_new keqb ihash shuffle finish arg kw = Ok f -> NoDup (map fst other) ->
    fd_or keqb ihash shuffle finish f other = Ok g ->
    forall k, fd_getitem keqb g k =
      match dget keqb other k with Some v => Ok v | None => fd_getitem keqb f k end.
  Proof. exact (fd_or_lookup keqb keqb_spec ihash shuffle finish). Qed.

  (** C08. The full statement: for a mapping [m] and frozendict [f], [m | f] looks up
      [f] first, then [m].  It holds only if the two agree on common keys: *)
  Theorem C08_reflected_union_partial : forall arg kw f m g,
    fd_new keqb ihash shuffle finish arg kw = Ok f -> NoDup (map fst m) ->
    (forall k v w, dget keqb m k = Some v -> fd_getitem keqb f k = Ok w -> v = w) ->
    fd_ror keqb ihash shuffle finish f m = Ok g ->
    forall k, fd_getitem keqb g k =
      match fd_getitem keqb f k with
      | Ok v => Ok v
      | Err e => match dget keqb m k with Some v => Ok v | None => Err e end
      end.
  Proof. exact (fd_ror_agree keqb keqb_spec ihash shuffle finish). Qed.
End Props.
Print Assumptions C07_lookup_last_given.
Print Assumptions C07_lookup_missing.
Print Assumptions C07_iteration.
Print Assumptions C07_created_iff_hashable.
Print Assumptions C07_creation_error.
Print Assumptions C07_equal_iff_same_lookups.
Print Assumptions C07_equal_hash.
Print Assumptions C07_insertion_order_irrelevant.
Print Assumptions C07_union_right_wins.
Print Assumptions C08_reflected_union_partial.

(** C08. With different values the left operand wins: [{1: 20} | frozendict({1: 10})]. *)
Theorem C08_reflected_union_refuted : exists (f : frozendict Z Z) (m : list (Z * Z)) g,
  fd_new Z.eqb (fun k v => Some (k + v)%Z) (fun z => z) (fun _ z => z) [(1, 10)]%Z [] = Ok f /\
  m = [(1, 20)]%Z /\
  fd_ror Z.eqb (fun k v => Some (k + v)%Z) (fun z => z) (fun _ z => z) f m = Ok g /\
  fd_getitem Z.eqb f 1%Z = Ok 10%Z /\ fd_getitem Z.eqb g 1%Z = Ok 20%Z.
Proof. repeat eexists. Qed.
Print Assumptions C08_reflected_union_refuted.

Example C07_instance :
  let new := fd_new Z.eqb (fun k v => if (v =? 0)%Z then None else Some (k * v)%Z)
               (fun z => z) (fun n z => (z + Z.of_nat n)%Z) in
  (exists f g, new [(1, 2); (3, 4)]%Z [(1, 5)]%Z = Ok f /\ new [(3, 4)]%Z [(1, 5)]%Z = Ok g /\
     fd_eqb Z.eqb Z.eqb f g = true /\ fd_data f <> fd_data g /\ fd_iter f = [1; 3]%Z /\ fd_len f = 2%nat) /\
  new [(1, 0)]%Z [] = Err TypeError /\ hash_ok Z.eqb (fun k v => if (v =? 0)%Z then None else Some (k * v)%Z).
Proof.
  split; [|split; [reflexivity|]].
  - do 2 eexists. split; [reflexivity|]. split; [reflexivity|]. split; [reflexivity|].
    split; [vm_compute; congruence|]. split; reflexivity.
  - intros k v w E. apply Z.eqb_eq in E. now subst.
Qed.

(** C09 - C12: TypedBox. *)
From Coq Require Import ZArith List Bool Ascii String.
From Verif Require Import Base Str TypedBox_Model TypedBox_Spec TypedBox_Proofs.
Import ListNotations.
Open Scope list_scope.

Section Props.
  (** Any target type, any other Python values, any cast. *)
  Context (V R : Type) (cast : list str -> str -> R -> result V).

  (** C09. No history of operations on the box or on nested boxes - assignments, merges,
      look-ups, membership tests, closing and reopening, failing or not - changes or
      removes a value ... *)
  Theorem C09_values_are_kept : forall es s path v,
    find (Sub (st_data s)) path = Some (Leaf v) ->
    find (Sub (st_data (run cast s es))) path = Some (Leaf v).
  Proof. exact (history_keeps_values cast). Qed.

  (** ... nor replaces a nested box. *)
  Theorem C09_boxes_are_kept : forall es s path sd,
    find (Sub (st_data s)) path = Some (Sub sd) ->
    exists sd', find (Sub (st_data (run cast s es))) path = Some (Sub sd').
  Proof. exact (history_keeps_boxes cast). Qed.

  (** C09. Assigning to a key that holds a value raises ValueError and changes nothing,
      through whichever nested box. *)
  Theorem C09_assigning_to_value_raises : forall s h key i v, reachable cast s ->
    find (Sub (st_data s)) (h ++ parts key) = Some (Leaf v) ->
    step cast s (EOp h (OSet key i)) = (s, Some (Err ValueError)).
  Proof. exact (step_assign_to_value cast). Qed.

  (** C10. While closed, no history of operations changes anything. *)
  Theorem C10_closed_is_immutable : forall es s,
    st_status s = Closed -> Forall is_op es -> run cast s es = s.
  Proof. exact (run_closed cast). Qed.

  (** C10. Every assignment to a closed box or a nested box of it raises. *)
  Theorem C10_closed_assignment_raises : forall s h key i r, st_status s = Closed ->
    snd (step cast s (EOp h (OSet key i))) = Some r \/
    snd (step cast s (EOp h (OSetAttr key i))) = Some r -> exists e, r = Err e.
  Proof. exact (step_set_closed cast). Qed.

  (** C10. A look-up on a closed box finds exactly what is stored under the dotted key;
      anything else raises. *)
  Theorem C10_closed_lookup_iff_stored : forall s key n, reachable cast s ->
    snd (getitem Closed (st_data s) key) = Ok n <-> find (Sub (st_data s)) (parts key) = Some n.
  Proof. exact (fun s key n H => getitem_closed_iff (st_data s) key n (reachable_wf cast s H)). Qed.

  (** C10. A look-up of a missing (public, not blocked by a value) key of an open box
      yields an empty nested box, now stored there, and touches no value. *)
  Theorem C10_open_lookup_creates : forall (d : list (str * node V)) key,
    public key -> clear_way d (parts key) -> find (Sub d) (parts key) = None ->
    exists d', getitem Open d key = (d', Ok (Sub [])) /\ find (Sub d') (parts key) = Some (Sub []).
  Proof. exact getitem_open_missing. Qed.

  (** C11. Membership tests never change a box ... *)
  Theorem C11_membership_is_pure : forall st (d : list (str * node V)) key,
    fst (contains st d key) = d.
  Proof. exact contains_pure. Qed.

  (** ... and tell whether something is stored under the dotted key. *)
  Theorem C11_membership_iff_stored : forall st (d : list (str * node V)) key, public key ->
    (contains st d key = (d, Ok true) <-> exists n, find (Sub d) (parts key) = Some n).
  Proof. exact contains_iff. Qed.

  (** C11. After a successful assignment the key is a member and looks up to what was
      assigned: the cast value, or a box holding all items of the mapping. *)
  Theorem C11_assigned_is_found : forall st i (d d' : list (str * node V)) key,
    setitem cast st i [] d key = (d', Ok tt) ->
    contains st d' key = (d', Ok true) /\
    exists n, getitem st d' key = (d', Ok n) /\ holds cast i (parts key) n.
  Proof. exact (set_then_found cast). Qed.

  (** C11. An assignment (failing or not) adds no value outside the assigned key. *)
  Theorem C11_assignment_is_local : forall st i (d : list (str * node V)) key path v,
    find (Sub (fst (setitem cast st i [] d key))) path = Some (Leaf v) ->
    (forall b, path <> parts key ++ b) -> find (Sub d) path = Some (Leaf v).
  Proof. exact (set_elsewhere cast). Qed.

  (** C11. [walk()] yields exactly the values, each under the dotted key that looks it up ... *)
  Theorem C11_walk_is_lookup : forall s key v, reachable cast s ->
    (In (key, v) (walk (st_data s)) <-> find (Sub (st_data s)) (parts key) = Some (Leaf v)).
  Proof. exact (fun s key v H => walk_spec (st_data s) key v (reachable_wf cast s H)). Qed.

  (** ... and each once. *)
  Theorem C11_walk_once : forall s, reachable cast s -> NoDup (map fst (walk (st_data s))).
  Proof. exact (fun s H => walk_NoDup (st_data s) (reachable_wf cast s H)). Qed.

  (** C12. The full statement - a failing assignment leaves the box as it was - holds when
      the boxes on the way exist and no mapping is merged into an existing box. (In every
      case values and boxes are kept, C09.) *)
  Theorem C12_failed_assignment_partial : forall st i (d d' : list (str * node V)) key e sd,
    setitem cast st i [] d key = (d', Err e) ->
    find (Sub d) (head_of key) = Some (Sub sd) ->
    (forall items sub, i = IMap items -> dget str_eqb sd (tail_of key) <> Some (Sub sub)) ->
    d' = d.
  Proof. exact (failed_simple cast). Qed.
End Props.
Print Assumptions C09_values_are_kept.
Print Assumptions C09_boxes_are_kept.
Print Assumptions C09_assigning_to_value_raises.
Print Assumptions C10_closed_is_immutable.
Print Assumptions C10_closed_assignment_raises.
Print Assumptions C10_closed_lookup_iff_stored.
Print Assumptions C10_open_lookup_creates.
Print Assumptions C11_membership_is_pure.
Print Assumptions C11_membership_iff_stored.
Print Assumptions C11_assigned_is_found.
Print Assumptions C11_assignment_is_local.
Print Assumptions C11_walk_is_lookup.
Print Assumptions C11_walk_once.
Print Assumptions C12_failed_assignment_partial.

(** C10. Exactly the closed boxes whose values are all hashable can be hashed ... *)
Theorem C10_hashable_iff_closed :
  forall V (vhash : V -> option Z) phash shuffle finish st (d : list (str * node V)), wf (Sub d) ->
  ((exists h, box_hash vhash phash shuffle finish st d = Ok h) <->
   st = Closed /\ forall path v, find (Sub d) path = Some (Leaf v) -> vhash v <> None).
Proof. exact @box_hash_iff. Qed.
Print Assumptions C10_hashable_iff_closed.

(** ... and equal closed boxes hash alike, whatever the insertion order. *)
Theorem C10_equal_boxes_hash_alike :
  forall V vhash phash shuffle finish (veqb : V -> V -> bool),
  (forall v w, veqb v w = true -> vhash v = vhash w) ->
  forall a b, wf a -> wf b -> node_eqb veqb a b = true ->
  hash_node vhash phash shuffle finish a = hash_node vhash phash shuffle finish b.
Proof. exact @equal_hash. Qed.
Print Assumptions C10_equal_boxes_hash_alike.

(** A cast for the examples: naturals below 10 only. *)
Definition small_cast (_ : list str) (_ : str) (x : nat) : result nat :=
  if (x <? 10)%nat then Ok x else Err ValueError.

(** C12 refuted. [box["a.b"] = 99] fails but leaves an empty box under "a" ... *)
Theorem C12_failed_assignment_refuted : exists d' e,
  setitem small_cast Open (IVal 99) [] [] $"a.b" = (d', Err e) /\ d' <> [].
Proof. do 2 eexists. split; [reflexivity|]. vm_compute. congruence. Qed.
Print Assumptions C12_failed_assignment_refuted.

(** ... and a failing merge keeps the items merged before the failure. *)
Theorem C12_failed_merge_refuted : exists d d' e,
  setitem small_cast Open (IMap []) [] [] $"a" = (d, Ok tt) /\
  setitem small_cast Open (IMap [($"x", IVal 1); ($"y", IVal 99)]) [] d $"a" = (d', Err e) /\
  find (Sub d) [$"a"; $"x"] = None /\ find (Sub d') [$"a"; $"x"] = Some (Leaf 1).
Proof. do 3 eexists. repeat split. Qed.
Print Assumptions C12_failed_merge_refuted.

(** A reachable box with nesting, for the hypotheses above. *)
Example TypedBox_instance : exists d,
  let s := {| st_status := Closed; st_data := d |} in
  reachable small_cast s /\
  find (Sub d) [$"a"; $"b"] = Some (Leaf 1) /\
  walk d = [($"a.b", 1); ($"c", 2)] /\
  step small_cast s (EOp [$"a"] (OSet $"b" (IVal 3))) = (s, Some (Err ValueError)) /\
  public $"a.b" /\ clear_way d (parts $"a.z") /\ find (Sub d) (parts $"a.z") = None.
Proof.
  eexists. cbv zeta. split; [|split; [|split; [|split; [|split; [|split]]]]].
  - exists [($"a.b", IVal 1); ($"c", IVal 2)]. eexists. exists [ESetStatus Closed].
    split; reflexivity.
  - reflexivity.
  - reflexivity.
  - reflexivity.
  - intros p Hp. vm_compute in Hp. destruct Hp as [<-|[<-|[]]]; reflexivity.
  - intros a b v E. change (parts $"a.z") with [$"a"; $"z"] in E.
    destruct a as [|x [|y [|z a]]]; cbn in E; inversion E; subst; vm_compute; congruence.
  - reflexivity.
Qed.

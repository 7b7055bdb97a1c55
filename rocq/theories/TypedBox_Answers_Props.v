(** C11, C10: what the operations on a box, through any nested box, answer. *)
From Coq Require Import ZArith List Bool Ascii String.
From Verif Require Import Base Str TypedBox_Model TypedBox_Spec TypedBox_Answers_Proofs.
Import ListNotations.
Open Scope list_scope.

(** C11. Whatever is stored under the dotted key is what a look-up answers, as item and as
    attribute; nothing changes. *)
Theorem C11_lookup_answers : forall V R (cast : list str -> str -> R -> result V) s h key n, reachable cast s ->
  find (Sub (st_data s)) (h ++ parts key) = Some n ->
  step cast s (EOp h (OGet key)) = (s, Some (Ok (Got n))) /\
  (private key = false -> step cast s (EOp h (OGetAttr key)) = (s, Some (Ok (Got n)))).
Proof. exact @answers_get. Qed.
Print Assumptions C11_lookup_answers.

(** C11. Membership answers whether there is something. *)
Theorem C11_membership_answers : forall V R (cast : list str -> str -> R -> result V) s h sd key,
  find (Sub (st_data s)) h = Some (Sub sd) -> public key ->
  exists r, step cast s (EOp h (OContains key)) = (s, Some r) /\
    (r = Ok (Answer true) <-> exists n, find (Sub (st_data s)) (h ++ parts key) = Some n).
Proof. exact @answers_contains. Qed.
Print Assumptions C11_membership_answers.

(** C11. [walk] of any nested box answers exactly the values below it, each once, under the
    dotted key that looks it up from there. *)
Theorem C11_walk_answers : forall V R (cast : list str -> str -> R -> result V) s h sd, reachable cast s ->
  find (Sub (st_data s)) h = Some (Sub sd) ->
  exists l, step cast s (EOp h OWalk) = (s, Some (Ok (Walked l))) /\ NoDup (map fst l) /\
    forall key v, In (key, v) l <-> find (Sub (st_data s)) (h ++ parts key) = Some (Leaf v).
Proof. exact @answers_walk. Qed.
Print Assumptions C11_walk_answers.

(** C10. What is missing in a closed box is a KeyError as an item, an AttributeError as an
    attribute; private names are refused as attributes. *)
Theorem C10_missing_answers : forall V R (cast : list str -> str -> R -> result V) s h sd key, st_status s = Closed ->
  find (Sub (st_data s)) h = Some (Sub sd) -> plain_key key -> find (Sub (st_data s)) (h ++ [key]) = None ->
  step cast s (EOp h (OGet key)) = (s, Some (Err KeyError)) /\
  step cast s (EOp h (OGetAttr key)) = (s, Some (Err AttributeError)).
Proof. exact @answers_missing. Qed.
Print Assumptions C10_missing_answers.
Theorem C10_private_answers : forall V R (cast : list str -> str -> R -> result V) s h sd key i,
  find (Sub (st_data s)) h = Some (Sub sd) -> private key = true ->
  step cast s (EOp h (OGetAttr key)) = (s, Some (Err InvalidKeyError)) /\
  step cast s (EOp h (OSetAttr key i)) = (s, Some (Err InvalidKeyError)).
Proof. exact @answers_private. Qed.
Print Assumptions C10_private_answers.

Example C11_answers_nonvacuous : exists d,
  let cast := fun (_ : list str) (_ : str) (x : nat) => Ok x in let s := {| st_status := Closed; st_data := d |} in
  reachable cast s /\ find (Sub d) [$"a"] = Some (Sub [($"b", Leaf 1); ($"c", Sub [($"e", Leaf 2)])]) /\
  find (Sub d) ([$"a"] ++ parts $"c.e") = Some (Leaf 2) /\
  step cast s (EOp [$"a"] OWalk) = (s, Some (Ok (Walked [($"b", 1); ($"c.e", 2)]))) /\
  public $"c.e" /\ plain_key $"z" /\ find (Sub d) ([$"a"] ++ [$"z"]) = None /\ private $"_z" = true.
Proof.
  exists [($"a", Sub [($"b", Leaf 1); ($"c", Sub [($"e", Leaf 2)])])]. cbv zeta. split.
  { exists [($"a.b", IVal 1); ($"a.c.e", IVal 2)]. eexists. exists [ESetStatus Closed]. split; reflexivity. }
  do 3 (split; [reflexivity|]). split.
  { intros p Hp. vm_compute in Hp. destruct Hp as [<-|[<-|[]]]; reflexivity. }
  split; [|split; reflexivity]. split; [|reflexivity]. intros [H|[]]. discriminate H.
Qed.

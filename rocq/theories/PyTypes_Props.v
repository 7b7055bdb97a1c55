(** C26: Python types round trip. *)
From Coq Require Import ZArith List Ascii String Bool Lia.
From Verif Require Import Base Str Hints_Model Types_Model PyTypes_Model PyTypes_Spec PyTypes_Proofs.
Import ListNotations.
Open Scope list_scope.

Definition nullable_ : meta := Meta None true.
(** A Struct with a nullable list of 32 bit integers, an Enum of strings, a Collection and a
    Map, all described. *)
Definition ex_type : ty :=
  Struct $"row"
    [($"xs", List (Scalar (Int B32) plain) (Meta (Some $"the numbers") true));
     ($"kind", Enum $"kind" (Scalar String plain) [Lit PyStr $"a"; Lit PyStr $"b"] plain);
     ($"parts", Collection $"c" (Struct anon [($"day", Scalar Date nullable_)] plain) [$"day"] [] plain);
     ($"times", Map (Scalar String plain) (Timestamp Second plain) plain)]
    (Meta (Some $"a row") false).
Definition ex_hint : phint :=
  HTypedDict $"row"
    [($"xs", HUnion false [HAlias PyList [HClass PyInt]; HClass PyNoneType]);
     ($"kind", HLiteral [Lit PyStr $"a"; Lit PyStr $"b"]);
     ($"parts", HAlias PyList [HTypedDict anon [($"day", HUnion false [HClass PyDate; HClass PyNoneType])]]);
     ($"times", HAlias PyDict [HClass PyStr; HClass PyDatetime])].

(** There is a hint for a type exactly if it has no unsigned integers, datetimes, times or
    geographies in it; the others are refused. [n] is the stack that is left. *)
Theorem C26_hints_exist : forall n t, levels t <= n ->
  (hintable t /\ exists h, to_hint n t = Ok h) \/ (~ hintable t /\ to_hint n t = Err NotImplementedError).
Proof. exact hints_exist. Qed.
Print Assumptions C26_hints_exist.
Example C26_hints_exist_nonvacuous :
  to_hint 5 ex_type = Ok ex_hint /\ levels ex_type = 5 /\
  to_hint 5 (List (Scalar (UInt B8) plain) plain) = Err NotImplementedError.
Proof. repeat split; reflexivity. Qed.

(** The hint of a type gives back the type, with the documented widening, exactly if the type is
    [expressible]: missing from the full claim are nullable Nulls and Nulls in Structs, and
    Enums whose items are not all of the class of its type. *)
Theorem C26_round_trip_partial : forall n t h, levels t <= n -> to_hint n t = Ok h ->
  (of_hint n h = Ok (widened t) <-> expressible t).
Proof.
  intros [|n] t h L H; [discriminate H|]. rewrite of_hint_is. exact (round_trip n (S n) t h L H).
Qed.
Print Assumptions C26_round_trip_partial.
Example C26_round_trip_nonvacuous :
  levels ex_type <= 5 /\ to_hint 5 ex_type = Ok ex_hint /\ of_hint 5 ex_hint = Ok (widened ex_type) /\ widened ex_type <> ex_type.
Proof. split; [vm_compute; lia|]. split; [reflexivity|]. split; [reflexivity|discriminate]. Qed.

(** A widened type has the same hint, and widening it again changes nothing. *)
Theorem C26_stable : forall t,
  widened (widened t) = widened t /\ (expressible t -> expressible (widened t)) /\ forall n, to_hint n (widened t) = to_hint n t.
Proof. intro t. exact (conj (widened_idem t) (conj (widened_expressible t) (fun n => widened_hint n t))). Qed.
Print Assumptions C26_stable.
Example C26_stable_nonvacuous : expressible ex_type.
Proof.
  repeat (first [apply Forall_nil|apply Forall_cons|split|apply exp_struct|apply exp_list|apply exp_map|apply exp_timestamp|apply exp_collection]); cbn [fst snd]; try (apply exp_scalar; discriminate).
  all: try (intros ? E; discriminate E).
  apply exp_enum with PyStr; [discriminate| |repeat constructor|reflexivity].
  constructor; [intros [E|[]]; discriminate E|]. constructor; [intros []|constructor].
Qed.

(** Whatever hint a type came from, going to a hint and back again does not change the type. *)
Theorem C26_again : forall n h t, well_formed h -> of_hint n h = Ok t ->
  exists h', to_hint n t = Ok h' /\ of_hint n h' = Ok t.
Proof. exact of_hint_again. Qed.
Print Assumptions C26_again.
(** [tuple[frozenset[Literal[1] | Literal[2]], ...]] becomes [list[set[Literal[1, 2]]]]. *)
Example C26_again_nonvacuous :
  let h := HAlias PyTuple [HAlias PyFrozenset [HUnion false [HLiteral [Lit PyInt $"1"]; HLiteral [Lit PyInt $"2"]]]; HEllipsis] in
  let t := List (Set_ (Enum anon (Scalar (Int B64) plain) [Lit PyInt $"1"; Lit PyInt $"2"] plain) plain) plain in
  well_formed h /\ of_hint 5 h = Ok t /\
  to_hint 5 t = Ok (HAlias PyList [HAlias PySet [HLiteral [Lit PyInt $"1"; Lit PyInt $"2"]]]).
Proof. cbn zeta. repeat split; try reflexivity. repeat constructor; discriminate. Qed.

(** The full claim is false. A Struct with a Null field and a nullable Null have hints which
    nothing can be made of: [TypedDict] and [Optional] turn None into its class. *)
Theorem C26_null_refuted :
  to_hint 3 (Struct anon [($"x", Scalar Null plain)] plain) = Ok (HTypedDict anon [($"x", HClass PyNoneType)]) /\
  of_hint 3 (HTypedDict anon [($"x", HClass PyNoneType)]) = Err NotImplementedError /\
  to_hint 3 (Scalar Null nullable_) = Ok (HClass PyNoneType) /\
  of_hint 3 (HClass PyNoneType) = Err NotImplementedError.
Proof. repeat split; reflexivity. Qed.
Print Assumptions C26_null_refuted.

(** The type of an Enum is that of its items: an Enum of integers with only the item True
    becomes one of booleans, and an Enum of nullable integers that has None becomes nothing. *)
Theorem C26_enum_refuted :
  let e := Enum anon (Scalar (Int B64) plain) [Lit PyBool $"True"] plain in
  let e' := Enum anon (Scalar (Int B64) nullable_) [Lit PyInt $"1"; Lit PyNoneType $"None"] plain in
  new_enum 3 anon (Scalar (Int B64) plain) [Lit PyBool $"True"] plain = Ok e /\
  to_hint 3 e = Ok (HLiteral [Lit PyBool $"True"]) /\
  of_hint 3 (HLiteral [Lit PyBool $"True"]) = Ok (Enum anon (Scalar Boolean plain) [Lit PyBool $"True"] plain) /\
  new_enum 3 anon (Scalar (Int B64) nullable_) [Lit PyInt $"1"; Lit PyNoneType $"None"] plain = Ok e' /\
  to_hint 3 e' = Ok (HLiteral [Lit PyInt $"1"; Lit PyNoneType $"None"]) /\
  of_hint 3 (HLiteral [Lit PyInt $"1"; Lit PyNoneType $"None"]) = Err ValueError.
Proof. cbn zeta. repeat split; reflexivity. Qed.
Print Assumptions C26_enum_refuted.

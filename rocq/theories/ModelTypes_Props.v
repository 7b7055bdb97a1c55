(** C56: types round trip through pydantic models. *)
From Coq Require Import ZArith List Ascii String Bool Lia.
From Verif Require Import Base Str Hints_Model Types_Model PyTypes_Model PyTypes_Spec ModelTypes_Model ModelTypes_Spec ModelTypes_Proofs.
Import ListNotations.
Open Scope list_scope.

Definition nullable_ : meta := Meta None true.
Definition reserved_ (s : str) : bool := str_eqb s $"model_dump".
Definition ex_enum (name : str) : ty := Enum name (Scalar String plain) [Lit PyStr $"a"; Lit PyStr $"b"] plain.
(** A Struct with a nullable list of Structs, an Enum and a Struct. *)
Definition ex_type : ty :=
  Struct $"Row"
    [($"xs", List (Struct $"Item" [($"n", Scalar (Int B32) plain)] plain) (Meta (Some $"the items") true));
     ($"kind", ex_enum anon);
     ($"at", Struct $"Place" [($"day", Scalar Date nullable_)] plain)] plain.
Definition ex_model : phint :=
  HModel (PySub base_model $"Row")
    [($"xs", HUnion false [HAlias PyList [HModel (PySub base_model $"Item") [($"n", HClass PyInt)]]; HClass PyNoneType]);
     ($"kind", HLiteral [Lit PyStr $"a"; Lit PyStr $"b"]);
     ($"at", HModel (PySub base_model $"Place") [($"day", HUnion false [HClass PyDate; HClass PyNoneType])])].

(** There is a model for a type exactly if Python has a hint for it, and no public field of a
    Struct is Null or has a refused name. *)
Theorem C56_models_exist : forall reserved n t, levels t <= n ->
  (has_model reserved t /\ exists h, to_model reserved n t = Ok h) \/
  (~ has_model reserved t /\ exists e, to_model reserved n t = Err e /\
     (e = NotImplementedError \/ e = TypeError \/ e = UserError 1)).
Proof. exact models_exist. Qed.
Print Assumptions C56_models_exist.
Example C56_models_exist_nonvacuous :
  to_model reserved_ 5 ex_type = Ok ex_model /\ levels ex_type = 5 /\
  to_model reserved_ 3 (Struct anon [($"x", Scalar (UInt B8) plain)] plain) = Err NotImplementedError /\
  to_model reserved_ 3 (Struct anon [($"model_dump", Scalar String plain)] plain) = Err (UserError 1).
Proof. repeat split; reflexivity. Qed.

(** The model of a type gives back the type, widened as in Python and with the Enums and Structs
    in fields named after the fields, exactly if the type is [faithful]: missing from the full
    claim are, besides what Python cannot express, nullable Structs, and Structs with fields with
    a leading underscore. *)
Theorem C56_round_trip_partial : forall reserved n t h, levels t <= n -> to_model reserved n t = Ok h ->
  (of_model reserved n h = Ok (modelled t) <-> faithful t).
Proof. intros r [|n] t h L H; [discriminate H|]. exact (model_round_trip r n (S n) t h L H). Qed.
Print Assumptions C56_round_trip_partial.
Example C56_round_trip_nonvacuous :
  levels ex_type <= 5 /\ to_model reserved_ 5 ex_type = Ok ex_model /\ of_model reserved_ 5 ex_model = Ok (modelled ex_type) /\
  modelled ex_type =
  Struct $"Row"
    [($"xs", List (Struct $"Item" [($"n", Scalar (Int B64) plain)] plain) nullable_);
     ($"kind", ex_enum $"kind");
     ($"at", Struct $"at" [($"day", Scalar Date nullable_)] plain)] plain.
Proof. split; [vm_compute; lia|]. repeat split; reflexivity. Qed.

(** What came back comes back again, unchanged. *)
Theorem C56_stable : forall reserved n t h, levels t <= n -> to_model reserved n t = Ok h -> of_model reserved n h = Ok (modelled t) ->
  exists h', to_model reserved n (modelled t) = Ok h' /\ of_model reserved n h' = Ok (modelled t).
Proof. exact modelled_again. Qed.
Print Assumptions C56_stable.
Example C56_stable_nonvacuous :
  of_model reserved_ 5 ex_model = Ok (modelled ex_type) /\ to_model reserved_ 5 (modelled ex_type) <> Ok ex_model.
Proof. split; [reflexivity|]. vm_compute. intro H. discriminate H. Qed.

(** Whatever models a type came from, going to a model and back again does not change the type,
    exactly if no Struct in it is nullable. *)
Theorem C56_again_partial : forall reserved n h t, model_hint base_model reserved h -> of_model reserved n h = Ok t ->
  exists h', to_model reserved n t = Ok h' /\ (of_model reserved n h' = Ok t <-> strict t).
Proof. exact of_model_again. Qed.
Print Assumptions C56_again_partial.
(** A model that extends another. *)
Example C56_again_nonvacuous :
  let h := HModel (PySub (PySub base_model $"Base") $"Row")
             [($"xs", HAlias PyTuple [HClass PyInt; HEllipsis]); ($"at", HModel (PySub base_model $"Place") [($"x", HClass PyFloat)])] in
  let t := Struct $"Row" [($"xs", List (Scalar (Int B64) plain) plain); ($"at", Struct $"at" [($"x", Scalar (Float F64) plain)] plain)] plain in
  model_hint base_model reserved_ h /\ of_model reserved_ 5 h = Ok t /\ strict t.
Proof.
  cbn zeta. split; [|split; [reflexivity|repeat constructor]].
  repeat (first [apply mh_model; [reflexivity|]|apply Forall_cons|apply Forall_nil|split|apply mh_alias|apply mh_class|apply mh_dots|reflexivity|discriminate]).
  all: intros [r E]; discriminate E.
Qed.

(** The pydantic type system adds to the Python one: types without Structs and hints without
    models are converted as in Python. *)
Theorem C56_extends : forall reserved n,
  (forall t, structless t -> to_model reserved n t = to_hint n t) /\
  (forall h, modelless base_model h -> of_model reserved n h = of_hint n h).
Proof. exact (fun r n => conj (structless_same r n) (fun h => modelless_same r (to_hint n) n h)). Qed.
Print Assumptions C56_extends.
Example C56_extends_nonvacuous :
  structless (List (ex_enum anon) nullable_) /\ modelless base_model (HTypedDict $"D" [($"x", HClass PyInt)]) /\
  of_model reserved_ 3 (HTypedDict $"D" [($"x", HClass PyInt)]) = Ok (Struct $"D" [($"x", Scalar (Int B64) plain)] plain).
Proof. split; [repeat constructor|]. split; [repeat constructor|reflexivity]. Qed.

(** The full claim is false. The adapter of the pydantic system comes before that for Optional, so
    a nullable Struct becomes a model, not an optional one: an optional model becomes a required
    one. *)
Theorem C56_nullable_refuted : forall reserved,
  let place := HModel (PySub base_model $"Place") [($"x", HClass PyFloat)] in
  let t := Struct $"Place" [($"x", Scalar (Float F64) plain)] in
  of_model reserved 4 (HUnion false [place; HClass PyNoneType]) = Ok (t nullable_) /\
  to_model reserved 4 (t nullable_) =
    (if reserved $"x" then Err (UserError 1) else Ok place) /\
  of_model reserved 4 place = Ok (t plain).
Proof. intros r. cbn zeta. repeat split. unfold to_model. cbn. destruct (r _); reflexivity. Qed.
Print Assumptions C56_nullable_refuted.

(** Fields with a leading underscore are lost, a Null field makes the conversion fail. *)
Theorem C56_fields_refuted : forall reserved,
  let t := Struct $"S" [($"_x", Scalar String plain)] plain in
  to_model reserved 3 t = Ok (HModel (PySub base_model $"S") []) /\
  of_model reserved 3 (HModel (PySub base_model $"S") []) = Ok (Struct $"S" [] plain) /\
  to_model reserved 3 (Struct $"S" [($"x", Scalar Null plain)] plain) = Err TypeError.
Proof. intros r. cbn zeta. repeat split; reflexivity. Qed.
Print Assumptions C56_fields_refuted.

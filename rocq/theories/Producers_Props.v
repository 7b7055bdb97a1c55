(** C50: the definitions of producers are validated completely. *)
From Coq Require Import ZArith List Ascii String Bool Lia.
From Verif Require Import Base Str Hints_Model Hints_Spec Types_Model Partitions_Model PyTypes_Model Dispatch_Model Views_Model Views_Spec
  Producers_Model Producers_Spec Producers_Proofs.
Import ListNotations.
Open Scope list_scope.

(** For the examples: plain artifacts, and events partitioned by day. *)
Inductive ex_artifact := Plain | Events.
Definition ex_artifact_eqb (a b : ex_artifact) : bool := match a, b with Plain, Plain | Events, Events => true | _, _ => false end.
Definition ex_events : ty := Collection $"events" (Struct $"event" [($"day", Scalar Date plain)] plain) [$"day"] [] plain.
Definition ex_artifact_type (a : ex_artifact) : option ty := match a with Plain => None | Events => Some ex_events end.
Definition ex_type_eqb (a b : ty) : bool := match a, b with Collection n _ _ _ _, Collection m _ _ _ _ => str_eqb n m | _, _ => false end.
Definition ex_same (_ _ : phint) : bool := false.
Definition ex_reg : list (pykey * builtin_view) :=
  [(Some PyDate, VDate); (Some PyDatetime, VDatetime); (Some PyDict, VDict); (Some PyFloat, VFloat); (Some PyInt, VInt); (Some PyList, VList); (None, VNull); (Some PyStr, VStr)].
Definition ex_from := from_annotation builtin_sub (fun _ => Plain) ex_artifact_type (builtin_system 9) (of_hint 9) ex_type_eqb ex_same PythonBuiltin ex_reg.
Definition ex_define := define ex_from ex_artifact_eqb ex_same.
Definition ann (c : pyclass) (xs : list (extra builtin_view ex_artifact)) : annotation builtin_view ex_artifact := Annotation (HClass c) xs.
Definition arg (n : str) (c : pyclass) : parameter (annotation builtin_view ex_artifact) := Par n PositionalOrKeyword (Some (ann c [])) false.
Definition input (n : str) : str * field ex_artifact := (n, Field (FArtifact Plain) true).
(** [def build(a: int, b: float) -> tuple[int, str]], with [validate_outputs(x, y: str)]. *)
Definition ex_build := Method true [arg $"a" PyInt; arg $"b" PyFloat] (Some (RTuple [ann PyInt []; ann PyStr []])).
Definition ex_producer : definition builtin_view ex_artifact :=
  Definition_ [input $"a"; input $"b"] (Some ex_build) [Par $"x" PositionalOnly None false; Par $"y" PositionalOrKeyword (Some (HClass PyStr)) false] None.
Definition ex_returning (r : rhint builtin_view ex_artifact) : definition builtin_view ex_artifact :=
  Definition_ [input $"a"] (Some (Method true [arg $"a" PyInt] (Some r))) any_outputs None.

(** A class is accepted, and then gets the inputs, outputs and map, iff it is described by the
    declarative rules: required artifact fields, hinted keyword parameters reading them, viewable
    outputs partitioned alike, a fitting [validate_outputs] and [map], and no unused field. *)
Theorem C50_accepted : forall (V A : Type) (from_annotation : annotation V A -> mode -> result (view V A)) (aeqb : A -> A -> bool),
  (forall a b, aeqb a b = true <-> a = b) -> forall same d c, NoDup (map fst (d_fields d)) ->
  (define from_annotation aeqb same d = Ok c <-> describes from_annotation same d c).
Proof. exact @define_iff. Qed.
Print Assumptions C50_accepted.
Example C50_accepted_nonvacuous :
  (forall a b, ex_artifact_eqb a b = true <-> a = b) /\ NoDup (map fst (d_fields ex_producer)) /\
  ex_define ex_producer = Ok (ProducerClass [($"a", Plain); ($"b", Plain)]
    [($"a", View VInt READ Plain (Scalar (Int B64) plain)); ($"b", View VFloat READ Plain (Scalar (Float F64) plain))]
    [View VInt WRITE Plain (Scalar (Int B64) plain); View VStr WRITE Plain (Scalar String plain)]
    (Method true [Par $"a" KeywordOnly (Some true) false; Par $"b" KeywordOnly (Some true) false] tt) [$"a"; $"b"]) /\
  ex_define (Definition_ [input $"a"; input $"b"; input $"c"] (Some ex_build) any_outputs None) = Err ValueError /\
  ex_define (Definition_ [input $"a"] (Some ex_build) any_outputs None) = Err ValueError /\
  ex_define (Definition_ [input $"a"; ($"b", Field FOptional true)] (Some ex_build) any_outputs None) = Err ValueError /\
  ex_define (ex_returning (ROne (ann PyNoneType []))) = Err ValueError /\
  ex_define (ex_returning (RTuple [])) = Err ValueError /\
  ex_define (ex_returning (RTuple [ann PyInt []; ann PyList [XArtifact Events]])) = Err ValueError /\
  ex_define (ex_returning (ROne (ann PyList [XArtifact Events]))) = Err ValueError /\
  ex_define (Definition_ [input $"a"; input $"b"] (Some ex_build) [Par $"x" PositionalOrKeyword (Some (HClass PyStr)) false; Par $"y" PositionalOrKeyword None false] None) = Err ValueError.
Proof.
  split; [intros [] []; cbn; split; congruence|]. split; [|repeat split; reflexivity].
  cbn. constructor; [intros [X|[]]; discriminate X|]. constructor; [intros []|constructor].
Qed.

(** A class that is refused is refused with a ValueError, unless making a view, comparing hints or
    finding the partition fields of an output raises another one. *)
Theorem C50_errors : forall (V A : Type) (from_annotation : annotation V A -> mode -> result (view V A)) (aeqb : A -> A -> bool) same d e,
  define from_annotation aeqb same d = Err e ->
  e = ValueError \/ (exists ann m, from_annotation ann m = Err e) \/ (exists o h, issubclass_hint same o h = Err e) \/
  (exists ann m v, from_annotation ann m = Ok v /\ key_types (v_type v) = Err e).
Proof. exact @define_error. Qed.
Print Assumptions C50_errors.
Example C50_errors_nonvacuous :
  ex_define (ex_returning (ROne (Annotation (HAlias PyList [HClass PyObject]) []))) = Err NotImplementedError /\
  ex_from (Annotation (HAlias PyList [HClass PyObject]) []) WRITE = Err NotImplementedError.
Proof. split; reflexivity. Qed.

(** A generated map is given exactly the inputs [build] reads. *)
Theorem C50_generated : forall (V A : Type) (from_annotation : annotation V A -> mode -> result (view V A)) (aeqb : A -> A -> bool),
  (forall a b, aeqb a b = true <-> a = b) -> forall same d c, NoDup (map fst (d_fields d)) ->
  define from_annotation aeqb same d = Ok c -> d_map d = None ->
  forall n, In n (map_inputs c) <-> In n (map fst (build_inputs c)).
Proof. exact @generated_covers. Qed.
Print Assumptions C50_generated.

(** A decorated function gets the fields it needs: it is accepted iff its parameters are hinted
    keyword parameters without defaults and the outputs, [validate_outputs] and [map] fit. *)
Theorem C50_decorated : forall (V A : Type) (vsub : V -> V -> bool) (view_artifact : V -> A) artifact_type to_system infer type_eqb same cls reg (aeqb : A -> A -> bool),
  (forall a b, aeqb a b = true <-> a = b) ->
  let from := from_annotation vsub view_artifact artifact_type to_system infer type_eqb same cls reg in
  forall params ret validate map_ no_hint d,
  NoDup (map par_name (proper params)) -> (forall n, In n (map par_name (proper params)) -> ~ In n [$"annotations"; $"version"]) ->
  decorate from params ret validate map_ no_hint = Ok d ->
  ((exists c, define from aeqb same d = Ok c) <->
   (forall p, In p (proper params) -> par_hint p <> None /\ par_default p = false /\ (par_kind p = PositionalOrKeyword \/ par_kind p = KeywordOnly)) /\
   exists r vs, ret = Some r /\ returned r <> [Annotation (HClass PyNoneType) []] /\ Forall2 (fun ann v => from ann WRITE = Ok v) (returned r) vs /\
     alike vs /\ validates same (match validate with Some ps => ps | None => any_outputs end) (map root (returned r)) /\
     match map_ with
     | Some ps => forall p, In p (proper ps) -> par_hint p = Some true /\ par_default p = false /\
                    (par_kind p = PositionalOrKeyword \/ par_kind p = KeywordOnly) /\ In (par_name p) (map par_name (proper params))
     | None => (forall v, In v vs -> is_partitioned (v_type v) = Ok false) /\ ~ In $"kwargs" (map par_name (proper params))
     end).
Proof. exact @decorated. Qed.
Print Assumptions C50_decorated.
Example C50_decorated_nonvacuous : exists d c,
  decorate ex_from [arg $"x" PyInt; Par $"y" KeywordOnly (Some (ann PyList [XArtifact Events])) false] (Some (ROne (ann PyStr []))) None None (ann PyObject []) = Ok d /\
  ex_define d = Ok c /\ inputs c = [($"x", Plain); ($"y", Events)].
Proof. do 2 eexists. repeat split; reflexivity. Qed.

(** An accepted class may have a [map] that is not given all inputs of [build], which is then
    refused for each partition when its dependencies are computed. *)
Theorem C50_map_lacks_refuted : exists d c n, ex_define d = Ok c /\ In n (map fst (build_inputs c)) /\ ~ In n (map_inputs c).
Proof.
  exists (Definition_ [input $"a"; input $"b"] (Some ex_build) any_outputs (Some (Method true [Par $"a" KeywordOnly (Some true) false] tt))). eexists. exists $"b".
  split; [reflexivity|]. split; [right; left; reflexivity|]. intros [X|[]]. discriminate X.
Qed.
Print Assumptions C50_map_lacks_refuted.
(** A subclass inherits the generated [map]: one with another input is accepted without being able to
    get it, and one with partitioned outputs is accepted although a map is required for those. *)
Theorem C50_inherited_map_refuted : exists c c' c'',
  ex_define (ex_returning (ROne (ann PyInt []))) = Ok c /\
  ex_define (extend (ex_returning (ROne (ann PyInt []))) c [input $"b"] (Some ex_build) None None) = Ok c' /\
  In $"b" (map fst (build_inputs c')) /\ map_inputs c' = [$"a"] /\
  ex_define (extend (ex_returning (ROne (ann PyInt []))) c [] (Some (Method true [arg $"a" PyInt] (Some (ROne (ann PyList [XArtifact Events]))))) None None) = Ok c'' /\
  exists v, In v (outputs c'') /\ is_partitioned (v_type v) = Ok true.
Proof. do 3 eexists. repeat split; try reflexivity; [right; left; reflexivity|]. eexists. split; [left; reflexivity|reflexivity]. Qed.
Print Assumptions C50_inherited_map_refuted.
(** An input called kwargs is refused unless there is a map. *)
Theorem C50_kwargs_refuted :
  (exists c, ex_define (Definition_ [input $"args"] (Some (Method true [arg $"args" PyInt] (Some (ROne (ann PyInt []))))) any_outputs None) = Ok c) /\
  ex_define (Definition_ [input $"kwargs"] (Some (Method true [arg $"kwargs" PyInt] (Some (ROne (ann PyInt []))))) any_outputs None) = Err ValueError.
Proof. split; [eexists|]; reflexivity. Qed.
Print Assumptions C50_kwargs_refuted.
(** A parameter called self of a static method is overlooked. *)
Theorem C50_self_refuted : exists c,
  ex_define (Definition_ [] (Some (Method true [Par $"self" PositionalOnly None true] (Some (ROne (ann PyInt []))))) any_outputs None) = Ok c /\ build_inputs c = [].
Proof. eexists. split; reflexivity. Qed.
Print Assumptions C50_self_refuted.

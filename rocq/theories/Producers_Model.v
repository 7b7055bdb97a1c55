(** Model of src/arti/producers/__init__.py lines 108-307 and 433-469: what a Producer subclass is
    checked for when it is defined, and the [producer] decorator. Definitions only.

    [from_annotation] is [View.from_annotation]; the classes of views ([V]) and artifacts ([A])
    are those of Views_Model. Signatures are those [inspect.signature] returns, with the hints of
    [get_type_hints]. Fields and parameters are dicts in order of definition. *)
From Coq Require Import ZArith List Ascii String Bool Arith.
From Verif Require Import Base Str Hints_Model Types_Model Partitions_Model PyTypes_Model Dispatch_Model Views_Model.
Import ListNotations.
Open Scope list_scope.

Definition mem (x : str) (l : list str) : bool := existsb (str_eqb x) l.

(** A parameter of a signature; [None] is a missing hint. *)
Record parameter (H : Type) := Par { par_name : str; par_kind : kind; par_hint : option H; par_default : bool }.
Arguments Par {H}. Arguments par_name {H}. Arguments par_kind {H}. Arguments par_hint {H}. Arguments par_default {H}.
(** A method; [m_static]: a classmethod or staticmethod. *)
Record method (H R : Type) := Method { m_static : bool; m_params : list (parameter H); m_return : R }.
Arguments Method {H R}. Arguments m_static {H R}. Arguments m_params {H R}. Arguments m_return {H R}.
Definition by_keyword (k : kind) : bool := match k with PositionalOrKeyword | KeywordOnly => true | _ => false end.
Definition by_position (k : kind) : bool := match k with PositionalOnly | PositionalOrKeyword => true | _ => false end.
Definition is_var_positional (k : kind) : bool := match k with VarPositional => true | _ => false end.
(** [signature] removes parameters with these names (type_hints.py 192-196, 216). *)
Definition owners : list str := [$"cls"; $"self"].
Definition without_owner {H} (ps : list (parameter H)) : list (parameter H) :=
  filter (fun p => negb (mem (par_name p) owners)) ps.

(** [PartitionKey.types_from] on types (partitions/__init__.py 62-71). *)
Definition width_of (b : bits) : width := match b with B8 => W8 | B16 => W16 | B32 => W32 | B64 => W64 end.
Definition ptype_of (t : ty) : ptype :=
  match t with
  | Scalar Date _ => TDate
  | Scalar (Int b) _ => TInt (width_of b)
  | Scalar Null _ => TNull
  | _ => TOther
  end.
Definition key_types (t : ty) : result (list (str * fclass)) :=
  match t with
  | Collection _ _ _ _ _ => bind (partition_fields t) (fun fs => types_from (Some (map (fun nf => (fst nf, ptype_of (snd nf))) fs)))
  | _ => Ok []
  end.
(** [==] on dicts of classes. *)
Definition fclass_eqb (a b : fclass) : bool :=
  match a, b with
  | DateField, DateField | NullField, NullField => true
  | IntField v, IntField w => width_eqb v w
  | _, _ => false
  end.
Definition key_types_eqb (a b : list (str * fclass)) : bool :=
  let within (a b : list (str * fclass)) := forallb (fun nc => match dget str_eqb b (fst nc) with Some c => fclass_eqb (snd nc) c | None => false end) a in
  within a b && within b a.

Section Producers.
  Context {V A : Type} (from_annotation : annotation V A -> mode -> result (view V A)) (aeqb : A -> A -> bool)
    (same : phint -> phint -> bool).
  Notation annotation := (annotation V A).
  Notation view := (view V A).

  (** The hint of a field: a class of artifacts, optional (a union with NoneType), or anything
      else that is no class of artifacts. *)
  Inductive fhint := FArtifact (a : A) | FOptional | FOther.
  Record field := Field { f_hint : fhint; f_required : bool }.
  (** A return hint: [tuple[...]], or anything else. *)
  Inductive rhint := RTuple (args : list annotation) | ROne (ann : annotation).
  (** [d_validate] are the parameters of [validate_outputs]; the hints of [map] only matter as to
      whether they are [StoragePartitions]. [d_map] is set by the class or inherited. *)
  Record definition := Definition_ {
    d_fields : list (str * field);
    d_build : option (method annotation (option rhint));
    d_validate : list (parameter phint);
    d_map : option (method bool unit) }.
  Record producer_class := ProducerClass {
    inputs : list (str * A);
    build_inputs : list (str * view);
    outputs : list view;
    map_method : method bool unit;
    map_inputs : list str }.

  (** [_validate_fields] (126-150); [Producer.model_fields] are [reserved]. *)
  Definition reserved : list str := [$"annotations"; $"version"].
  Definition validate_field (nf : str * field) : result (str * A) :=
    match f_hint (snd nf) with
    | FOptional => Err ValueError
    | FArtifact a => if f_required (snd nf) then Ok (fst nf, a) else Err ValueError
    | FOther => Err ValueError
    end.
  Definition validate_fields (fields : list (str * field)) : result (list (str * A)) :=
    mapM validate_field (filter (fun nf => negb (mem (fst nf) reserved)) fields).

  (** [_validate_parameters] (152-169) *)
  Definition validate_parameter {H R} (validator : str -> H -> result R) (p : parameter H) : result R :=
    match par_hint p with
    | None => Err ValueError
    | Some h => if par_default p then Err ValueError else
                if negb (by_keyword (par_kind p)) then Err ValueError else validator (par_name p) h
    end.
  Definition validate_parameters {H R} (ins : list (str * A)) (validator : str -> H -> result R) (ps : list (parameter H)) : result (list R) :=
    if forallb (fun p => mem (par_name p) (map fst ins)) ps then mapM (validate_parameter validator) ps else Err ValueError.

  (** [_validate_build_param] (171-183) *)
  Definition pick_artifact (e : extra V A) : option A := match e with XArtifact a => Some a | _ => None end.
  Definition validate_build_param (ins : list (str * A)) (name : str) (ann : annotation) : result (str * view) :=
    match dget str_eqb ins name with
    | None => Err KeyError
    | Some a =>
        bind (item_of pick_artifact (extras ann)) (fun found =>
        let ann' := match found with Some _ => ann | None => Annotation (root ann) (extras ann ++ [XArtifact a]) end in
        bind (from_annotation ann' READ) (fun v =>
        if aeqb (v_artifact v) a then Ok (name, v) else Err ValueError))
    end.

  (** [_validate_build_sig] (185-229): [_tidy_return] makes a tuple of the return hint. *)
  Definition returned (r : rhint) : list annotation := match r with RTuple l => l | ROne a => [a] end.
  Definition is_none_only (l : list annotation) : bool :=
    match l with
    | [Annotation (HClass c) []] => is_none c
    | _ => false
    end.
  Definition same_scheme (l : list (list (str * fclass))) : bool :=
    match l with [] => false | k :: l' => forallb (key_types_eqb k) l' end.
  Definition validate_build (ins : list (str * A)) (build : option (method annotation (option rhint)))
    : result (list str * list (str * view) * list view * list phint) :=
    match build with
    | None => Err ValueError
    | Some m =>
        if negb (m_static m) then Err ValueError else
        let ps := without_owner (m_params m) in
        bind (validate_parameters ins (validate_build_param ins) ps) (fun bins =>
        match m_return m with
        | None => Err ValueError
        | Some r =>
            if is_none_only (returned r) then Err ValueError else
            bind (mapM (fun ann => from_annotation ann WRITE) (returned r)) (fun outs =>
            bind (mapM (fun v => key_types (v_type v)) outs) (fun keys =>
            if same_scheme keys then Ok (map par_name ps, bins, outs, map root (returned r)) else Err ValueError))
        end)
    end.

  (** [_validate_validate_output_sig] (231-262) *)
  Definition param_matches (p : parameter phint) (out : phint) : result bool :=
    match par_hint p with None => Ok true | Some h => issubclass_hint same out h end.
  Definition validate_output (po : parameter phint * phint) : result unit :=
    if par_default (fst po) then Err ValueError else
    if negb (by_position (par_kind (fst po))) then Err ValueError else
    bind (param_matches (fst po) (snd po)) (fun b => if b then Ok tt else Err ValueError).
  Definition validate_validate (outs : list phint) (params : list (parameter phint)) : result unit :=
    let ps := without_owner params in
    let pairwise := if List.length ps =? List.length outs
                    then bind (mapM validate_output (combine ps outs)) (fun _ => Ok tt) else Err ValueError in
    match ps with
    | [p] => if is_var_positional (par_kind p)
             then bind (allM (param_matches p) outs) (fun b => if b then Ok tt else Err ValueError)
             else pairwise
    | _ => pairwise
    end.

  (** [_validate_map_param] and [_validate_map_sig] (264-298). The generated [map] takes [**kwargs]
      with another hint, which [get_type_hints] finds for a parameter of that name. *)
  Definition validate_map_param (name : str) (partitions : bool) : result str :=
    if partitions then Ok name else Err ValueError.
  Definition generated_map (ins : list (str * A)) (bins : list (str * view)) : method bool unit :=
    Method true (map (fun na => Par (fst na) KeywordOnly (Some (negb (str_eqb (fst na) $"kwargs"))) false)
                  (filter (fun na => mem (fst na) (map fst bins)) ins)) tt.
  Definition validate_map (ins : list (str * A)) (bins : list (str * view)) (outs : list view) (m : option (method bool unit))
    : result (method bool unit * list str) :=
    bind (match m with
          | Some m => Ok m
          | None => bind (anyM (fun v => is_partitioned (v_type v)) outs) (fun b =>
                    if b then Err ValueError else Ok (generated_map ins bins))
          end) (fun m =>
    if negb (m_static m) then Err ValueError else
    rmap (pair m) (validate_parameters ins validate_map_param (without_owner (m_params m)))).

  (** [__pydantic_init_subclass__] (108-124) with [_validate_no_unused_fields] (300-307). [wrap_exc]
      leaves the classes of exceptions. *)
  Definition define (d : definition) : result producer_class :=
    bind (validate_fields (d_fields d)) (fun ins =>
    bind (validate_build ins (d_build d)) (fun '(build_params, bins, outs, hints) =>
    bind (validate_validate hints (d_validate d)) (fun _ =>
    bind (validate_map ins bins outs (d_map d)) (fun '(m, mins) =>
    if forallb (fun na => mem (fst na) build_params || mem (fst na) mins) ins
    then Ok (ProducerClass ins bins outs m mins) else Err ValueError)))).

  (** [producer] (433-469): a class with a field for each parameter of the function. [validate_outputs]
      and [map] are inherited from Producer if not given; the former takes [*outputs: Any]. *)
  Definition any_outputs : list (parameter phint) := [Par $"outputs" VarPositional (Some HAny) false].
  Definition decorate (params : list (parameter annotation)) (ret : option rhint) (validate : option (list (parameter phint)))
      (map_ : option (list (parameter bool))) (no_hint : annotation) : result definition :=
    bind (mapM (fun p => bind (from_annotation (match par_hint p with Some h => h | None => no_hint end) READ) (fun v =>
                         Ok (par_name p, Field (FArtifact (v_artifact v)) true))) (without_owner params)) (fun fields =>
    Ok (Definition_ fields (Some (Method true params ret)) (match validate with Some ps => ps | None => any_outputs end)
         (match map_ with Some ps => Some (Method true ps tt) | None => None end))).

  (** A subclass that adds fields and may replace the methods of a class that was accepted. *)
  Definition extend (d : definition) (c : producer_class) (fields : list (str * field)) (build : option (method annotation (option rhint)))
      (validate : option (list (parameter phint))) (map_ : option (method bool unit)) : definition :=
    Definition_ (dupdate str_eqb (d_fields d) fields) (match build with Some b => Some b | None => d_build d end)
      (match validate with Some v => v | None => d_validate d end) (Some (match map_ with Some m => m | None => map_method c end)).
End Producers.
Arguments fhint A : clear implicits. Arguments FOptional {A}. Arguments FOther {A}.
Arguments field A : clear implicits.
Arguments rhint V A : clear implicits.
Arguments definition V A : clear implicits.
Arguments producer_class V A : clear implicits.

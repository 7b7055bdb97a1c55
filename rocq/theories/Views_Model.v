(** Model of src/arti/views/__init__.py lines 20-145, of src/arti/views/python.py and of
    [get_item_from_annotated] (src/arti/internal/type_hints.py 129-140). Definitions only.

    The classes of views ([V]) and artifacts ([A]) are arbitrary types; what the code reads off
    them are functions. An annotation is a hint and the extra arguments of Annotated around it,
    which are classes of views, classes of artifacts, types, or something else. *)
From Coq Require Import ZArith List Ascii String Bool.
From Verif Require Import Base Str Utils_Model Hints_Model Types_Model PyTypes_Model.
Import ListNotations.
Open Scope list_scope.

Inductive mode := READ | WRITE | READWRITE.
Definition reads (m : mode) : bool := match m with READ | READWRITE => true | WRITE => false end.
Definition writes (m : mode) : bool := match m with WRITE | READWRITE => true | READ => false end.

(** The keys of [_by_python_type_]: None or a class. *)
Definition pykey := option pyclass.
Definition pykey_eqb (a b : pykey) : bool :=
  match a, b with None, None => true | Some a, Some b => pyclass_eqb a b | _, _ => false end.

Section Views.
  Context {V A : Type}.
  Inductive extra := XView (v : V) | XArtifact (a : A) | XType (t : ty) | XOther.
  Record annotation := Annotation { root : phint; extras : list extra }.

  (** [get_item_from_annotated]: the one extra argument of a kind. *)
  Definition item_of {X} (pick : extra -> option X) (extras : list extra) : result (option X) :=
    one_or_none (Some (flat_map (fun e => match pick e with Some x => [Some x] | None => [] end) extras)) None.

  Context (vsub : V -> V -> bool) (asub : A -> A -> bool) (abstract : V -> bool) (python_type : V -> pykey) (priority : V -> Z)
    (view_artifact : V -> A)                     (* the default of [artifact_class] *)
    (artifact_type : A -> option ty)             (* the default of [type] *)
    (to_system : V -> ty -> result (phint * pyclass))
      (* the system type, as a hint ([HEllipsis] if it is none), and its class *)
    (infer : phint -> result ty)                 (* [python_type_system.to_artigraph] *)
    (type_eqb : ty -> ty -> bool)                (* [==] on types *)
    (same : phint -> phint -> bool).             (* [is] on hints *)
  Definition issubclass_hint (k c : phint) : result bool := lenient_issubclass issub is_none PyDict PyUnionType same k c.

  (** [__pydantic_init_subclass__] (37-41) *)
  Definition registry := list (pykey * V).
  Definition define_view (reg : registry) (v : V) : result registry :=
    if abstract v then Ok reg else
    match register pykey_eqb reg (python_type v) v (Some priority) with
    | (Ok _, reg') => Ok reg'
    | (Err e, _) => Err e
    end.
  Fixpoint define_views (reg : registry) (vs : list V) : result registry :=
    match vs with [] => Ok reg | v :: vs' => bind (define_view reg v) (fun reg' => define_views reg' vs') end.

  Record view := View { v_class : V; v_mode : mode; v_artifact : A; v_type : ty }.

  (** [_check_type_compatibility] (43-54) and [_validate_type] (56-66) *)
  Definition check_type (view_type artifact_type : ty) : result unit :=
    if type_eqb view_type artifact_type then Ok tt else Err ValueError.
  Definition new_view (c : V) (m : mode) (a : A) (t : ty) : result view :=
    bind (match artifact_type a with Some t' => check_type t t' | None => Ok tt end) (fun _ => Ok (View c m a t)).

  (** [_get_kwargs_from_annotation] (68-89) *)
  Definition kwargs_of (c : V) (ann : annotation) : result (A * ty) :=
    bind (item_of (fun e => match e with XArtifact a => Some a | _ => None end) (extras ann)) (fun found =>
    let a := match found with Some a => a | None => view_artifact c end in
    bind (item_of (fun e => match e with XType t => Some t | _ => None end) (extras ann)) (fun t =>
    match t with
    | Some t => Ok (a, t)
    | None => match artifact_type a with
              | Some t => Ok (a, t)
              | None => rmap (pair a) (infer (root ann))
              end
    end)).

  (** [get_class_for] (91-110); the submodules are imported, that is, [reg] is complete. Keys are
      looked up by equality, so hints that are neither None nor a class are not found. *)
  Definition key_of (h : phint) : option pykey :=
    match h with HNone => Some None | HClass c | HModel c _ => Some (Some c) | _ => None end.
  Definition registered (reg : registry) (h : phint) : option V :=
    match key_of h with
    | Some k => dget pykey_eqb reg k
    | None => match get_origin PyUnionType h with OriginClass c => dget pykey_eqb reg (Some c) | _ => None end
    end.
  Definition get_class_for (cls : V) (reg : registry) (ann : annotation) : result V :=
    bind (item_of (fun e => match e with XView v => if vsub v cls then Some v else None | _ => None end) (extras ann)) (fun found =>
    match found with
    | Some v => Ok v
    | None => match registered reg (root ann) with Some v => Ok v | None => Err ValueError end
    end).

  (** [check_annotation_compatibility] (119-129) *)
  Definition check_annotation (v : view) (ann : annotation) : result unit :=
    bind (to_system (v_class v) (v_type v)) (fun s =>
    bind (issubclass_hint (fst s) (root ann)) (fun b => if b then Ok tt else
    bind (issubclass_hint (HClass (snd s)) (root ann)) (fun b => if b then Ok tt else Err ValueError))).

  (** [from_annotation] (112-117) *)
  Definition from_annotation (cls : V) (reg : registry) (ann : annotation) (m : mode) : result view :=
    bind (get_class_for cls reg ann) (fun c =>
    bind (kwargs_of c ann) (fun at_ =>
    bind (new_view c m (fst at_) (snd at_)) (fun v =>
    bind (check_annotation v ann) (fun _ => Ok v)))).

  (** [check_artifact_compatibility] (131-145). An artifact is its class, its type and whatever
      the lookups of a reader and a writer look at ([T]). *)
  Definition check_artifact {T} (can_read can_write : T -> V -> result unit) (v : view) (a : A) (t : ty) (rest : T) : result unit :=
    if negb (asub a (v_artifact v)) then Err ValueError else
    bind (check_type (v_type v) t) (fun _ =>
    bind (if reads (v_mode v) then can_read rest (v_class v) else Ok tt) (fun _ =>
    if writes (v_mode v) then can_write rest (v_class v) else Ok tt)).
End Views.
Arguments extra V A : clear implicits.
Arguments annotation V A : clear implicits.
Arguments view V A : clear implicits.

(** views/python.py. [PythonBuiltin] is abstract. *)
Inductive builtin_view := PythonBuiltin | VDate | VDatetime | VDict | VFloat | VInt | VList | VNull | VStr.
Definition builtin_sub (a b : builtin_view) : bool :=
  match a, b with
  | _, PythonBuiltin => true
  | VDate, VDate | VDatetime, VDatetime | VDict, VDict | VFloat, VFloat | VInt, VInt | VList, VList | VNull, VNull | VStr, VStr => true
  | _, _ => false
  end.
Definition builtin_abstract (v : builtin_view) : bool := match v with PythonBuiltin => true | _ => false end.
Definition builtin_type (v : builtin_view) : pykey :=
  match v with
  | PythonBuiltin => Some PyObject   (* has none *)
  | VDate => Some PyDate | VDatetime => Some PyDatetime | VDict => Some PyDict | VFloat => Some PyFloat
  | VInt => Some PyInt | VList => Some PyList | VNull => None | VStr => Some PyStr
  end.
Definition builtin_views : list builtin_view := [PythonBuiltin; VDate; VDatetime; VDict; VFloat; VInt; VList; VNull; VStr].
(** The class of a hint: of None, of classes, and of the objects of [typing]. *)
Definition hint_class (h : phint) : pyclass :=
  match h with
  | HNone => PyNoneType
  | HClass _ => PySub PyObject $"type"
  | HTypedDict _ _ => PySub (PySub PyObject $"type") $"_TypedDictMeta"
  | HModel _ _ => PySub (PySub PyObject $"type") $"ModelMetaclass"
  | HAlias _ _ => PySub PyObject $"GenericAlias"
  | HUnion true _ => PyUnionType
  | HUnion false _ => PySub PyObject $"_UnionGenericAlias"
  | HLiteral _ => PySub PyObject $"_LiteralGenericAlias"
  | HAnnotated _ => PySub PyObject $"_AnnotatedAlias"
  | HTypeVar _ => PySub PyObject $"TypeVar"
  | HAny => PySub (PySub PyObject $"type") $"_AnyMeta"
  | HEllipsis => PySub PyObject $"ellipsis"
  end.
Definition builtin_system (depth : nat) (_ : builtin_view) (t : ty) : result (phint * pyclass) :=
  rmap (fun h => (h, hint_class h)) (to_hint depth t).

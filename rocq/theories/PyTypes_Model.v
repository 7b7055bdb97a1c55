(** Model of src/arti/types/python.py lines 22-262 and of the validators of Enum
    (src/arti/types/__init__.py 102-124). Definitions only.

    Hints are those of Hints_Model over the classes of Types_Model. *)
From Coq Require Import ZArith List Ascii String Bool.
From Verif Require Import Base Str Hints_Model TypeSystem_Model Types_Model.
Import ListNotations.
Open Scope list_scope.

Notation phint := (hint pyclass).

(** [issubclass] between the classes. [dict] is registered as a Mapping. *)
Fixpoint pyclass_eqb (a b : pyclass) : bool :=
  match a, b with
  | PyObject, PyObject | PyBool, PyBool | PyInt, PyInt | PyFloat, PyFloat | PyStr, PyStr
  | PyBytes, PyBytes | PyDate, PyDate | PyDatetime, PyDatetime | PyNoneType, PyNoneType
  | PyList, PyList | PyTuple, PyTuple | PySet, PySet | PyFrozenset, PyFrozenset
  | PyDict, PyDict | PyMapping, PyMapping | PyUnionType, PyUnionType => true
  | PySub a n, PySub b m => pyclass_eqb a b && str_eqb n m
  | _, _ => false
  end.
Fixpoint issub (a b : pyclass) : bool :=
  match b with PyObject => true | _ => false end || pyclass_eqb a b ||
  match a with
  | PyBool => pyclass_eqb PyInt b
  | PyDatetime => pyclass_eqb PyDate b
  | PyDict => pyclass_eqb PyMapping b
  | PySub base _ => issub base b
  | _ => false
  end.
Definition is_none (c : pyclass) : bool := pyclass_eqb c PyNoneType.
(** [lenient_issubclass]. Python's [is] on hints is only consulted for the arguments of two
    subscripted hints, which does not happen in this file. *)
Definition py_issubclass (a b : phint) : result bool :=
  lenient_issubclass issub is_none PyDict PyUnionType (fun _ _ => false) a b.
(** [lenient_issubclass(get_origin(type_), classes)]: an origin that is no class is refused. *)
Definition origin_in (h : phint) (classes : list pyclass) : bool :=
  match get_origin PyUnionType h with OriginClass c => existsb (issub c) classes | _ => false end.
Definition is_union (h : phint) : bool := match h with HUnion _ _ => true | _ => false end.
Definition is_none_type (h : phint) : bool := match h with HClass c => is_none c | _ => false end.
(** [is_optional_hint] *)
Definition is_optional (h : phint) : bool := is_union h && existsb is_none_type (get_args h).
Definition is_literal (h : phint) : bool := match h with HLiteral _ => true | _ => false end.

(** [typing.Optional[h]]: None becomes its class and unions are flattened. *)
Definition optional (h : phint) : phint :=
  match h with
  | HNone => HClass PyNoneType
  | HClass c => if is_none c then h else HUnion false [h; HClass PyNoneType]
  | HUnion _ args => if existsb is_none_type args then h else HUnion false (args ++ [HClass PyNoneType])
  | _ => HUnion false [h; HClass PyNoneType]
  end.
(** [typing.Union[args]] of hints that are no unions. *)
Definition union_of (args : list phint) : result phint :=
  match args with
  | [] => Err TypeError
  | [h] => Ok h
  | _ => Ok (HUnion false args)
  end.
(** [TypedDict(name, fields)] turns None into its class; [get_type_hints] drops Annotated at
    any depth outside of nested TypedDicts. *)
Definition none_class (h : phint) : phint := match h with HNone => HClass PyNoneType | _ => h end.
Definition typed_dict (name : str) (fields : list (str * phint)) : phint :=
  HTypedDict name (map (fun nh => (fst nh, none_class (snd nh))) fields).
Fixpoint strip_annotated (h : phint) : phint :=
  match h with
  | HAnnotated h' => strip_annotated h'
  | HAlias o args => HAlias o (map strip_annotated args)
  | HUnion b args => HUnion b (map strip_annotated args)
  | h => h
  end.
Definition type_hints (fields : list (str * phint)) : list (str * phint) :=
  map (fun nh => (fst nh, strip_annotated (snd nh))) fields.

(** * Enum's validators (types/__init__.py 102-124)

    [frozenset(items)] drops repeated items. Python also merges equal objects of different
    classes ([1], [True]); here they stay apart. *)
Definition item_class (i : item) : pyclass := let '(Lit c _) := i in c.
Definition item_eqb (a b : item) : bool :=
  let '(Lit c s) := a in let '(Lit d t) := b in pyclass_eqb c d && str_eqb s t.
Fixpoint distinct_items (l : list item) : list item :=
  match l with
  | [] => []
  | i :: l' => i :: filter (fun j => negb (item_eqb i j)) (distinct_items l')
  end.
(** [hint_of] is [python_type_system.to_system]. *)
Definition mk_enum (hint_of : ty -> result phint) (name : str) (type : ty) (items : list item) (m : meta) : result ty :=
  match items with
  | [] => Err ValueError
  | _ => bind (hint_of type) (fun py_type =>
         bind (mapM (fun i => py_issubclass (HClass (item_class i)) py_type) (distinct_items items)) (fun oks =>
         if forallb (fun b => b) oks then Ok (Enum name type (distinct_items items) m) else Err ValueError))
  end.

(** * The adapters *)
Definition py_adapter := adapter ty phint unit.

(** [_ScalarClassTypeAdapter] (types/__init__.py 313-328): one class on either side. *)
Definition scalar_adapter (key : str) (is : ty -> bool) (make : ty) (system : pyclass) (priority : Z) : py_adapter :=
  {| a_key := key; a_priority := priority;
     matches_artigraph := fun t _ => Ok (is t);
     adapt_to_system := fun _ _ _ => Ok (HClass system);
     matches_system := fun h _ => py_issubclass h (HClass system);
     adapt_to_artigraph := fun _ _ _ => Ok make |}.
Definition is_binary (t : ty) : bool := match t with Binary _ _ => true | _ => false end.
Definition is_boolean (t : ty) : bool := match t with Scalar Boolean _ => true | _ => false end.
Definition is_date (t : ty) : bool := match t with Scalar Date _ => true | _ => false end.
Definition is_string (t : ty) : bool := match t with Scalar String _ => true | _ => false end.
Definition fbits_eqb (a b : fbits) : bool :=
  match a, b with F16, F16 | F32, F32 | F64, F64 => true | _, _ => false end.
Definition bits_eqb (a b : bits) : bool :=
  match a, b with B8, B8 | B16, B16 | B32, B32 | B64, B64 => true | _, _ => false end.
Definition is_float (w : fbits) (t : ty) : bool := match t with Scalar (Float v) _ => fbits_eqb v w | _ => false end.
Definition is_int (w : bits) (t : ty) : bool := match t with Scalar (Int v) _ => bits_eqb v w | _ => false end.
Definition is_null (t : ty) : bool := match t with Scalar Null _ => true | _ => false end.
Definition is_timestamp (t : ty) : bool := match t with Timestamp _ _ => true | _ => false end.
(** Collection is a subclass of List. *)
Definition is_list (t : ty) : bool := match t with List _ _ | Collection _ _ _ _ _ => true | _ => false end.
Definition is_set (t : ty) : bool := match t with Set_ _ _ => true | _ => false end.
Definition is_enum (t : ty) : bool := match t with Enum _ _ _ _ => true | _ => false end.
Definition is_map (t : ty) : bool := match t with Map _ _ _ => true | _ => false end.
Definition element_of (t : ty) : result ty :=
  match t with List e _ | Collection _ e _ _ _ | Set_ e _ => Ok e | _ => Err AttributeError end.

(** Lines 25-38. *)
Definition py_binary := scalar_adapter $"pythonBinary" is_binary (Binary None plain) PyBytes 0.
Definition py_boolean := scalar_adapter $"pythonBoolean" is_boolean (Scalar Boolean plain) PyBool 1000.
Definition py_date := scalar_adapter $"pythonDate" is_date (Scalar Date plain) PyDate 0.
Definition py_string := scalar_adapter $"pythonString" is_string (Scalar String plain) PyStr 0.
Definition py_float16 := scalar_adapter $"pythonFloat16" (is_float F16) (Scalar (Float F16) plain) PyFloat 16.
Definition py_float32 := scalar_adapter $"pythonFloat32" (is_float F32) (Scalar (Float F32) plain) PyFloat 32.
Definition py_float64 := scalar_adapter $"pythonFloat64" (is_float F64) (Scalar (Float F64) plain) PyFloat 64.
Definition py_int8 := scalar_adapter $"pythonInt8" (is_int B8) (Scalar (Int B8) plain) PyInt 8.
Definition py_int16 := scalar_adapter $"pythonInt16" (is_int B16) (Scalar (Int B16) plain) PyInt 16.
Definition py_int32 := scalar_adapter $"pythonInt32" (is_int B32) (Scalar (Int B32) plain) PyInt 32.
Definition py_int64 := scalar_adapter $"pythonInt64" (is_int B64) (Scalar (Int B64) plain) PyInt 64.

(** PyNone (41-50) *)
Definition py_none : py_adapter :=
  {| a_key := $"PyNone"; a_priority := 0;
     matches_artigraph := fun t _ => Ok (is_null t);
     adapt_to_system := fun _ _ _ => Ok HNone;
     matches_system := fun h _ => Ok (match h with HNone => true | _ => false end);
     adapt_to_artigraph := fun _ _ _ => Ok (Scalar Null plain) |}.
(** PyDatetime (53-61) *)
Definition py_datetime := scalar_adapter $"PyDatetime" is_timestamp (Timestamp Microsecond plain) PyDatetime 1.

(** PyValueContainer (64-80): [(element,) = get_args(type_)] raises a ValueError unless there
    is exactly one argument. *)
Definition container_adapter (key : str) (is : ty -> bool) (make : ty -> ty) (system : pyclass) (priority : Z) : py_adapter :=
  {| a_key := key; a_priority := priority;
     matches_artigraph := fun t _ => Ok (is t);
     adapt_to_system := fun conv t h => bind (element_of t) (fun e => rmap (fun x => HAlias system [x]) (conv e h));
     matches_system := fun h _ => Ok (origin_in h [system]);
     adapt_to_artigraph := fun conv x h =>
       match get_args x with [e] => rmap make (conv e h) | _ => Err ValueError end |}.
(** PyList (83-87), PyFrozenset (121-124), PySet (127-131) *)
Definition py_list := container_adapter $"PyList" is_list (fun e => List e plain) PyList 1.
Definition py_frozenset := container_adapter $"PyFrozenset" is_set (fun e => Set_ e plain) PyFrozenset 0.
Definition py_set := container_adapter $"PySet" is_set (fun e => Set_ e plain) PySet 1.
(** PyTuple (90-118): only [tuple[x, ...]]. *)
Definition py_tuple : py_adapter :=
  {| a_key := $"PyTuple"; a_priority := 0;
     matches_artigraph := fun t _ => Ok (is_list t);
     adapt_to_system := fun conv t h => bind (element_of t) (fun e => rmap (fun x => HAlias PyTuple [x; HEllipsis]) (conv e h));
     matches_system := fun h _ => Ok (origin_in h [PyTuple] &&
                                      match get_args h with [_; HEllipsis] => true | _ => false end);
     adapt_to_artigraph := fun conv x h =>
       match get_args x with
       | [e; HEllipsis] => rmap (fun e' => List e' plain) (conv e h)
       | _ => Err AssertionError
       end |}.

(** PyLiteral (134-173). The union branch of [to_artigraph] flattens the items. *)
Definition literal_items (h : phint) : list item := match h with HLiteral items => items | _ => [] end.
Definition py_literal (hint_of : ty -> result phint) : py_adapter :=
  {| a_key := $"PyLiteral"; a_priority := 0;
     matches_artigraph := fun t _ => Ok (is_enum t);
     adapt_to_system := fun _ t _ =>
       match t with Enum _ _ items _ => Ok (HLiteral items) | _ => Err AssertionError end;
     matches_system := fun h _ => Ok (is_literal h || (is_union h && forallb is_literal (get_args h)));
     adapt_to_artigraph := fun conv x h =>
       bind (if is_union x then
               if is_optional x then Err AssertionError
               else if forallb is_literal (get_args x) then Ok (flat_map literal_items (get_args x))
               else Err NotImplementedError
             else if is_literal x then Ok (literal_items x) else Err AssertionError) (fun items =>
       match items with
       | [] => Err NotImplementedError
       | i :: others =>
           if forallb (fun j => pyclass_eqb (item_class j) (item_class i)) others
           then bind (conv (HClass (item_class i)) h) (fun t => mk_enum hint_of anon t items plain)
           else Err ValueError
       end) |}.

(** PyMap (176-199) *)
Definition py_map : py_adapter :=
  {| a_key := $"PyMap"; a_priority := 0;
     matches_artigraph := fun t _ => Ok (is_map t);
     adapt_to_system := fun conv t h =>
       match t with
       | Map k v _ => bind (conv k h) (fun k' => rmap (fun v' => HAlias PyDict [k'; v']) (conv v h))
       | _ => Err AssertionError
       end;
     matches_system := fun h _ => Ok (origin_in h [PyDict; PyMapping]);
     adapt_to_artigraph := fun conv x h =>
       match get_args x with
       | [k; v] => bind (conv k h) (fun k' => rmap (fun v' => Map k' v' plain) (conv v h))
       | _ => Err ValueError
       end |}.

(** PyOptional (202-227) *)
Definition py_optional : py_adapter :=
  {| a_key := $"PyOptional"; a_priority := 1000000000;
     matches_artigraph := fun t _ => Ok (is_nullable t);
     adapt_to_system := fun conv t h => rmap optional (conv (set_nullable false t) h);
     matches_system := fun h _ => Ok (is_optional h);
     adapt_to_artigraph := fun conv x h =>
       bind (union_of (filter (fun a => negb (is_none_type a)) (get_args x))) (fun x' =>
       rmap (set_nullable true) (conv x' h)) |}.

(** PyStruct (230-262) *)
Definition convert_fields {A B} (conv : A -> unit -> result B) (fields : list (str * A)) (h : unit) : result (list (str * B)) :=
  mapM (fun nf => rmap (pair (fst nf)) (conv (snd nf) h)) fields.
Definition py_struct : py_adapter :=
  {| a_key := $"PyStruct"; a_priority := 0;
     matches_artigraph := fun t _ => Ok (is_struct t);
     adapt_to_system := fun conv t h =>
       match t with
       | Struct name fields _ => rmap (typed_dict name) (convert_fields conv fields h)
       | _ => Err AssertionError
       end;
     matches_system := fun h _ => Ok (match h with HTypedDict _ _ => true | _ => false end);
     adapt_to_artigraph := fun conv x h =>
       match x with
       | HTypedDict name fields => rmap (fun fs => Struct name fs plain) (convert_fields conv (type_hints fields) h)
       | _ => Err AttributeError
       end |}.

(** [python_type_system] (22), in the order of registration. *)
Definition python_adapters (hint_of : ty -> result phint) : list py_adapter :=
  [py_binary; py_boolean; py_date; py_string; py_float16; py_float32; py_float64;
   py_int8; py_int16; py_int32; py_int64; py_none; py_datetime; py_list; py_tuple; py_frozenset;
   py_set; py_literal hint_of; py_map; py_optional; py_struct].
Definition system_of {A X H} (adapters : list (adapter A X H)) : system A X H :=
  TypeSystem (map (fun a => (a_key a, a)) adapters) [].

(** The conversion to hints does not use [hint_of]; the one to types uses it with what is left
    of the stack, [depth], in Enum's validator. *)
Definition to_hint (depth : nat) (t : ty) : result phint :=
  to_system depth (system_of (python_adapters (fun _ => Err RecursionError))) t tt.
Definition of_hint (depth : nat) (h : phint) : result ty :=
  to_artigraph depth (system_of (python_adapters (to_hint depth))) h tt.
(** [Enum(name=..., type=..., items=...)] *)
Definition new_enum (depth : nat) := mk_enum (to_hint depth).

(** Model of src/arti/types/__init__.py lines 18-276: the Artigraph types. Definitions only.

    A type is what its pydantic model holds. Fields that pydantic only checks for their class
    (strings, booleans, the precision names) are of that class here by construction; the
    validators written in the repository are [mk_collection] below and [mk_enum] in PyTypes_Model. The mixins
    (46-63) only add fields; [friendly_key] (37-43 and its overrides), used nowhere else, and user
    defined subclasses of Type are not modelled. *)
From Coq Require Import ZArith List Ascii String Bool.
From Verif Require Import Base Str Hints_Model.
Import ListNotations.
Open Scope list_scope.

(** DEFAULT_ANONYMOUS_NAME (18) *)
Definition anon : str := $"anon".

(** Type (26-43): [description] and [nullable]. *)
Record meta := Meta { description : option str; nullable : bool }.
Definition plain : meta := Meta None false.

(** [_TimeMixin.precision] (62-63) *)
Inductive precision := Second | Millisecond | Microsecond | Nanosecond.
(** The number of bits of the numeric types. *)
Inductive bits := B8 | B16 | B32 | B64.
Inductive fbits := F16 | F32 | F64.

(** The types without fields of their own (71-81, 87-92, 129-138, 146-159, 233-234, 242-243, 264-276). *)
Inductive scalar := Boolean | Date | Float (w : fbits) | Int (w : bits) | Null | String | UInt (w : bits).

(** The Python classes of the items of an Enum, see PyTypes_Model. An item is an object of a
    class, told apart from others by its text. *)
Inductive pyclass :=
| PyObject | PyBool | PyInt | PyFloat | PyStr | PyBytes | PyDate | PyDatetime | PyNoneType
| PyList | PyTuple | PySet | PyFrozenset | PyDict | PyMapping | PyUnionType
| PySub (base : pyclass) (name : str).     (* a user defined subclass of [base] *)
Definition item := literal pyclass.

Inductive ty :=
| Scalar (s : scalar) (m : meta)
| Binary (byte_size : option Z) (m : meta)                                       (* 82-83 *)
| DateTime (p : precision) (m : meta)                                            (* 94-95 *)
| Enum (name : str) (type : ty) (items : list item) (m : meta)                   (* 98-127 *)
| Geography (format srid : option str) (m : meta)                                (* 141-143 *)
| List (element : ty) (m : meta)                                                 (* 163-166 *)
| Collection (name : str) (element : ty) (partition_by cluster_by : list str) (m : meta) (* 169-217 *)
| Map (key value : ty) (m : meta)                                                (* 220-226 *)
| Set_ (element : ty) (m : meta)                                                 (* 233-236 *)
| Struct (name : str) (fields : list (str * ty)) (m : meta)                      (* 243-248 *)
| Time (p : precision) (m : meta)                                                (* 251-252 *)
| Timestamp (p : precision) (m : meta).                                          (* 255-260 *)

Definition meta_of (t : ty) : meta :=
  match t with
  | Scalar _ m | Binary _ m | DateTime _ m | Enum _ _ _ m | Geography _ _ m | List _ m
  | Collection _ _ _ _ m | Map _ _ m | Set_ _ m | Struct _ _ m | Time _ m | Timestamp _ m => m
  end.
Definition with_meta (m : meta) (t : ty) : ty :=
  match t with
  | Scalar s _ => Scalar s m
  | Binary b _ => Binary b m
  | DateTime p _ => DateTime p m
  | Enum n t i _ => Enum n t i m
  | Geography f s _ => Geography f s m
  | List e _ => List e m
  | Collection n e p c _ => Collection n e p c m
  | Map k v _ => Map k v m
  | Set_ e _ => Set_ e m
  | Struct n f _ => Struct n f m
  | Time p _ => Time p m
  | Timestamp p _ => Timestamp p m
  end.
Definition is_nullable (t : ty) : bool := nullable (meta_of t).
(** [type_.model_copy(update={"nullable": b})] *)
Definition set_nullable (b : bool) (t : ty) : ty := with_meta (Meta (description (meta_of t)) b) t.

(** [Collection.fields] (206-208). The element is a Struct. *)
Definition fields_of (element : ty) : list (str * ty) :=
  match element with Struct _ fs _ => fs | _ => [] end.

(** The validators of Collection (178-201). That the element is a Struct is checked by
    pydantic (175). Pydantic collects the errors of all fields into one ValidationError, a
    ValueError. *)
Definition known_refs (element : ty) (refs : list str) : bool :=
  forallb (dmem str_eqb (fields_of element)) refs.
Definition is_struct (t : ty) : bool := match t with Struct _ _ _ => true | _ => false end.
Definition mk_collection (name : str) (element : ty) (partition_by cluster_by : list str) (m : meta) : result ty :=
  if is_struct element && known_refs element partition_by && known_refs element cluster_by &&
     negb (existsb (fun n => existsb (str_eqb n) partition_by) cluster_by)
  then Ok (Collection name element partition_by cluster_by m)
  else Err ValueError.

(** [partition_fields], [cluster_fields] (210-216): dict comprehensions over the names. *)
Definition pick_fields (element : ty) (names : list str) : result (list (str * ty)) :=
  rmap (dict_of str_eqb)
    (mapM (fun n => match dget str_eqb (fields_of element) n with
                    | Some t => Ok (n, t)
                    | None => Err KeyError
                    end) names).
Definition partition_fields (t : ty) : result (list (str * ty)) :=
  match t with Collection _ e p _ _ => pick_fields e p | _ => Err AttributeError end.
Definition cluster_fields (t : ty) : result (list (str * ty)) :=
  match t with Collection _ e _ c _ => pick_fields e c | _ => Err AttributeError end.

(** [is_partitioned] (21-23) *)
Definition is_partitioned (t : ty) : result bool :=
  match t with
  | Collection _ _ _ _ _ => rmap (fun l => negb (match l with [] => true | _ => false end)) (partition_fields t)
  | _ => Ok false
  end.

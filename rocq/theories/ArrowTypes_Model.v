(** Model of src/arti/types/pyarrow.py lines 12-368: the PyArrow type system. Definitions only.

    PyArrow itself (16.1) is not modelled beyond the values of its types and the checks of the
    constructors called here, see [pa_field], [pa_list], [pa_map] and [pa_binary]. *)
From Coq Require Import ZArith List Ascii String Bool.
From Verif Require Import Base Str TypeSystem_Model Types_Model PyTypes_Model.
Import ListNotations.
Open Scope list_scope.

Inductive time_unit := U_s | U_ms | U_us | U_ns.
(** What the "artigraph" entry of the metadata of a schema holds, as JSON: any of the keys name,
    partition_by and cluster_by. Other keys are not modelled. *)
Record arti_entry := Entry {
  e_name : option str; e_partition_by : option (list str); e_cluster_by : option (list str) }.

(** PyArrow types, schemas and other Python objects. The fields of structs and schemas have a name, a
    type and whether they are nullable. The fields inside of lists and maps are reduced to their types. *)
Inductive arrow :=
| PaString | PaNull | PaBool | PaDate32 | PaDate64 | PaFloat (w : fbits) | PaInt (w : bits) | PaUInt (w : bits)
| PaBinary | PaFixedBinary (byte_width : Z)
| PaTimestamp (unit : time_unit) (tz : option str) | PaTime32 (unit : time_unit) | PaTime64 (unit : time_unit)
| PaList (value_type : arrow) | PaMap (key_type item_type : arrow) | PaStruct (fields : list (str * arrow * bool))
| PaOtherType (text : str)                       (* large_string, decimal128, dictionary, ... *)
| PaSchema (fields : list (str * arrow * bool)) (metadata : option arti_entry)
| PaObject (text : str).                         (* neither a DataType nor a Schema *)

(** [isinstance(x, pa.DataType)] *)
Definition is_data_type (x : arrow) : bool := match x with PaSchema _ _ | PaObject _ => false | _ => true end.

(** The constructors. [pa.list_], [pa.map_] and [pa.field] take DataTypes only; a field of
    type null has to be nullable; the length of [pa.binary] is a C int (Python's OverflowError is
    [UserError 0] here). *)
Definition overflow_error : exn := UserError 0.
Definition pa_list (x : arrow) : result arrow := if is_data_type x then Ok (PaList x) else Err TypeError.
Definition pa_map (k v : arrow) : result arrow :=
  if is_data_type k && is_data_type v then Ok (PaMap k v) else Err TypeError.
Definition pa_field (name : str) (x : arrow) (nullable : bool) : result (str * arrow * bool) :=
  if is_data_type x then
    match x with
    | PaNull => if nullable then Ok (name, x, nullable) else Err ValueError
    | _ => Ok (name, x, nullable)
    end
  else Err TypeError.
Definition pa_binary (length : Z) : result arrow :=
  if ((- 2 ^ 31 <=? length) && (length <? 2 ^ 31))%Z
  then Ok (if (length =? -1)%Z then PaBinary else PaFixedBinary length) else Err overflow_error.

(** [tz.upper()] on ASCII. *)
Definition upper_char (c : ascii) : ascii :=
  let n := nat_of_ascii c in
  if Nat.leb 97 n && Nat.leb n 122 then ascii_of_nat (n - 32) else c.
Definition upper (s : str) : str := map upper_char s.

Definition arrow_adapter := adapter ty arrow unit.

(** [_PyarrowTypeAdapter] (22-37) and [_gen_adapter] (40-47). [isinstance(type_, pa.DataType)]
    is implied by [is_]. *)
Definition simple_adapter (key : str) (is : ty -> bool) (make : ty) (is_ : arrow -> bool) (system : arrow) (priority : Z) : arrow_adapter :=
  {| a_key := key; a_priority := priority;
     matches_artigraph := fun t _ => Ok (is t);
     adapt_to_system := fun _ _ _ => Ok system;
     matches_system := fun x _ => Ok (is_ x);
     adapt_to_artigraph := fun _ _ _ => Ok make |}.
Definition is_uint (w : bits) (t : ty) : bool := match t with Scalar (UInt v) _ => bits_eqb v w | _ => false end.
(** Lines 50-72. *)
Definition pa_string_ := simple_adapter $"Pyarrowstring" is_string (Scalar String plain)
  (fun x => match x with PaString => true | _ => false end) PaString 0.
Definition pa_null_ := simple_adapter $"Pyarrownull" is_null (Scalar Null plain)
  (fun x => match x with PaNull => true | _ => false end) PaNull 0.
Definition pa_date32 := simple_adapter $"Pyarrowdate32" is_date (Scalar Date plain)
  (fun x => match x with PaDate32 => true | _ => false end) PaDate32 32.
Definition pa_date64 := simple_adapter $"Pyarrowdate64" is_date (Scalar Date plain)
  (fun x => match x with PaDate64 => true | _ => false end) PaDate64 64.
Definition pa_float (key : str) (w : fbits) := simple_adapter key (is_float w) (Scalar (Float w) plain)
  (fun x => match x with PaFloat v => fbits_eqb v w | _ => false end) (PaFloat w) 0.
Definition pa_int (key : str) (w : bits) := simple_adapter key (is_int w) (Scalar (Int w) plain)
  (fun x => match x with PaInt v => bits_eqb v w | _ => false end) (PaInt w) 0.
Definition pa_uint (key : str) (w : bits) := simple_adapter key (is_uint w) (Scalar (UInt w) plain)
  (fun x => match x with PaUInt v => bits_eqb v w | _ => false end) (PaUInt w) 0.

(** BinaryTypeAdapter (75-96). [pa.types.is_fixed_size_binary] asks for the [id] that only
    DataTypes have (or another object that happens to). *)
Definition pa_binary_ : arrow_adapter :=
  {| a_key := $"BinaryTypeAdapter"; a_priority := 0;
     matches_artigraph := fun t _ => Ok (is_binary t);
     adapt_to_system := fun _ t _ =>
       match t with
       | Binary b _ => pa_binary (match b with None => (-1)%Z | Some n => n end)
       | _ => Err AssertionError
       end;
     matches_system := fun x _ =>
       match x with
       | PaBinary | PaFixedBinary _ => Ok true
       | _ => if is_data_type x then Ok false else Err AttributeError
       end;
     adapt_to_artigraph := fun _ x _ =>
       match x with PaFixedBinary n => Ok (Binary (Some n) plain) | _ => Ok (Binary None plain) end |}.
(** BoolTypeAdapter (99-106) *)
Definition type_is (p : arrow -> bool) (x : arrow) : result bool := if is_data_type x then Ok (p x) else Err AttributeError.
Definition pa_bool_ : arrow_adapter :=
  {| a_key := $"BoolTypeAdapter"; a_priority := 0;
     matches_artigraph := fun t _ => Ok (is_boolean t);
     adapt_to_system := fun _ _ _ => Ok PaBool;
     matches_system := fun x _ => type_is (fun x => match x with PaBool => true | _ => false end) x;
     adapt_to_artigraph := fun _ _ _ => Ok (Scalar Boolean plain) |}.
(** GeographyTypeAdapter (109-125) *)
Definition is_geography (t : ty) : bool := match t with Geography _ _ _ => true | _ => false end.
Definition pa_geography : arrow_adapter :=
  {| a_key := $"GeographyTypeAdapter"; a_priority := 0;
     matches_artigraph := fun t _ => Ok (is_geography t);
     adapt_to_system := fun _ t _ =>
       match t with
       | Geography (Some f) _ _ => if str_eqb f $"WKB" then pa_binary (-1) else Ok PaString
       | Geography None _ _ => Ok PaString
       | _ => Err AssertionError
       end;
     matches_system := fun _ _ => Ok false;
     adapt_to_artigraph := fun _ _ _ => Ok (Geography None None plain) |}.
(** ListTypeAdapter (128-146). [type_.value_type] is only read of lists. *)
Definition pa_list_ : arrow_adapter :=
  {| a_key := $"ListTypeAdapter"; a_priority := 0;
     matches_artigraph := fun t _ => Ok (is_list t);
     adapt_to_system := fun conv t h => bind (element_of t) (fun e => bind (conv e h) pa_list);
     matches_system := fun x _ => type_is (fun x => match x with PaList _ => true | _ => false end) x;
     adapt_to_artigraph := fun conv x h =>
       match x with PaList v => rmap (fun e => List e plain) (conv v h) | _ => Err AttributeError end |}.
(** MapTypeAdapter (149-171) *)
Definition pa_map_ : arrow_adapter :=
  {| a_key := $"MapTypeAdapter"; a_priority := 0;
     matches_artigraph := fun t _ => Ok (is_map t);
     adapt_to_system := fun conv t h =>
       match t with
       | Map k v _ => bind (conv k h) (fun k' => bind (conv v h) (fun v' => pa_map k' v'))
       | _ => Err AssertionError
       end;
     matches_system := fun x _ => type_is (fun x => match x with PaMap _ _ => true | _ => false end) x;
     adapt_to_artigraph := fun conv x h =>
       match x with
       | PaMap k v => bind (conv k h) (fun k' => rmap (fun v' => Map k' v' plain) (conv v h))
       | _ => Err AttributeError
       end |}.
(** StructTypeAdapter (174-211). The dict comprehension keeps the last field of each name. *)
Definition field_to_artigraph (conv : arrow -> unit -> result ty) (f : str * arrow * bool) (h : unit) : result (str * ty) :=
  let '(name, x, nullable) := f in
  rmap (fun t => (name, if Bool.eqb nullable (is_nullable t) then t else set_nullable nullable t)) (conv x h).
Definition fields_to_artigraph (conv : arrow -> unit -> result ty) (fields : list (str * arrow * bool)) (h : unit) : result ty :=
  rmap (fun fs => Struct anon (dict_of str_eqb fs) plain) (mapM (fun f => field_to_artigraph conv f h) fields).
Definition field_to_system (conv : ty -> unit -> result arrow) (f : str * ty) (h : unit) : result (str * arrow * bool) :=
  bind (conv (snd f) h) (fun x => pa_field (fst f) x (is_nullable (snd f))).
Definition fields_to_system (conv : ty -> unit -> result arrow) (fields : list (str * ty)) (h : unit) : result (list (str * arrow * bool)) :=
  mapM (fun f => field_to_system conv f h) fields.
Definition pa_struct_ : arrow_adapter :=
  {| a_key := $"StructTypeAdapter"; a_priority := 0;
     matches_artigraph := fun t _ => Ok (is_struct t);
     adapt_to_system := fun conv t h =>
       match t with Struct _ fields _ => rmap PaStruct (fields_to_system conv fields h) | _ => Err AssertionError end;
     matches_system := fun x _ => Ok (match x with PaStruct _ => true | _ => false end);
     adapt_to_artigraph := fun conv x h =>
       match x with PaStruct fields => fields_to_artigraph conv fields h | _ => Err TypeError end |}.
(** SchemaTypeAdapter (214-270) *)
Definition or_default {A} (o : option A) (d : A) : A := match o with Some a => a | None => d end.
Definition pa_schema_ : arrow_adapter :=
  {| a_key := $"SchemaTypeAdapter"; a_priority := 1;
     matches_artigraph := fun t _ =>
       Ok (match t with Collection _ e _ _ _ => is_struct e | _ => false end);
     adapt_to_system := fun conv t h =>
       match t with
       | Collection name (Struct _ fields _) p c _ =>
           rmap (fun fs => PaSchema fs (Some (Entry (Some name) (Some p) (Some c)))) (fields_to_system conv fields h)
       | _ => Err AssertionError
       end;
     matches_system := fun x _ => Ok (match x with PaSchema _ _ => true | _ => false end);
     adapt_to_artigraph := fun conv x h =>
       match x with
       | PaSchema fields metadata =>
           let e := or_default metadata (Entry None None None) in
           bind (fields_to_artigraph conv fields h) (fun element =>
           mk_collection (or_default (e_name e) anon) element (or_default (e_partition_by e) [])
             (or_default (e_cluster_by e) []) plain)
       | _ => Err AttributeError
       end |}.

(** [_BaseTimeTypeAdapter] (273-301): [precision_to_unit] and its inverse. A missing key is a
    ValueError. *)
Definition precision_eqb (p q : precision) : bool :=
  match p, q with
  | Second, Second | Millisecond, Millisecond | Microsecond, Microsecond | Nanosecond, Nanosecond => true
  | _, _ => false
  end.
Definition unit_eqb (u v : time_unit) : bool :=
  match u, v with U_s, U_s | U_ms, U_ms | U_us, U_us | U_ns, U_ns => true | _, _ => false end.
Definition all_units : list (precision * time_unit) :=
  [(Second, U_s); (Millisecond, U_ms); (Microsecond, U_us); (Nanosecond, U_ns)].
Definition inverse_units (units : list (precision * time_unit)) : list (time_unit * precision) :=
  dict_of unit_eqb (map (fun pu => (snd pu, fst pu)) units).
Definition unit_of (units : list (precision * time_unit)) (p : precision) : result time_unit :=
  match dget precision_eqb units p with Some u => Ok u | None => Err ValueError end.
Definition precision_of (units : list (precision * time_unit)) (u : time_unit) : result precision :=
  match dget unit_eqb (inverse_units units) u with Some p => Ok p | None => Err ValueError end.
(** DateTimeTypeAdapter (304-311) *)
Definition is_datetime (t : ty) : bool := match t with DateTime _ _ => true | _ => false end.
Definition pa_datetime : arrow_adapter :=
  {| a_key := $"DateTimeTypeAdapter"; a_priority := 0;
     matches_artigraph := fun t _ => Ok (is_datetime t);
     adapt_to_system := fun _ t _ =>
       match t with DateTime p _ => rmap (fun u => PaTimestamp u None) (unit_of all_units p) | _ => Err AttributeError end;
     matches_system := fun x _ => Ok (match x with PaTimestamp _ None => true | _ => false end);
     adapt_to_artigraph := fun _ x _ =>
       match x with PaTimestamp u _ => rmap (fun p => DateTime p plain) (precision_of all_units u) | _ => Err AttributeError end |}.
(** TimestampTypeAdapter (314-333) *)
Definition pa_timestamp : arrow_adapter :=
  {| a_key := $"TimestampTypeAdapter"; a_priority := 0;
     matches_artigraph := fun t _ => Ok (is_timestamp t);
     adapt_to_system := fun _ t _ =>
       match t with Timestamp p _ => rmap (fun u => PaTimestamp u (Some $"UTC")) (unit_of all_units p) | _ => Err AttributeError end;
     matches_system := fun x _ => Ok (match x with PaTimestamp _ (Some _) => true | _ => false end);
     adapt_to_artigraph := fun _ x _ =>
       match x with
       | PaTimestamp u (Some tz) =>
           if str_eqb (upper tz) $"UTC" then rmap (fun p => Timestamp p plain) (precision_of all_units u) else Err ValueError
       | _ => Err AttributeError
       end |}.
(** [_BaseSizedTimeTypeAdapter] (336-350), Time32TypeAdapter (353-359), Time64TypeAdapter (362-368). [pa.time32]
    and [pa.time64] accept the units that are used here. *)
Definition sized_time (key : str) (units : list (precision * time_unit)) (system : time_unit -> arrow)
    (unit_in : arrow -> option time_unit) : arrow_adapter :=
  {| a_key := key; a_priority := 0;
     matches_artigraph := fun t _ => Ok (match t with Time p _ => dmem precision_eqb units p | _ => false end);
     adapt_to_system := fun _ t _ =>
       match t with Time p _ => rmap system (unit_of units p) | _ => Err AttributeError end;
     matches_system := fun x _ =>
       Ok (match unit_in x with Some u => dmem unit_eqb (inverse_units units) u | None => false end);
     adapt_to_artigraph := fun _ x _ =>
       match unit_in x with Some u => rmap (fun p => Time p plain) (precision_of units u) | None => Err AttributeError end |}.
Definition pa_time32 := sized_time $"Time32TypeAdapter" [(Second, U_s); (Millisecond, U_ms)] PaTime32
  (fun x => match x with PaTime32 u => Some u | _ => None end).
Definition pa_time64 := sized_time $"Time64TypeAdapter" [(Microsecond, U_us); (Nanosecond, U_ns)] PaTime64
  (fun x => match x with PaTime64 u => Some u | _ => None end).

(** [pyarrow_type_system] (12), in the order of registration. *)
Definition arrow_adapters : list arrow_adapter :=
  [pa_string_; pa_null_; pa_date32; pa_date64;
   pa_float $"Pyarrowfloat16" F16; pa_float $"Pyarrowfloat32" F32; pa_float $"Pyarrowfloat64" F64;
   pa_int $"Pyarrowint8" B8; pa_uint $"Pyarrowuint8" B8; pa_int $"Pyarrowint16" B16; pa_uint $"Pyarrowuint16" B16;
   pa_int $"Pyarrowint32" B32; pa_uint $"Pyarrowuint32" B32; pa_int $"Pyarrowint64" B64; pa_uint $"Pyarrowuint64" B64;
   pa_binary_; pa_bool_; pa_geography; pa_list_; pa_map_; pa_struct_; pa_schema_; pa_datetime; pa_timestamp;
   pa_time32; pa_time64].
Definition arrow_of (n : nat) (t : ty) : result arrow := to_system n (system_of arrow_adapters) t tt.
Definition of_arrow (n : nat) (x : arrow) : result ty := to_artigraph n (system_of arrow_adapters) x tt.

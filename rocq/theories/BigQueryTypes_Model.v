(** Model of src/arti/types/bigquery.py lines 19-279: the BigQuery type system. Definitions only.

    Of google-cloud-bigquery (3.25) there are the values of SchemaFields and Tables, and the
    checks made by [Table(name, schema=...)] and when its schema is read again. The values of
    SqlTypeNames are the legacy names: INT64 is "INTEGER", FLOAT64 "FLOAT", BOOL "BOOLEAN" and
    STRUCT "RECORD". Warnings are not modelled. *)
From Coq Require Import ZArith List Ascii String Bool.
From Verif Require Import Base Str TypeSystem_Model Types_Model PyTypes_Model ArrowTypes_Model.
Import ListNotations.
Open Scope list_scope.

(** The fields given to a SchemaField are not checked by its constructor. [mode] is in upper case. The other
    attributes of tables (labels, [require_partition_filter], ...) are not read. *)
Inductive bq :=
| SchemaField (name field_type mode : str) (description : option str) (fields : list bq)
| Table (project dataset_id table_id : str) (schema : list bq)
    (time_partitioning : option (str * option str))          (* type_ and field *)
    (range_partitioning : bool) (clustering_fields : option (list str))
| BqObject (text : str).                                     (* any other object *)

(** BIGQUERY_MODE (22-25) *)
Definition REQUIRED : str := $"REQUIRED".
Definition NULLABLE : str := $"NULLABLE".
Definition REPEATED : str := $"REPEATED".

(** The hints (28-31): only the name of the field matters. *)
Definition hints := option str.
Definition hinted_name (h : hints) : str := or_default h anon.

(** [_create_schema_field] (34-45) *)
Definition create_field (field_type : str) (t : ty) (h : hints) (fields : list bq) : bq :=
  SchemaField (hinted_name h) field_type (if is_nullable t then NULLABLE else REQUIRED) (description (meta_of t)) fields.

Definition bq_adapter := adapter ty bq hints.
(** The description and nullability of a SchemaField. *)
Definition field_meta (x : bq) : meta :=
  match x with SchemaField _ _ mode d _ => Meta d (str_eqb mode NULLABLE) | _ => plain end.
Definition field_is (system : str) (x : bq) : bool :=
  match x with SchemaField _ ft _ _ _ => str_eqb (upper ft) system | _ => false end.

(** [_BigQueryTypeAdapter] (48-61), [_gen_adapter] (64-71), [_BaseTimeTypeAdapter] (94-103).
    Attributes are read of SchemaFields only, as these match. *)
Definition bq_simple (key : str) (is : ty -> bool) (make : meta -> ty) (system : str) (priority : Z) : bq_adapter :=
  {| a_key := key; a_priority := priority;
     matches_artigraph := fun t _ => Ok (is t);
     adapt_to_system := fun _ t h => Ok (create_field system t h []);
     matches_system := fun x _ => Ok (field_is system x);
     adapt_to_artigraph := fun _ x _ => Ok (make (field_meta x)) |}.
Definition is_time (t : ty) : bool := match t with Time _ _ => true | _ => false end.
(** Lines 74-91 and 106-121. *)
Definition bq_binary := bq_simple $"BigQueryBYTESBinary" is_binary (Binary None) $"BYTES" 0.
Definition bq_boolean := bq_simple $"BigQueryBOOLBoolean" is_boolean (Scalar Boolean) $"BOOLEAN" 0.
Definition bq_date := bq_simple $"BigQueryDATEDate" is_date (Scalar Date) $"DATE" 0.
Definition bq_geography := bq_simple $"BigQueryGEOGRAPHYGeography" is_geography (Geography None None) $"GEOGRAPHY" 0.
Definition bq_string := bq_simple $"BigQuerySTRINGString" is_string (Scalar String) $"STRING" 0.
Definition bq_float16 := bq_simple $"BigQueryFLOAT64Float16" (is_float F16) (Scalar (Float F16)) $"FLOAT" 16.
Definition bq_float32 := bq_simple $"BigQueryFLOAT64Float32" (is_float F32) (Scalar (Float F32)) $"FLOAT" 32.
Definition bq_float64 := bq_simple $"BigQueryFLOAT64Float64" (is_float F64) (Scalar (Float F64)) $"FLOAT" 64.
Definition bq_int8 := bq_simple $"BigQueryINT64Int8" (is_int B8) (Scalar (Int B8)) $"INTEGER" 8.
Definition bq_int16 := bq_simple $"BigQueryINT64Int16" (is_int B16) (Scalar (Int B16)) $"INTEGER" 16.
Definition bq_int32 := bq_simple $"BigQueryINT64Int32" (is_int B32) (Scalar (Int B32)) $"INTEGER" 32.
Definition bq_int64 := bq_simple $"BigQueryINT64Int64" (is_int B64) (Scalar (Int B64)) $"INTEGER" 64.
Definition bq_datetime := bq_simple $"DateTimeTypeAdapter" is_datetime (DateTime Microsecond) $"DATETIME" 0.
Definition bq_time := bq_simple $"TimeTypeAdapter" is_time (Time Microsecond) $"TIME" 0.
Definition bq_timestamp := bq_simple $"TimestampTypeAdapter" is_timestamp (Timestamp Microsecond) $"TIMESTAMP" 0.

(** StructTypeAdapter (124-154). [field.name] fails on what is no SchemaField. *)
Definition bq_struct : bq_adapter :=
  {| a_key := $"StructTypeAdapter"; a_priority := 0;
     matches_artigraph := fun t _ => Ok (is_struct t);
     adapt_to_system := fun conv t h =>
       match t with
       | Struct _ fields _ => rmap (create_field $"RECORD" t h) (mapM (fun nf => conv (snd nf) (Some (fst nf))) fields)
       | _ => Err AssertionError
       end;
     matches_system := fun x _ => Ok (field_is $"RECORD" x);
     adapt_to_artigraph := fun conv x h =>
       match x with
       | SchemaField _ _ _ _ fields =>
           rmap (fun fs => Struct anon (dict_of str_eqb fs) (field_meta x))
             (mapM (fun f => match f with
                             | SchemaField name _ _ _ _ => rmap (pair name) (conv f h)
                             | _ => Err AttributeError
                             end) fields)
       | _ => Err AttributeError
       end |}.

(** ListFieldTypeAdapter (157-205) *)
Definition with_mode (mode : str) (x : bq) : bq :=
  match x with SchemaField n ft _ d fs => SchemaField n ft mode d fs | _ => x end.
Definition is_mode (mode : str) (x : bq) : bool :=
  match x with SchemaField _ _ m _ _ => str_eqb m mode | _ => false end.
Definition is_collection (t : ty) : bool := match t with Collection _ _ _ _ _ => true | _ => false end.
Definition bq_list : bq_adapter :=
  {| a_key := $"ListFieldTypeAdapter"; a_priority := 1000000000;
     matches_artigraph := fun t _ => Ok (is_list t && negb (is_collection t));
     adapt_to_system := fun conv t h =>
       bind (element_of t) (fun e =>
       let e := if is_nullable e then set_nullable false e else e in
       if is_list e then Err ValueError else
       bind (conv e h) (fun field =>
       if is_mode REQUIRED field then Ok (with_mode REPEATED field) else Err AssertionError));
     matches_system := fun x _ => Ok (is_mode REPEATED x);
     adapt_to_artigraph := fun conv x h =>
       rmap (fun e => List e (Meta (description (field_meta x)) false)) (conv (with_mode REQUIRED x) h) |}.

(** ** Tables

    [table.schema] is kept as JSON and read anew: names of types in upper case, and fields of
    records only. A Table inside of a field (which has no [to_api_repr] with a type) makes this fail. *)
Definition is_field (x : bq) : bool := match x with SchemaField _ _ _ _ _ => true | _ => false end.
Definition record_type (ft : str) : bool := str_eqb (upper ft) $"RECORD" || str_eqb (upper ft) $"STRUCT".
Fixpoint reparsed (x : bq) : result bq :=
  match x with
  | SchemaField n ft mode d fields =>
      if record_type ft then
        rmap (SchemaField n (upper ft) mode d)
          ((fix all (l : list bq) : result (list bq) :=
              match l with
              | [] => Ok []
              | y :: l' => bind (reparsed y) (fun y' => bind (all l') (fun l'' => Ok (y' :: l'')))
              end) fields)
      else Ok (SchemaField n (upper ft) mode d [])
  | _ => Err KeyError
  end.

(** [f"{project}.{dataset_id}.{table_id}"] *)
Definition qualified (project dataset_id table_id : str) : str := project ++ $"." ++ dataset_id ++ $"." ++ table_id.
Definition default_table : str := $"project.dataset.table".
Definition is_int_type (t : ty) : bool := match t with Scalar (Int _) _ | Scalar (UInt _) _ => true | _ => false end.
Definition is_day_like (t : ty) : bool := is_date t || is_datetime t || is_timestamp t.

(** TableTypeAdapter (208-279). [parse] is TableReference.from_string: the project, dataset and
    table of a name, unless it raises a ValueError. *)
Section TableAdapter.
  Context (parse : str -> option (str * str * str)).
  Definition bq_table : bq_adapter :=
    {| a_key := $"TableTypeAdapter"; a_priority := 1000000001;
       matches_artigraph := fun t _ => Ok (is_collection t);
       adapt_to_system := fun conv t h =>
         match t with
         | Collection name (Struct sn fields sm) partition cluster _ =>
             bind (conv (Struct sn fields sm) h) (fun record =>
             let schema := match record with SchemaField _ _ _ _ fs => fs | _ => [] end in
             match parse (if str_eqb name anon then default_table else name) with
             | None => Err ValueError
             | Some (p, d, tb) =>
                 if negb (forallb is_field schema) then Err ValueError else
                 let table := Table p d tb schema in
                 let clustering c := match c with [] => None | _ => Some c end in
                 match partition with
                 | [] => Ok (table None false (clustering cluster))
                 | head :: tail =>
                     match dget str_eqb fields head with
                     | None => Err KeyError
                     | Some t =>
                         if is_day_like t then Ok (table (Some ($"DAY", Some head)) false (clustering (tail ++ cluster)))
                         else if is_int_type t then Err NotImplementedError
                         else Err ValueError
                     end
                 end
             end)
         | _ => Err AssertionError
         end;
       matches_system := fun x _ => Ok (match x with Table _ _ _ _ _ _ _ => true | _ => false end);
       adapt_to_artigraph := fun conv x h =>
         match x with
         | Table p d tb schema time range clustering =>
             bind (match time with
                   | None => Ok []
                   | Some (ty, field) => if str_eqb ty $"DAY" then Ok [field] else Err NotImplementedError
                   end) (fun partition =>
             if range then Err NotImplementedError else
             bind (mapM reparsed schema) (fun schema =>
             bind (conv (SchemaField anon $"RECORD" REQUIRED None schema) h) (fun element =>
             match partition with
             | [None] => Err ValueError          (* pydantic: no string *)
             | [Some f] => mk_collection (qualified p d tb) element [f] (or_default clustering []) plain
             | _ => mk_collection (qualified p d tb) element [] (or_default clustering []) plain
             end)))
         | _ => Err AttributeError
         end |}.

  (** [bigquery_type_system] (19), in the order of registration. *)
  Definition bq_adapters : list bq_adapter :=
    [bq_binary; bq_boolean; bq_date; bq_geography; bq_string; bq_float16; bq_float32; bq_float64;
     bq_int8; bq_int16; bq_int32; bq_int64; bq_datetime; bq_time; bq_timestamp; bq_struct; bq_list; bq_table].
  Definition bq_of (n : nat) (h : hints) (t : ty) : result bq := to_system n (system_of bq_adapters) t h.
  Definition of_bq (n : nat) (h : hints) (x : bq) : result ty := to_artigraph n (system_of bq_adapters) x h.
End TableAdapter.

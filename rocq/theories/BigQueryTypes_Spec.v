(** What BigQuery can say about types. *)
From Coq Require Import ZArith List Ascii String Bool.
From Verif Require Import Base Str Types_Model Types_Spec PyTypes_Model ArrowTypes_Model ArrowTypes_Spec BigQueryTypes_Model.
Import ListNotations.
Open Scope list_scope.

(** What is assumed of TableReference.from_string: the parts are those of the name. *)
Definition splits (parse : str -> option (str * str * str)) : Prop :=
  parse default_table = Some ($"project", $"dataset", $"table") /\
  forall name p d t, parse name = Some (p, d, t) -> name = p ++ $"." ++ d ++ $"." ++ t.
(** The name a table gets. *)
Definition table_name (name : str) : str := if str_eqb name anon then default_table else name.

Definition no_list (t : ty) : Prop := (forall e m, t <> List e m) /\ (forall n e p c m, t <> Collection n e p c m).
Definition no_collection (t : ty) : Prop := forall n e p c m, t <> Collection n e p c m.
(** Columns of these types can be partitioned by day. *)
Inductive daily : ty -> Prop :=
| day_date : forall m, daily (Scalar Date m)
| day_datetime : forall p m, daily (DateTime p m)
| day_timestamp : forall p m, daily (Timestamp p m).
Inductive integer : ty -> Prop :=
| int_signed : forall w m, integer (Scalar (Int w) m)
| int_unsigned : forall w m, integer (Scalar (UInt w) m).

(** The types there is a SchemaField or Table for. Lists are not nested. The first partition
    column is by day. *)
Section Convertible.
  Context (parse : str -> option (str * str * str)).
  Inductive convertible : ty -> Prop :=
  | cv_scalar : forall s m, s <> Null -> (forall w, s <> UInt w) -> convertible (Scalar s m)
  | cv_binary : forall b m, convertible (Binary b m)
  | cv_datetime : forall p m, convertible (DateTime p m)
  | cv_geography : forall f s m, convertible (Geography f s m)
  | cv_time : forall p m, convertible (Time p m)
  | cv_timestamp : forall p m, convertible (Timestamp p m)
  | cv_list : forall e m, convertible e -> no_list e -> convertible (List e m)
  | cv_struct : forall n fields m, Forall (fun nf => convertible (snd nf)) fields -> convertible (Struct n fields m)
  | cv_collection : forall n sn fields sm p c m, convertible (Struct sn fields sm) ->
      Forall (fun nf => no_collection (snd nf)) fields -> parse (table_name n) <> None ->
      (forall head tail, p = head :: tail -> exists t, In (head, t) fields /\ daily t) ->
      convertible (Collection n (Struct sn fields sm) p c m).

  (** Why a type is refused. *)
  Inductive refused_bq : ty -> exn -> Prop :=
  | rb_null : forall m, refused_bq (Scalar Null m) NotImplementedError
  | rb_uint : forall w m, refused_bq (Scalar (UInt w) m) NotImplementedError
  | rb_enum : forall n t items m, refused_bq (Enum n t items m) NotImplementedError
  | rb_map : forall k v m, refused_bq (Map k v m) NotImplementedError
  | rb_set : forall e m, refused_bq (Set_ e m) NotImplementedError
  | rb_nested : forall e m, ~ no_list e -> refused_bq (List e m) ValueError
  | rb_element : forall e m x, refused_bq e x -> refused_bq (List e m) x
  | rb_field : forall n fields m nf x, In nf fields -> refused_bq (snd nf) x -> refused_bq (Struct n fields m) x
  | rb_rows : forall n e p c m x, refused_bq e x -> refused_bq (Collection n e p c m) x
  | rb_tables : forall n sn fields sm p c m nf, In nf fields -> ~ no_collection (snd nf) ->
      refused_bq (Collection n (Struct sn fields sm) p c m) ValueError
  | rb_name : forall n e p c m, parse (table_name n) = None -> refused_bq (Collection n e p c m) ValueError
  | rb_range : forall n sn fields sm head tail c m t, In (head, t) fields -> integer t ->
      refused_bq (Collection n (Struct sn fields sm) (head :: tail) c m) NotImplementedError
  | rb_partition : forall n sn fields sm head tail c m t, In (head, t) fields -> ~ integer t -> ~ daily t ->
      refused_bq (Collection n (Struct sn fields sm) (head :: tail) c m) ValueError.
End Convertible.

(** The types that come back: no Collection is inside of another type, and the first partition
    column is not repeated. *)
Inductive flat : ty -> Prop :=
| fl_scalar : forall s m, flat (Scalar s m)
| fl_binary : forall b m, flat (Binary b m)
| fl_datetime : forall p m, flat (DateTime p m)
| fl_geography : forall f s m, flat (Geography f s m)
| fl_time : forall p m, flat (Time p m)
| fl_timestamp : forall p m, flat (Timestamp p m)
| fl_list : forall e m, flat e -> flat (List e m)
| fl_struct : forall n fields m, Forall (fun nf => flat (snd nf)) fields -> flat (Struct n fields m).
Inductive tidy : ty -> Prop :=
| tidy_flat : forall t, flat t -> tidy t
| tidy_collection : forall n e p c m, flat e -> (forall head tail, p = head :: tail -> ~ In head tail) ->
    tidy (Collection n e p c m).

(** What comes back: numbers have 64 bits, times are in microseconds, sizes, formats and the names
    of Structs are lost. Lists and their elements are not nullable, and a List has the description of its
    element. A Collection has a qualified name, one partition column with the others clustered,
    and no description. *)
Fixpoint bq_stored (t : ty) : ty :=
  match t with
  | Scalar (Int _) m => Scalar (Int B64) m
  | Scalar (Float _) m => Scalar (Float F64) m
  | Binary _ m => Binary None m
  | Geography _ _ m => Geography None None m
  | DateTime _ m => DateTime Microsecond m
  | Time _ m => Time Microsecond m
  | Timestamp _ m => Timestamp Microsecond m
  | List e _ => List (set_nullable false (bq_stored e)) (Meta (description (meta_of e)) false)
  | Struct _ fields m => Struct anon (map (fun nf => (fst nf, bq_stored (snd nf))) fields) m
  | Collection n e p c _ =>
      Collection (table_name n) (with_meta plain (bq_stored e)) (match p with [] => [] | head :: _ => [head] end)
        (match p with [] => c | _ :: tail => tail ++ c end) plain
  | _ => t
  end.
(** What is not changed by that. *)
Inductive bq_kept : ty -> Prop :=
| bk_boolean : forall m, bq_kept (Scalar Boolean m)
| bk_date : forall m, bq_kept (Scalar Date m)
| bk_string : forall m, bq_kept (Scalar String m)
| bk_int : forall m, bq_kept (Scalar (Int B64) m)
| bk_float : forall m, bq_kept (Scalar (Float F64) m)
| bk_binary : forall m, bq_kept (Binary None m)
| bk_geography : forall m, bq_kept (Geography None None m)
| bk_datetime : forall m, bq_kept (DateTime Microsecond m)
| bk_time : forall m, bq_kept (Time Microsecond m)
| bk_timestamp : forall m, bq_kept (Timestamp Microsecond m)
| bk_list : forall e d, bq_kept e -> meta_of e = Meta d false -> bq_kept (List e (Meta d false))
| bk_struct : forall fields m, Forall (fun nf => bq_kept (snd nf)) fields -> bq_kept (Struct anon fields m)
| bk_collection : forall n fields p c, n <> anon -> Forall (fun nf => bq_kept (snd nf)) fields -> Datatypes.length p <= 1 ->
    bq_kept (Collection n (Struct anon fields plain) p c plain).

(** ** The other way around *)
Definition leaf_names : list str :=
  [$"FLOAT"; $"INTEGER"; $"BYTES"; $"BOOLEAN"; $"DATE"; $"GEOGRAPHY"; $"STRING"; $"DATETIME"; $"TIME"; $"TIMESTAMP"].
Definition field_name (x : bq) : str := match x with SchemaField n _ _ _ _ => n | _ => [] end.
(** How deep fields are nested. *)
Fixpoint bq_nesting (x : bq) : nat :=
  match x with
  | SchemaField _ _ _ _ fs => S (S (fold_right Nat.max 0 (map bq_nesting fs)))
  | Table _ _ _ schema _ _ _ => S (S (fold_right Nat.max 0 (map bq_nesting schema)))
  | BqObject _ => 1
  end.
(** What can be read: the types above by their legacy names, in any case, and records of those. *)
Inductive readable_field : bq -> Prop :=
| rf_leaf : forall n ft mode d fs, In (upper ft) leaf_names -> readable_field (SchemaField n ft mode d fs)
| rf_record : forall n ft mode d fs, upper ft = $"RECORD" -> Forall readable_field fs -> readable_field (SchemaField n ft mode d fs).
(** Tables are partitioned by the day in one of the columns, if at all. It does not cluster them too. *)
Inductive readable_bq : bq -> Prop :=
| rq_field : forall x, readable_field x -> readable_bq x
| rq_table : forall p d tb schema clustering, Forall readable_field schema ->
    (forall c, In c (or_default clustering []) -> In c (map field_name schema)) ->
    readable_bq (Table p d tb schema None false clustering)
| rq_partitioned : forall p d tb schema clustering f, Forall readable_field schema -> In f (map field_name schema) ->
    (forall c, In c (or_default clustering []) -> In c (map field_name schema) /\ c <> f) ->
    readable_bq (Table p d tb schema (Some ($"DAY", Some f)) false clustering).

(** What BigQuery makes sure of: the names of fields in one record differ, names of tables have
    the given parts, and the column of the partitions is a time. *)
Inductive wf_field : bq -> Prop :=
| wf_schema_field : forall n ft mode d fs, NoDup (map field_name fs) -> Forall wf_field fs -> wf_field (SchemaField n ft mode d fs).
Definition wf_bq (parse : str -> option (str * str * str)) (x : bq) : Prop :=
  match x with
  | Table p d tb schema time _ _ =>
      NoDup (map field_name schema) /\ Forall wf_field schema /\ parse (qualified p d tb) = Some (p, d, tb) /\
      forall ty f, time = Some (ty, Some f) -> exists ft mode descr fs, In (SchemaField f ft mode descr fs) schema /\
        In (upper ft) [$"DATE"; $"DATETIME"; $"TIMESTAMP"] /\ mode <> REPEATED
  | _ => wf_field x
  end.
(** What becomes of it: the types in upper case, one of the three modes, subfields for records only. *)
Fixpoint canonical_bq (x : bq) : bq :=
  match x with
  | SchemaField n ft mode d fs =>
      SchemaField n (upper ft) (if str_eqb mode NULLABLE then NULLABLE else if str_eqb mode REPEATED then REPEATED else REQUIRED) d
        (if str_eqb (upper ft) $"RECORD" then map canonical_bq fs else [])
  | Table p d tb schema time range clustering =>
      Table p d tb (map canonical_bq schema) time range (match clustering with Some [] => None | c => c end)
  | _ => x
  end.

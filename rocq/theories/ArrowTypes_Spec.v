(** What PyArrow can say about types. *)
From Coq Require Import ZArith List Ascii String Bool.
From Verif Require Import Base Str Types_Model Types_Spec ArrowTypes_Model.
Import ListNotations.
Open Scope list_scope.

(** Types as pydantic lets them exist: the names of the fields of a Struct are distinct, as the
    keys of a dict, and Collections have passed their validators. *)
Inductive constructed : ty -> Prop :=
| con_scalar : forall s m, constructed (Scalar s m)
| con_binary : forall b m, constructed (Binary b m)
| con_datetime : forall p m, constructed (DateTime p m)
| con_enum : forall n t items m, constructed t -> constructed (Enum n t items m)
| con_geography : forall f s m, constructed (Geography f s m)
| con_list : forall e m, constructed e -> constructed (List e m)
| con_collection : forall n e p c m, constructed e -> valid_collection e p c -> constructed (Collection n e p c m)
| con_map : forall k v m, constructed k -> constructed v -> constructed (Map k v m)
| con_set : forall e m, constructed e -> constructed (Set_ e m)
| con_struct : forall n fields m, NoDup (map fst fields) -> Forall (fun nf => constructed (snd nf)) fields ->
    constructed (Struct n fields m)
| con_time : forall p m, constructed (Time p m)
| con_timestamp : forall p m, constructed (Timestamp p m).

(** The nesting of a type. *)
Fixpoint nesting (t : ty) : nat :=
  match t with
  | List e _ | Collection _ e _ _ _ | Set_ e _ | Enum _ e _ _ => S (nesting e)
  | Map k v _ => S (Nat.max (nesting k) (nesting v))
  | Struct _ fields _ => S (fold_right (fun nf n => Nat.max (nesting (snd nf)) n) 0 fields)
  | _ => 1
  end.

(** The types of columns and of what they hold: no Enums, Sets or Collections, and a Null in a
    Struct is nullable. Sizes of binaries have 32 bits. *)
Definition fits (byte_size : option Z) : Prop := forall n, byte_size = Some n -> (- 2 ^ 31 <= n < 2 ^ 31)%Z.
Definition nullable_null (t : ty) : Prop := forall m, t = Scalar Null m -> nullable m = true.
Inductive column : ty -> Prop :=
| col_scalar : forall s m, column (Scalar s m)
| col_binary : forall b m, fits b -> column (Binary b m)
| col_datetime : forall p m, column (DateTime p m)
| col_geography : forall f s m, column (Geography f s m)
| col_list : forall e m, column e -> column (List e m)
| col_map : forall k v m, column k -> column v -> column (Map k v m)
| col_struct : forall n fields m, Forall (fun nf => column (snd nf) /\ nullable_null (snd nf)) fields ->
    column (Struct n fields m)
| col_time : forall p m, column (Time p m)
| col_timestamp : forall p m, column (Timestamp p m).
(** A Collection may only be outermost. *)
Inductive storable : ty -> Prop :=
| sto_column : forall t, column t -> storable t
| sto_collection : forall n e p c m, column e -> storable (Collection n e p c m).

(** Why a type is refused: for an Enum or a Set somewhere, a size out of range, a Collection in
    another type, or a Null that is no nullable field. *)
Inductive refused : ty -> exn -> Prop :=
| ref_enum : forall n t items m, refused (Enum n t items m) NotImplementedError
| ref_set : forall e m, refused (Set_ e m) NotImplementedError
| ref_binary : forall b m, ~ fits b -> refused (Binary b m) overflow_error
| ref_element : forall e m x, refused e x -> refused (List e m) x
| ref_rows : forall n e p c m x, refused e x -> refused (Collection n e p c m) x
| ref_key : forall k v m x, refused k x -> refused (Map k v m) x
| ref_value : forall k v m x, refused v x -> refused (Map k v m) x
| ref_field : forall n fields m nf x, In nf fields -> refused (snd nf) x -> refused (Struct n fields m) x
| ref_null : forall n fields m nf, In nf fields -> ~ nullable_null (snd nf) -> refused (Struct n fields m) ValueError
| ref_list_of : forall n e p c m' m, refused (List (Collection n e p c m') m) TypeError
| ref_map_from : forall n e p c m' v m, refused (Map (Collection n e p c m') v m) TypeError
| ref_map_to : forall n e p c m' k m, refused (Map k (Collection n e p c m') m) TypeError
| ref_field_of : forall n fields m f n' e p c m', In (f, Collection n' e p c m') fields -> refused (Struct n fields m) TypeError.

(** What is left of a type: descriptions and the names of Structs are lost, Geographies become
    strings or binaries, and only the fields of Structs may be nullable. A size of -1 is none. *)
Fixpoint stored (t : ty) : ty :=
  match t with
  | Scalar s _ => Scalar s plain
  | Binary b _ => Binary (match b with Some n => if (n =? -1)%Z then None else b | None => None end) plain
  | DateTime p _ => DateTime p plain
  | Geography f _ _ => match f with
                       | Some f => if str_eqb f $"WKB" then Binary None plain else Scalar String plain
                       | None => Scalar String plain
                       end
  | List e _ => List (stored e) plain
  | Collection n e p c _ => Collection n (stored e) p c plain
  | Map k v _ => Map (stored k) (stored v) plain
  | Struct _ fields _ =>
      Struct anon (map (fun nf => (fst nf, set_nullable (is_nullable (snd nf)) (stored (snd nf)))) fields) plain
  | Time p _ => Time p plain
  | Timestamp p _ => Timestamp p plain
  | Enum n t items _ => Enum n (stored t) items plain
  | Set_ e _ => Set_ (stored e) plain
  end.
(** The types of which nothing is lost, apart from whether the outermost is nullable. *)
Inductive kept : ty -> Prop :=
| kept_scalar : forall s b, kept (Scalar s (Meta None b))
| kept_binary : forall n b, n <> Some (-1)%Z -> kept (Binary n (Meta None b))
| kept_datetime : forall p b, kept (DateTime p (Meta None b))
| kept_list : forall e b, kept e -> is_nullable e = false -> kept (List e (Meta None b))
| kept_collection : forall n e p c b, kept e -> is_nullable e = false -> kept (Collection n e p c (Meta None b))
| kept_map : forall k v b, kept k -> is_nullable k = false -> kept v -> is_nullable v = false -> kept (Map k v (Meta None b))
| kept_struct : forall fields b, Forall (fun nf => kept (snd nf)) fields -> kept (Struct anon fields (Meta None b))
| kept_time : forall p b, kept (Time p (Meta None b))
| kept_timestamp : forall p b, kept (Timestamp p (Meta None b)).

(** PyArrow types as its constructors make them, with distinct names of fields. *)
Definition null_field (f : str * arrow * bool) : Prop := snd (fst f) = PaNull -> snd f = true.
Inductive wf_type : arrow -> Prop :=
| wt_fixed : forall w, w <> (-1)%Z -> (- 2 ^ 31 <= w < 2 ^ 31)%Z -> wf_type (PaFixedBinary w)
| wt_timestamp : forall u tz, wf_type (PaTimestamp u tz)
| wt_time32 : forall u, u = U_s \/ u = U_ms -> wf_type (PaTime32 u)
| wt_time64 : forall u, u = U_us \/ u = U_ns -> wf_type (PaTime64 u)
| wt_list : forall v, wf_type v -> wf_type (PaList v)
| wt_map : forall k v, wf_type k -> wf_type v -> wf_type (PaMap k v)
| wt_struct : forall fields, NoDup (map (fun f => fst (fst f)) fields) ->
    Forall (fun f => wf_type (snd (fst f)) /\ null_field f) fields -> wf_type (PaStruct fields)
| wt_other : forall s, wf_type (PaOtherType s)
| wt_simple : forall x, In x [PaString; PaNull; PaBool; PaDate32; PaDate64; PaBinary] -> wf_type x
| wt_float : forall w, wf_type (PaFloat w)
| wt_int : forall w, wf_type (PaInt w)
| wt_uint : forall w, wf_type (PaUInt w).
Inductive wf_arrow : arrow -> Prop :=
| wa_type : forall x, wf_type x -> wf_arrow x
| wa_schema : forall fields e, NoDup (map (fun f => fst (fst f)) fields) ->
    Forall (fun f => wf_type (snd (fst f)) /\ null_field f) fields -> wf_arrow (PaSchema fields e).

(** The nesting of a PyArrow type. *)
Fixpoint arrow_nesting (x : arrow) : nat :=
  match x with
  | PaList v => S (arrow_nesting v)
  | PaMap k v => S (Nat.max (arrow_nesting k) (arrow_nesting v))
  | PaStruct fields | PaSchema fields _ => S (fold_right (fun f n => Nat.max (arrow_nesting (snd (fst f))) n) 0 fields)
  | _ => 1
  end.

(** The PyArrow types that mean something: none of the types not implemented, timestamps have no time zone
    or UTC in any case. Of a schema the metadata has to fit the fields. *)
Definition utc_spellings : list str := [$"UTC"; $"UTc"; $"UtC"; $"Utc"; $"uTC"; $"uTc"; $"utC"; $"utc"].
Inductive readable : arrow -> Prop :=
| rd_float : forall w, readable (PaFloat w)
| rd_int : forall w, readable (PaInt w)
| rd_uint : forall w, readable (PaUInt w)
| rd_fixed : forall w, readable (PaFixedBinary w)
| rd_datetime : forall u, readable (PaTimestamp u None)
| rd_timestamp : forall u tz, In tz utc_spellings -> readable (PaTimestamp u (Some tz))
| rd_time32 : forall u, readable (PaTime32 u)
| rd_time64 : forall u, readable (PaTime64 u)
| rd_list : forall v, readable v -> readable (PaList v)
| rd_map : forall k v, readable k -> readable v -> readable (PaMap k v)
| rd_struct : forall fields, Forall (fun f => readable (snd (fst f))) fields -> readable (PaStruct fields)
| rd_schema : forall fields e, Forall (fun f => readable (snd (fst f))) fields ->
    let p := match e with Some (Entry _ (Some p) _) => p | _ => [] end in
    let c := match e with Some (Entry _ _ (Some c)) => c | _ => [] end in
    (forall n, In n p \/ In n c -> In n (map (fun f => fst (fst f)) fields)) -> (forall n, In n p -> ~ In n c) ->
    readable (PaSchema fields e)
| rd_simple : forall x, In x [PaString; PaNull; PaBool; PaDate32; PaDate64; PaBinary] -> readable x.

(** What is left of a PyArrow type: dates have 64 bits, the zone is spelled UTC, and the
    metadata says it all. *)
Fixpoint canonical (x : arrow) : arrow :=
  match x with
  | PaDate32 => PaDate64
  | PaTimestamp u (Some _) => PaTimestamp u (Some $"UTC")
  | PaList v => PaList (canonical v)
  | PaMap k v => PaMap (canonical k) (canonical v)
  | PaStruct fields => PaStruct (map (fun f => (fst (fst f), canonical (snd (fst f)), snd f)) fields)
  | PaSchema fields e =>
      PaSchema (map (fun f => (fst (fst f), canonical (snd (fst f)), snd f)) fields)
        (Some (Entry (Some match e with Some (Entry (Some n) _ _) => n | _ => anon end)
                     (Some match e with Some (Entry _ (Some p) _) => p | _ => [] end)
                     (Some match e with Some (Entry _ _ (Some c)) => c | _ => [] end)))
  | _ => x
  end.

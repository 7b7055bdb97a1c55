(** What pydantic models can say about types. *)
From Coq Require Import ZArith List Ascii String Bool.
From Verif Require Import Base Str Hints_Model Types_Model PyTypes_Model PyTypes_Spec.
Import ListNotations.
Open Scope list_scope.

(** Names pydantic does not take for fields. *)
Definition underscored (name : str) : Prop := exists rest, name = "_"%char :: rest.

(** The name of a type becomes the name of the field it is in. *)
Definition named_after (field : str) (t : ty) : ty :=
  match t with
  | Enum _ t' items m => Enum field t' items m
  | Collection _ e p c m => Collection field e p c m
  | Struct _ fields m => Struct field fields m
  | t => t
  end.
(** A type as models can say it: widened as in Python, with enums and structs in fields named
    after the fields. *)
Fixpoint modelled (t : ty) : ty :=
  match t with
  | List e m | Collection _ e _ _ m => List (modelled e) (undescribed m)
  | Set_ e m => Set_ (modelled e) (undescribed m)
  | Map k v m => Map (modelled k) (modelled v) (undescribed m)
  | Struct name fields m => Struct name (map (fun nf => (fst nf, named_after (fst nf) (modelled (snd nf)))) fields) (undescribed m)
  | t => widened t
  end.

(** The types there is a model (or hint) for. Fields must not be Null, nor have a refused name. *)
Section Exists.
  Context (refused : str -> bool).
  Inductive has_model : ty -> Prop :=
  | mod_scalar : forall s m, (forall w, s <> UInt w) -> has_model (Scalar s m)
  | mod_binary : forall b m, has_model (Binary b m)
  | mod_timestamp : forall p m, has_model (Timestamp p m)
  | mod_enum : forall n t items m, has_model (Enum n t items m)
  | mod_list : forall e m, has_model e -> has_model (List e m)
  | mod_collection : forall n e p c m, has_model e -> has_model (Collection n e p c m)
  | mod_set : forall e m, has_model e -> has_model (Set_ e m)
  | mod_map : forall k v m, has_model k -> has_model v -> has_model (Map k v m)
  | mod_struct : forall n fields m,
      Forall (fun nf => has_model (snd nf) /\
                (underscored (fst nf) \/ (refused (fst nf) = false /\ forall m, snd nf = Scalar Null m -> nullable m = true))) fields ->
      has_model (Struct n fields m).
End Exists.

(** The types that come back: in addition to what Python can express, structs are not nullable
    and have no fields with a leading underscore. *)
Inductive faithful : ty -> Prop :=
| fth_scalar : forall s m, (forall w, s <> UInt w) -> (s = Null -> nullable m = false) -> faithful (Scalar s m)
| fth_binary : forall b m, faithful (Binary b m)
| fth_timestamp : forall p m, faithful (Timestamp p m)
| fth_enum : forall n t items m c, items <> [] -> NoDup items -> Forall (fun i => item_class i = c) items ->
    class_type c = Some (widened t) -> faithful (Enum n t items m)
| fth_list : forall e m, faithful e -> faithful (List e m)
| fth_collection : forall n e p c m, faithful e -> faithful (Collection n e p c m)
| fth_set : forall e m, faithful e -> faithful (Set_ e m)
| fth_map : forall k v m, faithful k -> faithful v -> faithful (Map k v m)
| fth_struct : forall n fields m, nullable m = false -> Forall (fun nf => faithful (snd nf) /\ ~ underscored (fst nf)) fields ->
    faithful (Struct n fields m).

(** Types without structs, and hints without models. *)
Inductive structless : ty -> Prop :=
| sl_scalar : forall s m, structless (Scalar s m)
| sl_binary : forall b m, structless (Binary b m)
| sl_datetime : forall p m, structless (DateTime p m)
| sl_time : forall p m, structless (Time p m)
| sl_timestamp : forall p m, structless (Timestamp p m)
| sl_geography : forall f s m, structless (Geography f s m)
| sl_enum : forall n t items m, structless (Enum n t items m)
| sl_list : forall e m, structless e -> structless (List e m)
| sl_collection : forall n e p c m, structless e -> structless (Collection n e p c m)
| sl_set : forall e m, structless e -> structless (Set_ e m)
| sl_map : forall k v m, structless k -> structless v -> structless (Map k v m).
Section Modelless.
  Context (base : pyclass).
  Inductive modelless : phint -> Prop :=
  | ml_any : modelless HAny
  | ml_none : modelless HNone
  | ml_dots : modelless HEllipsis
  | ml_class : forall c, issub c base = false -> modelless (HClass c)
  | ml_alias : forall o args, issub o base = false -> Forall modelless args -> modelless (HAlias o args)
  | ml_union : forall b args, Forall modelless args -> modelless (HUnion b args)
  | ml_literal : forall items, Forall (fun i => issub (item_class i) base = false) items -> modelless (HLiteral items)
  | ml_annotated : forall h, modelless h -> modelless (HAnnotated h)
  | ml_var : modelless (HTypeVar None)
  | ml_bound : forall b, modelless b -> modelless (HTypeVar (Some b))
  | ml_dict : forall n fields, Forall (fun nh => modelless (snd nh)) fields -> modelless (HTypedDict n fields).
End Modelless.

(** Hints with model classes as pydantic has them: None is replaced by its class in fields and
    unions, and fields have none of the refused names. There are no TypedDicts. *)
Section ModelHints.
  Context (base : pyclass) (refused : str -> bool).
  Inductive model_hint : phint -> Prop :=
  | mh_any : model_hint HAny
  | mh_none : model_hint HNone
  | mh_dots : model_hint HEllipsis
  | mh_class : forall c, model_hint (HClass c)
  | mh_alias : forall o args, Forall model_hint args -> model_hint (HAlias o args)
  | mh_union : forall b args, Forall (fun a => model_hint a /\ a <> HNone) args -> model_hint (HUnion b args)
  | mh_literal : forall items, model_hint (HLiteral items)
  | mh_annotated : forall h, model_hint (HAnnotated h)
  | mh_var : forall b, model_hint (HTypeVar b)
  | mh_model : forall c fields, issub c base = true ->
      Forall (fun nh => model_hint (snd nh) /\ snd nh <> HNone /\ refused (fst nh) = false /\ ~ underscored (fst nh)) fields ->
      model_hint (HModel c fields).
End ModelHints.
(** No Struct in the type is nullable. *)
Inductive strict : ty -> Prop :=
| st_scalar : forall s m, strict (Scalar s m)
| st_binary : forall b m, strict (Binary b m)
| st_datetime : forall p m, strict (DateTime p m)
| st_time : forall p m, strict (Time p m)
| st_timestamp : forall p m, strict (Timestamp p m)
| st_geography : forall f s m, strict (Geography f s m)
| st_enum : forall n t items m, strict (Enum n t items m)
| st_list : forall e m, strict e -> strict (List e m)
| st_collection : forall n e p c m, strict e -> strict (Collection n e p c m)
| st_set : forall e m, strict e -> strict (Set_ e m)
| st_map : forall k v m, strict k -> strict v -> strict (Map k v m)
| st_struct : forall n fields m, nullable m = false -> Forall (fun nf => strict (snd nf)) fields -> strict (Struct n fields m).

(** What Python hints can say about types. *)
From Coq Require Import ZArith List Ascii String Bool.
From Verif Require Import Base Str Hints_Model Types_Model PyTypes_Model.
Import ListNotations.
Open Scope list_scope.

(** A type as Python can say it: integers and floats have 64 bits, timestamps are in
    microseconds, collections are lists; descriptions, byte sizes and the names of enums are
    lost. *)
Definition undescribed (m : meta) : meta := Meta None (nullable m).
Fixpoint widened (t : ty) : ty :=
  match t with
  | Scalar (Int _) m => Scalar (Int B64) (undescribed m)
  | Scalar (Float _) m => Scalar (Float F64) (undescribed m)
  | Scalar s m => Scalar s (undescribed m)
  | Binary _ m => Binary None (undescribed m)
  | Timestamp _ m => Timestamp Microsecond (undescribed m)
  | Enum _ t items m => Enum anon (widened t) items (undescribed m)
  | List e m | Collection _ e _ _ m => List (widened e) (undescribed m)
  | Set_ e m => Set_ (widened e) (undescribed m)
  | Map k v m => Map (widened k) (widened v) (undescribed m)
  | Struct name fields m => Struct name (map (fun nf => (fst nf, widened (snd nf))) fields) (undescribed m)
  | DateTime p m => DateTime p (undescribed m)
  | Time p m => Time p (undescribed m)
  | Geography f s m => Geography f s (undescribed m)
  end.

(** The type of the objects of a class. *)
Fixpoint class_type (c : pyclass) : option ty :=
  match c with
  | PyBool => Some (Scalar Boolean plain)
  | PyInt => Some (Scalar (Int B64) plain)
  | PyFloat => Some (Scalar (Float F64) plain)
  | PyStr => Some (Scalar String plain)
  | PyBytes => Some (Binary None plain)
  | PyDate => Some (Scalar Date plain)
  | PyDatetime => Some (Timestamp Microsecond plain)
  | PySub base _ => class_type base
  | _ => None
  end.

(** The types there is a hint for. *)
Definition never_null (t : ty) : Prop := forall m, t <> Scalar Null m.
Inductive hintable : ty -> Prop :=
| hint_scalar : forall s m, (forall w, s <> UInt w) -> hintable (Scalar s m)
| hint_binary : forall b m, hintable (Binary b m)
| hint_timestamp : forall p m, hintable (Timestamp p m)
| hint_enum : forall n t items m, hintable (Enum n t items m)
| hint_list : forall e m, hintable e -> hintable (List e m)
| hint_collection : forall n e p c m, hintable e -> hintable (Collection n e p c m)
| hint_set : forall e m, hintable e -> hintable (Set_ e m)
| hint_map : forall k v m, hintable k -> hintable v -> hintable (Map k v m)
| hint_struct : forall n fields m, Forall (fun nf => hintable (snd nf)) fields -> hintable (Struct n fields m).

(** The types whose hints say all there is to say: Null is not nullable and no field of a
    Struct, and all items of an Enum are of one class, that of its type, which is not
    nullable. *)
Inductive expressible : ty -> Prop :=
| exp_scalar : forall s m, (forall w, s <> UInt w) -> (s = Null -> nullable m = false) -> expressible (Scalar s m)
| exp_binary : forall b m, expressible (Binary b m)
| exp_timestamp : forall p m, expressible (Timestamp p m)
| exp_enum : forall n t items m c, items <> [] -> NoDup items -> Forall (fun i => item_class i = c) items ->
    class_type c = Some (widened t) -> expressible (Enum n t items m)
| exp_list : forall e m, expressible e -> expressible (List e m)
| exp_collection : forall n e p c m, expressible e -> expressible (Collection n e p c m)
| exp_set : forall e m, expressible e -> expressible (Set_ e m)
| exp_map : forall k v m, expressible k -> expressible v -> expressible (Map k v m)
| exp_struct : forall n fields m, Forall (fun nf => expressible (snd nf) /\ never_null (snd nf)) fields ->
    expressible (Struct n fields m).

(** The nesting of a type, counting Optional. *)
Fixpoint levels (t : ty) : nat :=
  (if is_nullable t then 1 else 0) +
  match t with
  | Enum _ _ _ _ => 2
  | List e _ | Collection _ e _ _ _ | Set_ e _ => S (levels e)
  | Map k v _ => S (Nat.max (levels k) (levels v))
  | Struct _ fields _ => S (fold_right (fun nf n => Nat.max (levels (snd nf)) n) 0 fields)
  | _ => 1
  end.

(** Hints as [typing] builds them: None is replaced by its class in unions, Annotated and the
    fields of TypedDicts. *)
Inductive well_formed : phint -> Prop :=
| wf_any : well_formed HAny
| wf_none : well_formed HNone
| wf_dots : well_formed HEllipsis
| wf_class : forall c, well_formed (HClass c)
| wf_alias : forall o args, Forall well_formed args -> well_formed (HAlias o args)
| wf_union : forall b args, Forall (fun a => well_formed a /\ a <> HNone) args -> well_formed (HUnion b args)
| wf_literal : forall items, well_formed (HLiteral items)
| wf_annotated : forall h, well_formed h -> h <> HNone -> well_formed (HAnnotated h)
| wf_var : forall b, well_formed (HTypeVar b)
| wf_dict : forall n fields, Forall (fun nh => well_formed (snd nh) /\ snd nh <> HNone) fields -> well_formed (HTypedDict n fields).

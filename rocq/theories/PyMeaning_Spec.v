(** What a Python hint means as a type, rule by rule, and which items an Enum can have. *)
From Coq Require Import ZArith List Ascii String Bool.
From Verif Require Import Base Str Hints_Model Types_Model PyTypes_Model PyTypes_Spec.
Import ListNotations.
Open Scope list_scope.

(** A class and the classes it is derived from. *)
Inductive inherits : pyclass -> pyclass -> Prop :=
| inh_self : forall c, inherits c c
| inh_object : forall c, inherits c PyObject
| inh_sub : forall base n c, inherits base c -> inherits (PySub base n) c
| inh_bool : inherits PyBool PyInt
| inh_datetime : inherits PyDatetime PyDate
| inh_dict : inherits PyDict PyMapping.

(** The class a hint names: itself, the one it subscribes, or that of an annotated hint or of
    the bound of a type variable. *)
Inductive plainly : phint -> pyclass -> Prop :=
| plainly_class : forall c, plainly (HClass c) c
| plainly_model : forall c fields, plainly (HModel c fields) c
| plainly_alias : forall c args, plainly (HAlias c args) c.
Inductive names : phint -> pyclass -> Prop :=
| names_plainly : forall h c, plainly h c -> names h c
| names_annotated : forall h c, plainly h c -> names (HAnnotated h) c
| names_var : forall h c, plainly h c -> names (HTypeVar (Some h)) c
| names_annotated_var : forall h c, plainly h c -> names (HAnnotated (HTypeVar (Some h))) c.

(** The first occurrences of the items of a list, but for those already seen. *)
Inductive firsts : list item -> list item -> list item -> Prop :=
| firsts_nil : forall seen, firsts seen [] []
| firsts_seen : forall seen i l r, In i seen -> firsts seen l r -> firsts seen (i :: l) r
| firsts_new : forall seen i l r, ~ In i seen -> firsts (i :: seen) l r -> firsts seen (i :: l) (i :: r).

(** Items of one class make an enum of the type of that class. *)
Inductive enum_of : list item -> ty -> Prop :=
| enum_items : forall c u items distinct, items <> [] -> Forall (fun i => item_class i = c) items ->
    class_type c = Some u -> firsts [] items distinct -> enum_of items (Enum anon u distinct plain).

(** The members of a union other than None. *)
Inductive without_none : list phint -> list phint -> Prop :=
| wn_nil : without_none [] []
| wn_none : forall l r, without_none l r -> without_none (HClass PyNoneType :: l) r
| wn_other : forall h l r, h <> HClass PyNoneType -> without_none l r -> without_none (h :: l) (h :: r).

Inductive means : phint -> ty -> Prop :=
| means_none : means HNone (Scalar Null plain)
| means_class : forall h c t, names h c -> class_type c = Some t -> means h t
| means_list : forall o x t, inherits o PyList -> means x t -> means (HAlias o [x]) (List t plain)
| means_tuple : forall o x t, inherits o PyTuple -> means x t -> means (HAlias o [x; HEllipsis]) (List t plain)
| means_set : forall o x t, inherits o PySet -> means x t -> means (HAlias o [x]) (Set_ t plain)
| means_frozenset : forall o x t, inherits o PyFrozenset -> means x t -> means (HAlias o [x]) (Set_ t plain)
| means_map : forall o x y k v, inherits o PyDict \/ inherits o PyMapping -> means x k -> means y v ->
    means (HAlias o [x; y]) (Map k v plain)
| means_literal : forall items t, enum_of items t -> means (HLiteral items) t
| means_literals : forall b lists t, enum_of (List.concat lists) t -> means (HUnion b (map HLiteral lists)) t
| means_optional_one : forall b args x t, In (HClass PyNoneType) args -> without_none args [x] ->
    means x t -> means (HUnion b args) (set_nullable true t)
| means_optional_more : forall b args x y rest t, In (HClass PyNoneType) args ->
    without_none args (x :: y :: rest) -> means (HUnion false (x :: y :: rest)) t ->
    means (HUnion b args) (set_nullable true t)
| means_struct : forall name fields ts, means_fields fields ts ->
    means (HTypedDict name fields) (Struct name ts plain)
(** Each field means what its hint means without annotations. *)
with means_fields : list (str * phint) -> list (str * ty) -> Prop :=
| fields_nil : means_fields [] []
| fields_cons : forall n h t fields ts, means (strip_annotated h) t -> means_fields fields ts ->
    means_fields ((n, h) :: fields) ((n, t) :: ts).

(** The objects a type without parts has, by their classes; None belongs to the nullable ones. *)
Inductive of_type : ty -> pyclass -> Prop :=
| of_bool : forall m c, inherits c PyBool -> of_type (Scalar Boolean m) c
| of_int : forall w m c, inherits c PyInt -> of_type (Scalar (Int w) m) c
| of_float : forall w m c, inherits c PyFloat -> of_type (Scalar (Float w) m) c
| of_text : forall m c, inherits c PyStr -> of_type (Scalar String m) c
| of_date : forall m c, inherits c PyDate -> of_type (Scalar Date m) c
| of_bytes : forall b m c, inherits c PyBytes -> of_type (Binary b m) c
| of_timestamp : forall p m c, inherits c PyDatetime -> of_type (Timestamp p m) c
| of_null : forall m, of_type (Scalar Null m) PyNoneType
| of_nullable : forall t c, is_nullable t = true -> inherits c PyNoneType -> of_type t c.
Definition simple (t : ty) : Prop :=
  match t with
  | Scalar (UInt _) _ => False
  | Scalar _ _ | Binary _ _ | Timestamp _ _ => True
  | _ => False
  end.

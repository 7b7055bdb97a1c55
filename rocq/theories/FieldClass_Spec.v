(** What holds of classes, and the classes of src/arti/partitions/__init__.py. *)
From Coq Require Import List Bool String.
From Verif Require Import Base Str Partitions_Model FieldClass_Model.
Import ListNotations.
Open Scope list_scope.

Section Spec.
  Context {T : Type}.

  (** Class number [n] can be instantiated and is for the type [t]. *)
  Definition concrete (s : state T) (n : nat) (t : T) : Prop :=
    exists c, nth_error (classes s) n = Some c /\ c_abstract c = false /\ c_type c = Some t.

  (** What a class statement asks for is complete and consistent. *)
  Definition sound (c : class T) (t : T) : Prop :=
    c_type c = Some t /\ exists defaults, c_defaults c = Some defaults /\
      forall d, In d defaults -> In d (c_components c).
End Spec.

(** The type classes, by number: Date, Int8, Int16, Int32, Int64, Null; the others follow. *)
Definition type_number (p : ptype) : option nat :=
  match p with
  | TDate => Some 0 | TInt W8 => Some 1 | TInt W16 => Some 2 | TInt W32 => Some 3 | TInt W64 => Some 4
  | TNull => Some 5 | TOther => None
  end.
Definition field_body (base : nat) (abstract : option bool) (defaults : option (list str)) (t : option nat)
    (names : list str) : body nat :=
  {| b_base := base; b_abstract := abstract; b_defaults := defaults; b_type := t; b_components := names |}.
(** partitions/__init__.py 77-161, in order. *)
Definition built_in : list (body nat) :=
  [ field_body 0 None (Some [$"Y"; $"m"; $"d"]) (Some 0) [$"value"; $"Y"; $"m"; $"d"; $"iso"];
    field_body 0 (Some true) (Some [$"value"]) None [$"value"; $"hex"];
    field_body 2 None None (Some 1) []; field_body 2 None None (Some 2) [];
    field_body 2 None None (Some 3) []; field_body 2 None None (Some 4) [];
    field_body 0 None (Some [$"value"]) (Some 5) [$"value"] ].
Definition class_number (f : fclass) : nat :=
  match f with DateField => 1 | IntField W8 => 3 | IntField W16 => 4 | IntField W32 => 5 | IntField W64 => 6 | NullField => 7 end.

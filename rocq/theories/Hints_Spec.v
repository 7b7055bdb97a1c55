(** Subtyping of hints, stated declaratively. *)
From Coq Require Import ZArith List Ascii String Bool.
From Verif Require Import Base Str Hints_Model.
Import ListNotations.
Open Scope list_scope.

Section Spec.
  Context {C : Type} (issub : C -> C -> bool) (is_none : C -> bool) (dict_class : C)
    (same : hint C -> hint C -> bool).

  Definition annotated (h : hint C) : bool := match h with HAnnotated _ => true | _ => false end.
  Definition variable (h : hint C) : bool := match h with HTypeVar _ => true | _ => false end.
  Definition union (h : hint C) : bool := match h with HUnion _ _ => true | _ => false end.

  (** First arguments: classes and subscripted classes, possibly behind Annotated or a
      TypeVar. Arguments that are neither (unions, literals, [...]) are allowed. *)
  Inductive source : hint C -> Prop :=
  | src_any : source HAny
  | src_class : forall c, source (HClass c)
  | src_dict : forall n fs, source (HTypedDict n fs)
  | src_alias : forall o args, Forall (fun a => accepted a = true -> source a) args -> source (HAlias o args)
  | src_annotated : forall h, source h -> annotated h = false -> source (HAnnotated h)
  | src_free : source (HTypeVar None)
  | src_bound : forall b, source b -> annotated b = false -> variable b = false -> source (HTypeVar (Some b)).

  (** Second arguments: the same and [None], unions and, when [odd], things that are no
      classes ([...], literals) or refuse [issubclass] (TypedDicts). Unions may not be hidden
      behind Annotated or a TypeVar. *)
  Inductive target (odd : bool) : hint C -> Prop :=
  | tgt_any : target odd HAny
  | tgt_none : target odd HNone
  | tgt_class : forall c, target odd (HClass c)
  | tgt_alias : forall o args, Forall (target odd) args -> target odd (HAlias o args)
  | tgt_union : forall b args, Forall (target odd) args -> target odd (HUnion b args)
  | tgt_annotated : forall h, target odd h -> annotated h = false -> union h = false -> target odd (HAnnotated h)
  | tgt_free : target odd (HTypeVar None)
  | tgt_bound : forall b, target odd b -> annotated b = false -> union b = false -> variable b = false ->
      target odd (HTypeVar (Some b))
  | tgt_dots : odd = true -> target odd HEllipsis
  | tgt_literal : forall l, odd = true -> target odd (HLiteral l)
  | tgt_dict : forall n fs, odd = true -> target odd (HTypedDict n fs).

  (** Subtyping. An argument may also be the very same object. *)
  Inductive sub : hint C -> hint C -> Prop :=
  | sub_any : forall k, accepted k = true -> sub k HAny
  | sub_none : forall c, is_none c = true -> sub (HClass c) HNone
  | sub_class : forall a b, issub a b = true -> sub (HClass a) (HClass b)
  | sub_dict : forall n fs b, issub dict_class b = true -> sub (HTypedDict n fs) (HClass b)
  | sub_origin : forall o args b, issub o b = true -> sub (HAlias o args) (HClass b)
  | sub_bare : forall a o, issub a o = true -> sub (HClass a) (HAlias o [])
  | sub_bare_dict : forall n fs o, issub dict_class o = true -> sub (HTypedDict n fs) (HAlias o [])
  | sub_unfilled : forall o p args, issub o p = true -> sub (HAlias o args) (HAlias p [])
  | sub_args : forall o p args args', issub o p = true ->
      Forall2 (fun k c => sub k c \/ same k c = true) args args' -> sub (HAlias o args) (HAlias p args')
  | sub_union : forall k b cs c, In c cs -> sub k c -> sub k (HUnion b cs)
  | sub_annotated_l : forall k c, sub k c -> sub (HAnnotated k) c
  | sub_annotated_r : forall k c, sub k c -> sub k (HAnnotated c)
  | sub_free_l : forall c, sub HAny c -> sub (HTypeVar None) c
  | sub_free_r : forall k, accepted k = true -> sub k (HTypeVar None)
  | sub_bound_l : forall b c, sub b c -> sub (HTypeVar (Some b)) c
  | sub_bound_r : forall k b, sub k b -> sub k (HTypeVar (Some b)).

  (** Classes and subscripted classes of any depth. *)
  Inductive plain : hint C -> Prop :=
  | plain_class : forall c, plain (HClass c)
  | plain_alias : forall o args, Forall plain args -> plain (HAlias o args).
End Spec.

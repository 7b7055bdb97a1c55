(** When a handler refines the function it is registered with. *)
From Coq Require Import ZArith List Ascii String Bool.
From Verif Require Import Base Str Hints_Model Hints_Spec Dispatch_Model.
Import ListNotations.
Open Scope list_scope.

Section Spec.
  Context {C : Type} (issub : C -> C -> bool) (is_none : C -> bool) (dict_class : C) (same : hint C -> hint C -> bool).
  Notation sub := (sub issub is_none dict_class same).

  (** The same parameters in any order, each of the same kind and with a narrower hint (or Any),
      and a narrower return. *)
  Record refines (f spec : signature C) : Prop := {
    ref_names : forall n, In n (map p_name (params f)) <-> In n (map p_name (params spec));
    ref_params : forall p q, In p (params f) -> In q (params spec) -> p_name p = p_name q ->
      p_kind p = p_kind q /\ (p_hint p = HAny \/ sub (p_hint p) (p_hint q));
    ref_returns : sub (returns f) (returns spec)
  }.
  (** [h'] is what [get_type_hints] says about [n], or [h] if it says nothing. *)
  Definition hinted (hints : list (str * hint C)) (n : str) (h h' : hint C) : Prop :=
    In (n, h') hints \/ (~ In n (map fst hints) /\ h' = h).
  (** The parameters after tidying: the same in the same order with resolved hints, perhaps without
      the owner. *)
  Inductive tidied (hints : list (str * hint C)) (remove_owner : bool) : list (param C) -> list (param C) -> Prop :=
  | tidied_none : tidied hints remove_owner [] []
  | tidied_owner : forall p l l', remove_owner = true -> p_name p = $"cls" \/ p_name p = $"self" ->
      tidied hints remove_owner l l' -> tidied hints remove_owner (p :: l) l'
  | tidied_kept : forall p h l l', (remove_owner = true -> p_name p <> $"cls" /\ p_name p <> $"self") ->
      hinted hints (p_name p) (p_hint p) h -> tidied hints remove_owner l l' ->
      tidied hints remove_owner (p :: l) (Param (p_name p) (p_kind p) h (p_default p) :: l').
  (** Python signatures: no two parameters have the same name. The hints are such that C30
      applies. *)
  Definition distinct (s : signature C) : Prop := NoDup (map p_name (params s)).
  Definition narrow (s : signature C) : Prop := (forall p, In p (params s) -> accepted (p_hint p) = true -> source (p_hint p)) /\
    (accepted (returns s) = true -> source (returns s)).
  Definition wide (s : signature C) : Prop := (forall p, In p (params s) -> target false (p_hint p)) /\ target false (returns s).
End Spec.

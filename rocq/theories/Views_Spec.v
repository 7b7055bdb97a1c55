(** What a view is chosen by and what it stands for. *)
From Coq Require Import ZArith List Ascii String Bool.
From Verif Require Import Base Str Hints_Model Hints_Spec Types_Model PyTypes_Model Views_Model.
Import ListNotations.
Open Scope list_scope.

Section Spec.
  Context {V A : Type} (abstract : V -> bool) (python_type : V -> pykey) (priority : V -> Z).

  (** The view defined for a Python type with a higher priority than all others. *)
  Definition preferred (vs : list V) (k : pykey) (v : V) : Prop :=
    exists before after, vs = before ++ v :: after /\ abstract v = false /\ python_type v = k /\
      forall w, In w (before ++ after) -> abstract w = false -> python_type w = k -> (priority w < priority v)%Z.
  (** The Python type of a hint: the class, or that of the subscripted class. *)
  Definition python_type_of (h : phint) : option pykey :=
    match h with
    | HNone => Some None
    | HClass c | HModel c _ => Some (Some c)
    | HAlias c _ => Some (Some c)
    | HUnion true _ => Some (Some PyUnionType)
    | _ => None
    end.

  (** The only one of the extra arguments satisfying [p]. *)
  Definition only (p : extra V A -> Prop) (l : list (extra V A)) (e : extra V A) : Prop :=
    exists before after, l = before ++ e :: after /\ p e /\ forall e', In e' (before ++ after) -> ~ p e'.
  Definition nothing (p : extra V A -> Prop) (l : list (extra V A)) : Prop := forall e, In e l -> ~ p e.
  Definition several (p : extra V A -> Prop) (l : list (extra V A)) : Prop :=
    exists l1 e l2 e' l3, l = l1 ++ e :: l2 ++ e' :: l3 /\ p e /\ p e'.
  Definition a_view (vsub : V -> V -> bool) (cls : V) (e : extra V A) : Prop := exists v, e = XView v /\ vsub v cls = true.
  Definition an_artifact (e : extra V A) : Prop := exists a, e = XArtifact a.
  Definition a_type (e : extra V A) : Prop := exists t, e = XType t.

  (** The artifact class and the type an annotation stands for. *)
  Inductive says (default : A) (artifact_type : A -> option ty) (infer : phint -> result ty) (ann : annotation V A) : A -> ty -> Prop :=
  | says_it : forall a t,
      (only an_artifact (extras ann) (XArtifact a) \/ (nothing an_artifact (extras ann) /\ a = default)) ->
      (only a_type (extras ann) (XType t) \/
       (nothing a_type (extras ann) /\ artifact_type a = Some t) \/
       (nothing a_type (extras ann) /\ artifact_type a = None /\ infer (root ann) = Ok t)) ->
      says default artifact_type infer ann a t.
End Spec.

(** Hints made of the classes of plain values and list, set and dict. *)
Inductive canonical : phint -> Prop :=
| can_class : forall c, In c [PyBool; PyInt; PyFloat; PyStr; PyBytes; PyDate; PyDatetime] -> canonical (HClass c)
| can_list : forall h, canonical h -> canonical (HAlias PyList [h])
| can_set : forall h, canonical h -> canonical (HAlias PySet [h])
| can_dict : forall k h, canonical k -> canonical h -> canonical (HAlias PyDict [k; h]).
Fixpoint hint_levels (h : phint) : nat :=
  match h with HAlias _ args => S (fold_right (fun h n => Nat.max (hint_levels h) n) 0 args) | _ => 1 end.

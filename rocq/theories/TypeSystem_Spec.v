(** Which adapter converts, stated without sorting. *)
From Coq Require Import ZArith List Ascii String Bool.
From Verif Require Import Base Str TypeSystem_Model.
Import ListNotations.
Open Scope list_scope.

Section Spec.
  Context {A X H B C : Type} (matches : adapter A X H -> B -> H -> result bool).

  (** [a] is consulted and says [answer]; adapters of higher priority, and of the same
      priority registered before, do not match. *)
  Definition decides (l : list (str * adapter A X H)) (x : B) (h : H) (a : adapter A X H) (answer : result bool) : Prop :=
    exists before after, map snd l = before ++ a :: after /\ matches a x h = answer /\
      (forall b, In b before -> (a_priority a <= a_priority b)%Z -> matches b x h = Ok false) /\
      (forall b, In b after -> (a_priority a < a_priority b)%Z -> matches b x h = Ok false).
  Definition none_matches (l : list (str * adapter A X H)) (x : B) (h : H) : Prop :=
    forall k b, In (k, b) l -> matches b x h = Ok false.

  Context (adapt : adapter A X H -> B -> H -> result C).

  Inductive converts : system A X H -> B -> H -> result C -> Prop :=
  | by_adapter : forall l e x h a, decides l x h a (Ok true) -> converts (TypeSystem l e) x h (adapt a x h)
  | by_failure : forall l e x h a err, decides l x h a (Err err) -> converts (TypeSystem l e) x h (Err err)
  | by_extension : forall l e x h r, none_matches l x h -> consults e x h r -> converts (TypeSystem l e) x h r
  with consults : list (system A X H) -> B -> H -> result C -> Prop :=
  | no_more : forall x h, consults [] x h (Err NotImplementedError)
  | passes : forall s e x h r, converts s x h (Err NotImplementedError) -> consults e x h r -> consults (s :: e) x h r
  | answers : forall s e x h r, converts s x h r -> r <> Err NotImplementedError -> consults (s :: e) x h r.

  (** No adapter of the system or of what it extends matches. *)
  Inductive unmatched : system A X H -> B -> H -> Prop :=
  | all_unmatched : forall l e x h, none_matches l x h -> Forall (fun s => unmatched s x h) e -> unmatched (TypeSystem l e) x h.
End Spec.

(** C26: what a hint means as a type, and which items an Enum can have. *)
From Coq Require Import ZArith List Ascii String Bool.
From Verif Require Import Base Str Hints_Model Types_Model PyTypes_Model PyTypes_Spec
  PyMeaning_Spec PyMeaning_Proofs.
Import ListNotations.
Open Scope list_scope.

(** C26. A type made from a hint is the one the hint means. *)
Theorem C26_meaning : forall n h t, of_hint n h = Ok t -> means h t.
Proof. exact meaning_sound. Qed.
Print Assumptions C26_meaning.

(** C26. Whatever means a type is converted to it, given enough stack. *)
Theorem C26_understood : forall h t, means h t ->
  exists n0, forall n, n0 <= n -> of_hint n h = Ok t.
Proof. exact meaning_complete. Qed.
Print Assumptions C26_understood.

(** A subclass of list, an optional union of literals with a repeated item, and an annotated
    field. *)
Definition ex_mylist : phint := HAlias (PySub PyList $"MyList") [HClass (PySub PyStr $"Name")].
Definition ex_choice : phint :=
  HUnion true [HLiteral [Lit PyInt $"1"; Lit PyInt $"2"]; HClass PyNoneType; HLiteral [Lit PyInt $"1"]].
Example C26_meaning_instance :
  of_hint 3 ex_mylist = Ok (List (Scalar String plain) plain) /\
  of_hint 4 ex_choice =
    Ok (Enum anon (Scalar (Int B64) plain) [Lit PyInt $"1"; Lit PyInt $"2"] (Meta None true)) /\
  of_hint 4 (HTypedDict $"t" [($"x", HAnnotated (HClass PyBool))]) =
    Ok (Struct $"t" [($"x", Scalar Boolean plain)] plain) /\
  means ex_mylist (List (Scalar String plain) plain) /\ ~ exists t, means (HAlias PyTuple [HClass PyInt]) t.
Proof.
  do 3 (split; [reflexivity|]). split; [apply (meaning_sound 3); reflexivity|].
  intros (t & M). apply meaning_complete in M. destruct M as (n0 & H).
  specialize (H (S n0) (le_S _ _ (le_n _))). discriminate H.
Qed.

(** C26. An Enum of a type without parts takes items exactly if there are some and each is an
    object of the type, drops repeated ones, and refuses all others with a ValueError. *)
Theorem C26_enum_items : forall n name t items m, simple t ->
  (forall x, new_enum (S (S n)) name t items m = Ok x <->
     items <> [] /\ Forall (fun i => of_type t (item_class i)) items /\
     exists l, firsts [] items l /\ x = Enum name t l m) /\
  (forall e, new_enum (S (S n)) name t items m = Err e -> e = ValueError).
Proof. exact enum_exact. Qed.
Print Assumptions C26_enum_items.
Example C26_enum_instance :
  simple (Scalar (Int B8) (Meta None true)) /\
  new_enum 2 $"e" (Scalar (Int B8) (Meta None true)) [Lit PyInt $"1"; Lit PyNoneType $"None"; Lit PyInt $"1"] plain =
    Ok (Enum $"e" (Scalar (Int B8) (Meta None true)) [Lit PyInt $"1"; Lit PyNoneType $"None"] plain) /\
  new_enum 2 $"e" (Scalar (Int B8) plain) [Lit PyInt $"1"; Lit PyStr $"a"] plain = Err ValueError.
Proof. repeat split; reflexivity. Qed.

(** Vocabulary for C06. *)
From Coq Require Import String List Bool.
From Verif Require Import Str WrapExc_Model.
Import ListNotations.

(** An error that did not come out of a wrapping context. *)
Definition original {cls} (e : @exc cls) : Prop := exc_wrapped e = false \/ exc_cause e = None.

(** Contexts of possibly different types, each catching the error and the type of
    the next one inside. *)
Fixpoint catches {cls} (issub : cls -> cls -> bool) (e : @exc cls) (ctxs : list (cls * str)) : Prop :=
  match ctxs with
  | [] => True
  | [(t, _)] => issub (exc_class e) t = true
  | (t, _) :: ((u, _) :: _) as rest => issub u t = true /\ catches issub e rest
  end.

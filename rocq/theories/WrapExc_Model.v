(** Model of [wrap_exc], src/arti/internal/__init__.py lines 7-26. Definitions only. *)
From Coq Require Import String List Bool.
From Verif Require Import Str.
Import ListNotations.

Section WrapExc.
  (** Exception classes with Python's subclass test. *)
  Context {cls : Type} (issub : cls -> cls -> bool).
  (** [str(T(msg))]: the text a class shows for its single message argument (the
      message itself except for classes overriding [__str__], such as KeyError). *)
  Context (show : cls -> str -> str).

  (** An exception object: class, [str(e)], the [wrapped] attribute, [__cause__]. *)
  Inductive exc := Exc (c : cls) (text : str) (wrapped : bool) (cause : option exc).
  Definition exc_class (e : exc) := let '(Exc c _ _ _) := e in c.
  Definition exc_text (e : exc) := let '(Exc _ t _ _) := e in t.
  Definition exc_cause (e : exc) := let '(Exc _ _ _ x) := e in x.
  Definition exc_wrapped (e : exc) := let '(Exc _ _ w _) := e in w.

  Inductive outcome (A : Type) := Returned (a : A) | Raised (e : exc).
  Arguments Returned {A} a.
  Arguments Raised {A} e.

  (** internal/__init__.py:15-26: [with wrap_exc(error_type, prefix=prefix): body].
      Context attributes other than [__cause__] and tracebacks are not modelled. *)
  Definition wrap_exc {A} (error_type : cls) (prefix : str) (body : outcome A) : outcome A :=
    match body with
    | Returned a => Returned a
    | Raised e =>
        if issub (exc_class e) error_type then                       (* 17 *)
          let '(msg, src) :=
            match exc_wrapped e, exc_cause e with
            | true, Some cause => (exc_text e, cause)                (* 19-20 *)
            | _, _ => ($" - " ++ exc_text e, e)                      (* 22-23 *)
            end in
          Raised (Exc error_type (show error_type (prefix ++ msg)) true (Some src))  (* 24-26 *)
        else Raised e
    end.

  (** Nested [with] blocks, outermost first. *)
  Definition nest {A} (contexts : list (cls * str)) (body : outcome A) : outcome A :=
    fold_right (fun ctx inner => wrap_exc (fst ctx) (snd ctx) inner) body contexts.
End WrapExc.
Arguments Exc {cls} c text wrapped cause.
Arguments Returned {cls A} a.
Arguments Raised {cls A} e.

(** Dotted keys of boxes. *)
From Coq Require Import List Ascii.
From Verif Require Import Base Str.
Import ListNotations.

(** Names with dots between them. *)
Fixpoint dotted (path : list str) : str :=
  match path with
  | [] => []
  | [p] => p
  | p :: rest => p ++ "."%char :: dotted rest
  end.
(** A leading underscore. *)
Definition hidden (p : str) : Prop := exists rest, p = "_"%char :: rest.

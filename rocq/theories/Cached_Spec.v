(** Histories of a process: whose fingerprint has been looked at, and which changes matter. *)
From Coq Require Import ZArith List Ascii String Bool.
From Verif Require Import Base Str Models_Model Cached_Model.
Import ListNotations.
Open Scope list_scope.

(** Object [i] has been asked for its fingerprint, or is a copy of one that had been. *)
Inductive asked (farmhash : string -> Z) : list op -> nat -> Prop :=
| asked_now : forall h i, i < List.length (objects farmhash h) -> asked farmhash (h ++ [Read i]) i
| asked_before : forall h i o, asked farmhash h i -> asked farmhash (h ++ [o]) i
| asked_copied : forall h i u, asked farmhash h i -> asked farmhash (h ++ [Copy i u]) (List.length (objects farmhash h)).

(** Nothing but field values is set by name. *)
Definition only_fields (h : list op) : Prop :=
  (forall i u, In (Copy i u) h -> ~ In $"fingerprint" (map fst u)) /\
  (forall i n v, In (Refill i n v) h -> n <> $"fingerprint").

(** [x] and [y] have the same text, so the same fingerprint. *)
Definition same_text (x y : object) : Prop := dump_json (state_of x) = dump_json (state_of y).

(** Whatever has been asked for its fingerprint is not changed afterwards, neither in place
    nor in a copy, as far as its text is concerned. *)
Definition changed_before_asked (farmhash : string -> Z) (h : list op) : Prop :=
  forall h1 h2 i x, nth_error (objects farmhash h1) i = Some x -> asked farmhash h1 i ->
    (forall u, h = h1 ++ Copy i u :: h2 -> same_text (model_copy x u) x) /\
    (forall n v, h = h1 ++ Refill i n v :: h2 -> same_text (refill x n v) x).

(** The value of a field. *)
Definition has (o : object) (n : str) (v : value) : Prop := In (n, Field v) (o_dict o).

(** What a process does apart from asking for fingerprints. *)
Definition no_reads (h : list op) : list op := filter (fun o => match o with Read _ => false | _ => true end) h.

(** What reading and writing should do. *)
From Coq Require Import ZArith List Ascii String.
From Verif Require Import Base Str Template_Spec Storage_Model Types_Model IO_Model.
Import ListNotations.
Open Scope list_scope.

(** The text in a place. *)
Inductive contains (w : world) : place -> str -> Prop :=
| in_file : forall path c, dget str_eqb (local w) path = Some c -> contains w (LocalPart path) c
| in_blob : forall path c, dget str_eqb (gcs w) path = Some c -> contains w (GCSPart path) c
| in_literal : forall id c, contains w (LiteralPart id (Some c)) c.

(** The data in a place. *)
Definition holds {V} (loads : format -> str -> result V) (w : world) (f : format) (p : place) (v : V) : Prop :=
  exists c, contains w p c /\ loads f c = Ok v.

(** Partitions of one artifact, in a format with a reader. *)
Definition readable (f : format) (v : view) (ps : list place) : Prop :=
  match ps with
  | [] => False
  | p :: others => implemented f p v = true /\ forall q, In q others -> same_kind p q = true
  end.

(** Two places that do not share their storage. *)
Definition apart (p q : place) : Prop :=
  match p, q with
  | LocalPart a, LocalPart b | GCSPart a, GCSPart b => a <> b
  | _, _ => True
  end.

(** The name of a place: a literal stays the same place when it gets its value. *)
Definition same_place (p q : place) : Prop :=
  match p, q with LiteralPart a _, LiteralPart b _ => a = b | _, _ => p = q end.

(** Text that is no template and does not look like a directory. *)
Definition plain_text (s : str) : Prop := avoids $"{}" s /\ s <> [] /\ last s " "%char <> "/"%char.

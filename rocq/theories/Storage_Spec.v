(** What the storage theorems talk about. *)
From Coq Require Import ZArith List Ascii String Bool.
From Verif Require Import Base Str Partitions_Model Format_Model Template_Spec Storage_Model.
Import ListNotations.
Open Scope list_scope.

(** No placeholder of that name. *)
Definition without (p : str) (t : template) : Prop := forall h, In (THole h) t -> h_name h <> p.
(** The text without one leading separator. *)
Definition drop_sep (s : str) : str :=
  match s with c :: r => if Ascii.eqb c "/"%char then r else s | [] => [] end.
(** The text without any trailing separators. *)
Definition sans_trailing (s r : str) : Prop :=
  (exists n, s = r ++ repeat "/"%char n) /\ forall q, r <> q ++ $"/".
(** A storage whose text fields are templates, with only bare fingerprint placeholders. *)
Definition templated (st : storage) : Prop :=
  forall n s, In (n, Some s) (s_fields st) ->
    exists t, s = print t /\ template_ok t /\ fillable [($"input_fingerprint", [])] t.

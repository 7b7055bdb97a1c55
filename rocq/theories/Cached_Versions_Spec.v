(** Versions, as far as their fingerprints go (src/arti/versions/__init__.py 31-58). *)
From Coq Require Import ZArith List Ascii String Bool.
From Verif Require Import Base Str Models_Model Cached_Model.
Import ListNotations.
Open Scope list_scope.

(** Whether the field [major], if there is one, is above 0. *)
Definition positive (fields : list (str * value)) : bool :=
  match dget str_eqb fields $"major" with Some (VInt major) => (0 <? major)%Z | _ => false end.

Definition semver : class :=
  {| c_name := $"SemVer"; c_abstract := false; c_kind := SemVer;
     c_decls := map (fun n => {| d_name := n; d_exclude := false; d_skips := [] |}) [$"major"; $"minor"; $"patch"] |}.
Definition numbers (a b p : Z) : list (str * value) := [($"major", VInt a); ($"minor", VInt b); ($"patch", VInt p)].

(** Model of src/arti/versions/__init__.py: the versions a producer can have. Definitions only.

    A version is a model (Models_Model); its fingerprint is part of what a producer's outputs are
    stored under (src/arti/producers/__init__.py 333-345). The subprocess, the decoding of its output,
    [inspect.getsource], the clock and the text pydantic writes for a datetime are arguments. Values
    are taken to be of the declared types. *)
From Coq Require Import ZArith NArith List Ascii String Bool.
From Verif Require Import Base Str Models_Model.
Import ListNotations.
Open Scope list_scope.

Definition field (n : str) : decl := {| d_name := n; d_exclude := false; d_skips := [] |}.
(** [Version] (17-18), [GitCommit] (21-28), [SemVer] (31-40), [String] (61-62), [Timestamp] (76-81) *)
Definition version_base : class := {| c_name := $"Version"; c_abstract := true; c_kind := Plain; c_decls := [] |}.
Definition git_class : class := {| c_name := $"GitCommit"; c_abstract := false; c_kind := Plain; c_decls := [field $"sha"] |}.
Definition semver_class : class :=
  {| c_name := $"SemVer"; c_abstract := false; c_kind := SemVer; c_decls := map field [$"major"; $"minor"; $"patch"] |}.
Definition string_class : class := {| c_name := $"String"; c_abstract := false; c_kind := Plain; c_decls := [field $"value"] |}.
Definition stamp_class : class := {| c_name := $"Timestamp"; c_abstract := false; c_kind := Plain; c_decls := [field $"dt"] |}.

(** [str.strip]; only the ASCII whitespace is modelled. *)
Definition blank (c : ascii) : bool := let n := N_of_ascii c in ((9 <=? n) && (n <=? 13) || (28 <=? n) && (n <=? 32))%N.
Fixpoint lstrip (s : str) : str := match s with c :: s' => if blank c then lstrip s' else s | [] => [] end.
Definition strip (s : str) : str := rev (lstrip (rev (lstrip s))).

(** A datetime: the time on the clock in microseconds, and the offset from UTC of its timezone in
    microseconds, if it has one. *)
Record datetime := { wall : Z; offset : option Z }.

Section Calls.
  (** [subprocess.check_output(["git", "rev-parse", "HEAD"])] and [bytes.decode] *)
  Context (check_output : result str) (decode : str -> result str).
  (** [inspect.getsource] *)
  Context {T : Type} (getsource : T -> result str).
  (** [datetime.now(tz=UTC)], and the JSON text of a datetime *)
  Context (now : Z) (iso : datetime -> str).

  (** [GitCommit(sha=...)], or without: the default factory (22-28) *)
  Definition git_commit (sha : option str) : result value :=
    bind (match sha with
          | Some s => Ok s
          | None => bind check_output (fun out => rmap strip (decode out))
          end) (fun s => instantiate git_class [($"sha", VStr s)]).
  (** [SemVer(major=..., minor=..., patch=...)] *)
  Definition semver (major minor patch : Z) : result value :=
    instantiate semver_class [($"major", VInt major); ($"minor", VInt minor); ($"patch", VInt patch)].
  (** [String(value=...)] *)
  Definition string_version (s : str) : result value := instantiate string_class [($"value", VStr s)].
  (** [_SourceDescriptor.__get__] (65-69) *)
  Definition source_version (type_ : T) : result value := bind (getsource type_) string_version.
  (** [_requires_timezone] (83-88); pydantic's ValidationError is a ValueError. The default
      is validated too ([validate_default=True], 80). *)
  Definition requires_timezone (dt : datetime) : result datetime :=
    match offset dt with None => Err ValueError | Some _ => Ok dt end.
  Definition timestamp (dt : option datetime) : result value :=
    bind (requires_timezone (match dt with Some d => d | None => {| wall := now; offset := Some 0%Z |} end))
      (fun d => instantiate stamp_class [($"dt", VStr (iso d))]).
End Calls.

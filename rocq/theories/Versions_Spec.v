(** What the theorems about versions talk about. *)
From Coq Require Import ZArith NArith List Ascii String Bool.
From Verif Require Import Base Str Models_Model Versions_Model.
Import ListNotations.
Open Scope list_scope.

(** What a version says: a commit, three numbers, a text, or a time on a clock at an offset from UTC. *)
Inductive said := Commit (sha : str) | Numbers (major minor patch : Z) | Text (s : str) | Time (clock away : Z).
Definition says (iso : datetime -> str) (d : said) (v : value) : Prop :=
  match d with
  | Commit s => exists check_output decode, git_commit check_output decode (Some s) = Ok v
  | Numbers a b c => semver a b c = Ok v
  | Text s => string_version s = Ok v
  | Time w o => exists now, timestamp now iso (Some {| wall := w; offset := Some o |}) = Ok v
  end.
(** The versions that share results: the same, or both of one major number above 0. *)
Inductive interchangeable : said -> said -> Prop :=
| same : forall d, interchangeable d d
| minor_change : forall a b c b' c', (0 < a)%Z -> interchangeable (Numbers a b c) (Numbers a b' c').

(** Different datetimes are written differently. *)
Definition tells_apart (iso : datetime -> str) : Prop := forall d e, iso d = iso e -> d = e.
(** The hash does not take the two texts for one. *)
Definition distinguishes (farmhash : string -> Z) (v w : value) : Prop :=
  let t v := string_of_list_ascii (dump_json v) in farmhash (t v) = farmhash (t w) -> t v = t w.
(** Python's [==] of datetimes with timezones: the same moment. *)
Definition same_moment (d e : datetime) : Prop :=
  match offset d, offset e with Some o, Some p => (wall d - o = wall e - p)%Z | _, _ => False end.

(** Whitespace: tab, line feed, vertical tab, form feed, carriage return, the four separators, space. *)
Definition whitespace (c : ascii) : Prop := In (N_of_ascii c) [9; 10; 11; 12; 13; 28; 29; 30; 31; 32]%N.
(** [t] is [s] without whitespace at its ends. *)
Definition trimmed (s t : str) : Prop :=
  exists p q, s = p ++ t ++ q /\ Forall whitespace p /\ Forall whitespace q /\
    (forall c r, t = c :: r -> ~ whitespace c) /\ (forall c r, t = r ++ [c] -> ~ whitespace c).

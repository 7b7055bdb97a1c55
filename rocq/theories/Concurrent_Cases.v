(** Concrete processes and schedules for the examples and counterexamples of Concurrent_Props. *)
From Coq Require Import ZArith List Ascii String Bool Arith.
From Verif Require Import Base Str Graph_Model Backend_Model Executor_Model Executor_Cases Concurrent_Model.
Import ListNotations.
Open Scope list_scope.

(** The next access of process [i]. *)
Definition step {V} (i : nat) (S : system V) : system V :=
  match nth_error (running S) i with
  | Some (Process b lg (Act u k)) =>
      let s := State (shared S) b lg None in
      System (files (u s)) (firstn i (running S) ++ Process (db (u s)) (log (u s)) (k s) :: skipn (Datatypes.S i) (running S))
  | _ => S
  end.
(** Process [i] makes [n] accesses, or as many as it can. *)
Definition steps {V} (i n : nat) (S : system V) : system V := Nat.iter n (step i) S.
Definition schedule {V} (l : list (nat * nat)) (S : system V) : system V := fold_left (fun S in_ => steps (fst in_) (snd in_) S) l S.

(** As [demo], but empty files are no data. *)
Definition strict : env str := let d := demo in
  Env str (classes d) (from_string d) (file_fp d) (graph_fp d) (node_fp d) (part_fp d) (snapshot_fp d) (dump d)
    (fun a ds => if existsb is_nil ds then Err ValueError else load d a ds) (check d) (iter_set d).
Definition files13 : list (location * str) := [file "a" "" "1"].
(** The same graph built by two processes. *)
Definition twice (E : env str) : system str := started files13 [(E, g13); (E, g13)].
(** Another graph over the same raw data: a -> double -> z. *)
Definition g15 := GraphDef $"g15" [($"a", raw "a"); ($"z", out "z" double 0)].
Definition apart : system str := started files13 [(demo, g13); (demo, g15)].
(** Results, and the texts of all files. *)
Definition outcome {V A} (m : prog V A) : option (result A) := match m with Done r => Some r | Act _ _ => None end.
Definition outcomes {V} (S : system V) : list (option (result snapshot)) := map (fun P => outcome (rest P)) (running S).
Definition contents {V} (S : system V) : list (str * str) := map (fun f => (fst (fst (fst f)), snd f)) (shared S).
(** The partitions a process has linked to its snapshot: what they hold, and whether they were recorded with its fingerprint. *)
Definition noted (E : env str) (S : system str) (i : nat) (key : string) : list (option str * bool) :=
  match nth_error (running S) i with
  | Some (Process b _ (Done (Ok sn))) =>
      map (fun x => let c := content (shared S) (ps_part x) in (c, match c with Some d => (file_fp E d =? ps_content x)%Z | None => false end))
          (snd (read_snapshot_partitions b sn $key))
  | _ => []
  end.

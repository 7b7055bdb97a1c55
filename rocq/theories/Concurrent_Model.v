(** Model of several processes that snapshot and build graphs at the same time over the same files:
    src/arti/executors/__init__.py 22-105, src/arti/executors/local.py 22-57,
    [GraphSnapshot.from_graph] and [Graph.build] (src/arti/graphs/__init__.py 144-146, 318-361),
    [LocalFile.discover_partitions] (src/arti/storage/local.py 44-58), the readers and writers of
    src/arti/io/*_localfile_python.py. Definitions only.

    As Executor_Model, but a process is a program that makes one access to files or backend after the
    other, and others may move in between: listing the files of a storage is one access, reading a
    file one each, opening a file to write (which empties it) and writing it are two, and reading it
    again for its fingerprint is another. Each process has a MemoryBackend of its own; a process
    that is killed is one that does not move any more. That a run without others is a build of
    Executor_Model is C61_alone. *)
From Coq Require Import ZArith List Ascii String Bool Arith.
From Verif Require Import Base Str Graph_Model Backend_Model Executor_Model.
Import ListNotations.
Open Scope list_scope.

(** A program: finished, or with a next access that changes the state and goes on depending on what
    the state was before. *)
Inductive prog (V A : Type) :=
| Done (r : result A)
| Act (u : state V -> state V) (k : state V -> prog V A).
Arguments Done {V A} _.
Arguments Act {V A} _ _.
Fixpoint pbind {V A B} (m : prog V A) (f : A -> prog V B) : prog V B :=
  match m with
  | Done (Ok a) => f a
  | Done (Err e) => Done (Err e)
  | Act u k => Act u (fun s => pbind (k s) f)
  end.
Notation "x <~ m ;; f" := (pbind m (fun x => f)) (at level 61, m at next level, right associativity).
Definition act {V A} (f : state V -> state V * result A) : prog V A :=
  Act (fun s => fst (f s)) (fun s => Done (snd (f s))).
Fixpoint eachP {V A} (f : A -> prog V unit) (l : list A) : prog V unit :=
  match l with [] => Done (Ok tt) | x :: l' => _ <~ f x ;; eachP f l' end.
Fixpoint collectP {V A B} (f : A -> prog V B) (l : list A) : prog V (list B) :=
  match l with
  | [] => Done (Ok [])
  | x :: l' => y <~ f x ;; ys <~ collectP f l' ;; Done (Ok (y :: ys))
  end.

Section Programs.
  Context {V : Type} (E : env V).
  Notation prog := (prog V).

  (** ** Storage *)
  (** [compute_content_fingerprint] reads the file. *)
  Definition snapshot_p (p : partition) : prog psnapshot := act (fun s => (s, take_snapshot E (files s) p)).
  (** [discover_partitions]: [glob], then the snapshot of each file that is asked for. *)
  Definition list_p (st : storage) (fps : list (pkey * option Z)) : prog (list location) := act (fun s =>
    (s, Ok (filter (fun l => generated_by st l && option_eqb Z.eqb (get_fp fps (snd (fst l))) (snd l)) (map fst (files s))))).
  Definition discover_p (st : storage) (fps : list (pkey * option Z)) : prog (list psnapshot) :=
    match st_kind st with
    | SFile => found <~ list_p st fps ;; collectP (fun l => snapshot_p (Partition st (snd (fst l)) (snd l) None)) found
    | SLiteral _ => Done (discover E [] st fps)
    end.

  (** ** The backend *)
  Definition read_links_p (s : snapshot) (key : str) : prog (list psnapshot) := act (fun st =>
    let '(b, l) := read_snapshot_partitions (db st) s key in (with_db st b, Ok (iter_set E l))).
  Definition write_links_p (s : snapshot) (key : str) (new : list psnapshot) : prog unit := act (fun st =>
    (with_db st (write_snapshot_partitions (db st) s key new), Ok tt)).
  Definition write_known_p (st : storage) (new : list psnapshot) : prog unit := act (fun s =>
    (with_db s (write_artifact_partitions (db s) st new), Ok tt)).
  Definition read_known_p (st : storage) (fps : list (pkey * option Z)) : prog (list psnapshot) :=
    seen <~ act (fun s => (s, Ok (dmem storage_eqb (known (db s)) st))) ;;
    found <~ (if seen : bool then Done (Ok []) else discover_p st fps) ;;
    act (fun s => let '(b, r) := read_artifact_partitions (db s) st fps (Ok found) in (with_db s b, rmap (iter_set E) r)).

  (** ** io *)
  Definition content_p (x : psnapshot) : prog str := act (fun s =>
    (s, match content (files s) (ps_part x) with
        | Some d => Ok d
        | None => Err (match st_kind (pt_storage (ps_part x)) with SFile => FileNotFoundError | SLiteral _ => AssertionError end)
        end)).
  Definition io_read_p (a : artifact) (parts : list psnapshot) : prog V :=
    match parts with
    | [] => Done (Err FileNotFoundError)
    | _ =>
      if (1 <? List.length parts) && negb (st_partitioned (a_storage a)) then Done (Err ValueError)
      else ds <~ collectP content_p parts ;; Done (load E a ds)
    end.
  Definition open_p (l : location) : prog unit := act (fun s => (with_file s l [], Ok tt)).
  Definition write_p (l : location) (d : str) : prog unit := act (fun s => (with_log (with_file s l d) (Wrote l d), Ok tt)).
  Definition io_write_p (a : artifact) (v : V) (p : partition) : prog psnapshot :=
    match st_kind (pt_storage p) with
    | SFile =>
        _ <~ open_p (location_of p) ;;
        d <~ Done (dump E a v) ;;
        _ <~ write_p (location_of p) d ;;
        snapshot_p p
    | SLiteral _ =>
        match pt_value p with
        | Some _ => Done (Err ValueError)
        | None => d <~ Done (dump E a v) ;; snapshot_p (Partition (pt_storage p) (pt_key p) (pt_fp p) (Some d))
        end
    end.
  Definition read_input_p (s : snapshot) (a : artifact) (parts : list psnapshot) : prog V :=
    _ <~ Done (key_of (s_graph s) a) ;; io_read_p a parts.
  Definition write_output_p (s : snapshot) (p : producer) (i : nat) (a : artifact) (f : Z) (k : pkey) (v : V) : prog unit :=
    key <~ Done (key_of (s_graph s) a) ;;
    _ <~ Done (match a_output a with None => Err ValueError | Some _ => Ok tt end) ;;
    _ <~ Done (check E p i a v) ;;
    part <~ Done (generate_partition (a_storage a) (Some f) k) ;;
    x <~ io_write_p a v part ;;
    _ <~ write_known_p (a_storage a) [x] ;;
    write_links_p s key [x].

  (** ** Executor *)
  Definition get_producer_inputs_p (s : snapshot) (p : producer) : prog (list (str * list psnapshot)) :=
    collectP (fun na => key <~ Done (key_of (s_graph s) (snd na)) ;;
                        l <~ read_links_p s key ;; Done (Ok (fst na, l))) (p_inputs p).
  Definition discover_producer_partitions_p (s : snapshot) (p : producer) (fps : list (pkey * option Z)) : prog (list pkey) :=
    outs <~ Done (outputs_of (s_graph s) p) ;;
    found <~ collectP (fun a => l <~ read_known_p (a_storage a) fps ;; Done (Ok (a, l))) outs ;;
    _ <~ eachP (fun al => key <~ Done (key_of (s_graph s) (fst al)) ;; write_links_p s key (snd al)) found ;;
    Done (Ok (map ps_key (flat_map snd found))).
  Definition call_build_p (p : producer) (k : pkey) (args : list (str * V)) : prog (list V) :=
    act (fun s => (with_log s (Built p k args),
      match c_build (class_of E p) with Single f => rmap (fun v => [v]) (f args) | Multiple _ f => f args end)).
  Definition call_validate_p (p : producer) (k : pkey) (outputs : list V) : prog bool :=
    act (fun s => (with_log s (Validated p k outputs), c_validate (class_of E p) outputs)).
  Fixpoint write_outputs_p (s : snapshot) (p : producer) (f : Z) (k : pkey) (i : nat) (outs : list artifact) (vs : list V) : prog unit :=
    match vs with
    | [] => Done (Ok tt)
    | v :: vs' =>
        a <~ Done (match nth_error outs i with Some a => Ok a | None => Err IndexError end) ;;
        _ <~ Done (if i <? n_outputs E p then Ok tt else Err IndexError) ;;
        _ <~ write_output_p s p i a f k v ;;
        write_outputs_p s p f k (S i) outs vs'
    end.
  Definition read_arguments_p (s : snapshot) (p : producer) (deps : list (str * list psnapshot)) : prog (list (str * V)) :=
    collectP (fun name =>
      a <~ Done (match dget str_eqb (p_inputs p) name with Some a => Ok a | None => Err KeyError end) ;;
      d <~ Done (match dget str_eqb deps name with Some d => Ok d | None => Err KeyError end) ;;
      v <~ read_input_p s a d ;; Done (Ok (name, v))) (c_build_inputs (class_of E p)).
  Definition build_producer_partition_p (s : snapshot) (p : producer) (existing : list pkey) (f : Z)
      (deps : list (str * list psnapshot)) (k : pkey) : prog unit :=
    if existsb (str_eqb k) existing then Done (Ok tt)
    else
      args <~ read_arguments_p s p deps ;;
      vs <~ call_build_p p k args ;;
      ok <~ call_validate_p p k vs ;;
      if ok : bool then outs <~ Done (outputs_of (s_graph s) p) ;; write_outputs_p s p f k 0 outs vs
      else Done (Err ValueError).
  Definition build_producer_p (s : snapshot) (p : producer) : prog unit :=
    inputs <~ get_producer_inputs_p s p ;;
    df <~ Done (compute_dependencies E p inputs) ;;
    existing <~ discover_producer_partitions_p s p (snd df) ;;
    eachP (fun kd =>
      f <~ Done (match get_fp (snd df) (fst kd) with Some f => Ok f | None => Err ValueError end) ;;
      build_producer_partition_p s p existing f (snd kd) (fst kd)) (fst df).
  Definition build_p (s : snapshot) : prog unit :=
    order <~ Done (static_order (dependencies (g_arts (s_graph s)))) ;;
    eachP (fun n => match n with NArtifact _ => Done (Ok tt) | NProducer p => build_producer_p s p end) order.

  (** ** Snapshots *)
  Definition visit_p (g : graph_def) (acc : Z * list (str * artifact * list psnapshot)) (n : node) :
      prog (Z * list (str * artifact * list psnapshot)) :=
    let id := Z.lxor (fst acc) (node_fp E n) in
    match n with
    | NProducer _ => Done (Ok (id, snd acc))
    | NArtifact a =>
        key <~ Done (key_of g a) ;;
        let id := Z.lxor id (from_string E key) in
        match a_output a with
        | Some _ => Done (Ok (id, snd acc))
        | None =>
            parts <~ discover_p (a_storage a) [] ;;
            match parts with
            | [] => Done (Err ValueError)
            | _ => Done (Ok (fold_left Z.lxor (map (part_fp E) parts) id, snd acc ++ [(key, a, parts)]))
            end
        end
    end.
  Fixpoint visit_all_p (g : graph_def) (acc : Z * list (str * artifact * list psnapshot)) (l : list node) :
      prog (Z * list (str * artifact * list psnapshot)) :=
    match l with [] => Done (Ok acc) | n :: l' => acc' <~ visit_p g acc n ;; visit_all_p g acc' l' end.
  Definition from_graph_p (g : graph_def) : prog snapshot :=
    found <~ visit_all_p g (graph_fp E g, []) (map fst (dependencies (g_arts g))) ;;
    let s := Snapshot (fst found) g in
    _ <~ act (fun st => (with_db st (write_graph (graph_fp E) (db st) g), Ok tt)) ;;
    _ <~ act (fun st => (with_db st (write_snapshot (snapshot_fp E) (db st) s), Ok tt)) ;;
    _ <~ eachP (fun kap => _ <~ write_known_p (a_storage (snd (fst kap))) (snd kap) ;;
                           write_links_p s (fst (fst kap)) (snd kap)) (snd found) ;;
    Done (Ok s).
  Definition graph_build_p (g : graph_def) : prog snapshot :=
    s <~ from_graph_p g ;; _ <~ build_p s ;; Done (Ok s).
End Programs.

(** Processes over shared files; in a move one of them makes its next access. *)
Record process (V : Type) := Process { own_db : backend; own_log : list (action V); rest : prog V snapshot }.
Arguments Process {V} _ _ _.
Arguments own_db {V} _.
Arguments own_log {V} _.
Arguments rest {V} _.
Record system (V : Type) := System { shared : list (location * str); running : list (process V) }.
Arguments System {V} _ _.
Arguments shared {V} _.
Arguments running {V} _.
Inductive moves {V} : system V -> system V -> Prop :=
| move : forall fs before b lg u k after,
    let s := State fs b lg None in
    moves (System fs (before ++ Process b lg (Act u k) :: after))
          (System (files (u s)) (before ++ Process (db (u s)) (log (u s)) (k s) :: after)).
(** Any interleaving. *)
Inductive evolves {V} : system V -> system V -> Prop :=
| evolves_none : forall S, evolves S S
| evolves_more : forall S1 S2 S3, evolves S1 S2 -> moves S2 S3 -> evolves S1 S3.
(** Each process is about to build its graph. *)
Definition started {V} (fs : list (location * str)) (jobs : list (env V * graph_def)) : system V :=
  System fs (map (fun Eg => Process empty_backend [] (graph_build_p (fst Eg) (snd Eg))) jobs).
(** A program without others. *)
Fixpoint finish {V A} (m : prog V A) (s : state V) : state V * result A :=
  match m with
  | Done r => (s, r)
  | Act u k => finish (k s) (u s)
  end.

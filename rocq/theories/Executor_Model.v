(** Model of building a graph: src/arti/executors/__init__.py 22-105, src/arti/executors/local.py
    22-57, [Producer.compute_input_fingerprint] and [compute_dependencies]
    (src/arti/producers/__init__.py 326-367), [Graph.read] and [Graph.write] as the executor uses
    them (src/arti/graphs/__init__.py 197-291), [GraphSnapshot.from_graph] (318-361),
    [io.read]/[io.write] (src/arti/io/__init__.py 42-82), [Storage._check_key],
    [generate_partition] and [discover_partitions] (src/arti/storage/__init__.py 195-245, local.py
    44-58, literal.py 32-52). Definitions only.

    Simplifications. A file is at a location (path template, key, fingerprint) instead of a path:
    C15-C21 treat paths, globbing and parsing. The user's map, build and validate_outputs are
    functions: deterministic and without effects of their own. Types, formats and views are
    folded into [dump], [load] and [check]. Fingerprints are integers combined with xor; C01-C03
    treat their range. *)
From Coq Require Import ZArith List Ascii String Bool Arith.
From Verif Require Import Base Str Graph_Model Backend_Model.
Import ListNotations.
Open Scope list_scope.

(** [build] of a producer with one output, or with several. *)
Inductive builder (V : Type) :=
| Single (f : list (str * V) -> result V)
| Multiple (n : nat) (f : list (str * V) -> result (list V)).
Arguments Single {V} _.
Arguments Multiple {V} _ _.
Record pclass (V : Type) := PClass {
  c_map_inputs : list str;
  c_build_inputs : list str;
  c_map : list (str * list psnapshot) -> result (list (pkey * list (str * list psnapshot)));
  c_build : builder V;
  c_validate : list V -> result bool }.
Arguments PClass {V} _ _ _ _ _.
Arguments c_map_inputs {V} _.
Arguments c_build_inputs {V} _.
Arguments c_map {V} _ _.
Arguments c_build {V} _.
Arguments c_validate {V} _ _.

(** What the executor depends on: the classes by their key, the hash functions, the codecs and
    the iteration order of sets ([tuple(a_set)] of the set filled in the given order). *)
Record env (V : Type) := Env {
  classes : str -> pclass V;
  from_string : str -> Z;
  file_fp : str -> Z;
  graph_fp : graph_def -> Z;
  node_fp : node -> Z;
  part_fp : psnapshot -> Z;
  snapshot_fp : snapshot -> Z;
  dump : artifact -> V -> result str;
  load : artifact -> list str -> result V;
  check : producer -> nat -> artifact -> V -> result unit;
  iter_set : list psnapshot -> list psnapshot }.
Arguments classes {V} _ _.
Arguments from_string {V} _ _.
Arguments file_fp {V} _ _.
Arguments graph_fp {V} _ _.
Arguments node_fp {V} _ _.
Arguments part_fp {V} _ _.
Arguments snapshot_fp {V} _ _.
Arguments dump {V} _ _ _.
Arguments load {V} _ _ _.
Arguments check {V} _ _ _ _ _.
Arguments iter_set {V} _ _.

(** The location of a partition's file. *)
Definition location := (str * pkey * option Z)%type.
Definition location_eqb (x y : location) : bool :=
  let '(i, k, f) := x in let '(i', k', f') := y in
  str_eqb i i' && str_eqb k k' && option_eqb Z.eqb f f'.
Definition location_of (p : partition) : location := (st_id (pt_storage p), pt_key p, pt_fp p).

(** Calls of user code and writes of data, latest first. *)
Inductive action (V : Type) :=
| Built (p : producer) (k : pkey) (args : list (str * V))
| Validated (p : producer) (k : pkey) (outputs : list V)
| Wrote (l : location) (data : str).
Arguments Built {V} _ _ _.
Arguments Validated {V} _ _ _.
Arguments Wrote {V} _ _.

(** [fuel]: the number of effects until the process is stopped, [None] for never. *)
Record state (V : Type) := State {
  files : list (location * str);
  db : backend;
  log : list (action V);
  fuel : option nat }.
Arguments State {V} _ _ _ _.
Arguments files {V} _.
Arguments db {V} _.
Arguments log {V} _.
Arguments fuel {V} _.

Definition M (V A : Type) := state V -> state V * result A.
Definition ret {V A} (x : result A) : M V A := fun s => (s, x).
Definition andthen {V A B} (m : M V A) (f : A -> M V B) : M V B :=
  fun s => match m s with
           | (s', Ok a) => f a s'
           | (s', Err e) => (s', Err e)
           end.
Notation "x <- m ;; f" := (andthen m (fun x => f)) (at level 61, m at next level, right associativity).
(** The process stops. *)
Definition Crash : exn := UserError 0.
Definition tick {V} : M V unit := fun s =>
  match fuel s with
  | Some O => (s, Err Crash)
  | Some (S n) => (State (files s) (db s) (log s) (Some n), Ok tt)
  | None => (s, Ok tt)
  end.
Definition effect {V A} (f : state V -> state V * result A) : M V A := _ <- tick ;; f.
Definition with_db {V} (s : state V) (b : backend) : state V := State (files s) b (log s) (fuel s).
Definition with_log {V} (s : state V) (a : action V) : state V := State (files s) (db s) (a :: log s) (fuel s).
Definition with_file {V} (s : state V) (l : location) (d : str) : state V :=
  State (dset location_eqb (files s) l d) (db s) (log s) (fuel s).

Fixpoint eachM {V A} (f : A -> M V unit) (l : list A) : M V unit :=
  match l with [] => ret (Ok tt) | x :: l' => _ <- f x ;; eachM f l' end.
Fixpoint collectM {V A B} (f : A -> M V B) (l : list A) : M V (list B) :=
  match l with
  | [] => ret (Ok [])
  | x :: l' => y <- f x ;; ys <- collectM f l' ;; ret (Ok (y :: ys))
  end.

Section Run.
  Context {V : Type} (E : env V).
  Notation M := (M V).
  Notation state := (state V).

  (** ** Storage *)
  Definition is_some {A} (x : option A) : bool := match x with Some _ => true | None => false end.
  Definition get_fp (fps : list (pkey * option Z)) (k : pkey) : option Z :=
    match dget str_eqb fps k with Some f => f | None => None end.
  Definition is_nil {A} (l : list A) : bool := match l with [] => true | _ => false end.

  (** [_check_key] and [generate_partition]. *)
  Definition generate_partition (st : storage) (f : option Z) (k : pkey) : result partition :=
    if st_partitioned st && is_nil k then Err ValueError
    else if negb (is_nil k) && negb (st_partitioned st) then Err ValueError
    else if Bool.eqb (st_templated st) (is_some f)
         then Ok (Partition st k f (match st_kind st with SLiteral v => v | SFile => None end))
         else Err ValueError.

  (** The data of a partition: a file's content, or a literal's value. *)
  Definition content (fs : list (location * str)) (p : partition) : option str :=
    match st_kind (pt_storage p) with
    | SFile => dget location_eqb fs (location_of p)
    | SLiteral _ => pt_value p
    end.
  (** [compute_content_fingerprint], [snapshot]. *)
  Definition take_snapshot (fs : list (location * str)) (p : partition) : result psnapshot :=
    match content fs p with
    | None => Err FileNotFoundError
    | Some d => Ok (PSnapshot p (match st_kind (pt_storage p) with SFile => file_fp E d | SLiteral _ => from_string E d end))
    end.
  (** [discover_partitions]. A file is found if the storage could have generated it. *)
  Definition generated_by (st : storage) (l : location) : bool :=
    let '(i, k, f) := l in
    str_eqb i (st_id st) && Bool.eqb (st_templated st) (is_some f) && Bool.eqb (st_partitioned st) (negb (is_nil k)).
  Definition discover (fs : list (location * str)) (st : storage) (fps : list (pkey * option Z)) : result (list psnapshot) :=
    match st_kind st with
    | SFile =>
        mapM (fun lk => take_snapshot fs (Partition st (snd (fst lk)) (snd lk) None))
             (filter (fun l => generated_by st l && option_eqb Z.eqb (get_fp fps (snd (fst l))) (snd l)) (map fst fs))
    | SLiteral v =>
        if negb (is_nil fps) && is_some v then Err ValueError
        else if st_partitioned st && is_nil fps then Err ValueError
        else match v with
             | None => Ok []
             | Some _ => mapM (fun kf => bind (generate_partition st (snd kf) (fst kf)) (take_snapshot fs))
                              (match fps with [] => [([], None)] | _ => fps end)
             end
    end.

  (** ** The backend, from the executor *)
  Definition read_links (s : snapshot) (key : str) : M (list psnapshot) := effect (fun st =>
    let '(b, l) := read_snapshot_partitions (db st) s key in (with_db st b, Ok (iter_set E l))).
  Definition write_links (s : snapshot) (key : str) (new : list psnapshot) : M unit := effect (fun st =>
    (with_db st (write_snapshot_partitions (db st) s key new), Ok tt)).
  Definition write_known (st : storage) (new : list psnapshot) : M unit := effect (fun s =>
    (with_db s (write_artifact_partitions (db s) st new), Ok tt)).
  Definition read_known (st : storage) (fps : list (pkey * option Z)) : M (list psnapshot) := effect (fun s =>
    let '(b, r) := read_artifact_partitions (db s) st fps (discover (files s) st fps) in
    (with_db s b, rmap (iter_set E) r)).

  (** [graph.artifact_to_key[artifact]] *)
  Definition key_of (g : graph_def) (a : artifact) : result str :=
    match dget artifact_eqb (artifact_to_key (g_arts g)) a with Some k => Ok k | None => Err KeyError end.
  (** [graph.producer_outputs[producer]] *)
  Definition outputs_of (g : graph_def) (p : producer) : result (list artifact) :=
    match dget producer_eqb (producer_outputs (g_arts g)) p with Some l => Ok l | None => Err KeyError end.
  Definition class_of (p : producer) : pclass V := classes E (p_class p).
  Definition n_outputs (p : producer) : nat := match c_build (class_of p) with Single _ => 1 | Multiple n _ => n end.

  (** ** Producers *)
  Definition same_names (l m : list str) : bool :=
    forallb (fun x => existsb (str_eqb x) m) l && forallb (fun x => existsb (str_eqb x) l) m.
  Definition input_fingerprint (p : producer) (deps : list (str * list psnapshot)) : result Z :=
    if same_names (map fst deps) (c_build_inputs (class_of p))
    then Ok (fold_left Z.lxor (p_version p :: map ps_content (flat_map snd deps)) (from_string E (p_class p)))
    else Err ValueError.
  Definition compute_dependencies (p : producer) (inputs : list (str * list psnapshot)) :
      result (list (pkey * list (str * list psnapshot)) * list (pkey * option Z)) :=
    bind (c_map (class_of p) (filter (fun i => existsb (str_eqb (fst i)) (c_map_inputs (class_of p))) inputs)) (fun m =>
    let deps := dict_of str_eqb (map (fun kd => (fst kd, dict_of str_eqb (snd kd))) m) in
    bind (mapM (fun kd => rmap (fun f => (fst kd, Some f)) (input_fingerprint p (snd kd))) deps) (fun fps =>
    Ok (deps, fps))).

  (** ** io *)
  Definition io_read (a : artifact) (parts : list psnapshot) : M V := fun s =>
    (s, match parts with
        | [] => Err FileNotFoundError
        | _ =>
          if (1 <? List.length parts) && negb (st_partitioned (a_storage a)) then Err ValueError
          else bind (mapM (fun x => match content (files s) (ps_part x) with
                                    | Some d => Ok d
                                    | None => Err (match st_kind (pt_storage (ps_part x)) with SFile => FileNotFoundError | SLiteral _ => AssertionError end)
                                    end) parts) (load E a)
        end).
  (** [open(path, "w")] empties the file before the data is written. *)
  Definition io_write (a : artifact) (v : V) (p : partition) : M psnapshot :=
    match st_kind (pt_storage p) with
    | SFile =>
        _ <- effect (fun s => (with_file s (location_of p) [], Ok tt)) ;;
        d <- ret (dump E a v) ;;
        _ <- effect (fun s => (with_log (with_file s (location_of p) d) (Wrote (location_of p) d), Ok tt)) ;;
        fun s => (s, take_snapshot (files s) p)
    | SLiteral _ =>
        match pt_value p with
        | Some _ => ret (Err ValueError)
        | None => d <- ret (dump E a v) ;;
                  fun s => (s, take_snapshot (files s) (Partition (pt_storage p) (pt_key p) (pt_fp p) (Some d)))
        end
    end.

  (** [snapshot.read(artifact, storage_partition_snapshots=..., view=...)] *)
  Definition read_input (s : snapshot) (a : artifact) (parts : list psnapshot) : M V :=
    _ <- ret (key_of (s_graph s) a) ;; io_read a parts.
  (** [snapshot.write(data, artifact=..., view=producer._outputs_[i])] *)
  Definition write_output (s : snapshot) (p : producer) (i : nat) (a : artifact) (f : Z) (k : pkey) (v : V) : M unit :=
    key <- ret (key_of (s_graph s) a) ;;
    _ <- ret (match a_output a with None => Err ValueError | Some _ => Ok tt end) ;;
    _ <- ret (check E p i a v) ;;
    part <- ret (generate_partition (a_storage a) (Some f) k) ;;
    x <- io_write a v part ;;
    _ <- write_known (a_storage a) [x] ;;
    write_links s key [x].

  (** ** Executor *)
  Definition get_producer_inputs (s : snapshot) (p : producer) : M (list (str * list psnapshot)) :=
    collectM (fun na => key <- ret (key_of (s_graph s) (snd na)) ;;
                        l <- read_links s key ;; ret (Ok (fst na, l))) (p_inputs p).
  (** Equal artifacts have been merged in [producer_outputs], so that the dict of partitions by
      output is a list here. *)
  Definition discover_producer_partitions (s : snapshot) (p : producer) (fps : list (pkey * option Z)) : M (list pkey) :=
    outs <- ret (outputs_of (s_graph s) p) ;;
    found <- collectM (fun a => l <- read_known (a_storage a) fps ;; ret (Ok (a, l))) outs ;;
    _ <- eachM (fun al => key <- ret (key_of (s_graph s) (fst al)) ;; write_links s key (snd al)) found ;;
    ret (Ok (map ps_key (flat_map snd found))).

  Definition call_build (p : producer) (k : pkey) (args : list (str * V)) : M (list V) :=
    effect (fun s => (with_log s (Built p k args),
      match c_build (class_of p) with Single f => rmap (fun v => [v]) (f args) | Multiple _ f => f args end)).
  Definition call_validate (p : producer) (k : pkey) (outputs : list V) : M bool :=
    effect (fun s => (with_log s (Validated p k outputs), c_validate (class_of p) outputs)).
  Fixpoint write_outputs (s : snapshot) (p : producer) (f : Z) (k : pkey) (i : nat) (outs : list artifact) (vs : list V) : M unit :=
    match vs with
    | [] => ret (Ok tt)
    | v :: vs' =>
        a <- ret (match nth_error outs i with Some a => Ok a | None => Err IndexError end) ;;
        _ <- ret (if i <? n_outputs p then Ok tt else Err IndexError) ;;
        _ <- write_output s p i a f k v ;;
        write_outputs s p f k (S i) outs vs'
    end.
  Definition build_producer_partition (s : snapshot) (p : producer) (existing : list pkey) (f : Z)
      (deps : list (str * list psnapshot)) (k : pkey) : M unit :=
    if existsb (str_eqb k) existing then ret (Ok tt)
    else
      args <- collectM (fun name =>
        a <- ret (match dget str_eqb (p_inputs p) name with Some a => Ok a | None => Err KeyError end) ;;
        d <- ret (match dget str_eqb deps name with Some d => Ok d | None => Err KeyError end) ;;
        v <- read_input s a d ;; ret (Ok (name, v))) (c_build_inputs (class_of p)) ;;
      vs <- call_build p k args ;;
      ok <- call_validate p k vs ;;
      if ok : bool then outs <- ret (outputs_of (s_graph s) p) ;; write_outputs s p f k 0 outs vs
      else ret (Err ValueError).

  Definition build_producer (s : snapshot) (p : producer) : M unit :=
    inputs <- get_producer_inputs s p ;;
    df <- ret (compute_dependencies p inputs) ;;
    existing <- discover_producer_partitions s p (snd df) ;;
    eachM (fun kd =>
      f <- ret (match get_fp (snd df) (fst kd) with Some f => Ok f | None => Err ValueError end) ;;
      build_producer_partition s p existing f (snd kd) (fst kd)) (fst df).
  Definition build_nodes (s : snapshot) (order : list node) : M unit :=
    eachM (fun n => match n with NArtifact _ => ret (Ok tt) | NProducer p => build_producer s p end) order.
  (** [LocalExecutor.build] *)
  Definition build (s : snapshot) : M unit :=
    order <- ret (static_order (dependencies (g_arts (s_graph s)))) ;; build_nodes s order.

  (** ** Snapshots: [GraphSnapshot.from_graph] *)
  Definition visit (g : graph_def) (fs : list (location * str)) (acc : Z * list (str * artifact * list psnapshot)) (n : node) :
      result (Z * list (str * artifact * list psnapshot)) :=
    let id := Z.lxor (fst acc) (node_fp E n) in
    match n with
    | NProducer _ => Ok (id, snd acc)
    | NArtifact a =>
        bind (key_of g a) (fun key =>
        let id := Z.lxor id (from_string E key) in
        match a_output a with
        | Some _ => Ok (id, snd acc)
        | None =>
            bind (discover fs (a_storage a) []) (fun parts =>
            match parts with
            | [] => Err ValueError
            | _ => Ok (fold_left Z.lxor (map (part_fp E) parts) id, snd acc ++ [(key, a, parts)])
            end)
        end)
    end.
  Fixpoint visit_all (g : graph_def) (fs : list (location * str)) (acc : Z * list (str * artifact * list psnapshot)) (l : list node) :
      result (Z * list (str * artifact * list psnapshot)) :=
    match l with [] => Ok acc | n :: l' => bind (visit g fs acc n) (fun acc' => visit_all g fs acc' l') end.
  Definition from_graph (g : graph_def) : M snapshot :=
    found <- (fun s => (s, visit_all g (files s) (graph_fp E g, []) (map fst (dependencies (g_arts g))))) ;;
    let s := Snapshot (fst found) g in
    _ <- effect (fun st => (with_db st (write_graph (graph_fp E) (db st) g), Ok tt)) ;;
    _ <- effect (fun st => (with_db st (write_snapshot (snapshot_fp E) (db st) s), Ok tt)) ;;
    _ <- eachM (fun kap => _ <- write_known (a_storage (snd (fst kap))) (snd kap) ;;
                           write_links s (fst (fst kap)) (snd kap)) (snd found) ;;
    ret (Ok s).
  (** [Graph.build] (144-146). *)
  Definition graph_build (g : graph_def) : M snapshot :=
    s <- from_graph g ;; _ <- build s ;; ret (Ok s).
End Run.

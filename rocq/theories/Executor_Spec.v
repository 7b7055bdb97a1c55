(** Builds: what is asked for, what is available, and which graphs are in order. *)
From Coq Require Import ZArith List Ascii String Bool Arith.
From Verif Require Import Base Str Graph_Model Graph_Spec Backend_Model Executor_Model.
Import ListNotations.
Open Scope list_scope.

(** The key under which an artifact of a graph is read: its last one. *)
Definition last_key (g : artifacts) (a : artifact) (key : str) : Prop :=
  exists l1 l2, g = l1 ++ (key, a) :: l2 /\ ~ In a (map snd l2).
(** Some artifact of the graph is output [i] of [p]. *)
Definition produces (g : artifacts) (p : producer) (i : nat) (a : artifact) : Prop :=
  exists k, In (k, a) g /\ a_output a = Some (p, i).

(** The partitions recorded for an artifact of a snapshot, as the backend returns them. *)
Definition linked {V} (s : state V) (sn : snapshot) (key : str) (x : psnapshot) : Prop :=
  In x (snd (read_snapshot_partitions (db s) sn key)).
(** A partition the backend knows for a storage. *)
Definition recorded {V} (s : state V) (t : storage) (x : psnapshot) : Prop :=
  exists l, dget storage_eqb (known (db s)) t = Some l /\ In x l.

Section Requests.
  Context {V : Type} (E : env V).
  (** The input partitions of a producer. *)
  Definition input_partitions (s : state V) (sn : snapshot) (p : producer) (inputs : list (str * list psnapshot)) : Prop :=
    Forall2 (fun na nl => fst nl = fst na /\ exists key, last_key (g_arts (s_graph sn)) (snd na) key /\
                          snd nl = iter_set E (snd (read_snapshot_partitions (db s) sn key)))
            (p_inputs p) inputs.
  (** The producer's map asks for partition [k], to be built from [deps]. *)
  Definition asks (s : state V) (sn : snapshot) (p : producer) (k : pkey) (deps : list (str * list psnapshot)) : Prop :=
    let c := classes E (p_class p) in
    exists inputs m l1 l2 d, input_partitions s sn p inputs /\
      c_map c (filter (fun i => existsb (str_eqb (fst i)) (c_map_inputs c)) inputs) = Ok m /\
      m = l1 ++ (k, d) :: l2 /\ ~ In k (map fst l2) /\ deps = dict_of str_eqb d.
  (** The fingerprint of a producer's code and the contents it is built from. *)
  Definition fingerprint_for (p : producer) (deps : list (str * list psnapshot)) : Z :=
    fold_right Z.lxor 0%Z (from_string E (p_class p) :: p_version p :: map ps_content (flat_map snd deps)).

  (** [build] of a producer, with a single output as a list. *)
  Definition runs (c : pclass V) (args : list (str * V)) (r : result (list V)) : Prop :=
    match c_build c with
    | Single f => r = match f args with Ok v => Ok [v] | Err e => Err e end
    | Multiple _ f => r = f args
    end.
  Definition outputs_declared (c : pclass V) : nat := match c_build c with Single _ => 1 | Multiple n _ => n end.

  (** Graphs in order: keys are unique; produced artifacts do not share a storage; each output
      of a producer is assigned at most once and exists; builds return as many values as
      declared. *)
  Record in_order (g : artifacts) : Prop := {
    io_keys : NoDup (map fst g);
    io_storages : forall p i a q j b, produces g p i a -> produces g q j b -> a_storage a = a_storage b -> a = b;
    io_positions : forall p i a b, produces g p i a -> produces g p i b -> a = b;
    io_declared : forall p i a, produces g p i a -> i < outputs_declared (classes E (p_class p));
    io_returns : forall p i a args vs, produces g p i a -> runs (classes E (p_class p)) args (Ok vs) ->
      List.length vs = outputs_declared (classes E (p_class p)) }.

  (** A partition a producer would find: recorded, or a file of a storage the backend has not
      seen. *)
  Definition available (s : state V) (t : storage) (k : pkey) (f : Z) : Prop :=
    match dget storage_eqb (known (db s)) t with
    | Some l => exists x, In x l /\ ps_key x = k /\ ps_fp x = Some f
    | None => st_kind t = SFile /\ st_templated t = true /\ st_partitioned t = negb (is_nil k) /\
              dget location_eqb (files s) (st_id t, k, Some f) <> None
    end.
  (** No partition is available for some but not all outputs of a producer. *)
  Definition all_or_none (s : state V) (g : artifacts) : Prop :=
    forall p i a j b k f, produces g p i a -> produces g p j b ->
      available s (a_storage a) k f -> available s (a_storage b) k f.
  Definition distinct_paths (g : artifacts) : Prop :=
    forall p i a q j b, produces g p i a -> produces g q j b -> st_id (a_storage a) = st_id (a_storage b) -> a = b.
  (** [tuple(a_set)] lists the elements of the set. *)
  Definition iterates : Prop := forall l x, In x (iter_set E l) <-> In x l.
  (** Its order depends on the elements only. *)
  Definition settled : Prop := forall l l', (forall x, In x l <-> In x l') -> iter_set E l = iter_set E l'.
  (** The partitions a map asks for are among those it is given. *)
  Definition picks : Prop := forall c inputs m k d n l x, c_map (classes E c) inputs = Ok m ->
    In (k, d) m -> In (n, l) d -> In x l -> exists n' l', In (n', l') inputs /\ In x l'.
End Requests.

(** Histories of one or several processes: files change in any way, the process restarts with an
    empty backend or is bound to stop after some effects, graphs are snapshotted and built with
    any outcome. *)
Inductive happens {V} (E : env V) : state V -> state V -> Prop :=
| happens_files : forall s fs, happens E s (State fs (db s) (log s) (fuel s))
| happens_restart : forall s, happens E s (State (files s) empty_backend (log s) (fuel s))
| happens_limit : forall s n, happens E s (State (files s) (db s) (log s) n)
| happens_snapshot : forall s g s' r, from_graph E g s = (s', r) -> happens E s s'
| happens_build : forall s sn order s' r, build_nodes E sn order s = (s', r) -> happens E s s'.
Inductive arises {V} (E : env V) : state V -> Prop :=
| arises_start : forall fs n, arises E (State fs empty_backend [] n)
| arises_then : forall s s', arises E s -> happens E s s' -> arises E s'.

(** Produced artifacts have {input_fingerprint} in their storage: assignment to a graph requires
    it (src/arti/graphs/__init__.py 73-76). *)
Definition templated (g : artifacts) : Prop := forall p i a, produces g p i a -> st_templated (a_storage a) = true.

(** What a recorded partition holds now. *)
Definition holds_data {V} (s : state V) (x : psnapshot) (d : str) : Prop :=
  match st_kind (pt_storage (ps_part x)) with
  | SFile => dget location_eqb (files s) (st_id (pt_storage (ps_part x)), ps_key x, ps_fp x) = Some d
  | SLiteral _ => pt_value (ps_part x) = Some d
  end.
(** No output of a producer is left out before one that is in the graph. *)
Definition no_gaps (g : artifacts) : Prop := forall p i a j, produces g p i a -> j < i -> exists b, produces g p j b.
(** Each position of a producer is assigned at most once. *)
Definition unique_positions (g : artifacts) : Prop := forall p i a b, produces g p i a -> produces g p i b -> a = b.

Section Data.
  Context {V : Type} (E : env V).
  (** The arguments of [build]: the data of the partitions. *)
  Definition reads (s : state V) (p : producer) (deps : list (str * list psnapshot)) (args : list (str * V)) : Prop :=
    Forall2 (fun name nv => fst nv = name /\ exists a d ds, dget str_eqb (p_inputs p) name = Some a /\ dget str_eqb deps name = Some d /\
               d <> [] /\ Forall2 (holds_data s) d ds /\ load E a ds = Ok (snd nv))
            (c_build_inputs (classes E (p_class p))) args.
  (** What a producer computes for an artifact. *)
  Definition computes (a : artifact) (args : list (str * V)) (data : str) : Prop :=
    exists p i vs v, a_output a = Some (p, i) /\ runs (classes E (p_class p)) args (Ok vs) /\ nth_error vs i = Some v /\ dump E a v = Ok data.
  (** The data of partition [k] with fingerprint [f] of an artifact is recorded for a snapshot. *)
  Definition stored (s : state V) (sn : snapshot) (a : artifact) (k : pkey) (f : Z) (data : str) : Prop :=
    exists key x, last_key (g_arts (s_graph sn)) a key /\ linked s sn key x /\ recorded s (a_storage a) x /\
      pt_storage (ps_part x) = a_storage a /\ ps_key x = k /\ ps_fp x = Some f /\ holds_data s x data.

  (** Requests: an artifact, the key of a partition, what it is built from and the arguments
      read from that. Requests agree if those for the same path, key and fingerprint compute the
      same data. *)
  Definition requests := artifact -> pkey -> list (str * list psnapshot) -> list (str * V) -> Prop.
  Definition agree (R : requests) : Prop := forall a p i k d args data a' p' i' d' args' data',
    R a k d args -> R a' k d' args' -> a_output a = Some (p, i) -> a_output a' = Some (p', i') ->
    st_id (a_storage a) = st_id (a_storage a') -> fingerprint_for E p d = fingerprint_for E p' d' ->
    computes a args data -> computes a' args' data' -> data = data'.
  (** The requests of a build that led from [s] to [s']: all calls of [build] and everything
      that is asked for in the end. *)
  Definition covers (R : requests) (sn : snapshot) (s s' : state V) : Prop := forall new p i a k d args,
    log s' = new ++ log s -> produces (g_arts (s_graph sn)) p i a -> asks E s' sn p k d ->
    In (Built p k args) new \/ reads s' p d args -> R a k d args.
  (** What passes the check of an output can be written. *)
  Definition writable : Prop := forall p i a v, check E p i a v = Ok tt -> exists d, dump E a v = Ok d.

  (** Histories with requests [R]: raw data changes, processes restart, graphs are snapshotted
      and built with any outcome; produced files are left alone and no process is stopped half
      way. *)
  Inductive follows (R : requests) : state V -> state V -> Prop :=
  | follows_raw : forall s fs, (forall i k f, dget location_eqb fs (i, k, Some f) = dget location_eqb (files s) (i, k, Some f)) ->
      follows R s (State fs (db s) (log s) (fuel s))
  | follows_restart : forall s, follows R s (State (files s) empty_backend (log s) (fuel s))
  | follows_snapshot : forall s g s' r, from_graph E g s = (s', r) -> follows R s s'
  | follows_build : forall s sn order s' r, build_nodes E sn order s = (s', r) ->
      NoDup (map fst (g_arts (s_graph sn))) -> build_order (dependencies (g_arts (s_graph sn))) order ->
      templated (g_arts (s_graph sn)) -> no_gaps (g_arts (s_graph sn)) -> covers R sn s s' -> follows R s s'.
  Inductive history (R : requests) : state V -> Prop :=
  | history_start : forall fs, (forall i k f, ~ In (i, k, Some f) (map fst fs)) -> history R (State fs empty_backend [] None)
  | history_then : forall s s', history R s -> follows R s s' -> history R s'.
End Data.

(** What there is of a raw artifact: files without fingerprint, or the value of a literal. *)
Definition raw_found {V} (E : env V) (s : state V) (t : storage) (x : psnapshot) : Prop :=
  st_templated t = false /\
  match st_kind t with
  | SFile => exists k d, dget location_eqb (files s) (st_id t, k, None) = Some d /\ st_partitioned t = negb (is_nil k) /\
               x = PSnapshot (Partition t k None None) (file_fp E d)
  | SLiteral v => exists d, v = Some d /\ st_partitioned t = false /\ x = PSnapshot (Partition t [] None (Some d)) (from_string E d)
  end.

(** Exactly one element differs. *)
Inductive one_change : list Z -> list Z -> Prop :=
| change_one : forall l x y m, x <> y -> one_change (l ++ x :: m) (l ++ y :: m).
(** Everything recorded and every file is still there. *)
Definition kept {V} (s s' : state V) : Prop :=
  (forall sn key x, linked s sn key x -> linked s' sn key x) /\
  (forall t x, recorded s t x -> recorded s' t x) /\
  (forall l, dget location_eqb (files s) l <> None -> dget location_eqb (files s') l <> None).

(** Processes that build a graph and stop: each finds the files the one before it left, but for some
    that are taken back to what they were, such that what remains is as [want] has it. *)
Inductive attempts {V} (E : env V) (g : graph_def) (want : list (location * str)) : list (location * str) -> list (location * str) -> Prop :=
| attempts_none : forall fs, attempts E g want fs fs
| attempts_more : forall fs fs1 n s r fs2, attempts E g want fs fs1 ->
    graph_build E g (State fs1 empty_backend [] (Some n)) = (s, r) -> NoDup (map fst fs2) ->
    (forall l, dget location_eqb fs2 l = dget location_eqb (files s) l \/ dget location_eqb fs2 l = dget location_eqb fs1 l) ->
    (forall l d, dget location_eqb fs2 l = Some d -> dget location_eqb want l = Some d) -> attempts E g want fs fs2.

(** What is stated about processes that build at the same time, apart from the model's functions. *)
From Coq Require Import ZArith List Ascii String Bool Arith.
From Verif Require Import Base Str Graph_Model Graph_Spec Backend_Model Executor_Model Executor_Spec Concurrent_Model.
Import ListNotations.
Open Scope list_scope.

(** The storages of a graph, and those of its produced artifacts. *)
Definition uses (g : graph_def) (i : str) : Prop := exists k a, In (k, a) (g_arts g) /\ st_id (a_storage a) = i.
Definition writes (g : graph_def) (i : str) : Prop := exists k a, In (k, a) (g_arts g) /\ a_output a <> None /\ st_id (a_storage a) = i.
(** No process writes where another reads or writes; raw data may be shared. *)
Definition independent {V} (jobs : list (env V * graph_def)) : Prop := forall before E g after E' g' i,
  jobs = before ++ (E, g) :: after -> In (E', g') (before ++ after) -> writes g i -> ~ uses g' i.
(** Jobs whose maps ask for what they are given. *)
Definition proper {V} (jobs : list (env V * graph_def)) : Prop := forall E g, In (E, g) jobs ->
  NoDup (map fst (g_arts g)) /\ iterates E /\ picks E.

(** ** Right data: a set [R] of data per location, such that what is built from right data is right. *)
Section Right.
  Context {V : Type} (R : location -> str -> Prop) (E : env V) (g : graph_def).
  Definition holds (x : psnapshot) (d : str) : Prop :=
    match st_kind (pt_storage (ps_part x)) with
    | SFile => R (st_id (pt_storage (ps_part x)), ps_key x, ps_fp x) d
    | SLiteral _ => pt_value (ps_part x) = Some d
    end.
  (** A partition of a storage as it may be recorded: with the fingerprint of right data, or that
      of a file that has just been opened for writing. *)
  Definition seen (st : storage) (x : psnapshot) : Prop :=
    pt_storage (ps_part x) = st /\
    exists d, (holds x d \/ (d = [] /\ st_kind st = SFile)) /\
      ps_content x = match st_kind st with SFile => file_fp E d | SLiteral _ => from_string E d end.
  (** What a producer's map may ask for. *)
  Definition may_ask (p : producer) (k : pkey) (deps : list (str * list psnapshot)) : Prop :=
    let c := classes E (p_class p) in
    exists inputs m l1 l2 d,
      Forall2 (fun na nl => fst nl = fst na /\ Forall (seen (a_storage (snd na))) (snd nl)) (p_inputs p) inputs /\
      c_map c (filter (fun i => existsb (str_eqb (fst i)) (c_map_inputs c)) inputs) = Ok m /\
      m = l1 ++ (k, d) :: l2 /\ ~ In k (map fst l2) /\ deps = dict_of str_eqb d.
  (** Arguments that are all read from right data. *)
  Definition arguments (p : producer) (deps : list (str * list psnapshot)) (args : list (str * V)) : Prop :=
    Forall2 (fun name nv => fst nv = name /\ exists a l ds, dget str_eqb (p_inputs p) name = Some a /\ dget str_eqb deps name = Some l /\
               l <> [] /\ (List.length l = 1 \/ st_partitioned (a_storage a) = true) /\ Forall2 holds l ds /\ load E a ds = Ok (snd nv))
            (c_build_inputs (classes E (p_class p))) args.
  Definition closed : Prop := forall p i a k deps args vs v data, produces (g_arts g) p i a -> may_ask p k deps -> arguments p deps args ->
    runs (classes E (p_class p)) args (Ok vs) -> nth_error vs i = Some v -> dump E a v = Ok data ->
    R (st_id (a_storage a), k, Some (fingerprint_for E p deps)) data.
End Right.
(** A file that is empty, as it is right after it has been opened to write it, is no data. *)
Definition rejects_empty {V} (E : env V) : Prop := forall a ds v, load E a ds = Ok v -> ~ In [] ds.
(** Jobs that store what they produce in files that are refused as long as they are empty. *)
Definition orderly {V} (jobs : list (env V * graph_def)) : Prop := forall E g, In (E, g) jobs ->
  NoDup (map fst (g_arts g)) /\ iterates E /\ no_gaps (g_arts g) /\ writable E /\ rejects_empty E /\
  forall p i a, produces (g_arts g) p i a -> st_kind (a_storage a) = SFile.
(** A process that has opened a file and not written it yet. *)
Definition halfway {V} (l : location) (P : process V) : Prop :=
  exists d k, rest P = Act (fun s => with_log (with_file s l d) (Wrote l d)) k.
Definition through {V} (P : process V) : Prop := exists r, rest P = Done r.

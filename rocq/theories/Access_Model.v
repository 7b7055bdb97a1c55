(** Model of reading and writing artifacts by hand: [Graph.read], [Graph.write]
    (src/arti/graphs/__init__.py 203-291) and [GraphSnapshot.read], [GraphSnapshot.write] (384-423).
    Definitions only.

    Simplifications. The graph is sealed ([requires_sealed]: C34). There is one backend: a
    connection passed as an argument leads to the graph's own backend. Views and annotations are
    opaque; [Views] collects what is asked of them. See Executor_Model for files, storages and
    what [io.read] and [io.write] do. *)
From Coq Require Import ZArith List Ascii String Bool Arith.
From Verif Require Import Base Str Graph_Model Backend_Model Executor_Model.
Import ListNotations.
Open Scope list_scope.

(** [V] data, [W] views, [N] annotations. *)
Record views (V W N : Type) := Views {
  view_for : bool -> N -> artifact -> result W;    (* View.get_class_for(annotation)(artifact_class=..., type=..., mode=...), mode="WRITE" if true *)
  fits_annotation : W -> N -> result unit;         (* view.check_annotation_compatibility *)
  fits_artifact : W -> artifact -> result unit;    (* view.check_artifact_compatibility *)
  type_of : V -> N;                                (* type(data) *)
  encode : W -> artifact -> V -> result str;       (* what the writer of the view writes *)
  decode : W -> artifact -> list str -> result V   (* what the reader of the view makes of the data of the partitions *) }.
Arguments view_for {V W N} _ _ _ _.
Arguments fits_annotation {V W N} _ _ _.
Arguments fits_artifact {V W N} _ _ _.
Arguments type_of {V W N} _ _.
Arguments encode {V W N} _ _ _ _.
Arguments decode {V W N} _ _ _ _.

Section Access.
  Context {V W N : Type} (E : env V) (X : views V W N).
  (** [io.read(..., view=view)] and [io.write(..., view=view)]. *)
  Definition through (w : W) : env V :=
    Env V (classes E) (from_string E) (file_fp E) (graph_fp E) (node_fp E) (part_fp E) (snapshot_fp E)
      (encode X w) (decode X w) (check E) (iter_set E).

  (** [Graph.read], 214-225. *)
  Definition reading_view (a : artifact) (annotation : option N) (view : option W) : result W :=
    match annotation, view with
    | None, None => Err ValueError
    | Some _, Some _ => Err ValueError
    | Some n, None =>
        bind (view_for X false n a) (fun w =>
        bind (fits_annotation X w n) (fun _ =>
        bind (fits_artifact X w a) (fun _ => Ok w)))
    | None, Some w => Ok w
    end.
  (** 226-240. *)
  Definition partitions_to_read (g : graph_def) (key : str) (a : artifact) (sn : option snapshot) (parts : option (list psnapshot)) : M V (list psnapshot) :=
    match parts with
    | Some l => ret (Ok l)
    | None =>
        match sn, a_output a with
        | None, None => fun s => (s, discover E (files s) (a_storage a) [])
        | _, _ =>
            sn' <- match sn with Some x => ret (Ok x) | None => from_graph E g end ;;
            read_links E sn' key
        end
    end.
  Definition read (g : graph_def) (a : artifact) (annotation : option N) (view : option W) (sn : option snapshot) (parts : option (list psnapshot)) : M V V :=
    key <- ret (key_of g a) ;;
    w <- ret (reading_view a annotation view) ;;
    l <- partitions_to_read g key a sn parts ;;
    io_read (through w) a l.

  (** [Graph.write], 260-291. *)
  Definition writing_view (v : V) (a : artifact) (view : option W) : result W :=
    bind (match view with Some w => Ok w | None => view_for X true (type_of X v) a end) (fun w =>
    bind (fits_annotation X w (type_of X v)) (fun _ =>
    bind (fits_artifact X w a) (fun _ => Ok w))).
  Definition write (g : graph_def) (v : V) (a : artifact) (f : option Z) (k : pkey) (view : option W) (sn : option snapshot) : M V psnapshot :=
    key <- ret (key_of g a) ;;
    _ <- ret (if is_some sn && negb (is_some (a_output a)) then Err ValueError else Ok tt) ;;
    w <- ret (writing_view v a view) ;;
    part <- ret (generate_partition (a_storage a) f k) ;;
    x <- io_write (through w) a v part ;;
    _ <- write_known (a_storage a) [x] ;;
    _ <- match sn, a_output a with
         | Some sn', Some _ => write_links sn' key [x]
         | _, _ => ret (Ok tt)
         end ;;
    ret (Ok x).

  (** [GraphSnapshot.read], [GraphSnapshot.write] *)
  Definition snapshot_read (sn : snapshot) (a : artifact) (annotation : option N) (view : option W) (parts : option (list psnapshot)) : M V V :=
    read (s_graph sn) a annotation view (Some sn) parts.
  Definition snapshot_write (sn : snapshot) (v : V) (a : artifact) (f : option Z) (k : pkey) (view : option W) : M V psnapshot :=
    write (s_graph sn) v a f k view (Some sn).
End Access.

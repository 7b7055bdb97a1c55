(** Model of src/arti/backends/memory.py 34-132 (the container and its operations), of the
    storage partitions it records (src/arti/storage/__init__.py 31-60) and of
    src/arti/backends/__init__.py 105-114. Definitions only.

    [defaultdict] lookups create missing entries; this is modelled ([touch]). Sets are lists
    without repetition in order of insertion; Python's iteration order is arbitrary. *)
From Coq Require Import ZArith List Ascii String Bool Arith.
From Verif Require Import Base Str Graph_Model.
Import ListNotations.
Open Scope list_scope.

(** Partition keys, with [[]] for NotPartitioned. The fields of a key are not looked at here. *)
Definition pkey := str.

(** StoragePartition: for files the path is determined by storage, key and fingerprint (C15,
    C16); literals carry their value. *)
Record partition := Partition { pt_storage : storage; pt_key : pkey; pt_fp : option Z; pt_value : option str }.
Record psnapshot := PSnapshot { ps_part : partition; ps_content : Z }.
Definition ps_key (s : psnapshot) : pkey := pt_key (ps_part s).
Definition ps_fp (s : psnapshot) : option Z := pt_fp (ps_part s).

Definition partition_eqb (x y : partition) : bool :=
  storage_eqb (pt_storage x) (pt_storage y) && str_eqb (pt_key x) (pt_key y) &&
  option_eqb Z.eqb (pt_fp x) (pt_fp y) && option_eqb str_eqb (pt_value x) (pt_value y).
Definition psnapshot_eqb (x y : psnapshot) : bool :=
  partition_eqb (ps_part x) (ps_part y) && (ps_content x =? ps_content y)%Z.

(** Graphs and GraphSnapshots (src/arti/graphs/__init__.py 97-107 and 302-303), without the
    backend, the path tags and the caches. *)
Record graph_def := GraphDef { g_name : str; g_arts : artifacts }.
Record snapshot := Snapshot { s_id : Z; s_graph : graph_def }.
Fixpoint list_eqb {A} (eqb : A -> A -> bool) (l m : list A) : bool :=
  match l, m with
  | [], [] => true
  | x :: l', y :: m' => eqb x y && list_eqb eqb l' m'
  | _, _ => false
  end.
Definition graph_eqb (x y : graph_def) : bool :=
  str_eqb (g_name x) (g_name y) &&
  list_eqb (fun a b => str_eqb (fst a) (fst b) && artifact_eqb (snd a) (snd b)) (g_arts x) (g_arts y).
Definition snapshot_eqb (x y : snapshot) : bool := (s_id x =? s_id y)%Z && graph_eqb (s_graph x) (s_graph y).

(** [_NoCopyContainer] (46-58). *)
Record backend := Backend {
  graphs : list (str * list (Z * graph_def));
  snapshots : list (str * list (Z * snapshot));
  links : list (snapshot * list (str * list psnapshot));
  tags : list (str * list (str * snapshot));
  known : list (storage * list psnapshot) }.
Definition empty_backend : backend := Backend [] [] [] [] [].

(** [d[k]] of a defaultdict with default value [v]. *)
Definition touch {K V} (eqb : K -> K -> bool) (d : list (K * V)) (k : K) (v : V) : list (K * V) * V :=
  match dget eqb d k with Some x => (d, x) | None => (dset eqb d k v, v) end.
(** [s.update(new)]. *)
Definition adds (s new : list psnapshot) : list psnapshot :=
  fold_left (fun s x => if existsb (psnapshot_eqb x) s then s else s ++ [x]) new s.

(** [write_artifact_partitions] (84-87). *)
Definition write_artifact_partitions (b : backend) (st : storage) (new : list psnapshot) : backend :=
  let '(d, s) := touch storage_eqb (known b) st [] in
  Backend (graphs b) (snapshots b) (links b) (tags b) (dset storage_eqb d st (adds s new)).

(** [read_artifact_partitions] (66-82). [discovered] is what [storage.discover_partitions] would
    return; it is only asked if the storage was never seen. *)
Definition matches (fps : list (pkey * option Z)) (s : psnapshot) : bool :=
  option_eqb Z.eqb (match dget str_eqb fps (ps_key s) with Some f => f | None => None end) (ps_fp s).
Definition select (fps : list (pkey * option Z)) (l : list psnapshot) : list psnapshot :=
  match fps with [] => l | _ => filter (matches fps) l end.
Definition read_artifact_partitions (b : backend) (st : storage) (fps : list (pkey * option Z))
    (discovered : result (list psnapshot)) : backend * result (list psnapshot) :=
  let warmed := if dmem storage_eqb (known b) st then Ok b
                else rmap (write_artifact_partitions b st) discovered in
  match warmed with
  | Err e => (b, Err e)
  | Ok b' => let '(d, s) := touch storage_eqb (known b') st [] in
             (Backend (graphs b') (snapshots b') (links b') (tags b') d, Ok (select fps s))
  end.

(** [read_snapshot_partitions], [write_snapshot_partitions] (118-132). *)
Definition read_snapshot_partitions (b : backend) (s : snapshot) (key : str) : backend * list psnapshot :=
  let '(d, byk) := touch snapshot_eqb (links b) s [] in
  let '(byk', l) := touch str_eqb byk key [] in
  (Backend (graphs b) (snapshots b) (dset snapshot_eqb d s byk') (tags b) (known b), l).
Definition write_snapshot_partitions (b : backend) (s : snapshot) (key : str) (new : list psnapshot) : backend :=
  let '(d, byk) := touch snapshot_eqb (links b) s [] in
  let '(byk', l) := touch str_eqb byk key [] in
  Backend (graphs b) (snapshots b) (dset snapshot_eqb d s (dset str_eqb byk' key (adds l new))) (tags b) (known b).

(** [read_snapshot_tag], [write_snapshot_tag] (101-116). *)
Definition read_snapshot_tag (b : backend) (name tag : str) : backend * result snapshot :=
  let '(d, byt) := touch str_eqb (tags b) name [] in
  (Backend (graphs b) (snapshots b) (links b) d (known b),
   match dget str_eqb byt tag with Some s => Ok s | None => Err ValueError end).
Definition write_snapshot_tag (b : backend) (s : snapshot) (tag : str) (overwrite : bool) : backend * result unit :=
  let '(d, byt) := touch str_eqb (tags b) (g_name (s_graph s)) [] in
  let b' := Backend (graphs b) (snapshots b) (links b) d (known b) in
  match dget str_eqb byt tag, overwrite with
  | Some _, false => (b', Err ValueError)
  | _, _ => (Backend (graphs b) (snapshots b) (links b)
               (dset str_eqb d (g_name (s_graph s)) (dset str_eqb byt tag s)) (known b), Ok tt)
  end.

(** [read_graph], [write_graph], [read_snapshot], [write_snapshot] (89-99), with the
    fingerprints of graphs and snapshots. *)
Section Fp.
  Context (graph_fp : graph_def -> Z) (snapshot_fp : snapshot -> Z).
  Definition read_graph (b : backend) (name : str) (f : Z) : backend * result graph_def :=
    let '(d, byf) := touch str_eqb (graphs b) name [] in
    (Backend d (snapshots b) (links b) (tags b) (known b),
     match dget Z.eqb byf f with Some g => Ok g | None => Err KeyError end).
  Definition write_graph (b : backend) (g : graph_def) : backend :=
    let '(d, byf) := touch str_eqb (graphs b) (g_name g) [] in
    Backend (dset str_eqb d (g_name g) (dset Z.eqb byf (graph_fp g) g)) (snapshots b) (links b) (tags b) (known b).
  Definition read_snapshot (b : backend) (name : str) (f : Z) : backend * result snapshot :=
    let '(d, byf) := touch str_eqb (snapshots b) name [] in
    (Backend (graphs b) d (links b) (tags b) (known b),
     match dget Z.eqb byf f with Some s => Ok s | None => Err KeyError end).
  Definition write_snapshot (b : backend) (s : snapshot) : backend :=
    let '(d, byf) := touch str_eqb (snapshots b) (g_name (s_graph s)) [] in
    Backend (graphs b) (dset str_eqb d (g_name (s_graph s)) (dset Z.eqb byf (snapshot_fp s) s)) (links b) (tags b) (known b).
End Fp.

(** [write_artifact_and_graph_partitions] (src/arti/backends/__init__.py 105-114). *)
Definition write_artifact_and_graph_partitions (b : backend) (s : snapshot) (key : str) (st : storage)
    (new : list psnapshot) : backend :=
  write_snapshot_partitions (write_artifact_partitions b st new) s key new.

(** Histories of backend operations and what they should leave behind. *)
From Coq Require Import ZArith List Ascii String Bool Arith.
From Verif Require Import Base Str Graph_Model Backend_Model.
Import ListNotations.
Open Scope list_scope.

(** An operation with what it returned. *)
Inductive event :=
| WroteArtifact (st : storage) (new : list psnapshot)
| ReadArtifact (st : storage) (fps : list (pkey * option Z)) (discovered r : result (list psnapshot))
| WroteLinks (s : snapshot) (key : str) (new : list psnapshot)
| ReadLinks (s : snapshot) (key : str) (r : list psnapshot)
| WroteTag (s : snapshot) (tag : str) (overwrite : bool) (r : result unit)
| ReadTag (name tag : str) (r : result snapshot)
| WroteGraph (g : graph_def) | ReadGraph (name : str) (f : Z) (r : result graph_def)
| WroteSnapshot (s : snapshot) | ReadSnapshot (name : str) (f : Z) (r : result snapshot).

Section Fp.
  Context (graph_fp : graph_def -> Z) (snapshot_fp : snapshot -> Z).
  Inductive does : backend -> event -> backend -> Prop :=
  | do_wa : forall b st new, does b (WroteArtifact st new) (write_artifact_partitions b st new)
  | do_ra : forall b st fps disc b' r, read_artifact_partitions b st fps disc = (b', r) -> does b (ReadArtifact st fps disc r) b'
  | do_wl : forall b s k new, does b (WroteLinks s k new) (write_snapshot_partitions b s k new)
  | do_rl : forall b s k b' r, read_snapshot_partitions b s k = (b', r) -> does b (ReadLinks s k r) b'
  | do_wt : forall b s t o b' r, write_snapshot_tag b s t o = (b', r) -> does b (WroteTag s t o r) b'
  | do_rt : forall b n t b' r, read_snapshot_tag b n t = (b', r) -> does b (ReadTag n t r) b'
  | do_wg : forall b g, does b (WroteGraph g) (write_graph graph_fp b g)
  | do_rg : forall b n f b' r, read_graph b n f = (b', r) -> does b (ReadGraph n f r) b'
  | do_ws : forall b s, does b (WroteSnapshot s) (write_snapshot snapshot_fp b s)
  | do_rs : forall b n f b' r, read_snapshot b n f = (b', r) -> does b (ReadSnapshot n f r) b'.

  (** Histories, latest event first, of a backend that starts empty. *)
  Inductive history : list event -> backend -> Prop :=
  | h_empty : history [] empty_backend
  | h_event : forall h b e b', history h b -> does b e b' -> history (e :: h) b'.

  (** The latest successful tagging under a graph name. *)
  Fixpoint tagged (h : list event) (name tag : str) : option snapshot :=
    match h with
    | [] => None
    | WroteTag s t _ (Ok _) :: h' =>
        if str_eqb (g_name (s_graph s)) name && str_eqb t tag then Some s else tagged h' name tag
    | _ :: h' => tagged h' name tag
    end.

  (** Partitions written for a snapshot and key. *)
  Definition linked_by (h : list event) (s : snapshot) (key : str) (p : psnapshot) : Prop :=
    exists new, In (WroteLinks s key new) h /\ In p new.
  (** The last graph and snapshot written under a name and fingerprint. *)
  Fixpoint saved_graph (h : list event) (name : str) (f : Z) : option graph_def :=
    match h with
    | [] => None
    | WroteGraph g :: h' => if str_eqb (g_name g) name && (graph_fp g =? f)%Z then Some g else saved_graph h' name f
    | _ :: h' => saved_graph h' name f
    end.
  Fixpoint saved_snapshot (h : list event) (name : str) (f : Z) : option snapshot :=
    match h with
    | [] => None
    | WroteSnapshot s :: h' => if str_eqb (g_name (s_graph s)) name && (snapshot_fp s =? f)%Z then Some s else saved_snapshot h' name f
    | _ :: h' => saved_snapshot h' name f
    end.

  (** A storage has been seen: something was written to it or it was read without failing. *)
  Definition seen (h : list event) (st : storage) : Prop :=
    (exists new, In (WroteArtifact st new) h) \/ (exists fps disc r, In (ReadArtifact st fps disc (Ok r)) h).
  (** Partitions recorded for a storage: those written to it, and those discovered the first
      time it was read if it had not been seen before. *)
  Inductive recorded : list event -> storage -> psnapshot -> Prop :=
  | rec_wrote : forall h st new p, In p new -> recorded (WroteArtifact st new :: h) st p
  | rec_warmed : forall h st fps found r p, ~ seen h st -> In p found ->
      recorded (ReadArtifact st fps (Ok found) (Ok r) :: h) st p
  | rec_later : forall h e st p, recorded h st p -> recorded (e :: h) st p.
  (** The partitions a reader asked for. *)
  Definition wanted (fps : list (pkey * option Z)) (p : psnapshot) : Prop :=
    fps = [] \/ dget str_eqb fps (ps_key p) = Some (ps_fp p) \/ (dget str_eqb fps (ps_key p) = None /\ ps_fp p = None).
End Fp.

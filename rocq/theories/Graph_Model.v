(** Model of src/arti/graphs/__init__.py lines 46-195 (Graph: definition, dependencies,
    outputs) and of [Producer.out] and [Producer.inputs], src/arti/producers/__init__.py
    369-415. Definitions only.

    Artifacts and producers are frozen Pydantic models: equality is structural and includes
    [producer_output]. Fields that no modelled code looks at separately (type, format,
    annotations, statistics, the class) are kept together as one opaque [a_spec]. *)
From Coq Require Import ZArith List Ascii String Bool Arith.
From Verif Require Import Base Str.
Import ListNotations.
Open Scope list_scope.

(** A Storage after the templates of graph and names are filled: files, or literals with an
    optional preset value (src/arti/storage/local.py 28-42, literal.py 26-30). [st_id] is the
    path (or id) template, [st_partitioned] whether [key_types] is non-empty and
    [st_templated] whether {input_fingerprint} occurs in it. *)
Inductive skind := SFile | SLiteral (value : option str).
Record storage := Storage { st_id : str; st_kind : skind; st_partitioned : bool; st_templated : bool }.

(** src/arti/artifacts/__init__.py 37-55, src/arti/producers/__init__.py 56-62 and 464-466.
    [p_class] identifies the producer's class; its annotations are left out. *)
Inductive artifact := Artifact (a_spec : str) (a_storage : storage) (a_output : option (producer * nat))
with producer := Producer (p_class : str) (p_version : Z) (p_inputs : list (str * artifact)).

Definition a_storage (a : artifact) : storage := match a with Artifact _ s _ => s end.
Definition a_output (a : artifact) : option (producer * nat) := match a with Artifact _ _ o => o end.
Definition p_class (p : producer) : str := match p with Producer c _ _ => c end.
Definition p_version (p : producer) : Z := match p with Producer _ v _ => v end.
Definition p_inputs (p : producer) : list (str * artifact) := match p with Producer _ _ i => i end.

Definition option_eqb {A} (eqb : A -> A -> bool) (x y : option A) : bool :=
  match x, y with None, None => true | Some a, Some b => eqb a b | _, _ => false end.
Definition skind_eqb (x y : skind) : bool :=
  match x, y with SFile, SFile => true | SLiteral v, SLiteral w => option_eqb str_eqb v w | _, _ => false end.
Definition storage_eqb (x y : storage) : bool :=
  str_eqb (st_id x) (st_id y) && skind_eqb (st_kind x) (st_kind y) &&
  Bool.eqb (st_partitioned x) (st_partitioned y) && Bool.eqb (st_templated x) (st_templated y).

Fixpoint artifact_eqb (a b : artifact) {struct a} : bool :=
  match a, b with
  | Artifact s t o, Artifact s' t' o' =>
      str_eqb s s' && storage_eqb t t' &&
      match o, o' with
      | None, None => true
      | Some (p, i), Some (q, j) => producer_eqb p q && (i =? j)
      | _, _ => false
      end
  end
with producer_eqb (p q : producer) {struct p} : bool :=
  match p, q with
  | Producer c v ins, Producer c' v' ins' =>
      str_eqb c c' && (v =? v')%Z &&
      (fix go (l m : list (str * artifact)) : bool :=
         match l, m with
         | [], [] => true
         | (n, x) :: l', (n', y) :: m' => str_eqb n n' && artifact_eqb x y && go l' m'
         | _, _ => false
         end) ins ins'
  end.

Inductive node := NArtifact (a : artifact) | NProducer (p : producer).
Definition node_eqb (x y : node) : bool :=
  match x, y with
  | NArtifact a, NArtifact b => artifact_eqb a b
  | NProducer p, NProducer q => producer_eqb p q
  | _, _ => false
  end.

(** [frozenset(iterable)], in order of first occurrence. *)
Definition set_of {A} (eqb : A -> A -> bool) (l : list A) : list A :=
  fold_left (fun s x => if existsb (eqb x) s then s else s ++ [x]) l [].

(** The artifacts of a graph as [ArtifactBox.walk] yields them: keys and artifacts. *)
Definition artifacts := list (str * artifact).

(** [Graph._artifact_to_key] (130-136): the last key of an artifact wins. *)
Definition artifact_to_key (g : artifacts) : list (artifact * str) :=
  dict_of artifact_eqb (map (fun ka => (snd ka, fst ka)) g).

(** [Graph.dependencies] (157-175). *)
Definition artifact_deps (g : artifacts) : list (node * list node) :=
  dict_of node_eqb (map (fun ka => (NArtifact (snd ka),
    match a_output (snd ka) with Some (p, _) => [NProducer p] | None => [] end)) g).
Definition producer_deps (g : artifacts) : list (node * list node) :=
  dict_of node_eqb (flat_map (fun ka =>
    match a_output (snd ka) with
    | Some (p, _) => [(NProducer p, set_of node_eqb (map (fun na => NArtifact (snd na)) (p_inputs p)))]
    | None => []
    end) g).
Definition dependencies (g : artifacts) : list (node * list node) :=
  dupdate node_eqb (artifact_deps g) (producer_deps g).

(** [Graph.producer_outputs] (182-195): by producer, the artifacts sorted by position, keeping
    the last artifact of each position. [sort_positions] is an insertion sort. *)
Fixpoint insert_position {A} (x : nat * A) (l : list (nat * A)) : list (nat * A) :=
  match l with
  | [] => [x]
  | y :: l' => if fst x <=? fst y then x :: l else y :: insert_position x l'
  end.
Definition sort_positions {A} (l : list (nat * A)) : list (nat * A) := fold_right insert_position [] l.
Definition outputs_by_position (g : artifacts) : list (producer * list (nat * artifact)) :=
  fold_left (fun d ka =>
    match a_output (snd ka) with
    | None => d
    | Some (p, i) =>
        let known := match dget producer_eqb d p with Some l => l | None => [] end in
        dset producer_eqb d p (dset Nat.eqb known i (snd ka))
    end) g [].
Definition producer_outputs (g : artifacts) : list (producer * list artifact) :=
  map (fun pl => (fst pl, map snd (sort_positions (snd pl)))) (outputs_by_position g).

(** [graphlib.TopologicalSorter(deps).static_order()] of the standard library: groups of nodes
    whose predecessors have all been handed out. Nodes occurring only as predecessors are nodes
    too. graphlib looks for a cycle before handing out anything; here a cycle shows as nodes
    left over. The order within a group is not graphlib's. *)
Definition all_nodes (deps : list (node * list node)) : list node :=
  set_of node_eqb (flat_map (fun np => fst np :: snd np) deps).
Definition predecessors (deps : list (node * list node)) (n : node) : list node :=
  match dget node_eqb deps n with Some l => l | None => [] end.
Definition mem (n : node) (l : list node) : bool := existsb (node_eqb n) l.
Fixpoint hand_out (fuel : nat) (deps : list (node * list node)) (rest out : list node) : result (list node) :=
  match rest, fuel with
  | [], _ => Ok out
  | _, O => Err CycleError
  | _, S fuel' =>
      let ready n := forallb (fun p => mem p out) (predecessors deps n) in
      match filter ready rest with
      | [] => Err CycleError
      | group => hand_out fuel' deps (filter (fun n => negb (ready n)) rest) (out ++ group)
      end
  end.
Definition static_order (deps : list (node * list node)) : result (list node) :=
  hand_out (List.length (all_nodes deps)) deps (all_nodes deps) [].

(** [Producer.out] (384-415), with the class's number of outputs, the artifacts it creates when
    called without arguments and [View.check_artifact_compatibility] of its i-th output. A
    single output is returned bare by Python. *)
Section Out.
  Context (n_outputs : nat) (defaults : list artifact) (compatible : nat -> artifact -> result unit).

  Definition with_output (a : artifact) (p : producer) (i : nat) : artifact :=
    match a with Artifact s t _ => Artifact s t (Some (p, i)) end.
  Definition validate_output (p : producer) (i : nat) (a : artifact) : result artifact :=
    bind (compatible i a) (fun _ =>
    match a_output a with
    | Some _ => Err ValueError
    | None => Ok (with_output a p i)
    end).
  Fixpoint validate_outputs (p : producer) (i : nat) (l : list artifact) : result (list artifact) :=
    match l with
    | [] => Ok []
    | a :: l' => bind (validate_output p i a) (fun b => bind (validate_outputs p (S i) l') (fun bs => Ok (b :: bs)))
    end.
  Definition out (p : producer) (l : list artifact) : result (list artifact) :=
    let l := match l with [] => defaults | _ => l end in
    if List.length l =? n_outputs then validate_outputs p 0 l else Err ValueError.
End Out.

(** * Opening and closing graphs (lines 46-53, 108-136)

    Graph objects are numbered. [arti.context.graph] is [ctx]. [status] is [Graph._status],
    [box_open] the status shared by the graph's boxes, [cached] the value kept by
    [cached_property] for [dependencies]. Assignments are to new, undotted keys; see
    [TypedBox_Model] for the others. *)
Inductive gstatus := Undefined | GOpen | GClosed.
Record gobject := GObject { status : gstatus; box_open : bool; arts : artifacts;
                            keys : list (artifact * str); cached : option (list (node * list node)) }.
Record context := Context { ctx : option nat; graph : nat -> gobject }.

Definition fresh_graph (init : artifacts) : gobject := GObject Undefined false init [] None.
Definition set_graph (c : context) (g : nat) (o : gobject) : nat -> gobject :=
  fun h => if h =? g then o else graph c h.
(** [_toggle] (130-136). *)
Definition toggle (o : gobject) (opening : bool) : gobject :=
  GObject (if opening then GOpen else GClosed) opening (arts o) (artifact_to_key (arts o)) (cached o).

(** [__enter__] (108-113). *)
Definition enter (c : context) (g : nat) : context * result unit :=
  match ctx c with
  | Some _ => (c, Err ValueError)
  | None => (Context (Some g) (set_graph c g (toggle (graph c g) true)), Ok tt)
  end.
(** [Graph.dependencies] as cached property over [requires_sealed]. *)
Definition get_dependencies (o : gobject) : gobject * result (list (node * list node)) :=
  match cached o with
  | Some d => (o, Ok d)
  | None => match status o with
            | GClosed => let d := dependencies (arts o) in
                         (GObject (status o) (box_open o) (arts o) (keys o) (Some d), Ok d)
            | _ => (o, Err ValueError)
            end
  end.
(** [__exit__] (115-125). *)
Definition exit (c : context) (g : nat) : context * result unit :=
  let '(o, d) := get_dependencies (toggle (graph c g) false) in
  (Context None (set_graph c g o), bind d (fun d => rmap (fun _ => tt) (static_order d))).
(** [g.artifacts.key = artifact] (src/arti/internal/mappings.py 189-201). *)
Definition assign (c : context) (g : nat) (k : str) (a : artifact) : context * result unit :=
  let o := graph c g in
  if negb (box_open o) then (c, Err ValueError)
  else if dmem str_eqb (arts o) k then (c, Err ValueError)
  else (Context (ctx c) (set_graph c g (GObject (status o) (box_open o) (arts o ++ [(k, a)]) (keys o) (cached o))), Ok tt).
(** Any method behind [requires_sealed] (46-53): [build], [snapshot], [read], [write]. *)
Definition sealed (c : context) (g : nat) : result unit :=
  match status (graph c g) with GClosed => Ok tt | _ => Err ValueError end.

(** What an artifact is, if producers have a [map]: the partitions it was given, or those its
    producer's [map] asks for, each with what [build] makes of the partitions chosen for it. No
    storage, backend, snapshot or fingerprint comes into it. *)
From Coq Require Import ZArith List Ascii String Bool Arith Permutation.
From Verif Require Import Base Str Graph_Model Graph_Spec Backend_Model Executor_Model Executor_Spec Json_Model Json_Spec Whole_Model Whole_Spec.
Import ListNotations.
Open Scope list_scope.

(** The partitions of an artifact, in some order, with the value of each. *)
Definition rows (V : Type) := list (pkey * result V).
(** A [map] in terms of partition keys: the keys of each input to the partitions to build, and the
    keys of the inputs' partitions to build each from. *)
Definition key_map := list (str * list pkey) -> result (list (pkey * list (str * list pkey))).

Section Tables.
  Context {V : Type} (E : env V) (K : str -> key_map) (J : artifact -> list V -> result V) (s : state V).
  Definition keys_of {A} (inputs : list (str * list (pkey * A))) : list (str * list pkey) := map (fun i => (fst i, map fst (snd i))) inputs.
  Definition mapped_over (p : producer) {A} (inputs : list (str * A)) : list (str * A) :=
    filter (fun i => existsb (str_eqb (fst i)) (c_map_inputs (classes E (p_class p)))) inputs.
  (** The arguments of [build]: each is joined from the partitions chosen. *)
  Definition takes (p : producer) (Ts : list (str * rows V)) (chosen : list (str * list pkey)) (args : list (str * V)) : Prop :=
    Forall2 (fun name nv => fst nv = name /\ exists a T ks vs, dget str_eqb (p_inputs p) name = Some a /\ dget str_eqb Ts name = Some T /\
               dget str_eqb chosen name = Some ks /\ ks <> [] /\ Forall2 (fun k v => In (k, Ok v) T) ks vs /\ J a vs = Ok (snd nv))
            (c_build_inputs (classes E (p_class p))) args.
  (** One output of the partitions built. *)
  Definition output_column (i : nat) (outs : list (pkey * list V)) (T : rows V) : Prop :=
    Forall2 (fun o r => fst r = fst o /\ exists v, nth_error (snd o) i = Some v /\ snd r = Ok v) outs T.

  Inductive table : artifact -> rows V -> Prop :=
  | table_raw : forall a parts T, a_output a = None -> NoDup parts -> (forall x, In x parts <-> raw_found E s (a_storage a) x) ->
      Forall2 (fun x r => fst r = ps_key x /\ exists d, holds_data s x d /\ snd r = load E a [d]) parts T -> table a T
  | table_built : forall a p i outs T, a_output a = Some (p, i) -> made p outs -> output_column i outs T -> table a T
  | table_order : forall a T T', table a T -> Permutation T T' -> table a T'
  with made : producer -> list (pkey * list V) -> Prop :=
  | made_by : forall p Ts asked outs, tables (p_inputs p) Ts -> K (p_class p) (keys_of (mapped_over p Ts)) = Ok asked ->
      Forall2 (fun kd o => fst o = fst kd /\ exists args, takes p Ts (snd kd) args /\ runs (classes E (p_class p)) args (Ok (snd o))) asked outs ->
      made p outs
  with tables : list (str * artifact) -> list (str * rows V) -> Prop :=
  | tables_none : tables [] []
  | tables_more : forall n a T inputs Ts, table a T -> tables inputs Ts -> tables ((n, a) :: inputs) ((n, T) :: Ts).

  (** All of an artifact: its partitions joined, if there are any. *)
  Definition joined (a : artifact) (T : rows V) : result V :=
    match T with [] => Err FileNotFoundError | _ => bind (mapM snd T) (J a) end.
End Tables.

Section Maps.
  Context {V : Type} (E : env V) (K : str -> key_map) (J : artifact -> list V -> result V).
  (** The partitions with the keys [ks]. *)
  Definition with_keys (inputs : list (str * list psnapshot)) (n : str) (ks : list pkey) : list psnapshot :=
    flat_map (fun k => filter (fun x => str_eqb (ps_key x) k) (match dget str_eqb inputs n with Some l => l | None => [] end)) ks.
  Definition choose (inputs : list (str * list psnapshot)) (asked : list (pkey * list (str * list pkey))) : list (pkey * list (str * list psnapshot)) :=
    map (fun kd => (fst kd, map (fun nk => (fst nk, with_keys inputs (fst nk) (snd nk))) (snd kd))) asked.
  (** The maps of the graph's producers go by the keys, choose among the partitions they are given,
      and return dicts. *)
  Record by_keys (g : artifacts) : Prop := {
    bk_map : forall p i a inputs, produces g p i a -> NoDup (map fst inputs) -> (forall n l, In (n, l) inputs -> NoDup (map ps_key l)) ->
      c_map (classes E (p_class p)) inputs = rmap (choose inputs) (K (p_class p) (map (fun i => (fst i, map ps_key (snd i))) inputs));
    bk_dicts : forall p i a inputs asked, produces g p i a -> NoDup (map fst inputs) -> (forall n ks, In (n, ks) inputs -> NoDup ks) ->
      K (p_class p) inputs = Ok asked -> NoDup (map fst asked) /\ forall k d, In (k, d) asked -> NoDup (map fst d);
    bk_among : forall p i a inputs asked k d n ks k', produces g p i a -> NoDup (map fst inputs) -> K (p_class p) inputs = Ok asked ->
      In (k, d) asked -> In (n, ks) d -> In k' ks -> exists l, dget str_eqb inputs n = Some l /\ In k' l;
    bk_inputs : forall p i a, produces g p i a -> NoDup (map fst (p_inputs p)) }.
  (** Reading several partitions is joining what each of them holds. *)
  Definition joins : Prop := forall a ds, ds <> [] -> (1 < List.length ds -> st_partitioned (a_storage a) = true) ->
    load E a ds = bind (mapM (fun d => load E a [d]) ds) (J a).
  (** What the producers of the graph return for each partition is read back as it was written. *)
  Definition rows_survive (s : state V) (g : artifacts) : Prop := forall p i a outs k vs v d, produces g p i a ->
    made E K J s p outs -> In (k, vs) outs -> nth_error vs i = Some v -> dump E a v = Ok d -> load E a [d] = Ok v.
End Maps.

(** The keys in terms of which [default_map] is one. *)
Definition default_keys : key_map := fun inputs => Ok [([], inputs)].
(** Maps that do not depend on the order of the partitions they are given. *)
Definition orderly (K : str -> key_map) : Prop := forall c inputs inputs' asked,
  Forall2 (fun i j => fst i = fst j /\ Permutation (snd i) (snd j)) inputs inputs' -> (forall n ks, In (n, ks) inputs -> NoDup ks) -> K c inputs = Ok asked ->
  NoDup (map fst asked) /\ exists asked', K c inputs' = Ok asked' /\ Permutation asked asked'.

(** Lists of partitions stored as JSON are joined one after the other. *)
Definition json_join {fl} (a : artifact) (vs : list (Json_Model.value fl)) : result (Json_Model.value fl) :=
  if st_partitioned (a_storage a) then rmap (fun l => VList (List.concat l)) (mapM elements vs)
  else match vs with [v] => Ok v | _ => Err AssertionError end.
(** What the producers of the graph return is what JSON can say; for each partition of a partitioned
    artifact, a list. *)
Definition rows_json {fl} (E : env (Json_Model.value fl)) (K : str -> key_map) (s : state _) (g : artifacts) : Prop :=
  forall p i a outs k vs v, produces g p i a -> made E K json_join s p outs -> In (k, vs) outs -> nth_error vs i = Some v ->
  faithful v /\ all_texts unicode v /\ (st_partitioned (a_storage a) = true -> exists l, v = VList l).

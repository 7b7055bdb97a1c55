(** C57: how artifacts are created. [f0] and [s0] are the default format and storage; the visits
    of the format and the storage are arbitrary unless said otherwise. *)
From Coq Require Import ZArith List Ascii String Bool Lia.
From Verif Require Import Base Str Partitions_Model Format_Model Template_Spec Storage_Model Paths_Spec
  Types_Model PyTypes_Model PyTypes_Spec Producers_Model Placement_Model Placement_Spec
  Artifacts_Model Artifacts_Spec Artifacts_Proofs.
Import ListNotations.
Open Scope list_scope.

(** C57. An artifact is created exactly if every field is supplied, by argument or by the nearest
    class that declares it, with an instance of its class; the format accepts the type and the
    storage the type and the format as the type left it. It has just these values. *)
Theorem C57_created : forall T F S N M (format_visit : F -> T -> result F) (storage_visit_type : S -> T -> result S)
    (storage_visit_format : S -> F -> result S) f0 s0 (bodies : list (body T F S N M)) k i,
  construct format_visit storage_visit_type storage_visit_format f0 s0 bodies k = Ok i <->
  made format_visit storage_visit_type storage_visit_format f0 s0 bodies k i.
Proof. exact @created. Qed.
Print Assumptions C57_created.

(** C57. Otherwise a ValueError is raised, or what a visit raised if that is neither a ValueError nor an
    AssertionError, or a TypeError for annotations or statistics that cannot be iterated over. *)
Theorem C57_failures : forall T F S N M (format_visit : F -> T -> result F) (storage_visit_type : S -> T -> result S)
    (storage_visit_format : S -> F -> result S) f0 s0 (bodies : list (body T F S N M)) k e,
  construct format_visit storage_visit_type storage_visit_format f0 s0 bodies k = Err e ->
  e = ValueError \/
  (~ reported e /\ ((exists f t, format_visit f t = Err e) \/ (exists s t, storage_visit_type s t = Err e) \/
                    (exists s f, storage_visit_format s f = Err e) \/
                    e = TypeError /\ (k_annotations k = NotIterable \/ k_statistics k = NotIterable))).
Proof. exact @failures. Qed.
Print Assumptions C57_failures.

(** C57. Annotations and statistics given come after those of the class, in order and none left out;
    a class that declares its own does not have those of its bases. *)
Theorem C57_annotations_given : forall T F S N M (format_visit : F -> T -> result F) (storage_visit_type : S -> T -> result S)
    (storage_visit_format : S -> F -> result S) f0 s0 (bodies : list (body T F S N M)) k i d own_ given,
  construct format_visit storage_visit_type storage_visit_format f0 s0 bodies k = Ok i ->
  counts b_annotations (open (Some [])) bodies d -> own d own_ -> k_annotations k = Items (map Some given) ->
  i_annotations i = own_ ++ given.
Proof. exact @annotations_given. Qed.
Print Assumptions C57_annotations_given.
Theorem C57_statistics_given : forall T F S N M (format_visit : F -> T -> result F) (storage_visit_type : S -> T -> result S)
    (storage_visit_format : S -> F -> result S) f0 s0 (bodies : list (body T F S N M)) k i d own_ given,
  construct format_visit storage_visit_type storage_visit_format f0 s0 bodies k = Ok i ->
  counts b_statistics (open (Some [])) bodies d -> own d own_ -> k_statistics k = Items (map Some given) ->
  i_statistics i = own_ ++ given.
Proof. exact @statistics_given. Qed.
Print Assumptions C57_statistics_given.

(** C57, refuted for artifacts created without annotations: these do not have the annotations of
    their class but each of them twice, unless there are none. (The default goes through the
    validator which puts the default in front.) The same with statistics. *)
Theorem C57_annotations_refuted : forall T F S N M (format_visit : F -> T -> result F) (storage_visit_type : S -> T -> result S)
    (storage_visit_format : S -> F -> result S) f0 s0 (bodies : list (body T F S N M)) k i d own_,
  construct format_visit storage_visit_type storage_visit_format f0 s0 bodies k = Ok i ->
  counts b_annotations (open (Some [])) bodies d -> own d own_ -> k_annotations k = NoItems ->
  i_annotations i = own_ ++ own_ /\ (i_annotations i = own_ <-> own_ = []).
Proof. exact @annotations_absent. Qed.
Print Assumptions C57_annotations_refuted.
Theorem C57_statistics_refuted : forall T F S N M (format_visit : F -> T -> result F) (storage_visit_type : S -> T -> result S)
    (storage_visit_format : S -> F -> result S) f0 s0 (bodies : list (body T F S N M)) k i d own_,
  construct format_visit storage_visit_type storage_visit_format f0 s0 bodies k = Ok i ->
  counts b_statistics (open (Some [])) bodies d -> own d own_ -> k_statistics k = NoItems ->
  i_statistics i = own_ ++ own_ /\ (i_statistics i = own_ <-> own_ = []).
Proof. exact @statistics_absent. Qed.
Print Assumptions C57_statistics_refuted.

(** C57, refuted: created again from its own values, an artifact whose class has annotations is never
    what it was. *)
Theorem C57_again_refuted : forall T F S N M (format_visit : F -> T -> result F) (storage_visit_type : S -> T -> result S)
    (storage_visit_format : S -> F -> result S) f0 s0 (bodies : list (body T F S N M)) i i' d own_,
  construct format_visit storage_visit_type storage_visit_format f0 s0 bodies (like i) = Ok i' ->
  counts b_annotations (open (Some [])) bodies d -> own d own_ -> own_ <> [] -> i' <> i.
Proof. exact @made_again. Qed.
Print Assumptions C57_again_refuted.

(** C57. With JSON or Pickle, of whatever class: NotImplementedError for a type Python has no hint for
    (whatever else is wrong), KeyError for a collection partitioned by a field that is neither a date,
    nor a signed integer, nor null. *)
Theorem C57_no_hint : forall other N M depth (bodies : list (body ty python_format storage N M)) k dt df t f,
  PyTypes_Spec.levels t <= depth -> ~ hintable t ->
  counts b_type (open None) bodies dt -> supplied dt (k_type k) t ->
  counts b_format (open (Some $".json")) bodies df -> supplied df (k_format k) f ->
  construct_artifact other depth bodies k = Err NotImplementedError.
Proof. exact @no_hint. Qed.
Print Assumptions C57_no_hint.
Theorem C57_no_keys : forall other N M depth (bodies : list (body ty python_format storage N M)) k dt df ds t f s,
  PyTypes_Spec.levels t <= depth -> hintable t -> unkeyable t ->
  counts b_type (open None) bodies dt -> supplied dt (k_type k) t ->
  counts b_format (open (Some $".json")) bodies df -> supplied df (k_format k) f ->
  counts b_storage (open (Some string_literal)) bodies ds -> supplied ds (k_storage k) s ->
  construct_artifact other depth bodies k = Err KeyError.
Proof. exact @no_keys. Qed.
Print Assumptions C57_no_keys.

(** C57. For all other types [Artifact(type=t)] is a literal in JSON, to be identified by graph, tags,
    names, key and fingerprint, and [Artifact(type=t, format=..., storage=LocalFile.rooted_at(root))]
    a file at such a path below the root. The names of key fields are identifiers other than
    "extension". *)
Theorem C57_default : forall other N M depth t kts,
  PyTypes_Spec.levels t <= depth -> hintable t -> keyed t kts -> plain_names kts -> ~ In $"extension" (map fst kts) ->
  @construct_artifact N M other depth [] (only_type t) =
  Ok {| i_type := t; i_format := $".json";
        i_storage := {| s_fields := [($"id", Some (unplaced [] kts $".json")); ($"value", None)]; s_key_types := Some kts |};
        i_annotations := []; i_statistics := [] |}.
Proof. exact @default_artifact. Qed.
Print Assumptions C57_default.
Theorem C57_local_file : forall other N M depth root ext t kts, avoids $"{}" root ->
  PyTypes_Spec.levels t <= depth -> hintable t -> keyed t kts -> plain_names kts -> ~ In $"extension" (map fst kts) ->
  @construct_artifact N M other depth [] (in_local_file t ext root) =
  Ok {| i_type := t; i_format := ext; i_storage := local_file (unplaced (root ++ $"/") kts ext) kts;
        i_annotations := []; i_statistics := [] |}.
Proof. exact @local_artifact. Qed.
Print Assumptions C57_local_file.

(** * Examples *)
Definition no_format (_ : cvalue) (_ : str) : result str := Err ValueError.
Definition int := Scalar (Int B64) plain.
(** A collection of orders by day, and one by a field of this type. *)
Definition orders (t : ty) : ty := Collection $"orders" (Struct $"order" [($"day", t); ($"n", int)] plain) [$"day"] [] plain.
Definition dated : ty := orders (Scalar Date plain).
Definition Body_ := body ty python_format storage nat nat.
(** class Base(Artifact): type = int; annotations = (1, 2); statistics = (7,)
    class Mine(Base): annotations = (3,), of small ones only *)
Definition Base_ : Body_ := {| b_type := Some (Declared anything (Some int)); b_format := None; b_storage := None;
  b_annotations := Some (Declared anything (Some [1; 2])); b_statistics := Some (Declared anything (Some [7])) |}.
Definition small : declared nat (list nat) := Declared (fun n => Nat.leb n 9) (Some [3]).
Definition Mine : Body_ := {| b_type := None; b_format := None; b_storage := None; b_annotations := Some small; b_statistics := None |}.
Definition with_ (n : arguments nat) : keywords ty python_format storage nat nat :=
  {| k_type := Absent; k_format := Absent; k_storage := Absent; k_annotations := n; k_statistics := NoItems; k_unknown := false |}.
Definition made_of (n m : list nat) : instance ty python_format storage nat nat :=
  {| i_type := int; i_format := $".json";
     i_storage := {| s_fields := [($"id", Some $"{graph_name}/{path_tags}/{names}/{input_fingerprint}/{name}.json"); ($"value", None)];
                     s_key_types := Some [] |};
     i_annotations := n; i_statistics := m |}.

Example C57_created_nonvacuous : let construct := construct_artifact no_format 5 in
  construct [Mine; Base_] (with_ (Items [Some 4; Some 5])) = Ok (made_of [3; 4; 5] [7; 7]) /\
  construct [Base_] (with_ (Items [Some 40])) = Ok (made_of [1; 2; 40] [7; 7]) /\
  construct [Mine; Base_] (with_ (Items [Some 40])) = Err ValueError /\
  construct [Mine; Base_] (with_ (Items [None])) = Err ValueError /\
  construct [Mine; Base_] (with_ NotIterable) = Err TypeError /\
  construct [Mine] (with_ NoItems) = Err ValueError.
Proof. cbv zeta. repeat split; vm_compute; reflexivity. Qed.

Example C57_failures_nonvacuous : exists k, construct_artifact no_format 5 [Base_] k = Err NotImplementedError /\
  k_unknown k = true /\ k_annotations k = NotIterable.
Proof.
  exists {| k_type := Given (Scalar (UInt B8) plain); k_format := Absent; k_storage := Wrong; k_annotations := NotIterable;
            k_statistics := Items [None]; k_unknown := true |}.
  split; [vm_compute|split]; reflexivity.
Qed.

Example C57_given_nonvacuous : exists i, construct_artifact no_format 5 [Mine; Base_] (with_ (Items [Some 4; Some 5])) = Ok i /\
  counts b_annotations (open (Some [])) [Mine; Base_] small /\ own small [3] /\ i_annotations i = [3; 4; 5] /\
  exists j, construct_artifact no_format 5 [Mine; Base_]
      {| k_type := Absent; k_format := Absent; k_storage := Absent; k_annotations := NoItems; k_statistics := Items [Some 8]; k_unknown := false |} = Ok j /\
    counts b_statistics (open (Some [])) [Mine; Base_] (Declared anything (Some [7])) /\ i_statistics j = [7; 8].
Proof.
  exists (made_of [3; 4; 5] [7; 7]). split; [vm_compute; reflexivity|]. split; [left; exists [], Mine, [Base_]; repeat split; intros a []|].
  split; [now left|]. split; [reflexivity|]. exists (made_of [3; 3] [7; 8]). split; [vm_compute; reflexivity|].
  split; [|reflexivity]. left. exists [Mine], Base_, []. repeat split. intros a [<-|[]]. reflexivity.
Qed.

Example C57_refuted_nonvacuous :
  construct_artifact no_format 5 [Mine; Base_] (with_ NoItems) = Ok (made_of [3; 3] [7; 7]) /\
  construct_artifact no_format 5 [Mine; Base_] (like (made_of [3; 3] [7; 7])) = Ok (made_of [3; 3; 3] [7; 7; 7]) /\
  own small [3].
Proof. split; [vm_compute; reflexivity|]. split; [vm_compute; reflexivity|]. now left. Qed.

Lemma hintable_orders : forall t, hintable t -> hintable (orders t).
Proof. intros t H. unfold orders. apply hint_collection, hint_struct. constructor; [exact H|]. constructor; [|constructor]. cbn. constructor. discriminate. Qed.

Example C57_no_hint_nonvacuous :
  PyTypes_Spec.levels (orders (Scalar (UInt B8) plain)) <= 5 /\ ~ hintable (orders (Scalar (UInt B8) plain)) /\
  construct_artifact no_format 5 [Mine; Base_]
    {| k_type := Given (orders (Scalar (UInt B8) plain)); k_format := Given $".pickle"; k_storage := Wrong; k_annotations := NotIterable;
       k_statistics := NoItems; k_unknown := true |} = Err NotImplementedError.
Proof.
  split; [cbn; lia|]. split; [|vm_compute; reflexivity]. intro H. inversion H as [| | | | |n e p c m H1| | |]; subst.
  inversion H1 as [| | | | | | | |n fs m A]; subst. inversion A as [|x l H2 _]; subst. cbn in H2.
  inversion H2 as [s m NU| | | | | | | |]; subst. now apply (NU B8).
Qed.

Example C57_no_keys_nonvacuous :
  let t := orders (Scalar String plain) in
  PyTypes_Spec.levels t <= 5 /\ hintable t /\ unkeyable t /\
  construct_artifact no_format 5 [Mine; Base_]
    {| k_type := Given t; k_format := Absent; k_storage := Given (rooted_at $"/data"); k_annotations := NoItems;
       k_statistics := NoItems; k_unknown := true |} = Err KeyError.
Proof.
  cbv zeta. split; [cbn; lia|]. split; [apply hintable_orders; constructor; discriminate|]. split; [|vm_compute; reflexivity].
  unfold unkeyable, orders. do 5 eexists. split; [reflexivity|]. split.
  - intros f [<-|[]]. exists (Scalar String plain). do 3 eexists. split; reflexivity.
  - exists $"day", (Scalar String plain). split; [now left|]. split; [do 3 eexists; split; reflexivity|]. intros cls K. inversion K.
Qed.

Lemma dated_keyed : keyed dated [($"day", DateField)].
Proof.
  constructor; [repeat constructor; intros []|]. constructor; [|constructor]. split; [reflexivity|].
  exists (Scalar Date plain). split; [do 3 eexists; split; reflexivity|constructor].
Qed.
Example C57_default_nonvacuous : PyTypes_Spec.levels dated <= 5 /\ hintable dated /\ keyed dated [($"day", DateField)] /\
  plain_names [($"day", DateField)] /\ ~ In $"extension" [$"day"] /\ avoids $"{}" $"/data" /\
  unplaced [] [($"day", DateField)] $".json" =
    $"{graph_name}/{path_tags}/{names}/day_Y={day.Y}/day_m={day.m:02}/day_d={day.d:02}/{input_fingerprint}/{name}.json" /\
  unplaced $"/data/" [] $".pickle" = $"/data/{graph_name}/{path_tags}/{names}/{input_fingerprint}/{name}.pickle".
Proof.
  split; [cbn; lia|]. split; [apply hintable_orders; constructor; discriminate|]. split; [exact dated_keyed|]. split; [split|].
  - constructor; [intros []|constructor].
  - intros n c [E|[]]. injection E as <- <-. split; [split; [discriminate|]; repeat constructor; cbn; intuition discriminate|reflexivity].
  - split; [cbn; intuition discriminate|]. split; [repeat constructor; cbn; intuition discriminate|]. split; vm_compute; reflexivity.
Qed.

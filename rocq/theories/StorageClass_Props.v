(** C65: storages can make their partitions. *)
From Coq Require Import ZArith List Ascii String Bool Arith.
From Verif Require Import Base Str Partitions_Model Storage_Model StorageClass_Model StorageClass_Spec StorageClass_Proofs StorageClass_Cases StorageClass_Cases_Proofs.
Import ListNotations.
Open Scope list_scope.

(** The fields of a class are its own and, from the leftmost base that has them, the others. *)
Theorem C65_fields : forall (A M : Type) (ann_eqb : A -> A -> bool) (fp key st : finfo A M) bases (b : body A M),
  (forall x, In x bases -> mixin x \/ partition_class (storage_partition fp key st) x \/
     exists s, storage_made ann_eqb (storage_partition fp key st) s /\ x = c_model s) ->
  NoDup (map fst (b_fields b)) -> forall n f,
  In (n, f) (m_fields (define_model bases b)) <-> In (n, f) (b_fields b) \/ ~ In n (map fst (b_fields b)) /\ inherits bases n f.
Proof. exact @model_fields. Qed.
Print Assumptions C65_fields.
Example C65_fields_nonvacuous :
  storage_made hint_eqb root gcs_class /\ map fst (m_fields (c_model gcs_class)) = [$"bucket"; $"path"] /\
  dget str_eqb (m_fields (c_model gcs_class)) $"bucket" = Some (field HStr true) /\ dget str_eqb (m_fields (c_model gcs_class)) $"path" = Some (field HStr false).
Proof. split; [exact gcs_made|]. repeat split; vm_compute; reflexivity. Qed.

(** A storage class can be defined exactly if it is abstract, has no type of partitions yet, or
    declares the same fields with the same hints as its type of partitions. *)
Theorem C65_defined : forall (A M : Type) (ann_eqb : A -> A -> bool), (forall a b, ann_eqb a b = true <-> a = b) ->
  forall (fp key st : finfo A M) bases (b : body A M) own,
  (forall m, In (Mixin m) bases -> mixin m) -> (forall s, In (Stores s) bases -> storage_made ann_eqb (storage_partition fp key st) s) ->
  (forall i, own = Some i -> proper (storage_partition fp key st) i) -> forall m, m = define_model (map model_of bases) b ->
  ((exists c, define_storage ann_eqb bases b own = Ok c) <->
   m_abstract m = true \/ forall i, has_item own bases i -> exists p, i = ItemClass p /\ alike m p) /\
  (forall c, define_storage ann_eqb bases b own = Ok c -> c_model c = m /\ forall i, c_item c = Some i <-> has_item own bases i).
Proof. exact @class_defined. Qed.
Print Assumptions C65_defined.
Example C65_defined_nonvacuous :
  define_storage hint_eqb [Stores file_item] file_body None = Ok file_class /\
  define_storage hint_eqb [Stores file_item] (Body [] None true) None = Err TypeError /\
  define_storage hint_eqb [Stores file_item] (Body [($"path", field HOptional false)] None true) None = Err TypeError /\
  define_storage hint_eqb [Stores file_item] (Body [($"path", field HStr false); ($"storage", field HStorage false)] None true) None = Err TypeError /\
  define_storage hint_eqb [Mixin gcs_mixin; Stores gcs_item] file_body None = Ok gcs_class.
Proof. repeat split; vm_compute; reflexivity. Qed.

(** Whatever classes a program defines, one that can have instances and has a type of partitions
    declares the same fields as that. *)
Theorem C65_alike : forall (A M : Type) (ann_eqb : A -> A -> bool), (forall a b, ann_eqb a b = true <-> a = b) ->
  forall (fp key st : finfo A M) c, storage_made ann_eqb (storage_partition fp key st) c -> m_abstract (c_model c) = false ->
  forall i, c_item c = Some i -> exists p, i = ItemClass p /\ partition_class (storage_partition fp key st) p /\ alike (c_model c) p.
Proof. exact @class_alike. Qed.
Print Assumptions C65_alike.
Example C65_alike_nonvacuous :
  storage_made hint_eqb root gcs_class /\ m_abstract (c_model gcs_class) = false /\ c_item gcs_class = Some (ItemClass gcs_partition) /\
  map fst (m_fields gcs_partition) = [$"input_fingerprint"; $"partition_key"; $"storage"; $"bucket"; $"path"].
Proof. split; [exact gcs_made|]. repeat split; vm_compute; reflexivity. Qed.

(** Generating a partition hands its class every field once and nothing else: it fails only where
    formatting does, if the class cannot be called, or if a value does not suit its field. What is
    generated is what [Storage_Model.generate_partition] says. *)
Theorem C65_generates : forall (A M : Type) (ann_eqb : A -> A -> bool), (forall a b, ann_eqb a b = true <-> a = b) ->
  forall (fp key st : finfo A M) other suits holds c p s f k,
  storage_made ann_eqb (storage_partition fp key st) c -> instance (c_model c) s -> c_item c = Some (ItemClass p) ->
  match generate_partition other s f k with
  | Ok q => (concrete p /\ fits_class suits holds p q -> generate other suits holds c s f k = Ok q) /\
            (~ concrete p -> generate other suits holds c s f k = Err TypeError) /\
            (concrete p /\ ~ fits_class suits holds p q -> generate other suits holds c s f k = Err ValueError)
  | Err e => generate other suits holds c s f k = Err e
  end.
Proof. exact @class_generates. Qed.
Print Assumptions C65_generates.
(** So it never fails on its own if the class of partitions asks no more than its hints do. *)
Theorem C65_always : forall (A M : Type) (ann_eqb : A -> A -> bool), (forall a b, ann_eqb a b = true <-> a = b) ->
  forall (fp key st : finfo A M) other suits holds c p s f k,
  storage_made ann_eqb (storage_partition fp key st) c -> instance (c_model c) s -> c_item c = Some (ItemClass p) ->
  concrete p -> any_text suits -> undemanding suits holds p -> validated suits (c_model c) s ->
  generate other suits holds c s f k = generate_partition other s f k.
Proof. exact @class_always. Qed.
Print Assumptions C65_always.
Example C65_generates_nonvacuous :
  storage_made hint_eqb root file_class /\ instance (c_model file_class) (file_at $"/d/{input_fingerprint}.json") /\
  c_item file_class = Some (ItemClass file_partition) /\ concrete file_partition /\ any_text suits /\ undemanding suits holds file_partition /\
  validated suits (c_model file_class) (file_at $"/d/{input_fingerprint}.json") /\
  generate no_other suits holds file_class (file_at $"/d/{input_fingerprint}.json") (Some 7%Z) [] =
    Ok (partition_at $"/d/{input_fingerprint}.json" (Some 7%Z) $"/d/7.json") /\
  generate no_other suits holds file_class (file_at $"/d/{input_fingerprint}.json") None [] = Err ValueError.
Proof.
  split; [exact file_made|]. split; [repeat split|]. split; [reflexivity|]. split; [split; reflexivity|]. split; [exact suits_any_text|]. split.
  { intros n f I. cbn in I. destruct I as [I|[I|[I|[I|[]]]]]; injection I as <- <-; (split; [intros H v; reflexivity|]);
      intros [x|x|x|x]; cbn; intro H; solve [discriminate H|contradiction H|split; reflexivity]. }
  split; [|split; vm_compute; reflexivity].
  intros n f v I J. cbn in I, J. destruct I as [I|[]]; destruct J as [J|[]]. injection I as <- <-. injection J as <-. reflexivity.
Qed.

(** What the check does not see: the metadata of a field, and the fields every partition has. Both
    classes are accepted, and have storages that never make a partition. *)
Theorem C65_metadata_refuted :
  storage_made hint_eqb root short_class /\ instance (c_model short_class) (file_at $"/data") /\
  validated suits (c_model short_class) (file_at $"/data") /\
  generate_partition no_other (file_at $"/data") None [] = Ok (partition_at $"/data" None $"/data") /\
  generate no_other suits holds short_class (file_at $"/data") None [] = Err ValueError.
Proof.
  split; [exact short_made|]. split; [repeat split|]. split; [|split; vm_compute; reflexivity].
  intros n f v I J. cbn in I, J. destruct I as [I|[]]; destruct J as [J|[]]. injection I as <- <-. injection J as <-. reflexivity.
Qed.
Print Assumptions C65_metadata_refuted.
Theorem C65_overridden_refuted :
  storage_made hint_eqb root other_class /\ instance (c_model other_class) (file_at $"/data") /\
  validated suits (c_model other_class) (file_at $"/data") /\
  generate_partition no_other (file_at $"/data") None [] = Ok (partition_at $"/data" None $"/data") /\
  generate no_other suits holds other_class (file_at $"/data") None [] = Err ValueError.
Proof.
  split; [exact other_made|]. split; [repeat split|]. split; [|split; vm_compute; reflexivity].
  intros n f v I J. cbn in I, J. destruct I as [I|[]]; destruct J as [J|[]]. injection I as <- <-. injection J as <-. reflexivity.
Qed.
Print Assumptions C65_overridden_refuted.

(** A storage class without a type of partitions can be defined and have instances, but none of
    them ever makes a partition. *)
Theorem C65_without_type : forall (A M : Type) other (suits : A -> arg -> bool) (holds : M -> arg -> bool) c st fp key,
  c_item c = None -> forall q, generate other suits holds c st fp key <> Ok q.
Proof. exact @without_type. Qed.
Print Assumptions C65_without_type.
Theorem C65_without_type_refuted :
  storage_made hint_eqb root loose_class /\ instance (c_model loose_class) (file_at $"/data") /\
  generate_partition no_other (file_at $"/data") None [] = Ok (partition_at $"/data" None $"/data") /\
  generate no_other suits holds loose_class (file_at $"/data") None [] = Err AttributeError.
Proof. split; [exact loose_made|]. split; [repeat split|]. split; vm_compute; reflexivity. Qed.
Print Assumptions C65_without_type_refuted.

(** A class that has no type of partitions yet can be subscripted with any; one that passes on a
    type variable with none. *)
Theorem C65_subscripted : forall (A M : Type) (ann_eqb : A -> A -> bool) (c : sclass A M) i, c_params c = true -> c_item c = None ->
  exists c', subscript ann_eqb c i = Ok c' /\ c_item c' = Some i /\ m_abstract (c_model c') = true.
Proof. exact @subscripted. Qed.
Print Assumptions C65_subscripted.
Theorem C65_generic_refuted :
  storage_made hint_eqb root generic_class /\ c_params generic_class = true /\
  forall i, subscript hint_eqb generic_class i = Err AttributeError.
Proof. split; [exact generic_made|]. split; [reflexivity|]. apply not_generic; reflexivity. Qed.
Print Assumptions C65_generic_refuted.
Example C65_subscripted_nonvacuous :
  subscript hint_eqb storage_class (ItemClass file_partition) = Ok file_item /\ c_params loose_class = true /\ c_item loose_class = None /\
  subscript hint_eqb file_class (ItemClass file_partition) = Err TypeError.
Proof. repeat split; vm_compute; reflexivity. Qed.

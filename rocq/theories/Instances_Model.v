(** Model of the instances of producers and of their outputs: src/arti/producers/__init__.py lines
    309-315 ([_validate_instance_artifact_args]), 320-324 ([__iter__]), 369-371 ([inputs]) and
    384-415 ([out]). Definitions only.

    Producer classes are those of Producers_Model, named by [P]. An artifact is its class, its type,
    the rest of it ([T]: format, storage, annotations, statistics) and the output of a producer it
    is. What pydantic does is modelled as in Artifacts_Model: failures of fields are reported together,
    exceptions that are neither ValueErrors nor AssertionErrors are passed on, other keywords are
    refused ([extra="forbid"], internal/models.py 80). [annotations] and [version] are left at their
    defaults. Producer classes are not abstract. [View.check_artifact_compatibility] is that of
    Views_Model. *)
From Coq Require Import ZArith List Ascii String Bool.
From Verif Require Import Base Str Types_Model PyTypes_Model Views_Model Producers_Model Artifacts_Model.
Import ListNotations.
Open Scope list_scope.

Section Instances.
  Context {V A T P : Type} (class_of : P -> producer_class V A).
  (** artifacts/__init__.py 37-47, and [ProducerOutput] (producers/__init__.py 464-466). *)
  Inductive artifact := Art (class : A) (type : ty) (rest : T) (output : option (producer * nat))
  with producer := Prod (class : P) (args : list (str * artifact)).
  Definition a_class (a : artifact) : A := match a with Art c _ _ _ => c end.
  Definition a_type (a : artifact) : ty := match a with Art _ t _ _ => t end.
  Definition a_rest (a : artifact) : T := match a with Art _ _ r _ => r end.
  Definition a_output (a : artifact) : option (producer * nat) := match a with Art _ _ _ o => o end.
  Definition p_class (p : producer) : P := match p with Prod c _ => c end.

  Context (asub : A -> A -> bool) (type_eqb : ty -> ty -> bool)
    (can_read can_write : ty * T -> V -> result unit)   (* the lookups of readers and writers, views/__init__.py 136-145 *)
    (make : A -> ty -> result T).                       (* [artifact_class(type=...)]: what the artifact has besides its type *)
  Definition compatible (v : view V A) (a : artifact) : result unit :=
    check_artifact asub type_eqb can_read can_write v (a_class a) (a_type a) (a_type a, a_rest a).

  (** A field: an instance of its class, then [_validate_instance_artifact_args] (309-315). The value
      [None] is no artifact. *)
  Definition validate_arg (c : producer_class V A) (args : list (str * option artifact)) (field : str * A) : outcome artifact :=
    match dget str_eqb args (fst field) with
    | Some (Some a) =>
        if asub (a_class a) (snd field) then
          match dget str_eqb (build_inputs c) (fst field) with
          | Some v => outcome_of (rmap (fun _ => a) (compatible v a))
          | None => Valid a
          end
        else Failed
    | _ => Failed
    end.
  Fixpoint gather (fields : list (str * outcome artifact)) : option (list (str * artifact)) :=
    match fields with
    | [] => Some []
    | (n, o) :: fields => match data o, gather fields with Some a, Some l => Some ((n, a) :: l) | _, _ => None end
    end.
  (** The construction of a producer from keywords. *)
  Definition create (c : P) (args : list (str * option artifact)) : result producer :=
    let cls := class_of c in
    let fields := map (fun f => (fst f, validate_arg cls args f)) (inputs cls) in
    match first_of (map (fun f => passed_on (snd f)) fields) with
    | Some e => Err e
    | None =>
        match gather fields with
        | Some l => if forallb (fun na => dmem str_eqb (inputs cls) (fst na)) args then Ok (Prod c l) else Err ValueError
        | None => Err ValueError
        end
    end.
  (** [inputs] (369-371) *)
  Definition producer_inputs (p : producer) : list (str * artifact) := match p with Prod _ l => l end.

  (** [out] (384-415). [_build_sig_.return_annotation] has as many items as [_outputs_]. *)
  Inductive returned := One (a : artifact) | Several (l : list artifact).
  Definition items (r : returned) : list artifact := match r with One a => [a] | Several l => l end.
  Definition default_output (v : view V A) : result artifact :=
    rmap (fun r => Art (v_artifact v) (v_type v) r None) (make (v_artifact v) (v_type v)).
  Definition validate_output (p : producer) (v : view V A) (i : nat) (a : artifact) : result artifact :=
    bind (compatible v a) (fun _ =>
    match a_output a with
    | Some _ => Err ValueError
    | None => Ok (Art (a_class a) (a_type a) (a_rest a) (Some (p, i)))
    end).
  Fixpoint validate_outputs (p : producer) (views : list (view V A)) (i : nat) (l : list artifact) : result (list artifact) :=
    match l, views with
    | a :: l, v :: views =>
        bind (validate_output p v i a) (fun b => bind (validate_outputs p views (S i) l) (fun bs => Ok (b :: bs)))
    | _, _ => Ok []
    end.
  Definition out (p : producer) (given : list artifact) : result returned :=
    let views := outputs (class_of (p_class p)) in
    bind (match given with [] => mapM default_output views | _ => Ok given end) (fun l =>
    if Nat.eqb (List.length l) (List.length views) then
      bind (validate_outputs p views 0 l) (fun l =>
      Ok (match l with [a] => One a | _ => Several l end))
    else Err ValueError).
  (** [__iter__] (320-324) *)
  Definition iter (p : producer) : result (list artifact) :=
    bind (out p []) (fun r => Ok (match r with Several l => l | One a => [a] end)).

  (** [ArtifactBox._cast_value] (graphs/__init__.py 57-78): assigning to a graph resolves templates
      in the artifact's storage; it fails for storages without a fingerprint if the artifact is
      produced. *)
  Context (resolve_storage : bool -> T -> result T).
  Definition assign (a : artifact) : result artifact :=
    bind (resolve_storage (match a_output a with Some _ => true | None => false end) (a_rest a)) (fun r =>
    Ok (Art (a_class a) (a_type a) r (a_output a))).
End Instances.
Arguments artifact A T P : clear implicits.
Arguments producer A T P : clear implicits.
Arguments returned A T P : clear implicits.
Arguments Art {A T P}. Arguments Prod {A T P}. Arguments One {A T P}. Arguments Several {A T P}.

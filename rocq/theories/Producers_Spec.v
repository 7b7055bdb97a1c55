(** What a producer class must look like. *)
From Coq Require Import ZArith List Ascii String Bool.
From Verif Require Import Base Str Hints_Model Types_Model Partitions_Model PyTypes_Model Dispatch_Model Views_Model Views_Spec Producers_Model.
Import ListNotations.
Open Scope list_scope.

(** The parameters callers see. *)
Definition proper {H} (ps : list (parameter H)) : list (parameter H) :=
  filter (fun p => if in_dec (list_eq_dec ascii_dec) (par_name p) [$"cls"; $"self"] then false else true) ps.
(** Equal partitioning: the same names with the same classes, in any order. *)
Definition same_keys (a b : list (str * fclass)) : Prop := forall n, dget str_eqb a n = dget str_eqb b n.

Section Spec.
  Context {V A : Type} (from_annotation : annotation V A -> mode -> result (view V A)) (same : phint -> phint -> bool).
  Notation annotation := (annotation V A).
  Notation view := (view V A).
  Notation definition := (definition V A).
  Notation producer_class := (producer_class V A).

  (** [v] reads an artifact of class [a] for a parameter with the annotation [ann]. *)
  Inductive reads_artifact (ann : annotation) (a : A) (v : view) : Prop :=
  | reads_default : nothing an_artifact (extras ann) -> from_annotation (Annotation (root ann) (extras ann ++ [XArtifact a])) READ = Ok v ->
      v_artifact v = a -> reads_artifact ann a v
  | reads_explicit : forall a', only an_artifact (extras ann) (XArtifact a') -> from_annotation ann READ = Ok v -> v_artifact v = a ->
      reads_artifact ann a v.

  (** A keyword parameter with a hint, without default and named like an input. *)
  Record keyword_for {H} (ins : list (str * A)) (p : parameter H) (h : H) : Prop := {
    kw_hint : par_hint p = Some h;
    kw_default : par_default p = false;
    kw_kind : par_kind p = PositionalOrKeyword \/ par_kind p = KeywordOnly;
    kw_input : In (par_name p) (map fst ins) }.
  Definition build_parameter (ins : list (str * A)) (p : parameter annotation) (nv : str * view) : Prop :=
    exists ann a, keyword_for ins p ann /\ fst nv = par_name p /\ In (par_name p, a) ins /\ reads_artifact ann a (snd nv).

  Definition alike (vs : list view) : Prop :=
    vs <> [] /\ exists k, forall v, In v vs -> exists k', key_types (v_type v) = Ok k' /\ same_keys k k'.

  Definition takes (p : parameter phint) (out : phint) : Prop :=
    forall h, par_hint p = Some h -> issubclass_hint same out h = Ok true.
  Inductive validates (ps : list (parameter phint)) (outs : list phint) : Prop :=
  | validates_all : forall p, proper ps = [p] -> par_kind p = VarPositional -> (forall o, In o outs -> takes p o) -> validates ps outs
  | validates_each : Forall2 (fun p o => par_default p = false /\ (par_kind p = PositionalOnly \/ par_kind p = PositionalOrKeyword) /\ takes p o)
      (proper ps) outs -> validates ps outs.

  (** The generated [map]. *)
  Record generated (ins : list (str * A)) (bins : list (str * view)) (m : method bool unit) : Prop := {
    gen_static : m_static m = true;
    gen_names : map par_name (m_params m) = map fst (filter (fun na => existsb (fun nv => str_eqb (fst na) (fst nv)) bins) ins);
    gen_params : forall p, In p (m_params m) -> par_kind p = KeywordOnly /\ par_hint p = Some true /\ par_default p = false }.

  Record describes (d : definition) (c : producer_class) : Prop := {
    (** every field is a required artifact *)
    ds_fields : Forall2 (fun nf na => nf = (fst na, Field (FArtifact (snd na)) true))
      (filter (fun nf => if in_dec (list_eq_dec ascii_dec) (fst nf) [$"annotations"; $"version"] then false else true) (d_fields d)) (inputs c);
    ds_build : exists b r, d_build d = Some b /\ m_static b = true /\ m_return b = Some r /\
      (** parameters read inputs *)
      Forall2 (build_parameter (inputs c)) (proper (m_params b)) (build_inputs c) /\
      (** the returned values can be written and are partitioned alike *)
      returned r <> [Annotation (HClass PyNoneType) []] /\
      Forall2 (fun ann v => from_annotation ann WRITE = Ok v) (returned r) (outputs c) /\ alike (outputs c) /\
      validates (d_validate d) (map root (returned r));
    ds_map : (d_map d = Some (map_method c) \/
              d_map d = None /\ (forall v, In v (outputs c) -> is_partitioned (v_type v) = Ok false) /\
              generated (inputs c) (build_inputs c) (map_method c) /\ ~ In $"kwargs" (map par_name (m_params (map_method c))));
    ds_map_params : m_static (map_method c) = true /\ (forall p, In p (proper (m_params (map_method c))) -> keyword_for (inputs c) p true) /\
      map_inputs c = map par_name (proper (m_params (map_method c)));
    (** no field is unused *)
    ds_used : forall n, In n (map fst (inputs c)) -> In n (map fst (build_inputs c)) \/ In n (map_inputs c) }.
End Spec.

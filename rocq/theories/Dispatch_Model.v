(** Model of src/arti/internal/dispatch.py lines 27-87 and of [tidy_signature]
    (src/arti/internal/type_hints.py 180-208). Definitions only.

    Hints are those of Hints_Model over any classes. A missing annotation is
    [inspect.Parameter.empty], which is itself a class ([empty]). Which registered handler
    [multimethod] picks for the classes of the arguments is an argument of [lookup]. *)
From Coq Require Import ZArith List Ascii String Bool.
From Verif Require Import Base Str Hints_Model.
Import ListNotations.
Open Scope list_scope.

Inductive kind := PositionalOnly | PositionalOrKeyword | VarPositional | KeywordOnly | VarKeyword.
Definition kind_eqb (a b : kind) : bool :=
  match a, b with
  | PositionalOnly, PositionalOnly | PositionalOrKeyword, PositionalOrKeyword | VarPositional, VarPositional
  | KeywordOnly, KeywordOnly | VarKeyword, VarKeyword => true
  | _, _ => false
  end.

Section Dispatch.
  Context {C : Type} (issub : C -> C -> bool) (is_none : C -> bool) (dict_class union_class tuple_class empty : C)
    (same : hint C -> hint C -> bool).
  Notation hint := (hint C).
  Notation lenient_issubclass := (lenient_issubclass issub is_none dict_class union_class same).

  Record param := Param { p_name : str; p_kind : kind; p_hint : hint; p_default : bool }.
  (** The return annotation is a tuple of hints after [force_tuple_return]. *)
  Record signature := Signature { params : list param; returns : hint }.

  (** [tidy_signature] (188-208): [hints] are those of [get_type_hints], which replaces the
      annotations (given as texts or None) by classes. *)
  Definition resolve_hint (hints : list (str * hint)) (name : str) (h : hint) : hint :=
    match dget str_eqb hints name with Some h' => h' | None => h end.
  Definition tidy_signature (hints : list (str * hint)) (remove_owner : bool) (s : signature) : signature :=
    Signature
      (map (fun p => Param (p_name p) (p_kind p) (resolve_hint hints (p_name p) (p_hint p)) (p_default p))
        (filter (fun p => if remove_owner then negb (existsb (str_eqb (p_name p)) [$"cls"; $"self"]) else true) (params s)))
      (resolve_hint hints $"return" (returns s)).
  (** [_tidy_return] (180-185) with [force_tuple_return]. *)
  Definition tidy_return (h : hint) : list hint :=
    match get_origin union_class h with
    | OriginClass o => if issub o tuple_class then get_args h else [h]
    | _ => [h]
    end.

  (** [_multipledispatch.register] (62-87) of a function. *)
  Definition names (s : signature) : list str := map p_name (params s).
  Definition find_param (s : signature) (name : str) : option param :=
    find (fun p => str_eqb (p_name p) name) (params s).
  Definition same_names (a b : signature) : bool :=
    forallb (fun n => existsb (str_eqb n) (names b)) (names a) && forallb (fun n => existsb (str_eqb n) (names a)) (names b).
  Definition is_any (h : hint) : bool := match h with HAny => true | _ => false end.
  Definition check_param (spec : signature) (p : param) : result unit :=
    match find_param spec (p_name p) with
    | None => Err KeyError
    | Some q =>
        if negb (kind_eqb (p_kind p) (p_kind q)) then Err TypeError else
        if is_any (p_hint p) then Ok tt else
        bind (lenient_issubclass (p_hint p) (p_hint q)) (fun b => if b then Ok tt else Err TypeError)
    end.
  Definition check_handler (spec f : signature) : result unit :=
    if negb (same_names f spec) then Err TypeError else
    bind (mapM (check_param spec) (params f)) (fun _ =>
    bind (lenient_issubclass (returns f) (returns spec)) (fun b => if b then Ok tt else Err TypeError)).

  (** The registered handlers, keyed by their annotations in the order of the handler's own
      parameters, as [multimethod] keys them; the handler itself is any [H]. *)
  Definition register {H : Type} (spec : signature) (table : list (list hint * H)) (f : signature) (h : H)
    : result (list (list hint * H)) :=
    bind (check_handler spec f) (fun _ => Ok (table ++ [(map p_hint (params f), h)])).

  (** [lookup] (40-56): [resolve] is multimethod's choice, the first lookup imports the submodules.
      The function that defines the spec is marked as abstract. *)
  Definition lookup {H : Type} (abstract : H -> bool) (resolve : list hint -> result H) (args : list hint) : result H :=
    match resolve args with
    | Err TypeError => Err ValueError
    | Err e => Err e
    | Ok h => if abstract h then Err ValueError else Ok h
    end.
End Dispatch.
Arguments param C : clear implicits.
Arguments signature C : clear implicits.

(** Model of src/arti/internal/type_hints.py lines 37-177: hints and [lenient_issubclass].
    Definitions only.

    Classes are an arbitrary type [C] with [issub] for [issubclass] between classes and three
    of them named: [type(None)] (as the test [is_none]), [dict] (the base of TypedDicts) and [types.UnionType] (the
    origin of [X | Y]). [same] is Python's [is] on hints. Aliases are those of
    [types.GenericAlias] ([list[int]]); aliases from [typing] ([typing.List[int]]), which
    [lenient_issubclass] rejects as first argument, are not modelled. [HModel] is a class like
    [HClass] of which the fields are known, for ModelTypes_Model. *)
From Coq Require Import ZArith List Ascii String Bool.
From Verif Require Import Base Str.
Import ListNotations.
Open Scope list_scope.

Inductive literal (C : Type) := Lit (cls : C) (text : str).
Arguments Lit {C}.

Inductive hint (C : Type) :=
| HAny                                               (* typing.Any *)
| HNone                                              (* None *)
| HEllipsis                                          (* ... *)
| HClass (c : C)
| HAlias (origin : C) (args : list (hint C))         (* origin[args] *)
| HUnion (bar : bool) (args : list (hint C))         (* X | Y, or Union[X, Y] *)
| HLiteral (items : list (literal C))
| HAnnotated (h : hint C)                            (* Annotated[h, ...] *)
| HTypeVar (bound : option (hint C))
| HTypedDict (name : str) (fields : list (str * hint C))
| HModel (c : C) (fields : list (str * hint C)).     (* a pydantic model class, with its fields *)
Arguments HAny {C}. Arguments HNone {C}. Arguments HEllipsis {C}. Arguments HClass {C}.
Arguments HAlias {C}. Arguments HUnion {C}. Arguments HLiteral {C}. Arguments HAnnotated {C}.
Arguments HTypeVar {C}. Arguments HTypedDict {C}. Arguments HModel {C}.

(** [any] and [all] stop at the first answer; exceptions propagate. *)
Section Quantifiers.
  Context {A : Type} (f : A -> result bool).
  Fixpoint anyM (l : list A) : result bool :=
    match l with [] => Ok false | x :: l' => bind (f x) (fun b => if b then Ok true else anyM l') end.
  Fixpoint allM (l : list A) : result bool :=
    match l with [] => Ok true | x :: l' => bind (f x) (fun b => if b then allM l' else Ok false) end.
End Quantifiers.

Section Hints.
  Context {C : Type} (issub : C -> C -> bool) (is_none : C -> bool) (dict_class union_class : C)
    (same : hint C -> hint C -> bool).

  (** What [get_origin] returns: nothing, a class, or a special form of [typing]. *)
  Inductive origin := NoOrigin | OriginClass (c : C) | OriginForm.
  Definition get_origin (h : hint C) : origin :=
    match h with
    | HAlias o _ => OriginClass o
    | HUnion true _ => OriginClass union_class
    | HUnion false _ | HLiteral _ | HAnnotated _ => OriginForm
    | _ => NoOrigin
    end.

  (** The class behind a hint that is a class. *)
  Definition as_class (h : hint C) : option C :=
    match h with
    | HClass c => Some c
    | HTypedDict _ _ => Some dict_class
    | HModel c _ => Some c
    | _ => None
    end.

  (** [issubclass(a, b)]: both must be classes and TypedDicts refuse to be the second. *)
  Definition issubclass (a : option C) (b : hint C) : result bool :=
    match a, b with
    | Some a, HClass b | Some a, HModel b _ => Ok (issub a b)
    | _, _ => Err TypeError
    end.
  Definition origin_class (o : origin) : option C := match o with OriginClass c => Some c | _ => None end.
  Definition issubclass_origin (a : option C) (o : origin) : result bool :=
    match a, o with
    | Some a, OriginClass b => Ok (issub a b)
    | _, _ => Err TypeError
    end.

  (** [discard_Annotated] (89-90) and the bound of a TypeVar (43-45, 50-52). *)
  Definition discard_annotated (h : hint C) : hint C := match h with HAnnotated h' => h' | _ => h end.
  Definition bound (h : hint C) : hint C :=
    match h with HTypeVar None => HAny | HTypeVar (Some b) => b | _ => h end.
  Definition get_args (h : hint C) : list (hint C) :=
    match h with HAlias _ args | HUnion _ args => args | _ => [] end.

  (** Hints [lenient_issubclass] looks at (167-170). *)
  Definition accepted (h : hint C) : bool :=
    match h with
    | HClass _ | HTypedDict _ _ | HModel _ _ | HAlias _ _ | HTypeVar _ | HAnnotated _ | HAny => true
    | _ => false
    end.

  (** [_check_issubclass] (38-86) after unwrapping both hints. [args_ok] compares the arguments
      (76-81); literals have their values as arguments, of which only the number matters. *)
  Definition args_count (h : hint C) : nat :=
    match h with HLiteral items => List.length items | _ => List.length (get_args h) end.
  Definition check_issubclass (klass check : hint C) (args_ok : list (hint C) -> result bool) : result bool :=
    match klass, check with
    | HAny, HAny => Ok true                                                        (* 53-54 *)
    | HAny, _ => Ok false
    | _, HAny => Ok true                                                           (* 55-56 *)
    | _, HNone => Ok (match klass with HClass c => is_none c | _ => false end)     (* 57-58 *)
    | _, _ =>
        match get_origin klass, get_origin check with
        | NoOrigin, NoOrigin => issubclass (as_class klass) check                  (* 60-61 *)
        | o, NoOrigin => issubclass (origin_class o) check                         (* 63-64 *)
        | NoOrigin, o => bind (issubclass_origin (as_class klass) o) (fun b =>     (* 66-67 *)
                         Ok (b && (args_count check =? 0)))
        | o, o' =>                                                                 (* 69-84 *)
            bind (if args_count check =? 0 then Ok true
                  else if args_count klass =? args_count check then args_ok (get_args klass)
                  else Ok false)
              (fun b => if b then match o with
                                  | OriginClass _ => issubclass_origin (origin_class o) o'
                                  | _ => Ok false
                                  end
                        else Ok false)
        end
    end.

  (** [lenient_issubclass] (166-177) for a single class to check against. *)
  Fixpoint lenient (check klass : hint C) {struct check} : result bool :=
    let args_ok (cs : list (hint C)) (ks : list (hint C)) : result bool :=
      (fix all (cs ks : list (hint C)) : result bool :=
         match cs, ks with
         | c :: cs', k :: ks' => bind (lenient c k) (fun b => if b || same k c then all cs' ks' else Ok false)
         | _, _ => Ok true
         end) cs ks in
    if negb (accepted klass) then Ok false else
    let klass' := bound (discard_annotated klass) in
    let against (check' : hint C) : result bool :=
      check_issubclass klass' check'
        (fun ks => match check' with HAlias _ cs | HUnion _ cs => args_ok cs ks | _ => Err (UserError 0) end) in
    match check with
    | HUnion _ args => anyM (fun c => lenient c klass) args
    | HAnnotated c => match c with
                      | HTypeVar (Some b) => against b
                      | HTypeVar None => against HAny
                      | c => against c
                      end
    | HTypeVar (Some b) => against b
    | HTypeVar None => against HAny
    | c => against c
    end.

  Definition lenient_issubclass (klass check : hint C) : result bool := lenient check klass.
  Definition lenient_issubclass_any (klass : hint C) (checks : list (hint C)) : result bool :=
    if negb (accepted klass) then Ok false else anyM (lenient_issubclass klass) checks.
End Hints.

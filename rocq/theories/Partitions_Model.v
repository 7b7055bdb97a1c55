(** Model of src/arti/partitions/__init__.py lines 17-159. Definitions only.

    The built-in field classes are modelled; user defined subclasses of PartitionField are
    not. [date.fromisoformat] is modelled for the extended (YYYY-MM-DD) and basic
    (YYYYMMDD) calendar forms; its week forms (YYYY-Www-D) are rejected here. *)
From Coq Require Import ZArith NArith List Ascii String Bool.
From Verif Require Import Base Str Numerals_Model.
Import ListNotations.
Open Scope list_scope.

(** The classes: DateField (77-108), Int8Field ... Int64Field (111-144), NullField (147-159). *)
Inductive width := W8 | W16 | W32 | W64.
Inductive fclass := DateField | IntField (w : width) | NullField.

(** Their instances. [value: int] carries no range check (114), [value: date] is any valid
    date. *)
Inductive field :=
| FDate (y m d : Z)
| FInt (w : width) (value : Z)
| FNull.

Definition class_of (f : field) : fclass :=
  match f with FDate _ _ _ => DateField | FInt w _ => IntField w | FNull => NullField end.

(** The constructor [datetime.date(y, m, d)]. *)
Definition is_leap (y : Z) : bool :=
  ((y mod 4 =? 0) && (negb (y mod 100 =? 0) || (y mod 400 =? 0)))%Z.
Definition days_in_month (y m : Z) : Z :=
  if (m =? 2)%Z then (if is_leap y then 29 else 28)%Z
  else if ((m =? 4) || (m =? 6) || (m =? 9) || (m =? 11))%Z then 30%Z else 31%Z.
Definition valid_date (y m d : Z) : bool :=
  ((1 <=? y) && (y <=? 9999) && (1 <=? m) && (m <=? 12) && (1 <=? d) && (d <=? days_in_month y m))%Z.
Definition mk_date (y m d : Z) : result field :=
  if valid_date y m d then Ok (FDate y m d) else Err ValueError.

(** [date.isoformat()] (97) *)
Definition isoformat (y m d : Z) : str :=
  py_pad 4 y ++ $"-" ++ py_pad 2 m ++ $"-" ++ py_pad 2 d.

(** [date.fromisoformat(s)] (103, 105) *)
Definition all_digits (s : str) : bool :=
  forallb (fun c => match char_digit 10 c with Some _ => true | None => false end) s.
Definition digits_value (s : str) : Z :=
  match parse_digits 10 0 false s with Some n => Z.of_N n | None => 0%Z end.
Definition ymd (y m d : str) : result field :=
  if all_digits y && all_digits m && all_digits d
  then mk_date (digits_value y) (digits_value m) (digits_value d)
  else Err ValueError.
Definition fromisoformat (s : str) : result field :=
  match s with
  | [y1; y2; y3; y4; s1; m1; m2; s2; d1; d2] =>
      if Ascii.eqb s1 "-"%char && Ascii.eqb s2 "-"%char
      then ymd [y1; y2; y3; y4] [m1; m2] [d1; d2] else Err ValueError
  | [y1; y2; y3; y4; m1; m2; d1; d2] => ymd [y1; y2; y3; y4] [m1; m2] [d1; d2]
  | _ => Err ValueError
  end.

(** [components] (42-46): the model fields and the [field_component] properties. *)
Definition components (c : fclass) : list str :=
  match c with
  | DateField => [$"value"; $"Y"; $"m"; $"d"; $"iso"]
  | IntField _ => [$"value"; $"hex"]
  | NullField => [$"value"]
  end.

(** [default_components] (78, 113, 148), name to format spec inside the placeholder. *)
Definition default_components (c : fclass) : list (str * str) :=
  match c with
  | DateField => [($"Y", $"Y"); ($"m", $"m:02"); ($"d", $"d:02")]
  | IntField _ => [($"value", $"value")]
  | NullField => [($"value", $"value")]
  end.

(** The Python value of [field.component] (83-97, 118-119). *)
Inductive cvalue := CInt (z : Z) | CStr (s : str) | CDate (y m d : Z) | CNone.
Definition component (f : field) (name : str) : result cvalue :=
  match f with
  | FDate y m d =>
      if str_eqb name $"value" then Ok (CDate y m d)
      else if str_eqb name $"Y" then Ok (CInt y)
      else if str_eqb name $"m" then Ok (CInt m)
      else if str_eqb name $"d" then Ok (CInt d)
      else if str_eqb name $"iso" then Ok (CStr (isoformat y m d))
      else Err AttributeError
  | FInt _ v =>
      if str_eqb name $"value" then Ok (CInt v)
      else if str_eqb name $"hex" then Ok (CStr (py_hex v))
      else Err AttributeError
  | FNull => if str_eqb name $"value" then Ok CNone else Err AttributeError
  end.

(** [format(value, spec)]: the empty spec, and zero padded widths on integers; other specs
    are left to the argument [other]. *)
Section Formatting.
  Context (other : cvalue -> str -> result str).
  Definition zero_width (spec : str) : option nat :=
    match spec with
    | z :: w => if Ascii.eqb z "0"%char && all_digits w
                then Some (Z.to_nat (digits_value w)) else None
    | [] => None
    end.
  Definition format_value (v : cvalue) (spec : str) : result str :=
    match spec with
    | [] => Ok match v with
               | CInt z => py_str z
               | CStr s => s
               | CDate y m d => isoformat y m d
               | CNone => $"None"
               end
    | _ => match v, zero_width spec with
           | CInt z, Some w => Ok (py_pad w z)
           | _, _ => other v spec
           end
    end.
End Formatting.

(** [from_components( **components )] of each class (99-108, 121-128, 153-159, 48-51). The
    keyword arguments are a dict: no repeated names. *)
Definition names_are (names : list str) (comps : list (str * str)) : bool :=
  forallb (fun n => existsb (fun kv => str_eqb (fst kv) n) comps) names &&
  forallb (fun kv => existsb (str_eqb (fst kv)) names) comps.
Definition comp (comps : list (str * str)) (n : str) : str :=
  match dget str_eqb comps n with Some v => v | None => [] end.
Definition from_components (c : fclass) (comps : list (str * str)) : result field :=
  match c with
  | DateField =>
      if names_are [$"value"] comps then fromisoformat (comp comps $"value")
      else if names_are [$"iso"] comps then fromisoformat (comp comps $"iso")
      else if names_are [$"Y"; $"m"; $"d"] comps then
        bind (py_int 10 (comp comps $"Y")) (fun y =>
        bind (py_int 10 (comp comps $"m")) (fun m =>
        bind (py_int 10 (comp comps $"d")) (fun d => mk_date y m d)))
      else Err NotImplementedError
  | IntField w =>
      if names_are [$"value"] comps then rmap (FInt w) (py_int 10 (comp comps $"value"))
      else if names_are [$"hex"] comps then rmap (FInt w) (py_int 16 (comp comps $"hex"))
      else Err NotImplementedError
  | NullField =>
      if names_are [$"value"] comps then
        if str_eqb (comp comps $"value") $"None" then Ok FNull else Err ValueError
      else Err NotImplementedError
  end.

(** [PartitionField.get_class_for] (53-55) on the types with a registered field class, and
    [PartitionKey.types_from] (62-71): the partition fields of a collection, in order. The
    remaining types have no entry in [_by_type_] (KeyError). *)
Inductive ptype := TDate | TInt (w : width) | TNull | TOther.
Definition get_class_for (t : ptype) : result fclass :=
  match t with
  | TDate => Ok DateField
  | TInt w => Ok (IntField w)
  | TNull => Ok NullField
  | TOther => Err KeyError
  end.
Definition types_from (partition_fields : option (list (str * ptype))) : result (list (str * fclass)) :=
  match partition_fields with
  | None => Ok []                                         (* not a Collection: 64-65 *)
  | Some fs => rmap (dict_of str_eqb)
                 (mapM (fun nt => rmap (fun c => (fst nt, c)) (get_class_for (snd nt))) fs)
  end.

(** Equality of keys ([frozendict.__eq__] of fields compared as models). *)
Definition width_eqb (a b : width) : bool :=
  match a, b with W8, W8 | W16, W16 | W32, W32 | W64, W64 => true | _, _ => false end.
Definition field_eqb (a b : field) : bool :=
  match a, b with
  | FDate y m d, FDate y' m' d' => ((y =? y') && (m =? m') && (d =? d'))%Z
  | FInt w v, FInt w' v' => width_eqb w w' && (v =? v')%Z
  | FNull, FNull => true
  | _, _ => false
  end.

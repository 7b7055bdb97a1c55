(** Model of src/arti/types/numpy.py lines 28-95 and src/arti/types/pandas.py lines 13-105: the
    NumPy and pandas type systems. Definitions only.

    Of NumPy (2.0) and pandas (2.2) there are scalar classes, dtypes, and the shapes, dtypes and labels of arrays,
    Series and DataFrames; of their data only what the first object of an object array or column is. *)
From Coq Require Import ZArith List Ascii String Bool Arith.
From Verif Require Import Base Str TypeSystem_Model Types_Model PyTypes_Model.
Import ListNotations.
Open Scope list_scope.

(** Scalar classes; [NpOther] is any other class (np.complex128, str, pd.DataFrame, ...). *)
Inductive npclass :=
| NpBytes | NpBool | NpStr
| NpFloat (w : fbits) | NpInt (w : bits) | NpUInt (w : bits)
| NpOther (name : str).
Definition npclass_eqb (a b : npclass) : bool :=
  match a, b with
  | NpBytes, NpBytes | NpBool, NpBool | NpStr, NpStr => true
  | NpFloat v, NpFloat w => fbits_eqb v w
  | NpInt v, NpInt w | NpUInt v, NpUInt w => bits_eqb v w
  | NpOther n, NpOther m => str_eqb n m
  | _, _ => false
  end.

(** The labels of columns need not be strings. *)
Inductive label := Name (n : str) | OtherLabel (n : str).
Definition label_eqb (a b : label) : bool :=
  match a, b with Name n, Name m | OtherLabel n, OtherLabel m => str_eqb n m | _, _ => false end.
(** The data of a Series: of a dtype, or of objects the first of which, if any, is a str or not. [sized] is
    only relevant to bytes and str: whether the dtype has a length (as "S1", not "S"). *)
Inductive column :=
| ColOf (c : npclass) (sized : bool)
| ColObjects (first_is_str : option bool).
Inductive obj :=
| Class (c : npclass)
| Dtype (c : npclass) (sized : bool)
| Array (shape : list nat) (c : npclass)
| Objects (shape : list nat) (first : obj)    (* of dtype object; [first]: an array, or the class of another object *)
| Series (c : column)
| DataFrame (columns : list (label * column))
| OtherObj (text : str).

(** ** numpy.py *)
Definition frame_adapter := adapter ty obj unit.

(** [_NumpyScalarTypeAdapter.matches_system] (31-40). A dtype is compared to the dtype of the
    class, which has no length. The result of comparing a Series or DataFrame has no truth value: a
    ValueError. *)
Definition equals_class (x : obj) (system : npclass) : result bool :=
  match x with
  | Class c => Ok (npclass_eqb c system)
  | Dtype c sized => Ok (npclass_eqb c system && negb (sized && match c with NpBytes | NpStr => true | _ => false end))
  | Series _ | DataFrame _ => Err ValueError
  | _ => Ok false
  end.
(** [_ScalarClassTypeAdapter] (types/__init__.py 313-342) otherwise. *)
Definition np_scalar (key : str) (is : ty -> bool) (make : ty) (system : npclass) (priority : Z) : frame_adapter :=
  {| a_key := key; a_priority := priority;
     matches_artigraph := fun t _ => Ok (is t);
     adapt_to_system := fun _ _ _ => Ok (Class system);
     matches_system := fun x _ => equals_class x system;
     adapt_to_artigraph := fun _ _ _ => Ok make |}.
Definition is_uint (w : bits) (t : ty) : bool := match t with Scalar (UInt v) _ => bits_eqb v w | _ => false end.
Definition bits_name (w : bits) : str := match w with B8 => $"8" | B16 => $"16" | B32 => $"32" | B64 => $"64" end.
Definition fbits_name (w : fbits) : str := match w with F16 => $"16" | F32 => $"32" | F64 => $"64" end.
Definition bits_priority (w : bits) : Z := match w with B8 => 8 | B16 => 16 | B32 => 32 | B64 => 64 end.
Definition fbits_priority (w : fbits) : Z := match w with F16 => 16 | F32 => 32 | F64 => 64 end.
(** Lines 43-63. *)
Definition np_binary := np_scalar $"numpyBinary" is_binary (Binary None plain) NpBytes 0.
Definition np_boolean := np_scalar $"numpyBoolean" is_boolean (Scalar Boolean plain) NpBool 0.
Definition np_string := np_scalar $"numpyString" is_string (Scalar String plain) NpStr 0.
Definition np_float w := np_scalar ($"numpyFloat" ++ fbits_name w) (is_float w) (Scalar (Float w) plain) (NpFloat w) (fbits_priority w).
Definition np_int w := np_scalar ($"numpyInt" ++ bits_name w) (is_int w) (Scalar (Int w) plain) (NpInt w) (bits_priority w).
Definition np_uint w := np_scalar ($"numpyUInt" ++ bits_name w) (is_uint w) (Scalar (UInt w) plain) (NpUInt w) (bits_priority w).

(** ArrayAdapter (66-95). Arrays have at most 64 dimensions: [np.array] raises a ValueError
    otherwise. Calling what is no class is a TypeError. [type_[0]] of an array without dimensions or rows is an IndexError. *)
Definition max_dims : nat := 64.
Definition array_of (x : obj) : result obj :=
  match x with
  | Array shape c => if Nat.ltb (Datatypes.length shape) max_dims then Ok (Array (1 :: shape) c) else Err ValueError
  | Objects shape f => if Nat.ltb (Datatypes.length shape) max_dims then Ok (Objects (1 :: shape) f) else Err ValueError
  | Class c => Ok (Array [1] c)
  | _ => Err TypeError
  end.
Definition first_of (x : obj) : result obj :=
  match x with
  | Array [] _ | Array (0 :: _) _ | Objects [] _ | Objects (0 :: _) _ => Err IndexError
  | Array [S _] c => Ok (Class c)
  | Array (S _ :: shape) c => Ok (Array shape c)
  | Objects [S _] f => Ok f
  | Objects (S _ :: shape) f => Ok (Objects shape f)
  | _ => Err TypeError
  end.
Definition is_array (x : obj) : bool := match x with Array _ _ | Objects _ _ => true | _ => false end.
Definition np_array : frame_adapter :=
  {| a_key := $"ArrayAdapter"; a_priority := 0;
     matches_artigraph := fun t _ => Ok (is_list t);
     adapt_to_system := fun conv t h => bind (element_of t) (fun e => bind (conv e h) array_of);
     matches_system := fun x _ => Ok (is_array x);
     adapt_to_artigraph := fun conv x h => bind (first_of x) (fun v => rmap (fun e => List e plain) (conv v h)) |}.

(** [numpy_type_system] (28), in the order of registration. *)
Definition numpy_adapters : list frame_adapter :=
  [np_binary; np_boolean; np_string; np_float F16; np_float F32; np_float F64;
   np_int B8; np_uint B8; np_int B16; np_uint B16; np_int B32; np_uint B32; np_int B64; np_uint B64; np_array].
Definition numpy_system : system ty obj unit := system_of numpy_adapters.
Definition np_of (n : nat) (t : ty) : result obj := to_system n numpy_system t tt.
Definition of_np (n : nat) (x : obj) : result ty := to_artigraph n numpy_system x tt.

(** ** pandas.py *)
(** [pd.Series([dtype()], dtype=dtype)]: strings are kept as objects, bytes get a length. *)
Definition series_of (x : obj) : result obj :=
  match x with
  | Class NpStr => Ok (Series (ColObjects (Some true)))
  | Class NpBytes => Ok (Series (ColOf NpBytes true))
  | Class c => Ok (Series (ColOf c false))
  | _ => Err TypeError
  end.
(** SeriesAdapter (16-50) *)
Definition list_of (t : ty) : result ty := match t with List e _ | Collection _ e _ _ _ => Ok e | _ => Err AssertionError end.
Definition list_of_structs (t : ty) : bool :=
  match t with List e _ | Collection _ e _ _ _ => is_struct e | _ => false end.
Definition pd_series : frame_adapter :=
  {| a_key := $"SeriesAdapter"; a_priority := 0;
     matches_artigraph := fun t _ => Ok (is_list t && negb (list_of_structs t));
     adapt_to_system := fun conv t h => bind (list_of t) (fun e => bind (conv e h) series_of);
     matches_system := fun x _ => Ok (match x with Series _ => true | _ => false end);
     adapt_to_artigraph := fun conv x h =>
       match x with
       | Series (ColObjects None) => Err IndexError
       | Series (ColObjects (Some true)) => Ok (List (Scalar String plain) plain)
       | Series (ColObjects (Some false)) => Err NotImplementedError
       | Series (ColOf c sized) => rmap (fun e => List e plain) (conv (Dtype c sized) h)
       | _ => Err AttributeError
       end |}.

(** [type_[name]]: the column, or the columns, of that label. *)
Definition select (columns : list (label * column)) (l : label) : obj :=
  match filter (fun c => label_eqb (fst c) l) columns with
  | [(_, c)] => Series c
  | cs => DataFrame cs
  end.
(** Struct's names are strings (pydantic's ValueError otherwise). *)
Definition named (f : label * ty) : result (str * ty) :=
  match f with (Name n, t) => Ok (n, t) | _ => Err ValueError end.
(** DataFrameAdapter (53-105). pandas refuses a DataFrame as column with a ValueError. *)
Definition as_column (x : obj) : result column :=
  match x with Series c => Ok c | _ => Err ValueError end.
Definition pd_frame : frame_adapter :=
  {| a_key := $"DataFrameAdapter"; a_priority := 0;
     matches_artigraph := fun t _ => Ok (list_of_structs t);
     adapt_to_system := fun conv t h =>
       match t with
       | List (Struct _ fields _) _ | Collection _ (Struct _ fields _) _ _ _ =>
           bind (mapM (fun nf => rmap (pair (fst nf)) (conv (List (snd nf) plain) h)) fields) (fun cols =>
           rmap DataFrame (mapM (fun nc => rmap (pair (Name (fst nc))) (as_column (snd nc))) cols))
       | _ => Err AssertionError
       end;
     matches_system := fun x _ => Ok (match x with DataFrame _ => true | _ => false end);
     adapt_to_artigraph := fun conv x h =>
       match x with
       | DataFrame columns =>
           bind (mapM (fun lc => bind (conv (select columns (fst lc)) h) (fun t => rmap (pair (fst lc)) (element_of t))) columns) (fun fs =>
           rmap (fun fields => List (Struct anon fields plain) plain) (mapM named (dict_of label_eqb fs)))
       | _ => Err AssertionError
       end |}.

(** [pandas_type_system] (13) *)
Definition pandas_system : system ty obj unit :=
  TypeSystem (map (fun a => (a_key a, a)) [pd_series; pd_frame]) [numpy_system].
Definition pd_of (n : nat) (t : ty) : result obj := to_system n pandas_system t tt.
Definition of_pd (n : nat) (x : obj) : result ty := to_artigraph n pandas_system x tt.

(** For the examples: floats that are integers and a half, and objects with them. *)
From Coq Require Import ZArith NArith List Ascii String Bool.
From Verif Require Import Base Str Numerals_Model Types_Model IO_Model Types_Props IO_Props Json_Model Json_Spec.
Import ListNotations.
Open Scope list_scope.

Inductive half := Half (z : Z) | HNan | HInf | HNegInf.
Definition halves : floats :=
  {| F := half;
     kind := fun x => match x with Half z => Finite (py_str z ++ $".5") | HNan => NotANumber | HInf => PosInf | HNegInf => NegInf end;
     nan := HNan; inf := HInf; neg_inf := HNegInf;
     of_text := fun s => match py_int 10 (firstn (List.length s - 2) s) with Ok z => Half z | Err _ => HNan end |}.
Definition no_pickle_loads (_ : str) : result (value halves) := Err NotImplementedError.
Definition no_pickle_dumps (_ : value halves) : result str := Err NotImplementedError.
Definition no_pickle_left (_ : value halves) : str := [].
Definition ex_read := read_as no_pickle_loads.
Definition ex_write := write_as no_pickle_dumps no_pickle_left ex_fp.

Definition tx (s : str) : value halves := VText (of_str s).
(** A dict with a number, a list of a float, NaN and None, a string with a quote, an e with an accent, a newline and a clef, and a dict. *)
Definition ex_value : value halves :=
  VDict [(tx $"n", VInt (-12)); (tx $"x", VList [VFloat (Half 0 : F halves); VFloat (HNan : F halves); VNone]);
         (tx $"quote", VText [34; 233; 10; 119070]%N); (tx [], VDict [])].
Definition ex_text : str := $"{""n"": -12, ""x"": [0.5, NaN, null], ""quote"": ""\""\u00e9\n\ud834\udd1e"", """": {}}".
(** {1: (True, "a"), "1": 2}: a tuple, and two keys with the same text. *)
Definition ex_odd : value halves := VDict [(VInt 1, VTuple [VBool true; tx $"a"]); (tx $"1", VInt 2)].
Definition ex_day : value halves := VDate 2020 1 31.
(** [{"day": 2020-01-31, "n": 1, "s": "a"}] *)
Definition ex_rows : value halves := VList [VDict [(tx $"day", ex_day); (tx $"n", VInt 1); (tx $"s", tx $"a")]].

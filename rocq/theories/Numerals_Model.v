(** Python's textual integers: [str(int)], [format(int, "0w")], [hex(int)],
    [int(s)] and [int(s, base=16)], as used by src/arti/partitions/__init__.py
    (lines 84-127), src/arti/storage/_internal.py:140 and
    src/arti/internal/utils.py:92.
    Simplifications: ASCII digits only; CPython's 4300 digit limit on decimal
    conversions is not modelled. Definitions only. *)
From Coq Require Import ZArith NArith List Ascii String Bool.
From Verif Require Import Base Str.
Import ListNotations.
Open Scope N_scope.

(** Little-endian digits of [n] in base [b]; [fuel] bounds the bit length. *)
Fixpoint digits_le (b : N) (fuel : nat) (n : N) : list N :=
  match fuel with
  | O => [n]
  | S f => if n <? b then [n] else (n mod b) :: digits_le b f (n / b)
  end.
Definition digits (b n : N) : list N := rev (digits_le b (N.size_nat n) n).

(** 0-9 then a-f. *)
Definition digit_char (d : N) : ascii :=
  if d <? 10 then ascii_of_N (48 + d) else ascii_of_N (87 + d).

(** Value of a digit character below [b]; upper case letters are accepted by [int]. *)
Definition char_digit (b : N) (c : ascii) : option N :=
  let n := N_of_ascii c in
  let d := if (48 <=? n) && (n <=? 57) then Some (n - 48)
           else if (97 <=? n) && (n <=? 122) then Some (n - 87)
           else if (65 <=? n) && (n <=? 90) then Some (n - 55)
           else None in
  match d with
  | Some d => if d <? b then Some d else None
  | None => None
  end.

Definition str_N (b n : N) : str := map digit_char (digits b n).

(** [str(z)]. *)
Definition py_str (z : Z) : str :=
  match z with
  | Zneg p => "-"%char :: str_N 10 (Npos p)
  | _ => str_N 10 (Z.to_N z)
  end.

(** [hex(z)]. *)
Definition py_hex (z : Z) : str :=
  match z with
  | Zneg p => $"-0x" ++ str_N 16 (Npos p)
  | _ => $"0x" ++ str_N 16 (Z.to_N z)
  end.

(** [format(z, "0" + str(w))]: zero padding after the sign, to total width [w]. *)
Definition py_pad (w : nat) (z : Z) : str :=
  match z with
  | Zneg p => let ds := str_N 10 (Npos p) in
              "-"%char :: repeat "0"%char (w - 1 - List.length ds) ++ ds
  | _ => let ds := str_N 10 (Z.to_N z) in
         repeat "0"%char (w - List.length ds) ++ ds
  end.

(** Digits with single underscores strictly between them, as [int] accepts.
    [prev] tells whether the previous character was a digit. *)
Fixpoint parse_digits (b acc : N) (prev : bool) (s : str) : option N :=
  match s with
  | [] => if prev then Some acc else None
  | c :: s' =>
      if Ascii.eqb c "_"%char then
        if prev then match s' with
                     | c' :: _ => if Ascii.eqb c' "_"%char then None
                                  else parse_digits b acc false s'
                     | [] => None
                     end
        else None
      else match char_digit b c with
           | Some d => parse_digits b (acc * b + d) true s'
           | None => None
           end
  end.

(** C [isspace] in the "C" locale. *)
Definition is_space (c : ascii) : bool :=
  let n := N_of_ascii c in (n =? 32) || ((9 <=? n) && (n <=? 13)).
Fixpoint lstrip_space (s : str) : str :=
  match s with
  | c :: s' => if is_space c then lstrip_space s' else s
  | [] => []
  end.
Definition strip_space (s : str) : str := rev (lstrip_space (rev (lstrip_space s))).

(** Base 16 literals may carry a [0x] prefix, optionally followed by [_]. *)
Definition drop_hex_prefix (s : str) : str :=
  match s with
  | z :: x :: s' =>
      if Ascii.eqb z "0"%char && (Ascii.eqb x "x"%char || Ascii.eqb x "X"%char)
      then match s' with
           | u :: s'' => if Ascii.eqb u "_"%char then s'' else s'
           | [] => s'
           end
      else s
  | _ => s
  end.

(** [int(s)] (base 10) and [int(s, base=16)]; ValueError when malformed. *)
Definition py_int (b : N) (s : str) : result Z :=
  let body := fun (neg : bool) (t : str) =>
    match parse_digits b 0 false (if b =? 16 then drop_hex_prefix t else t) with
    | Some n => Ok (if neg then (- Z.of_N n)%Z else Z.of_N n)
    | None => Err ValueError
    end in
  match strip_space s with
  | c :: t => if Ascii.eqb c "-"%char then body true t
              else if Ascii.eqb c "+"%char then body false t
              else body false (c :: t)
  | [] => Err ValueError
  end.

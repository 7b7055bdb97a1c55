(** Model of the JSON codec behind the readers and writers of
    src/arti/io/json_localfile_python.py, json_gcsfile_python.py and
    json_stringliteral_python.py: Python's [json.dump(data, file)] and [json.dumps(data)], called
    without options (json_localfile_python.py:48, json_gcsfile_python.py:49,
    json_stringliteral_python.py:52), [json.load] and [json.loads] (21, 23, 20), and what
    [list(chain.from_iterable(...))] (32-36, 34-39, 31-35) does to Python objects. Definitions
    only.

    The standard library's code is modelled as documented and as in CPython's Lib/json
    (encoder.py [_make_iterencode], [py_encode_basestring_ascii]; decoder.py and scanner.py).
    Objects are trees of the classes below; subclasses of them, the limit on the digits of
    integers and that on the depth of recursion are not modelled. Text is read as the code points
    of its characters; the texts that [json.dump] writes are ASCII in any encoding. *)
From Coq Require Import ZArith NArith List Ascii String Bool.
From Verif Require Import Base Str Numerals_Model IO_Model.
Import ListNotations.
Open Scope list_scope.

(** Python's floats: what [float.__repr__] writes, told apart from the three that have names in
    JSON, those three, and [float(text)]. *)
Inductive fkind := Finite (repr : str) | NotANumber | PosInf | NegInf.
Record floats := { F : Type; kind : F -> fkind; nan : F; inf : F; neg_inf : F; of_text : str -> F }.

(** A str is a list of code points, among them surrogates. *)
Definition text := list N.

Inductive value (fl : floats) :=
| VNone
| VBool (b : bool)
| VInt (z : Z)
| VFloat (x : F fl)
| VText (s : text)
| VList (l : list (value fl))
| VTuple (l : list (value fl))
| VDict (kvs : list (value fl * value fl))
| VSet (frozen : bool) (l : list (value fl))
| VBytes (b : list N)
| VDate (y m d : Z)
| VDatetime (iso : str).
Arguments VNone {fl}. Arguments VBool {fl} b. Arguments VInt {fl} z. Arguments VFloat {fl} x.
Arguments VText {fl} s. Arguments VList {fl} l. Arguments VTuple {fl} l. Arguments VDict {fl} kvs.
Arguments VSet {fl} frozen l. Arguments VBytes {fl} b. Arguments VDate {fl} y m d. Arguments VDatetime {fl} iso.

(** * Encoding *)

(** ['\\u{0:04x}'.format(n)] for [n] below 16^4. *)
Definition u_escape (n : N) : str :=
  $"\u" ++ map digit_char [n / 4096; n / 256 mod 16; n / 16 mod 16; n mod 16]%N.
(** [py_encode_basestring_ascii]: the code points from space to tilde as they are but for the
    quote and the backslash; pairs of surrogates for those above the basic plane. *)
Definition escaped (n : N) : str :=
  if (n =? 34)%N then $"\""" else if (n =? 92)%N then $"\\"
  else if (n =? 8)%N then $"\b" else if (n =? 9)%N then $"\t" else if (n =? 10)%N then $"\n"
  else if (n =? 12)%N then $"\f" else if (n =? 13)%N then $"\r"
  else if ((32 <=? n) && (n <=? 126))%N then [ascii_of_N n]
  else if (n <? 65536)%N then u_escape n
  else u_escape (55296 + (n - 65536) / 1024)%N ++ u_escape (56320 + (n - 65536) mod 1024)%N.
Definition quoted (s : text) : str := $"""" ++ flat_map escaped s ++ $"""".

(** Text that is written piece by piece until the end or until something cannot be encoded. *)
Definition written := (str * bool)%type.
Definition say (s : str) : written := (s, true).
Definition give_up : written := ([], false).
Definition then_ (a b : written) : written := if snd a then (fst a ++ fst b, snd b) else a.

(** [floatstr] *)
Definition float_str {fl} (x : F fl) : str :=
  match kind fl x with
  | Finite repr => repr
  | NotANumber => $"NaN"
  | PosInf => $"Infinity"
  | NegInf => $"-Infinity"
  end.
Definition bool_str (b : bool) : str := if b then $"true" else $"false".
(** The keys of dicts that are no strings are written as strings. *)
Definition of_str (s : str) : text := map N_of_ascii s.
Definition key_text {fl} (k : value fl) : option text :=
  match k with
  | VText s => Some s
  | VFloat x => Some (of_str (float_str x))
  | VBool b => Some (of_str (bool_str b))
  | VNone => Some (of_str $"null")
  | VInt z => Some (of_str (py_str z))
  | _ => None
  end.

(** [_iterencode], [_iterencode_list] and [_iterencode_dict]. Keys are looked at before the comma
    in front of them is written. *)
Fixpoint emit {fl} (v : value fl) : written :=
  match v with
  | VNone => say $"null"
  | VBool b => say (bool_str b)
  | VInt z => say (py_str z)
  | VFloat x => say (float_str x)
  | VText s => say (quoted s)
  | VList l | VTuple l =>
      then_ (say $"[")
        ((fix items sep l := match l with
                             | [] => say $"]"
                             | x :: l' => then_ (say sep) (then_ (emit x) (items $", " l'))
                             end) [] l)
  | VDict kvs =>
      then_ (say $"{")
        ((fix members sep kvs := match kvs with
                                 | [] => say $"}"
                                 | kx :: kvs' =>
                                     match key_text (fst kx) with
                                     | Some k => then_ (say (sep ++ quoted k ++ $": "))
                                                   (then_ (emit (snd kx)) (members $", " kvs'))
                                     | None => give_up
                                     end
                                 end) [] kvs)
  | VSet _ _ | VBytes _ | VDate _ _ _ | VDatetime _ => give_up
  end.

(** [json.dumps], and what [json.dump] has written when it raises. *)
Definition dumps {fl} (v : value fl) : result str :=
  let '(c, complete) := emit v in if complete : bool then Ok c else Err TypeError.
Definition left_behind {fl} (v : value fl) : str := fst (emit v).

(** * Decoding *)

(** [WHITESPACE] (decoder.py): space, tab, newline, carriage return. *)
Definition is_ws (c : ascii) : bool :=
  let n := N_of_ascii c in ((n =? 32) || (n =? 9) || (n =? 10) || (n =? 13))%N.
Fixpoint skip_ws (s : str) : str :=
  match s with c :: s' => if is_ws c then skip_ws s' else s | [] => [] end.

Definition hex4 (a b c d : ascii) : option N :=
  match char_digit 16 a, char_digit 16 b, char_digit 16 c, char_digit 16 d with
  | Some a, Some b, Some c, Some d => Some (a * 4096 + b * 256 + c * 16 + d)%N
  | _, _, _, _ => None
  end.
Definition is_high (n : N) : bool := ((55296 <=? n) && (n <=? 56319))%N.
Definition is_low (n : N) : bool := ((56320 <=? n) && (n <=? 57343))%N.
Definition pair_up (h l : N) : N := (65536 + (h - 55296) * 1024 + (l - 56320))%N.
Definition unescape (c : ascii) : option N :=
  if Ascii.eqb c """" then Some 34%N else if Ascii.eqb c "\" then Some 92%N
  else if Ascii.eqb c "/" then Some 47%N else if Ascii.eqb c "b" then Some 8%N
  else if Ascii.eqb c "f" then Some 12%N else if Ascii.eqb c "n" then Some 10%N
  else if Ascii.eqb c "r" then Some 13%N else if Ascii.eqb c "t" then Some 9%N
  else None.
Definition add {A B} (x : A) (r : option (list A * B)) : option (list A * B) :=
  match r with Some (l, s) => Some (x :: l, s) | None => None end.
(** [py_scanstring] from behind the opening quote, with [strict]. *)
Fixpoint scan_string (s : str) : option (text * str) :=
  match s with
  | [] => None
  | c :: s1 =>
      if Ascii.eqb c """" then Some ([], s1)
      else if Ascii.eqb c "\" then
        match s1 with
        | e :: s2 =>
            if Ascii.eqb e "u" then
              match s2 with
              | a :: b :: c :: d :: s3 =>
                  match hex4 a b c d with
                  | Some h =>
                      match s3 with
                      | c1 :: c2 :: a :: b :: c :: d :: s4 =>
                          if is_high h && Ascii.eqb c1 "\" && Ascii.eqb c2 "u" then
                            match hex4 a b c d with
                            | Some l => if is_low l then add (pair_up h l) (scan_string s4) else add h (scan_string s3)
                            | None => None
                            end
                          else add h (scan_string s3)
                      | _ => add h (scan_string s3)
                      end
                  | None => None
                  end
              | _ => None
              end
            else match unescape e with Some n => add n (scan_string s2) | None => None end
        | [] => None
        end
      else if (N_of_ascii c <? 32)%N then None
      else add (N_of_ascii c) (scan_string s1)
  end.

(** [NUMBER_RE] (scanner.py): the sign, the integer, the fraction and the exponent. *)
Definition is_digit (c : ascii) : bool := ((48 <=? N_of_ascii c) && (N_of_ascii c <=? 57))%N.
Fixpoint span (p : ascii -> bool) (s : str) : str * str :=
  match s with
  | c :: s' => if p c then let '(a, r) := span p s' in (c :: a, r) else ([], s)
  | [] => ([], [])
  end.
Definition scan_sign (s : str) : str * str :=
  match s with c :: s' => if Ascii.eqb c "-" then ([c], s') else ([], s) | [] => ([], []) end.
Definition scan_integer (s : str) : option (str * str) :=
  match s with
  | c :: s' => if Ascii.eqb c "0" then Some ([c], s')
               else if is_digit c then let '(a, r) := span is_digit s' in Some (c :: a, r)
               else None
  | [] => None
  end.
Definition scan_fraction (s : str) : str * str :=
  match s with
  | c :: s' => if Ascii.eqb c "." then match span is_digit s' with ([], _) => ([], s) | (a, r) => (c :: a, r) end
               else ([], s)
  | [] => ([], [])
  end.
Definition scan_exponent (s : str) : str * str :=
  match s with
  | c :: s' =>
      if Ascii.eqb c "e" || Ascii.eqb c "E" then
        let '(sign, s'') := match s' with
                            | d :: s'' => if Ascii.eqb d "+" || Ascii.eqb d "-" then ([d], s'') else ([], s')
                            | [] => ([], [])
                            end in
        match span is_digit s'' with ([], _) => ([], s) | (a, r) => (c :: sign ++ a, r) end
      else ([], s)
  | [] => ([], [])
  end.

Section Decode.
  Context {fl : floats}.

  Definition scan_number (s : str) : option (value fl * str) :=
    let '(sign, s) := scan_sign s in
    match scan_integer s with
    | Some (digits, s) =>
        let '(fraction, s) := scan_fraction s in
        let '(exponent, s) := scan_exponent s in
        match fraction, exponent with
        | [], [] => match py_int 10 (sign ++ digits) with Ok z => Some (VInt z, s) | Err _ => None end
        | _, _ => Some (VFloat (of_text fl (sign ++ digits ++ fraction ++ exponent)), s)
        end
    | None => None
    end.

  (** Words, longest first where it matters: [-Infinity] only after no number was found. *)
  Definition words : list (str * value fl) :=
    [($"null", VNone); ($"true", VBool true); ($"false", VBool false);
     ($"NaN", VFloat (nan fl)); ($"Infinity", VFloat (inf fl)); ($"-Infinity", VFloat (neg_inf fl))].
  Fixpoint scan_word (ws : list (str * value fl)) (s : str) : option (value fl * str) :=
    match ws with
    | [] => None
    | (w, v) :: ws' => if starts_with w s then Some (v, skipn (List.length w) s) else scan_word ws' s
    end.

  (** dict(pairs) of pairs whose keys are strings. *)
  Definition text_eqb (a b : text) : bool := if list_eq_dec N.eq_dec a b then true else false.
  Definition dict_value (pairs : list (text * value fl)) : value fl :=
    VDict (map (fun kx => (VText (fst kx), snd kx)) (dict_of text_eqb pairs)).

  (** [scan_once], [JSONArray] and [JSONObject]; [fuel] bounds the recursion. *)
  Fixpoint scan_value (fuel : nat) (s : str) : option (value fl * str) :=
    match fuel, s with
    | S n, c :: s' =>
        if Ascii.eqb c """" then option_map (fun x => (VText (fst x), snd x)) (scan_string s')
        else if Ascii.eqb c "[" then
          match skip_ws s' with
          | [] => None
          | d :: r => if Ascii.eqb d "]" then Some (VList [], r)
                      else option_map (fun x => (VList (fst x), snd x)) (scan_items n (d :: r))
          end
        else if Ascii.eqb c "{" then
          match skip_ws s' with
          | [] => None
          | d :: r => if Ascii.eqb d "}" then Some (VDict [], r)
                      else option_map (fun x => (dict_value (fst x), snd x)) (scan_members n (d :: r))
          end
        else match scan_number s with Some x => Some x | None => scan_word words s end
    | _, _ => None
    end
  with scan_items (fuel : nat) (s : str) : option (list (value fl) * str) :=
    match fuel with
    | O => None
    | S n =>
        match scan_value n s with
        | Some (v, r) =>
            match skip_ws r with
            | c :: r' => if Ascii.eqb c "]" then Some ([v], r')
                         else if Ascii.eqb c "," then add v (scan_items n (skip_ws r'))
                         else None
            | [] => None
            end
        | None => None
        end
    end
  with scan_members (fuel : nat) (s : str) : option (list (text * value fl) * str) :=
    match fuel, s with
    | S n, q :: s' =>
        if Ascii.eqb q """" then
          match scan_string s' with
          | Some (k, r) =>
              match skip_ws r with
              | c :: r1 =>
                  if Ascii.eqb c ":" then
                    match scan_value n (skip_ws r1) with
                    | Some (v, r2) =>
                        match skip_ws r2 with
                        | d :: r3 => if Ascii.eqb d "}" then Some ([(k, v)], r3)
                                     else if Ascii.eqb d "," then add (k, v) (scan_members n (skip_ws r3))
                                     else None
                        | [] => None
                        end
                    | None => None
                    end
                  else None
              | [] => None
              end
          | None => None
          end
        else None
    | _, _ => None
    end.

  (** [JSONDecoder.decode]: one value and nothing after it. JSONDecodeError is a ValueError. *)
  Definition loads (s : str) : result (value fl) :=
    match scan_value (2 * List.length s + 1) (skip_ws s) with
    | Some (v, r) => match skip_ws r with [] => Ok v | _ => Err ValueError end
    | None => Err ValueError
    end.

  (** * Iterating: the elements of lists, tuples and sets, the keys of dicts, the characters of
      strings, the integers of bytes. *)
  Definition elements (v : value fl) : result (list (value fl)) :=
    match v with
    | VList l | VTuple l | VSet _ l => Ok l
    | VDict kvs => Ok (map fst kvs)
    | VText s => Ok (map (fun c => VText [c]) s)
    | VBytes b => Ok (map (fun c => VInt (Z.of_N c)) b)
    | _ => Err TypeError
    end.
End Decode.

(** * The readers and writers of IO_Model with this codec; that of [pickle] is left open. *)
Section IO.
  Context {fl : floats} (pickle_loads : str -> result (value fl)) (pickle_dumps : value fl -> result str)
          (pickle_left : value fl -> str) (content_fp : place -> str -> Z).
  Definition decode (f : format) : str -> result (value fl) := match f with JSON => loads | _ => pickle_loads end.
  Definition encode (f : format) : value fl -> result str := match f with JSON => dumps | _ => pickle_dumps end.
  Definition remains (f : format) : value fl -> str := match f with JSON => left_behind | _ => pickle_left end.
  Definition read_as := io_read decode elements VList.
  Definition write_as := io_write encode remains content_fp.
End IO.

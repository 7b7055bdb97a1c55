(** The texts of integers and dates and the fields they stand for, spelled out without the
    parsers and printers of the model. *)
From Coq Require Import ZArith NArith List Ascii String Bool Permutation.
From Verif Require Import Base Str Numerals_Model Partitions_Model.
Import ListNotations.
Open Scope list_scope.

(** ** Integers *)

Definition lower : str := $"0123456789abcdefghijklmnopqrstuvwxyz".
Definition upper : str := $"0123456789ABCDEFGHIJKLMNOPQRSTUVWXYZ".

(** [c] is written for the digit [d] of base [b]; [int] reads both cases, [hex] writes
    lower case. *)
Definition writes (b : N) (c : ascii) (d : N) : Prop :=
  (d < b)%N /\ nth_error lower (N.to_nat d) = Some c.
Definition reads_digit (b : N) (c : ascii) (d : N) : Prop :=
  (d < b)%N /\ (nth_error lower (N.to_nat d) = Some c \/ nth_error upper (N.to_nat d) = Some c).

(** Digits, most significant first, with at most one underscore between two of them. *)
Inductive numeral (b : N) : str -> list N -> Prop :=
| num_last : forall c d, reads_digit b c d -> numeral b [c] [d]
| num_next : forall c d s ds, reads_digit b c d -> numeral b s ds ->
    numeral b (c :: s) (d :: ds)
| num_under : forall c d s ds, reads_digit b c d -> numeral b s ds ->
    numeral b (c :: "_"%char :: s) (d :: ds).

(** The number that digits stand for. *)
Definition value (b : N) (ds : list N) : N := fold_left (fun n d => n * b + d)%N ds 0%N.

(** White space of the "C" locale: tab, newline, vertical tab, form feed, return, blank. *)
Definition blank (c : ascii) : Prop :=
  In (nat_of_ascii c) [9; 10; 11; 12; 13; 32]%nat.

(** The texts [int(s)] (base 10) and [int(s, base=16)] accept, and the integer read: blanks,
    a sign, for base 16 a prefix, the digits, blanks. *)
Inductive prefix : N -> str -> Prop :=
| pre_none : forall b, prefix b []
| pre_hex : forall x u, In x ["x"; "X"]%char -> In u [[]; $"_"] ->
    prefix 16 ("0"%char :: x :: u).
Inductive sign : str -> (Z -> Z) -> Prop :=
| sign_none : sign [] (fun z => z)
| sign_plus : sign $"+" (fun z => z)
| sign_minus : sign $"-" Z.opp.
Definition int_text (b : N) (s : str) (z : Z) : Prop :=
  exists before sg neg pre body ds after,
    s = before ++ sg ++ pre ++ body ++ after /\
    Forall blank before /\ Forall blank after /\ sign sg neg /\ prefix b pre /\
    numeral b body ds /\ z = neg (Z.of_N (value b ds)).

(** The digits of a number without needless zeros. *)
Definition shortest (b : N) (s : str) (n : N) : Prop :=
  exists ds, Forall2 (writes b) s ds /\ ds <> [] /\ value b ds = n /\
             (ds = [0%N] \/ hd 0%N ds <> 0%N).
Definition minus (z : Z) : str := if (z <? 0)%Z then $"-" else [].

(** ** Dates *)

(** The Gregorian calendar, from year 1 to year 9999. *)
Definition leap (y : Z) : Prop := (4 | y)%Z /\ ((100 | y)%Z -> (400 | y)%Z).
Definition civil (y m d : Z) : Prop :=
  (1 <= y <= 9999)%Z /\ (1 <= d)%Z /\
  ((In m [1; 3; 5; 7; 8; 10; 12] /\ d <= 31)%Z \/
   (In m [4; 6; 9; 11] /\ d <= 30)%Z \/
   (m = 2 /\ (d <= 28 \/ (d = 29 /\ leap y)))%Z).

(** Fixed numbers of decimal digits. *)
Definition dig (z : Z) : ascii := nth (Z.to_nat z) lower "0"%char.
Definition two (z : Z) : str := [dig (z / 10); dig (z mod 10)].
Definition four (z : Z) : str := two (z / 100) ++ two (z mod 100).
Definition extended (y m d : Z) : str := four y ++ $"-" ++ two m ++ $"-" ++ two d.
Definition basic (y m d : Z) : str := four y ++ two m ++ two d.
Definition iso_text (s : str) (y m d : Z) : Prop := s = extended y m d \/ s = basic y m d.

(** ** Fields *)

(** The field that components, in any order, stand for. *)
Inductive read_as : fclass -> list (str * str) -> field -> Prop :=
| read_date : forall n s y m d, In n [$"value"; $"iso"] -> iso_text s y m d -> civil y m d ->
    read_as DateField [(n, s)] (FDate y m d)
| read_parts : forall a b c comps y m d,
    Permutation [($"Y", a); ($"m", b); ($"d", c)] comps ->
    int_text 10 a y -> int_text 10 b m -> int_text 10 c d -> civil y m d ->
    read_as DateField comps (FDate y m d)
| read_int : forall w s z, int_text 10 s z -> read_as (IntField w) [($"value", s)] (FInt w z)
| read_hex : forall w s z, int_text 16 s z -> read_as (IntField w) [($"hex", s)] (FInt w z)
| read_null : read_as NullField [($"value", $"None")] FNull.

(** The components of a field. *)
Inductive has : field -> str -> cvalue -> Prop :=
| has_date : forall y m d, has (FDate y m d) $"value" (CDate y m d)
| has_year : forall y m d, has (FDate y m d) $"Y" (CInt y)
| has_month : forall y m d, has (FDate y m d) $"m" (CInt m)
| has_day : forall y m d, has (FDate y m d) $"d" (CInt d)
| has_iso : forall y m d, has (FDate y m d) $"iso" (CStr (extended y m d))
| has_int : forall w z, has (FInt w z) $"value" (CInt z)
| has_hex : forall w z h, shortest 16 h (Z.to_N (Z.abs z)) ->
    has (FInt w z) $"hex" (CStr (minus z ++ $"0x" ++ h))
| has_null : has FNull $"value" CNone.

(** A format spec asking for zeros up to a width. *)
Definition zero_padded (spec : str) (w : N) : Prop :=
  exists s ds, spec = "0"%char :: s /\ Forall2 (writes 10) s ds /\ value 10 ds = w.

(** The field class of a type. *)
Inductive field_for : ptype -> fclass -> Prop :=
| for_date : field_for TDate DateField
| for_int8 : field_for (TInt W8) (IntField W8)
| for_int16 : field_for (TInt W16) (IntField W16)
| for_int32 : field_for (TInt W32) (IntField W32)
| for_int64 : field_for (TInt W64) (IntField W64)
| for_null : field_for TNull NullField.

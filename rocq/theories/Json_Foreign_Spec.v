(** How JSON (RFC 8259, section 7) lets strings be spelled in ASCII files, whoever
    writes them. *)
From Coq Require Import NArith List Ascii String.
From Verif Require Import Base Str Json_Model.
Import ListNotations.
Open Scope list_scope.

Definition escapes : list (ascii * N) :=
  [(""""%char, 34%N); ("\"%char, 92%N); ("/"%char, 47%N); ("b"%char, 8%N); ("f"%char, 12%N); ("n"%char, 10%N);
   ("r"%char, 13%N); ("t"%char, 9%N)].
Definition hex_digits : list (ascii * N) :=
  [("0", 0); ("1", 1); ("2", 2); ("3", 3); ("4", 4); ("5", 5); ("6", 6); ("7", 7); ("8", 8); ("9", 9);
   ("a", 10); ("b", 11); ("c", 12); ("d", 13); ("e", 14); ("f", 15);
   ("A", 10); ("B", 11); ("C", 12); ("D", 13); ("E", 14); ("F", 15)]%char%N.
(** Four hexadecimal digits and their number. *)
Definition code (a b c d : ascii) (n : N) : Prop :=
  exists w x y z, In (a, w) hex_digits /\ In (b, x) hex_digits /\ In (c, y) hex_digits /\ In (d, z) hex_digits /\
    n = (w * 4096 + x * 256 + y * 16 + z)%N.

Inductive spells : str -> text -> Prop :=
| sp_end : spells [] []
| sp_plain : forall c s t, c <> """"%char -> c <> "\"%char -> (32 <= N_of_ascii c < 128)%N -> spells s t ->
    spells (c :: s) (N_of_ascii c :: t)
| sp_escape : forall e n s t, In (e, n) escapes -> spells s t -> spells ("\"%char :: e :: s) (n :: t)
| sp_code : forall a b c d n s t, code a b c d n -> (n < 55296 \/ 57343 < n)%N -> spells s t ->
    spells ("\"%char :: "u"%char :: a :: b :: c :: d :: s) (n :: t)
| sp_pair : forall a b c d e f g h m n s t, code a b c d m -> (55296 <= m <= 56319)%N -> code e f g h n -> (56320 <= n <= 57343)%N ->
    spells s t ->
    spells ("\"%char :: "u"%char :: a :: b :: c :: d :: "\"%char :: "u"%char :: e :: f :: g :: h :: s)
      ((65536 + (m - 55296) * 1024 + (n - 56320))%N :: t).

(** Space, tab, newline, carriage return. *)
Definition blank (s : str) : Prop := forall c, In c s -> In (N_of_ascii c) [32; 9; 10; 13]%N.

(** Python strings as lists of ASCII characters (code points above 255 are not
    modelled), with the handful of [str] methods the code uses. *)
From Coq Require Import List String Ascii Bool NArith Arith.
Import ListNotations.

Definition str := list ascii.
Definition S_ (s : string) : str := list_ascii_of_string s.
Notation "$ s" := (S_ s%string) (at level 1, format "$ s").

Definition str_eqb (a b : str) : bool := if list_eq_dec ascii_dec a b then true else false.

(** [prefix in s at position 0] *)
Fixpoint starts_with (p s : str) : bool :=
  match p, s with
  | [], _ => true
  | a :: p', b :: s' => Ascii.eqb a b && starts_with p' s'
  | _ :: _, [] => false
  end.

(** [sub in s] *)
Fixpoint contains_sub (sub s : str) : bool :=
  starts_with sub s ||
  match s with [] => false | _ :: s' => contains_sub sub s' end.

(** [s.replace(old, new)] for non-empty [old]: leftmost, non-overlapping.
    The [skip] counter consumes the characters of a match. *)
Fixpoint replace_aux (old new s : str) (skip : nat) : str :=
  match s with
  | [] => []
  | a :: s' =>
      match skip with
      | S k => replace_aux old new s' k
      | O => if starts_with old s
             then new ++ replace_aux old new s' (List.length old - 1)
             else a :: replace_aux old new s' 0
      end
  end.
Definition replace (old new s : str) : str := replace_aux old new s 0.

(** [s.rstrip(c)] for a one-character separator. *)
Fixpoint rstrip_char (c : ascii) (s : str) : str :=
  match s with
  | [] => []
  | a :: s' =>
      match rstrip_char c s' with
      | [] => if Ascii.eqb a c then [] else [a]
      | r => a :: r
      end
  end.

(** [sep.join(parts)] *)
Fixpoint join (sep : str) (parts : list str) : str :=
  match parts with
  | [] => []
  | [p] => p
  | p :: rest => p ++ sep ++ join sep rest
  end.

(** [s.split(c)] for a one-character separator: always at least one part. *)
Fixpoint split_char (c : ascii) (s : str) : list str :=
  match s with
  | [] => [[]]
  | a :: s' =>
      if Ascii.eqb a c then [] :: split_char c s'
      else match split_char c s' with
           | [] => [[a]]
           | p :: ps => (a :: p) :: ps
           end
  end.

(** Vocabulary for the statements of C04 and C05. *)
From Coq Require Import ZArith List Bool String.
From Verif Require Import Base Str.
Import ListNotations.

(** [v] is the value offered for [k] that beats every other offer: strictly
    better than all earlier ones, at least as good as all later ones. *)
Definition best_offer {K V} (prio : V -> Z) (offers : list (K * V)) (k : K) (v : V) : Prop :=
  exists before after, offers = before ++ (k, v) :: after /\
    (forall w, In (k, w) before -> (prio w < prio v)%Z) /\
    (forall w, In (k, w) after -> (prio w <= prio v)%Z).

(** [v] is the earliest offer for [k]. *)
Definition first_offer {K V} (offers : list (K * V)) (k : K) (v : V) : Prop :=
  exists before after, offers = before ++ (k, v) :: after /\ forall w, ~ In (k, w) before.

(** No two different offers for one key share a priority. *)
Definition no_ties {K V} (prio : V -> Z) (offers : list (K * V)) : Prop :=
  forall k v w, In (k, v) offers -> In (k, w) offers -> prio v = prio w -> v = w.

(** ** English ordinal words, written out. *)
Definition small_ordinals : list string :=
  ["zeroth"; "first"; "second"; "third"; "fourth"; "fifth"; "sixth"; "seventh"; "eighth";
   "ninth"; "tenth"; "eleventh"; "twelfth"; "thirteenth"; "fourteenth"; "fifteenth";
   "sixteenth"; "seventeenth"; "eighteenth"; "nineteenth"]%string.
Definition tens : list string :=
  [""; ""; "twent"; "thirt"; "fort"; "fift"; "sixt"; "sevent"; "eight"; "ninet"]%string.

(** The final words of the ordinal of [n]: "hundredth" after a full hundred
    (whatever precedes it: "hundredth", "thousandth", ... all end alike), else the
    ordinal of the last two digits. *)
Definition final_words (n : N) : string :=
  let r := N.to_nat (n mod 100)%N in
  if (r =? 0)%nat then (if (n =? 0)%N then "zeroth" else "hundredth")%string
  else if (r <? 20)%nat then nth r small_ordinals ""%string
  else let t := nth (r / 10) tens ""%string in
       if (r mod 10 =? 0)%nat then (t ++ "ieth")%string
       else (t ++ "y-" ++ nth (r mod 10) small_ordinals "")%string.

(** The abbreviation keeps the last two letters of the word. *)
Definition last_two (s : string) : str :=
  let l := list_ascii_of_string s in skipn (List.length l - 2) l.

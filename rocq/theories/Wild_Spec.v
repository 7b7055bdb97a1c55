(** Wildcards and paths of format strings in general. *)
From Coq Require Import ZArith NArith List Ascii String Bool.
From Verif Require Import Base Str Numerals_Model Partitions_Model Format_Model Template_Spec Storage_Model
  Paths_Spec Parts_Spec.
Import ListNotations.
Open Scope list_scope.

(** The wildcard of a template: components of declared key fields become stars, hard coded values
    stay. There is none for anything else. *)
Inductive wild (other : cvalue -> str -> result str) (kts : key_types) : list part -> str -> Prop :=
| wild_end : wild other kts [] []
| wild_text : forall c t w, wild other kts t w -> wild other kts (Text c :: t) (c :: w)
| wild_component : forall name cls c spec t w, dget str_eqb kts name = Some cls -> In c (components cls) ->
    wild other kts spec [] -> wild other kts t w ->
    wild other kts (Field name [Attr c] spec :: t) ($"*" ++ w)
| wild_index : forall name cls c k spec sp x t w, dget str_eqb kts name = Some cls -> In c (components cls) ->
    wild other kts spec sp -> format_value other (index_value k) sp = Ok x -> wild other kts t w ->
    wild other kts (Field name [Attr c; Idx k] spec :: t) (x ++ w).

(** A key that has the values hard coded in a template. *)
Inductive settled (key : pkey) : part -> Prop :=
| settled_text : forall c, settled key (Text c)
| settled_field : forall name attrs spec, Forall (settled key) spec -> settled key (Field name (map Attr attrs) spec)
| settled_index : forall name c k sp f, avoids $"{}" k -> dget str_eqb key name = Some f ->
    component f c = Ok (index_value k) -> settled key (Field name [Attr c; Idx k] (map Text sp)).

(** A template without its hard coded values. *)
Fixpoint unindexed (p : part) : part :=
  match p with
  | Text c => Text c
  | Field name accs spec =>
      Field name (filter (fun a => match a with Attr _ => true | Idx _ => false end) accs) (map unindexed spec)
  end.

(** A name fits a pattern: a star stands for any text, a question mark for any character. *)
Inductive fits : str -> str -> Prop :=
| fits_end : fits [] []
| fits_star : forall txt pat s, fits pat s -> fits ("*"%char :: pat) (txt ++ s)
| fits_one : forall c pat s, fits pat s -> fits ("?"%char :: pat) (c :: s)
| fits_same : forall c pat s, c <> "*"%char -> fits pat s -> fits (c :: pat) (c :: s).
(** A path fits a pattern: each name fits, and no star stands for the dot of a hidden file. *)
Definition listed (pats names : list str) : Prop :=
  Forall2 (fun pat name => fits pat name /\ forall rest, name = "."%char :: rest -> exists pat', pat = "."%char :: pat') pats names.
(** The path of some names. *)
Definition slashed (names : list str) : str := join $"/" names.

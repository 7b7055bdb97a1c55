(** Texts cut at the occurrences of a placeholder. *)
From Coq Require Import ZArith List Ascii String Bool.
From Verif Require Import Base Str.
Import ListNotations.
Open Scope list_scope.

(** [ss] are the texts between the occurrences of "{p}" in [s]. *)
Definition pieces (p s : str) (ss : list str) : Prop :=
  ss <> [] /\ s = join ($"{" ++ p ++ $"}") ss /\
  Forall (fun x => contains_sub ($"{" ++ p ++ $"}") x = false) ss.

Definition slash_first (s : str) : bool := match s with c :: _ => Ascii.eqb c "/" | [] => false end.

(** What remains: if any "{p}" is followed by a slash, those that are go with it and the others
    stay; otherwise all go. *)
Definition remaining (p : str) (ss : list str) : str :=
  match ss with
  | [] => []
  | s :: rest =>
      s ++ if existsb slash_first rest
           then flat_map (fun x => if slash_first x then tl x else ($"{" ++ p ++ $"}") ++ x) rest
           else List.concat rest
  end.

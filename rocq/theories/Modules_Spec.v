(** What [import_submodules] should do, independently of how it looks for modules. *)
From Coq Require Import List String Ascii Bool.
From Verif Require Import Base Str Modules_Model.
Import ListNotations.

(** [below n ds m]: going down from [n] through directories called [ds] one arrives at [m]. *)
Inductive below : node -> list str -> node -> Prop :=
| below_here : forall n, below n [] n
| below_down : forall es d c ds m, In (d, c) es -> below c ds m -> below (Dir es) (d :: ds) m.

(** A file system: names of one directory differ, are not empty, not "." and have no "/". *)
Definition file_name (s : str) : Prop := s <> [] /\ s <> $"." /\ ~ In "/"%char s.
Definition file_system (root : node) : Prop :=
  forall ds es, below root ds (Dir es) -> NoDup (map fst es) /\ Forall file_name (map fst es).

(** The path of a directory: its names, each after a slash. *)
Definition path_of (ds : list str) : str := List.concat (map (fun d => "/"%char :: d) ds).

Definition dotless (s : str) : Prop := ~ In "."%char s.
Definition dotted (names : list str) : str := join $"." names.

(** The directories in which modules are looked for: no dots in their names, not the
    ez_setup at the top, not one with a name that ends in __pycache__. *)
Definition searched (ds : list str) : Prop :=
  Forall dotless ds /\ ds <> [$"ez_setup"] /\
  (forall ds' d x, ds = ds' ++ [d] -> d <> x ++ $"__pycache__").

Section Names.
  (** The endings of module files, in order of preference. *)
  Context (suffixes : list str).

  (** A file called [f] holds a module called [x]. *)
  Definition holds (f x : str) : Prop :=
    exists before s after, suffixes = before ++ s :: after /\ f = x ++ s /\
                           forall s' y, In s' before -> f <> y ++ s'.
  (** [x] is a module in the directory with entries [es]: a module file or a package. *)
  Definition module_in (es : list (str * node)) (x : str) : Prop :=
    dotless x /\ exists f c, In (f, c) es /\
    ((holds f x /\ x <> [] /\ x <> $"__init__") \/
     (x = f /\ (forall y, holds f y -> y = []) /\
      exists sub g, c = Dir sub /\ In g (map fst sub) /\ holds g $"__init__")).
End Names.

(** The packages a module belongs to: "a" and "a.b" for "a.b.c". *)
Definition parent (a m : str) : Prop := exists rest, m = a ++ $"." ++ rest.
(** Every module comes after the packages it belongs to. *)
Definition parents_first (l : list str) : Prop :=
  forall l1 m l2 a, l = l1 ++ m :: l2 -> parent a m -> In a l1.
(** No given directory lies below another one. *)
Definition apart (pss : list (list str)) : Prop := forall p ds, In p pss -> In (p ++ ds) pss -> ds = [].

(** From [st] to [st'] the modules [new] were loaded, one after the other, none of them loaded before. *)
Definition loads (st : modules) (new : list str) (st' : modules) : Prop :=
  loaded st' = loaded st ++ new /\ NoDup new /\ (forall m, In m new -> ~ In m (loaded st)) /\
  (parents_first (loaded st) -> parents_first (loaded st')).

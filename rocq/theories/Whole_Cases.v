(** Producers of Python objects for the examples and counterexamples of Whole_Props. *)
From Coq Require Import ZArith List Ascii String Bool Arith.
From Verif Require Import Base Str Graph_Model Backend_Model Executor_Model Executor_Cases Json_Model Json_Cases Access_Model Whole_Model.
Import ListNotations.
Open Scope list_scope.

Definition obj := value halves.
Definition given (args : list (str * obj)) : obj := match dget str_eqb args $"x" with Some v => v | None => VNone end.
(** "list" returns [x, 0.5], "pair" the tuple of both. *)
Definition makers (name : str) : pclass obj :=
  let make f := PClass x_only x_only default_map (Single (fun a => Ok (f [given a; VFloat (Half 0 : F halves)]))) (fun _ => Ok true) in
  if str_eqb name $"list" then make (fun l => VList l) else make (fun l => VTuple l).
Definition paper : env obj :=
  Env obj makers hash hash (graph_fp demo) (node_fp demo) (part_fp demo) (snapshot_fp demo) (fun _ => dumps) json_load (fun _ _ _ _ => Ok tt) (fold_right insert []).
Definition look : views obj unit unit :=
  Views obj unit unit (fun _ _ _ => Ok tt) (fun _ _ => Ok tt) (fun _ _ => Ok tt) (fun _ => tt) (fun _ _ => dumps) (fun _ => json_load).
(** a -> list -> b, a -> pair -> b *)
Definition of_a (class : string) := out "b" (of_x class (raw "a")) 0.
Definition g20 (class : string) := GraphDef $class [($"a", raw "a"); ($"b", of_a class)].
Definition ex20 : state obj := State [file "a" "" "[7]"] empty_backend [] None.
Definition done20 (class : string) := graph_build paper (g20 class) ex20.
Definition read20 (class : string) : result obj :=
  let '(s, r) := done20 class in bind r (fun sn => snd (read paper look (g20 class) (of_a class) None (Some tt) (Some sn) None s)).
Definition pair20 : list obj := [VList [VInt 7]; VFloat (Half 0 : F halves)].
(** Is it [[7], 0.5]? *)
Definition is_list20 (r : result obj) : bool :=
  match r with
  | Ok (VList [VList [VInt z]; VFloat x]) => Z.eqb z 7 && match (x : half) with Half y => Z.eqb y 0 | _ => false end
  | _ => false
  end.

(** With sets in a fixed order. *)
Definition snap_tidy (g : graph_def) (s : state str) : state str * snapshot :=
  match from_graph tidy g s with (s', Ok sn) => (s', sn) | (s', Err _) => (s', Snapshot 0 g) end.
Definition built_tidy (s : state str) (sn : snapshot) : state str := fst (build tidy sn s).
Definition run_tidy (g : graph_def) (s : state str) : state str := built_tidy (fst (snap_tidy g s)) (snd (snap_tidy g s)).
Definition told1_tidy := run_tidy g1 ex1.
Definition told2_tidy := run_tidy g1 (restart (with_raw told1_tidy [file "a" "" "2"])).
Definition told3_tidy := restart (with_raw told2_tidy [file "a" "" "1"]).

(** Producers with a [map] for the examples of Mapped_Props. *)
From Coq Require Import ZArith List Ascii String Bool Arith.
From Verif Require Import Base Str Graph_Model Backend_Model Executor_Model Executor_Cases Json_Model Json_Cases Access_Model Whole_Model Whole_Cases Mapped_Spec.
Import ListNotations.
Open Scope list_scope.

(** The keys in terms of which [each_input] is one. *)
Definition each_keys : key_map := fun inputs =>
  match inputs with [(n, ks)] => Ok (map (fun k => (k, [(n, [k])])) ks) | _ => Err ValueError end.
Definition keys14 (c : str) : key_map := if str_eqb c $"each" then each_keys else default_keys.
Definition glue (_ : artifact) (vs : list str) : result str := Ok (List.concat vs).
Definition start14 := start ex14.
Definition sn14 : snapshot := match snd (run14 None ex14) with Ok sn => sn | Err _ => Snapshot 0 g14 end.

(** For each list, the list with its length. *)
Definition count (args : list (str * obj)) : obj := VList [VInt (Z.of_nat (match given args with VList l => List.length l | _ => 0 end))].
Definition counter : env obj :=
  Env obj (fun _ => PClass x_only x_only each_input (Single (fun a => Ok (count a))) (fun _ => Ok true)) hash hash (graph_fp demo) (node_fp demo) (part_fp demo)
    (snapshot_fp demo) (fun _ => dumps) json_load (fun _ _ _ _ => Ok tt) (fold_right insert []).
Definition ex21 : state obj := State [file "a" "1" "[7]"; file "a" "2" "[7, [], 8]"] empty_backend [] None.
Definition b21 := out_parts "b" each 0.
Definition read21 : result obj :=
  let '(s, r) := graph_build counter g2 ex21 in bind r (fun sn => snd (read counter look g2 b21 None (Some tt) (Some sn) None s)).
Definition is_list21 (r : result obj) : bool := match r with Ok (VList [VInt x; VInt y]) => Z.eqb x 1 && Z.eqb y 3 | _ => false end.

(** Concrete producers, graphs and storages for the examples and counterexamples of
    Executor_Props. *)
From Coq Require Import ZArith List Ascii String Bool Arith.
From Verif Require Import Base Str Graph_Model Backend_Model Executor_Model.
Import ListNotations.
Open Scope list_scope.

Definition hash (s : str) : Z := fold_left (fun acc c => acc * 257 + Z.of_N (N_of_ascii c) + 1)%Z s 7%Z.
Definition arg (args : list (str * str)) (n : str) : str := match dget str_eqb args n with Some v => v | None => [] end.
(** [map] asking for one partition built from all inputs. *)
Definition all_inputs (inputs : list (str * list psnapshot)) : result (list (pkey * list (str * list psnapshot))) := Ok [([], inputs)].
(** [map] asking for one partition per input partition. *)
Definition each_input (inputs : list (str * list psnapshot)) : result (list (pkey * list (str * list psnapshot))) :=
  match inputs with
  | [(n, parts)] => Ok (map (fun x => (ps_key x, [(n, [x])])) parts)
  | _ => Err ValueError
  end.
Definition accepts (_ : list str) : result bool := Ok true.
Definition x_only : list str := [$"x"].
Definition producers (name : str) : pclass str :=
  if str_eqb name $"double" then PClass x_only x_only all_inputs (Single (fun a => Ok (arg a $"x" ++ arg a $"x"))) accepts
  else if str_eqb name $"each" then PClass x_only x_only each_input (Single (fun a => Ok (arg a $"x" ++ $"!"))) accepts
  else if str_eqb name $"join" then PClass [$"x"; $"y"] [$"x"; $"y"] all_inputs (Single (fun a => Ok (arg a $"x" ++ arg a $"y"))) accepts
  else if str_eqb name $"split" then PClass x_only x_only all_inputs (Multiple 2 (fun a => Ok [arg a $"x" ++ $"0"; arg a $"x" ++ $"1"])) accepts
  else if str_eqb name $"picky" then PClass x_only x_only all_inputs (Single (fun a => Ok (arg a $"x"))) (fun _ => Ok false)
  else if str_eqb name $"short" then PClass x_only x_only all_inputs (Multiple 2 (fun a => Ok [arg a $"x"])) accepts
  else if str_eqb name $"nothing" then PClass x_only x_only all_inputs (Multiple 1 (fun a => Ok [])) accepts
  else if str_eqb name $"bad" then PClass x_only x_only all_inputs (Single (fun a => Ok $"?")) accepts
  else PClass [] [] (fun _ => Ok []) (Single (fun _ => Err ValueError)) accepts.
Definition with_dump (write : artifact -> str -> result str) : env str :=
  Env str producers hash hash (fun g => hash (flat_map fst (g_arts g)))
    (fun n => match n with NArtifact (Artifact spec st _) => hash (spec ++ st_id st) | NProducer (Producer c v _) => hash c + v end)%Z
    (fun x => 31 * hash (st_id (pt_storage (ps_part x)) ++ ps_key x) + ps_content x)%Z
    s_id write (fun _ ds => Ok (List.concat ds)) (fun _ _ _ _ => Ok tt) (fun l => l).
Definition demo : env str := with_dump (fun _ v => Ok v).
(** "?" cannot be written. *)
Definition fussy : env str := with_dump (fun _ v => if str_eqb v $"?" then Err TypeError else Ok v).

Definition raw (name : string) : artifact := Artifact $"text" (Storage $name SFile false false) None.
Definition raw_parts (name : string) : artifact := Artifact $"text" (Storage $name SFile true false) None.
Definition out (name : string) (p : producer) (i : nat) : artifact := Artifact $"text" (Storage $name SFile false true) (Some (p, i)).
Definition out_parts (name : string) (p : producer) (i : nat) : artifact := Artifact $"text" (Storage $name SFile true true) (Some (p, i)).
Definition out_literal (name : string) (p : producer) (i : nat) : artifact := Artifact $"text" (Storage $name (SLiteral None) false true) (Some (p, i)).
Definition of_x (class : string) (a : artifact) : producer := Producer $class 1 [($"x", a)].
Definition file (name key data : string) : location * str := (($name, $key, None), $data).
Definition start (fs : list (location * str)) : state str := State fs empty_backend [] None.
Definition with_raw (s : state str) (fs : list (location * str)) : state str :=
  State (fold_left (fun acc f => dset location_eqb acc (fst f) (snd f)) fs (files s)) (db s) (log s) (fuel s).
Definition restart (s : state str) : state str := State (files s) empty_backend (log s) (fuel s).
Definition limit (s : state str) (n : option nat) : state str := State (files s) (db s) (log s) n.

(** a -> double -> b *)
Definition double := of_x "double" (raw "a").
Definition b1 := out "b" double 0.
Definition g1 := GraphDef $"g1" [($"a", raw "a"); ($"b", b1)].
(** a (by key) -> each -> b *)
Definition each := of_x "each" (raw_parts "a").
Definition g2 := GraphDef $"g2" [($"a", raw_parts "a"); ($"b", out_parts "b" each 0)].
(** a -> double -> b -> split -> (c, d) *)
Definition split2 := of_x "split" b1.
Definition g3 := GraphDef $"g3" [($"a", raw "a"); ($"b", b1); ($"c", out "c" split2 0); ($"d", out "d" split2 1)].
(** (x, y) -> join -> c *)
Definition join := Producer $"join" 1 [($"x", raw "x"); ($"y", raw "y")].
Definition c4 := out "c" join 0.
Definition g4 := GraphDef $"g4" [($"x", raw "x"); ($"y", raw "y"); ($"c", c4)].

(** Scenarios. *)
Definition snap (g : graph_def) (s : state str) : state str * snapshot :=
  match from_graph demo g s with (s', Ok sn) => (s', sn) | (s', Err _) => (s', Snapshot 0 g) end.
Definition built (s : state str) (sn : snapshot) : state str := fst (build demo sn s).
(** Snapshot and build. *)
Definition run (g : graph_def) (s : state str) : state str := built (fst (snap g s)) (snd (snap g s)).
(** The data linked to a snapshot. *)
Definition texts (s : state str) (sn : snapshot) (key : string) : list (option str) :=
  map (fun x => content (files s) (ps_part x)) (snd (read_snapshot_partitions (db s) sn $key)).

Definition ex1 := start [file "a" "" "1"].
Definition sn1 := snd (snap g1 ex1).
Definition sn3 := snd (snap g3 ex1).
(** A build of [g3] stopped after 20 effects: output c is recorded, d is not. *)
Definition crashed3 := limit (built (limit (fst (snap g3 ex1)) (Some 20)) sn3) None.
(** A build of [g1] stopped after the file of b has been opened, and a new process. *)
Definition crashed1 := restart (limit (built (limit (fst (snap g1 ex1)) (Some 6)) sn1) None).
(** Two outputs, a file and a literal. *)
Definition split5 := of_x "split" (raw "a").
Definition g5 := GraphDef $"g5" [($"a", raw "a"); ($"c", out "c" split5 0); ($"d", out_literal "d" split5 1)].
(** Two outputs, but [build] returns one. *)
Definition short6 := of_x "short" (raw "a").
Definition g6 := GraphDef $"g6" [($"a", raw "a"); ($"c", out "c" short6 0); ($"d", out "d" short6 1)].
(** One output, but [build] returns none. *)
Definition g7 := GraphDef $"g7" [($"a", raw "a"); ($"b", out "b" (of_x "nothing" (raw "a")) 0)].
(** Outputs are rejected. *)
Definition g8 := GraphDef $"g8" [($"a", raw "a"); ($"b", b1); ($"c", out "c" (of_x "picky" b1) 0)].
(** [map] asks for nothing. *)
Definition none9 := of_x "none" (raw "a").
Definition g9 := GraphDef $"g9" [($"a", raw "a"); ($"b", out "b" none9 0)].
(** Only output 1 of 2. *)
Definition split10 := of_x "split" (raw "a").
Definition g10 := GraphDef $"g10" [($"a", raw "a"); ($"d", out "d" split10 1)].
(** The output cannot be written. *)
Definition bad11 := of_x "bad" (raw "a").
Definition g11 := GraphDef $"g11" [($"a", raw "a"); ($"b", out "b" bad11 0)].
(** Two raw artifacts of the same file. *)
Definition g12 := GraphDef $"g12" [($"a", raw "a"); ($"b", Artifact $"copy" (Storage $"a" SFile false false) None)].
(** [g4] in another order. *)
Definition g4' := GraphDef $"g4" [($"y", raw "y"); ($"x", raw "x"); ($"c", c4)].
(** a -> double -> b -> double -> c *)
Definition again13 := of_x "double" b1.
Definition c13 := out "c" again13 0.
Definition g13 := GraphDef $"g13" [($"a", raw "a"); ($"b", b1); ($"c", c13)].
Definition sn13 := snd (snap g13 ex1).

(** A set whose order depends on its elements only: listed by an encoding as integers. *)
Definition enc_str (s : str) : list Z := Z.of_nat (List.length s) :: map (fun c => Z.of_N (N_of_ascii c)) s.
Definition enc_bool (b : bool) : Z := if b then 1%Z else 0%Z.
Definition enc_opt {A} (f : A -> list Z) (o : option A) : list Z := match o with Some x => 1%Z :: f x | None => [0%Z] end.
Definition enc_kind (k : skind) : list Z := match k with SFile => [0%Z] | SLiteral v => 1%Z :: enc_opt enc_str v end.
Definition enc (x : psnapshot) : list Z :=
  let p := ps_part x in let t := pt_storage p in
  ps_content x :: enc_bool (st_partitioned t) :: enc_bool (st_templated t) ::
  enc_str (st_id t) ++ enc_kind (st_kind t) ++ enc_str (pt_key p) ++ enc_opt (fun f => [f]) (pt_fp p) ++ enc_opt enc_str (pt_value p).
Fixpoint before (x y : list Z) : comparison :=
  match x, y with
  | [], [] => Eq | [], _ => Lt | _, [] => Gt
  | a :: x', b :: y' => match (a ?= b)%Z with Eq => before x' y' | c => c end
  end.
Fixpoint insert (x : psnapshot) (l : list psnapshot) : list psnapshot :=
  match l with
  | [] => [x]
  | y :: l' => match before (enc x) (enc y) with Lt => x :: l | Eq => l | Gt => y :: insert x l' end
  end.
Definition tidy : env str := let d := demo in
  Env str (classes d) (from_string d) (file_fp d) (graph_fp d) (node_fp d) (part_fp d) (snapshot_fp d) (dump d) (load d) (check d) (fold_right insert []).
(** a (by key) -> each -> b (by key) -> double -> c *)
Definition b14 := out_parts "b" each 0.
Definition double14 := of_x "double" b14.
Definition c14 := out "c" double14 0.
Definition g14 := GraphDef $"g14" [($"a", raw_parts "a"); ($"b", b14); ($"c", c14)].
Definition ex14 : list (location * str) := [file "a" "1" "x"; file "a" "2" "y"].
Definition run14 (n : option nat) (fs : list (location * str)) : state str * result snapshot := graph_build tidy g14 (State fs empty_backend [] n).
Definition without (bad : str * pkey) (fs : list (location * str)) : list (location * str) :=
  filter (fun f => negb (str_eqb (fst (fst (fst f))) (fst bad) && str_eqb (snd (fst (fst f))) (snd bad))%bool) fs.
(** Stopped while the second partition of b was written, then while c was written. *)
Definition left14 := without ($"b", $"2") (files (fst (run14 (Some 16) ex14))).
Definition left14' := without ($"c", []) (files (fst (run14 (Some 19) left14))).
(** Stopped before c, without the first partition of b. *)
Definition plain14 (n : option nat) (fs : list (location * str)) : state str * result snapshot := graph_build demo g14 (State fs empty_backend [] n).
Definition other14 := without ($"b", $"1") (files (fst (plain14 (Some 19) ex14))).

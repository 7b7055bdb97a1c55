(** Concrete views for the examples and counterexamples of Access_Props. *)
From Coq Require Import ZArith List Ascii String Bool Arith.
From Verif Require Import Base Str Graph_Model Backend_Model Executor_Model Executor_Cases Access_Model.
Import ListNotations.
Open Scope list_scope.

(** View 0 reads and writes the texts of partitions one after the other, view 1 reads them in
    reverse; only view 0 is found, for the annotation "str". "?" cannot be written, and numbers
    have no view. *)
Definition plain : views str nat str :=
  Views str nat str
    (fun _ n _ => if str_eqb n $"str" then Ok 0 else Err ValueError)
    (fun w n => if (w =? 0) && str_eqb n $"str" then Ok tt else Err TypeError)
    (fun _ a => if (let '(Artifact spec _ _) := a in str_eqb spec $"text") then Ok tt else Err TypeError)
    (fun v => match v with "1"%char :: _ => $"int" | _ => $"str" end)
    (fun _ _ v => if str_eqb v $"?" then Err TypeError else Ok v)
    (fun w _ ds => Ok (if w =? 0 then List.concat ds else rev (List.concat ds))).
Definition literal15 (value : option str) : artifact := Artifact $"text" (Storage $"a" (SLiteral value) false false) None.
Definition g15 (value : option str) := GraphDef $"g15" [($"a", literal15 value)].
(** Two partitions have been built, and a new process starts. *)
Definition sn2 := snd (snap g2 (start [file "a" "1" "x"; file "a" "2" "y"])).
Definition later2 := restart (run g2 (start [file "a" "1" "x"; file "a" "2" "y"])).
(** The fingerprint of the partition built from the file [data]. *)
Definition fingerprint_of (data : string) : Z := Z.lxor (hash $"each") (Z.lxor 1 (hash $data)).
(** A partition is written by hand before it is built. *)
Definition one2 := start [file "a" "1" "x"].
Definition sn16 := snd (snap g2 one2).
Definition mine16 := fst (write demo plain g2 $"mine" (out_parts "b" each 0) (Some (fingerprint_of "x")) $"1" None None (fst (snap g2 one2))).
Definition x16 := PSnapshot (Partition (a_storage (out_parts "b" each 0)) $"1" (Some (fingerprint_of "x")) None) (hash $"mine").
Definition d16 := [($"x", [PSnapshot (Partition (a_storage (raw_parts "a")) $"1" None None) (hash $"x")])].

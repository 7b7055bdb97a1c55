(** The readers of JSON (IO_Model) and the loading of Whole_Model agree. *)
From Coq Require Import ZArith List Ascii String Bool Arith.
From Verif Require Import Base Str Types_Model IO_Model Graph_Model Json_Model Whole_Model.
Import ListNotations.
Open Scope list_scope.

Theorem json_reader : forall fl (w : world) t (a : artifact) ps ds, Types_Model.is_partitioned t = Ok (st_partitioned (a_storage a)) ->
  Forall2 (fun p d => stored w p = Ok d) ps ds ->
  reader (V := value fl) (fun _ => loads) elements VList w t JSON ps = json_load a ds.
Proof.
  intros fl w t a ps ds P F. unfold reader, read_one, json_load. rewrite P. cbn [bind]. destruct (st_partitioned (a_storage a)).
  - f_equal. induction F as [|p d ps ds S F IH]; [reflexivity|]. cbn [mapM]. rewrite S. cbn [bind]. now rewrite IH.
  - destruct F as [|p d ps ds S F]; [reflexivity|]. destruct F; [|reflexivity]. now rewrite S.
Qed.

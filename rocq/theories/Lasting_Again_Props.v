(** C71: results stay readable through their tags, even if they are built again. *)
From Coq Require Import ZArith List Ascii String Bool Arith.
From Verif Require Import Base Str Graph_Model Backend_Model Executor_Model Executor_Spec Executor_Cases Executor_Cases_Proofs Executor_Top_Proofs.
From Verif Require Import Lasting_Model Lasting_Spec Lasting_Cases Lasting_Cases_Proofs Lasting_Again_Proofs.
Import ListNotations.
Open Scope list_scope.

(** Once a snapshot has been built, its produced artifacts read through a tag are what they were right
    after that build, whatever happens next: the snapshot itself may be built again, with any outcome,
    and the tag may be put on it at any time. Its producers ask for something (C45), all their outputs
    are found or none (C40), and no later snapshot of other raw data has the same id. *)
Theorem C71_rebuilt : forall V (E : env V), iterates E -> forall U, one_each U -> forall es s0 s s' r n t sn p i a, in_process E U s0 ->
  in_order E (g_arts (s_graph sn)) -> produced_in U (g_arts (s_graph sn)) -> templated (g_arts (s_graph sn)) -> all_or_none s0 (g_arts (s_graph sn)) ->
  build E sn s0 = (s, Ok r) -> (forall q j b, produces (g_arts (s_graph sn)) q j b -> exists k d, asks E s sn q k d) ->
  steps E U es s s' -> (forall b key x, last_key (g_arts (s_graph sn)) b key -> a_output b = None -> linked s' sn key x -> linked s sn key x) ->
  snd (from_tag n t (unlimited s')) = Ok sn -> produces (g_arts (s_graph sn)) p i a ->
  snd (read_tagged E n t a (unlimited s')) = snd (read_at E sn a (unlimited s)).
Proof. exact rebuilt_stays. Qed.
Print Assumptions C71_rebuilt.
(** Built from "1", tagged; the graph built from "2"; built again at the first snapshot. *)
Example C71_rebuilt_nonvacuous : iterates demo /\ one_each storage_of_b /\ in_process demo storage_of_b snapped /\ in_order demo (g_arts (s_graph sn1)) /\
  produced_in storage_of_b (g_arts (s_graph sn1)) /\ templated (g_arts (s_graph sn1)) /\ all_or_none snapped (g_arts (s_graph sn1)) /\
  build demo sn1 snapped = (run g1 ex1, Ok tt) /\ (forall q j b, produces (g_arts (s_graph sn1)) q j b -> exists k d, asks demo (run g1 ex1) sn1 q k d) /\
  steps demo storage_of_b after_build (run g1 ex1) again /\ In (BuiltAt sn1) after_build /\
  (forall b key x, last_key (g_arts (s_graph sn1)) b key -> a_output b = None -> linked again sn1 key x -> linked (run g1 ex1) sn1 key x) /\
  snd (from_tag (V := str) $"g1" $"v1" (unlimited again)) = Ok sn1 /\ produces (g_arts (s_graph sn1)) double 0 b1 /\
  text_of (snd (read_tagged demo $"g1" $"v1" b1 (unlimited again))) = "11"%string /\ text_of (snd (read_tagged demo $"g1" $"v2" b1 (unlimited again))) = "22"%string.
Proof.
  split; [exact demo_iterates|]. split; [exact one_b|]. split; [exact snapped_process|]. split; [exact g1_in_order|]. split; [exact g1_in_b|].
  split; [exact g1_templated|].
  split; [intros p i a j b k f P Q; destruct (g1_produces p i a P) as (_ & _ & ->); now destruct (g1_produces p j b Q) as (_ & _ & ->)|].
  split; [vm_compute; reflexivity|]. split; [exact sn1_asks|]. split; [exact again_steps|].
  split; [right; apply in_app_iff; right; now left|]. split; [exact sn1_raw|]. split; [vm_compute; reflexivity|]. split; [exact b1_produced|]. split; vm_compute; reflexivity.
Qed.

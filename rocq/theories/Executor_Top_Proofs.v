(** The theorems about building, for [build] itself. *)
From Coq Require Import ZArith List Ascii String Bool Arith Lia Permutation.
From Verif Require Import Base Base_Proofs Str Str_Proofs Graph_Model Graph_Spec Graph_Proofs.
From Verif Require Import Backend_Model Backend_Spec Backend_Proofs Int64_Spec.
From Verif Require Import Executor_Model Executor_Spec Executor_Proofs Executor_Done_Proofs Executor_Build_Proofs.
From Verif Require Import Executor_Link_Proofs Executor_Write_Proofs Executor_Store_Proofs Executor_Truth_Proofs Executor_Id_Proofs.
Import ListNotations.
Open Scope list_scope.

Lemma build_is : forall V (E : env V) sn, exists order, build_order (dependencies (g_arts (s_graph sn))) order /\ forall s, build E sn s = build_nodes E sn order s.
Proof.
  intros V E sn. destruct (dependencies_order (g_arts (s_graph sn))) as (order & SO & BO). exists order. split; [exact BO|].
  intro s. unfold build. rewrite SO. reflexivity.
Qed.

Section Top.
  Context {V : Type} (E : env V).
  Theorem fingerprints_collide : forall p m n (x y : psnapshot), m <> n -> ps_content x <> ps_content y ->
    (forall k, In k (c_build_inputs (classes E (p_class p))) <-> k = m \/ k = n) ->
    exists f, input_fingerprint E p [(m, [x]); (n, [y])] = Ok f /\ input_fingerprint E p [(m, [y]); (n, [x])] = Ok f.
  Proof.
    intros p m n x y N C IN. exists (fingerprint_for E p [(m, [x]); (n, [y])]). split.
    - apply input_fingerprint_iff. split; [|reflexivity]. intro k. rewrite IN. cbn. intuition.
    - apply input_fingerprint_iff. split; [intro k; rewrite IN; cbn; intuition|]. unfold fingerprint_for. cbn.
      do 2 f_equal. rewrite !Z.lxor_0_r. apply Z.lxor_comm.
  Qed.
  Theorem equal_contents_cancel : forall p m n (x y x' y' : psnapshot), m <> n -> ps_content x = ps_content y -> ps_content x' = ps_content y' ->
    (forall k, In k (c_build_inputs (classes E (p_class p))) <-> k = m \/ k = n) ->
    exists f, input_fingerprint E p [(m, [x]); (n, [y])] = Ok f /\ input_fingerprint E p [(m, [x']); (n, [y'])] = Ok f.
  Proof.
    intros p m n x y x' y' N C C' IN. exists (Z.lxor (from_string E (p_class p)) (Z.lxor (p_version p) 0)).
    split; apply input_fingerprint_iff; (split; [intro k; rewrite IN; cbn; intuition|]); unfold fingerprint_for; cbn.
    - rewrite C, !Z.lxor_0_r, Z.lxor_nilpotent. now rewrite ?Z.lxor_0_r.
    - rewrite C', !Z.lxor_0_r, Z.lxor_nilpotent. now rewrite ?Z.lxor_0_r.
  Qed.

  Theorem snapshot_links : forall g (s s' : state V) sn, from_graph E g s = (s', Ok sn) ->
    s_graph sn = g /\ files s' = files s /\
    (forall k a, In (k, a) (g_arts g) -> a_output a = None -> exists x, raw_found E s (a_storage a) x) /\
    (forall sn' key x, linked s' sn' key x <-> linked s sn' key x \/
       (sn' = sn /\ exists a, last_key (g_arts g) a key /\ a_output a = None /\ raw_found E s (a_storage a) x)) /\
    (forall t x, recorded s' t x <-> recorded s t x \/
       (exists k a, In (k, a) (g_arts g) /\ a_output a = None /\ a_storage a = t /\ raw_found E s t x)).
  Proof. intros g s s' sn H. apply snapshot_records in H. tauto. Qed.

  Theorem build_done : iterates E -> forall sn s s' r, in_order E (g_arts (s_graph sn)) -> distinct_paths (g_arts (s_graph sn)) -> all_or_none s (g_arts (s_graph sn)) ->
    build E sn s = (s', Ok r) ->
    forall p i a key k d, produces (g_arts (s_graph sn)) p i a -> last_key (g_arts (s_graph sn)) a key -> asks E s' sn p k d ->
    exists x, linked s' sn key x /\ ps_key x = k /\ ps_fp x = Some (fingerprint_for E p d).
  Proof. intros IT sn s s' r W DP AN H. destruct (build_is V E sn) as (order & BO & BB). rewrite BB in H. eapply build_links; eauto. Qed.
  Theorem build_done_single : iterates E -> forall sn s s' r, in_order E (g_arts (s_graph sn)) -> build E sn s = (s', Ok r) ->
    forall p i a key k d, produces (g_arts (s_graph sn)) p i a -> (forall j b, produces (g_arts (s_graph sn)) p j b -> b = a) ->
    last_key (g_arts (s_graph sn)) a key -> asks E s' sn p k d ->
    exists x, linked s' sn key x /\ ps_key x = k /\ ps_fp x = Some (fingerprint_for E p d).
  Proof. intros IT sn s s' r W H. destruct (build_is V E sn) as (order & BO & BB). rewrite BB in H. eapply build_links_single; eauto. Qed.
  Theorem build_asks : iterates E -> forall sn s s' r, in_order E (g_arts (s_graph sn)) -> build E sn s = (s', Ok r) ->
    forall p i a, produces (g_arts (s_graph sn)) p i a -> exists inputs m, input_partitions E s' sn p inputs /\
      c_map (classes E (p_class p)) (filter (fun i => existsb (str_eqb (fst i)) (c_map_inputs (classes E (p_class p)))) inputs) = Ok m /\
      forall k, In k (map fst m) -> exists d, asks E s' sn p k d.
  Proof. intros IT sn s s' r W H. destruct (build_is V E sn) as (order & BO & BB). rewrite BB in H. eapply build_asked; eauto. Qed.
  Theorem fresh_all_or_none : forall (fs : list (location * str)) l n g, (forall i k f, ~ In (i, k, Some f) (map fst fs)) -> all_or_none (State fs empty_backend l n : state V) g.
  Proof.
    intros fs l n g NF p i a j b k f _ _ A. unfold available in A. cbn in A. destruct A as (_ & _ & _ & A). exfalso. apply A.
    apply (dget_None _ location_eqb_spec). apply NF.
  Qed.

  Theorem resume : iterates E -> forall sn s0 n s s' r0 r, build E sn (State (files s0) (db s0) (log s0) (Some n)) = (s, r0) ->
    in_order E (g_arts (s_graph sn)) -> build E sn (State (files s) (db s) (log s) None) = (s', Ok r) ->
    forall p i a key k d, produces (g_arts (s_graph sn)) p i a -> (forall j b, produces (g_arts (s_graph sn)) p j b -> b = a) ->
    last_key (g_arts (s_graph sn)) a key -> asks E s' sn p k d ->
    exists x, linked s' sn key x /\ ps_key x = k /\ ps_fp x = Some (fingerprint_for E p d).
  Proof. intros IT sn s0 n s s' r0 r _ W H. eapply build_done_single; eauto. Qed.

  Theorem rebuild : iterates E -> forall sn s s' r, in_order E (g_arts (s_graph sn)) -> build E sn s = (s', Ok r) -> fuel s' = None -> build E sn s' = (s', Ok tt).
  Proof. intros IT sn s s' r W H F. destruct (build_is V E sn) as (order & BO & BB). rewrite BB in H |- *. eapply build_again; eauto. Qed.

  Theorem build_true : iterates E -> writable E -> forall R, agree E R -> forall s sn s' r, history E R s -> build E sn s = (s', r) ->
    NoDup (map fst (g_arts (s_graph sn))) -> templated (g_arts (s_graph sn)) -> no_gaps (g_arts (s_graph sn)) -> covers E R sn s s' ->
    forall key x, linked s' sn key x -> ~ linked s sn key x ->
    exists p i a, produces (g_arts (s_graph sn)) p i a /\ last_key (g_arts (s_graph sn)) a key /\ pt_storage (ps_part x) = a_storage a /\
      (exists data, holds_data s' x data) /\
      forall d args data, asks E s' sn p (ps_key x) d -> ps_fp x = Some (fingerprint_for E p d) -> reads E s' p d args -> computes E a args data -> holds_data s' x data.
  Proof. intros IT WR R AG s sn s' r HI H. destruct (build_is V E sn) as (order & BO & BB). rewrite BB in H. intros. eapply links_true; eauto. Qed.
  Theorem build_follows : forall R (s : state V) sn s' r, build E sn s = (s', r) ->
    NoDup (map fst (g_arts (s_graph sn))) -> templated (g_arts (s_graph sn)) -> no_gaps (g_arts (s_graph sn)) -> covers E R sn s s' -> follows E R s s'.
  Proof. intros R s sn s' r H. destruct (build_is V E sn) as (order & BO & BB). rewrite BB in H. intros. eapply follows_build; eauto. Qed.

  Theorem rejected_build : forall sn s s' r new p k vs, build E sn s = (s', r) -> log s' = new ++ log s ->
    In (Validated p k vs) new -> c_validate (classes E (p_class p)) vs = Ok false ->
    r = Err ValueError /\ kept s s' /\
    exists args existing f deps s1, build_producer_partition E sn p existing f deps k s1 = (s', Err ValueError) /\
      files s' = files s1 /\ db s' = db s1 /\ log s' = Validated p k vs :: Built p k args :: log s1.
  Proof.
    intros sn s s' r new p k vs H. destruct (build_is V E sn) as (order & BO & BB). rewrite BB in H. intros L I R.
    destruct (rejection E sn order s s' r new p k vs H L I R) as [-> X]. split; [reflexivity|]. split; [|exact X].
    eapply frame_kept. eapply within_build_nodes. exact H.
  Qed.
  Theorem not_accepted : forall sn p existing f deps k s s' r, build_producer_partition E sn p existing f deps k s = (s', r) ->
    (forall vs, In (Validated p k vs) (log s') -> ~ In (Validated p k vs) (log s) -> c_validate (classes E (p_class p)) vs <> Ok true) ->
    (forall vs, c_validate (classes E (p_class p)) vs = Ok true -> ~ In (Validated p k vs) (log s)) ->
    db s' = db s /\ files s' = files s.
  Proof. exact (unaccepted E). Qed.
  Theorem build_keeps : forall sn (s s' : state V) r, build E sn s = (s', r) -> kept s s'.
  Proof.
    intros sn s s' r H. destruct (build_is V E sn) as (order & BO & BB). rewrite BB in H. eapply frame_kept. eapply within_build_nodes. exact H.
  Qed.

  Theorem links_asked : iterates E -> forall sn s s' r, arises E s -> NoDup (map fst (g_arts (s_graph sn))) -> templated (g_arts (s_graph sn)) ->
    build E sn s = (s', r) -> forall sn' key x, linked s' sn' key x -> linked s sn' key x \/
    (sn' = sn /\ exists p i a, produces (g_arts (s_graph sn)) p i a /\ last_key (g_arts (s_graph sn)) a key /\ pt_storage (ps_part x) = a_storage a /\
      ((exists d, asks E s' sn p (ps_key x) d /\ ps_fp x = Some (fingerprint_for E p d)) \/
       (exists inputs, input_partitions E s' sn p inputs /\
          c_map (classes E (p_class p)) (filter (fun i => existsb (str_eqb (fst i)) (c_map_inputs (classes E (p_class p)))) inputs) = Ok []))).
  Proof.
    intros IT sn s s' r A ND TP H. destruct (build_is V E sn) as (order & BO & BB). rewrite BB in H.
    eapply only_asked; eauto. now apply (arises_consistent E IT).
  Qed.
End Top.

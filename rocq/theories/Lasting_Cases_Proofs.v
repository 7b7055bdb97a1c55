(** The process of [Lasting_Cases] is one. *)
From Coq Require Import ZArith List Ascii String Bool Arith.
From Verif Require Import Base Base_Proofs Str Graph_Model Backend_Model Executor_Model Executor_Spec Executor_Proofs Executor_Cases Executor_Cases_Proofs.
From Verif Require Import Graph_Proofs Executor_Build_Proofs Lasting_Model Lasting_Spec Lasting_Cases.
Import ListNotations.
Open Scope list_scope.

Lemma one_b : one_each storage_of_b.
Proof. intros t t' -> -> _. reflexivity. Qed.
Lemma g1_in_b : produced_in storage_of_b (g_arts g1).
Proof. intros p i a P. destruct (g1_produces p i a P) as (_ & _ & ->). reflexivity. Qed.
Lemma snap_step : forall g s, step demo storage_of_b (Snapshotted g) s (fst (snap g s)).
Proof.
  intros g s. unfold snap. destruct (from_graph demo g s) as [s' r] eqn:F. assert (X : fst (match r with Ok sn => (s', sn) | Err _ => (s', Snapshot 0 g) end) = s') by now destruct r.
  rewrite X. now apply step_snapshot with r.
Qed.
Lemma built_step : forall s sn, s_graph sn = g1 -> step demo storage_of_b (BuiltAt sn) s (built s sn).
Proof.
  intros s sn G. unfold built. destruct (build demo sn s) as [s' r] eqn:B. apply step_build with r; [|exact B]. rewrite G. exact g1_in_b.
Qed.
Lemma tag_is_step : forall s sn t o, step demo storage_of_b (TaggedAs sn $t o) s (tagged_as s sn t o).
Proof. intros s sn t o. unfold tagged_as. destruct (tag sn $t o s) as [s' r] eqn:T. now apply step_tag with r. Qed.
Lemma first_steps : steps demo storage_of_b before_first ex1 first.
Proof.
  unfold before_first, first, sn1, run. eapply steps_more; [exact (snap_step g1 ex1)|]. eapply steps_more; [exact (built_step (fst (snap g1 ex1)) (snd (snap g1 ex1)) eq_refl)|].
  eapply steps_more; [apply tag_is_step|]. apply steps_none.
Qed.
Lemma first_process : in_process demo storage_of_b first.
Proof. exists [file "a" "" "1"], [], None, before_first. exact first_steps. Qed.
Lemma changed_files : forall i k f, dget location_eqb (files changed) (i, k, Some f) = dget location_eqb (files first) (i, k, Some f).
Proof.
  intros i k f. unfold changed, with_raw. cbn [files fold_left fst snd]. rewrite (dget_dset _ location_eqb_spec).
  destruct (location_eqb _ (i, k, Some f)) eqn:Q; [|reflexivity]. apply location_eqb_spec in Q. discriminate.
Qed.
Lemma sn2_graph : s_graph (snd (snap g1 changed)) = g1.
Proof. vm_compute. reflexivity. Qed.
Lemma third_steps : steps demo storage_of_b after_first first third.
Proof.
  assert (R := step_raw demo storage_of_b first (files changed) changed_files). change (State (files changed) (db first) (log first) (fuel first)) with changed in R.
  unfold after_first, third, second, sn2, run. eapply steps_more; [exact R|]. eapply steps_more; [exact (snap_step g1 changed)|].
  eapply steps_more; [exact (built_step (fst (snap g1 changed)) _ sn2_graph)|]. eapply steps_more; [apply tag_is_step|]. eapply steps_more; [apply tag_is_step|]. apply steps_none.
Qed.
Lemma v1_left : leaves_tag $"g1" $"v1" after_first.
Proof.
  unfold after_first. generalize sn2 as s2. intros s2 sn I. exfalso. repeat (destruct I as [I|I]; [discriminate I|]). destruct I.
Qed.
Lemma ids_differ : s_id sn2 <> s_id sn1.
Proof. vm_compute. discriminate. Qed.
Lemma sn1_not_built : ~ In (BuiltAt sn1) after_first.
Proof.
  unfold after_first. assert (D := ids_differ). revert D. generalize sn1 as s1, sn2 as s2. intros s1 s2 D I.
  destruct I as [I|[I|[I|[I|[I|[]]]]]]; try discriminate I. injection I as I. apply D. now rewrite I.
Qed.
Lemma b1_produced : produces (g_arts (s_graph sn1)) double 0 b1.
Proof. exists $"b". split; [right; now left|reflexivity]. Qed.
Theorem raw_changes : exists s s' es a, in_process demo storage_of_b s /\ steps demo storage_of_b es s s' /\ ~ In (BuiltAt sn1) es /\ leaves_tag $"g1" $"v1" es /\
  snd (from_tag (V := str) $"g1" $"v1" (unlimited s)) = Ok sn1 /\ In ($"a", a) (g_arts (s_graph sn1)) /\
  snd (read_tagged demo $"g1" $"v1" a (unlimited s)) = Ok $"1" /\ snd (read_tagged demo $"g1" $"v1" a (unlimited s')) = Ok $"2".
Proof.
  exists first, third, after_first, (raw "a"). split; [exact first_process|]. split; [exact third_steps|]. split; [exact sn1_not_built|].
  split; [exact v1_left|]. split; [vm_compute; reflexivity|]. split; [now left|]. split; vm_compute; reflexivity.
Qed.
Lemma steps_app : forall V (E : env V) U es es' s s1 s', steps E U es s s1 -> steps E U es' s1 s' -> steps E U (es ++ es') s s'.
Proof. intros V E U es es' s s1 s' H. induction H as [s|e es s s2 s1 H1 H2 IH]; intro H'; [exact H'|]. cbn [app]. eapply steps_more; eauto. Qed.
Lemma again_steps : steps demo storage_of_b after_build (run g1 ex1) again.
Proof.
  unfold after_build, again. eapply steps_more; [exact (tag_is_step (run g1 ex1) sn1 "v1" false)|]. eapply steps_app; [exact third_steps|].
  eapply steps_more; [exact (built_step third sn1 eq_refl)|apply steps_none].
Qed.
Lemma snapped_process : in_process demo storage_of_b snapped.
Proof. exists [file "a" "" "1"], [], None, [Snapshotted g1]. eapply steps_more; [apply (snap_step g1 ex1)|apply steps_none]. Qed.
Lemma sn1_raw : forall b key x, last_key (g_arts (s_graph sn1)) b key -> a_output b = None -> Executor_Spec.linked again sn1 key x -> Executor_Spec.linked (run g1 ex1) sn1 key x.
Proof.
  intros b key x LK BO. assert (K := proj2 (key_of_last (s_graph sn1) b key) LK). assert (Q : key = $"a").
  { unfold key_of in K. destruct (dget artifact_eqb (artifact_to_key (g_arts (s_graph sn1))) b) as [k|] eqn:D; [|discriminate]. injection K as <-.
    apply (dget_In _ artifact_eqb_spec) in D. change (artifact_to_key (g_arts (s_graph sn1))) with (artifact_to_key (g_arts g1)) in D.
    vm_compute in D. destruct D as [D|[D|[]]]; injection D as <- <-; [reflexivity|discriminate]. }
  subst key. unfold Executor_Spec.linked. replace (snd (read_snapshot_partitions (db again) sn1 $"a")) with (snd (read_snapshot_partitions (db (run g1 ex1)) sn1 $"a")) by (vm_compute; reflexivity).
  exact (fun I => I).
Qed.
Lemma sn1_asks : forall q j b, produces (g_arts (s_graph sn1)) q j b -> exists k d, asks demo (run g1 ex1) sn1 q k d.
Proof.
  intros q j b P. destruct (g1_produces q j b P) as (-> & _ & _). eexists. eexists.
  eapply (x_asks $"double" eq_refl eq_refl); [reflexivity|]. apply last. vm_compute. reflexivity.
Qed.

(** Where a process can stop, and what does not depend on the log. *)
From Coq Require Import ZArith List Ascii String Bool Arith Lia.
From Verif Require Import Base Base_Proofs Str Str_Proofs Graph_Model Graph_Spec Graph_Proofs.
From Verif Require Import Backend_Model Backend_Spec Backend_Proofs Executor_Model Executor_Spec Executor_Proofs.
Import ListNotations.
Open Scope list_scope.

Section Crash.
  Context {V : Type}.
  Definition lim (s : state V) (n : option nat) : state V := State (files s) (db s) (log s) n.
  Lemma lim_lim : forall s n m, lim (lim s n) m = lim s m.
  Proof. reflexivity. Qed.
  Lemma lim_none : forall s, fuel s = None -> lim s None = s.
  Proof. intros [fs b l f] H. cbn in *. now subst. Qed.

  (** [m] stopped after [n] effects does what it does otherwise, or it stops. *)
  Definition splits {A} (m : M V A) : Prop := forall s n s' r, m (lim s None) = (s', r) ->
    fuel s' = None /\ ((exists n', m (lim s (Some n)) = (lim s' (Some n'), r)) \/ exists sc, m (lim s (Some n)) = (sc, Err Crash)).
  (** The states in which [m] can stop. *)
  Definition crashes {A} (m : M V A) (s sc : state V) : Prop := exists n, m (lim s (Some n)) = (sc, Err Crash).
  (** [f] does not look at the number of effects left. *)
  Definition quiet {A} (f : state V -> state V * result A) : Prop := forall s, exists s' r, forall n, f (lim s n) = (lim s' n, r).

  Lemma splits_quiet : forall A (f : M V A), quiet f -> splits f.
  Proof.
    intros A f Q s n s' r H. destruct (Q s) as (t & r' & X). rewrite X in H. injection H as <- <-. split; [reflexivity|]. left. exists n. now rewrite X.
  Qed.
  Lemma quiet_ret : forall A (x : result A), quiet (ret x).
  Proof. intros A x s. exists s, x. reflexivity. Qed.
  Lemma splits_ret : forall A (x : result A), splits (ret x).
  Proof. intros. apply splits_quiet, quiet_ret. Qed.
  Lemma splits_bind : forall A B (m : M V A) (f : A -> M V B), splits m -> (forall a, splits (f a)) -> splits (andthen m f).
  Proof.
    intros A B m f Hm Hf s n s' r H. unfold andthen in *. destruct (m (lim s None)) as [s1 x] eqn:E1.
    destruct (Hm s n _ _ E1) as (F1 & [(n1 & X)|(sc & X)]); rewrite X.
    - destruct x as [a|e].
      + rewrite <- (lim_none s1 F1) in H. destruct (Hf a s1 n1 _ _ H) as (F2 & Y). split; [exact F2|exact Y].
      + injection H as <- <-. split; [exact F1|]. left. now exists n1.
    - destruct x as [a|e].
      + rewrite <- (lim_none s1 F1) in H. destruct (Hf a s1 0 _ _ H) as (F2 & _). split; [exact F2|]. right. now exists sc.
      + injection H as <- <-. split; [exact F1|]. right. now exists sc.
  Qed.
  Lemma splits_tick : splits tick.
  Proof.
    intros s n s' r H. cbn in H. injection H as <- <-. split; [reflexivity|]. destruct n as [|n]; [right; exists (lim s (Some 0)); reflexivity|].
    left. exists n. reflexivity.
  Qed.
  Lemma splits_effect : forall A (f : M V A), quiet f -> splits (effect f).
  Proof. intros A f Q. apply splits_bind; [apply splits_tick|]. intros _. now apply splits_quiet. Qed.
  Lemma splits_each : forall A (f : A -> M V unit) l, (forall x, splits (f x)) -> splits (eachM f l).
  Proof. induction l as [|x l IH]; intro H; cbn; [apply splits_ret|]. apply splits_bind; auto. Qed.
  Lemma splits_collect : forall A B (f : A -> M V B) l, (forall x, splits (f x)) -> splits (collectM f l).
  Proof.
    induction l as [|x l IH]; intro H; cbn; [apply splits_ret|]. apply splits_bind; [auto|]. intro. apply splits_bind; [auto|]. intro. apply splits_ret.
  Qed.

  Lemma crashes_bind : forall A B (m : M V A) (f : A -> M V B) s s1 a sc, splits m -> m (lim s None) = (s1, Ok a) ->
    crashes (andthen m f) s sc -> crashes m s sc \/ crashes (f a) s1 sc.
  Proof.
    intros A B m f s s1 a sc Hm H (n & C). unfold andthen in C. destruct (Hm s n _ _ H) as (F1 & [(n1 & X)|(sc' & X)]); rewrite X in C.
    - right. now exists n1.
    - injection C as <-. left. now exists n.
  Qed.
  Lemma crashes_bind_ret : forall A B (x : result A) (f : A -> M V B) s a sc, x = Ok a -> crashes (andthen (ret x) f) s sc -> crashes (f a) s sc.
  Proof. intros A B x f s a sc -> (n & C). exists n. exact C. Qed.
  Lemma crashes_ret : forall A (a : A) s sc, ~ crashes (ret (Ok a)) s sc.
  Proof. intros A a s sc (n & C). discriminate. Qed.
  Lemma crashes_quiet : forall A (f : M V A) s s1 a sc, quiet f -> f (lim s None) = (s1, Ok a) -> ~ crashes f s sc.
  Proof.
    intros A f s s1 a sc Q H (n & C). destruct (Q s) as (t & r & X). rewrite X in *. injection H as _ ->. discriminate.
  Qed.
  Lemma crashes_effect : forall A (f : M V A) s s1 a sc, quiet f -> f (lim s None) = (s1, Ok a) -> crashes (effect f) s sc -> sc = lim s (Some 0).
  Proof.
    intros A f s s1 a sc Q H (n & C). unfold effect, andthen in C. destruct n as [|n]; cbn in C; [now injection C as <-|].
    destruct (Q s) as (t & r & X). change (f (lim s (Some n)) = (sc, Err Crash)) in C. rewrite X in *. injection H as _ ->. discriminate.
  Qed.
  Lemma crashes_each : forall A (f : A -> M V unit) l s s' r sc, (forall x, splits (f x)) -> eachM f l (lim s None) = (s', Ok r) ->
    crashes (eachM f l) s sc ->
    exists l1 x l2 s1 s2 u, l = l1 ++ x :: l2 /\ eachM f l1 (lim s None) = (s1, Ok tt) /\ fuel s1 = None /\ f x s1 = (s2, Ok u) /\
      eachM f l2 s2 = (s', Ok r) /\ crashes (f x) s1 sc.
  Proof.
    intros A f. induction l as [|x l IH]; intros s s' r sc SP H C; [now apply crashes_ret in C|]. cbn [eachM] in H, C.
    apply andthen_ok in H. destruct H as (s1 & u & H1 & H2). destruct (crashes_bind _ _ _ _ _ _ _ _ (SP x) H1 C) as [C1|C1].
    - exists [], x, l, (lim s None), s1, u. repeat split; auto.
    - destruct (SP x s 0 _ _ H1) as (F1 & _). rewrite <- (lim_none _ F1) in H2.
      destruct (IH s1 s' r sc SP H2 C1) as (l1 & y & l2 & s3 & s4 & u' & -> & L1 & L2 & L3 & L4 & L5).
      exists (x :: l1), y, l2, s3, s4, u'. split; [reflexivity|]. split; [|auto]. cbn [eachM]. unfold andthen. rewrite H1. now rewrite (lim_none _ F1) in L1.
  Qed.

  (** ** The log does not matter *)
  Definition like (s s' : state V) : Prop := files s = files s' /\ db s = db s' /\ fuel s = fuel s'.
  Definition blind {A} (m : M V A) : Prop := forall s s' t r, like s s' -> m s = (t, r) -> exists t', m s' = (t', r) /\ like t t'.
  Lemma like_refl : forall s, like s s.
  Proof. intro. repeat split. Qed.
  Lemma like_sym : forall s s', like s s' -> like s' s.
  Proof. intros s s' (A & B & C). repeat split; auto. Qed.
  Lemma like_trans : forall s s' s'', like s s' -> like s' s'' -> like s s''.
  Proof. intros s s' s'' (A & B & C) (A' & B' & C'). repeat split; congruence. Qed.
  Lemma blind_ret : forall A (x : result A), blind (ret x).
  Proof. intros A x s s' t r L H. injection H as <- <-. exists s'. auto. Qed.
  Lemma blind_files : forall A (f : list (location * str) -> result A), blind (fun s => (s, f (files s))).
  Proof. intros A f s s' t r L H. injection H as <- <-. exists s'. destruct L as (F & L). rewrite F. repeat split; auto; tauto. Qed.
  Lemma blind_bind : forall A B (m : M V A) (f : A -> M V B), blind m -> (forall a, blind (f a)) -> blind (andthen m f).
  Proof.
    intros A B m f Hm Hf s s' t r L H. unfold andthen in *. destruct (m s) as [s1 [a|e]] eqn:E1; destruct (Hm _ _ _ _ L E1) as (s1' & -> & L1).
    - eapply Hf; eauto.
    - injection H as <- <-. eauto.
  Qed.
  Lemma blind_tick : blind tick.
  Proof.
    intros s s' t r (F & D & U) H. unfold tick in *. rewrite <- U. destruct (fuel s) as [[|n]|] eqn:FS; injection H as <- <-.
    - exists s'. repeat split; congruence.
    - eexists. split; [reflexivity|]. repeat split; cbn; congruence.
    - exists s'. repeat split; congruence.
  Qed.
  Lemma blind_effect : forall A (f : M V A), blind f -> blind (effect f).
  Proof. intros A f H. apply blind_bind; [apply blind_tick|auto]. Qed.
  Lemma blind_each : forall A (f : A -> M V unit) l, (forall x, blind (f x)) -> blind (eachM f l).
  Proof. induction l as [|x l IH]; intro H; cbn; [apply blind_ret|]. apply blind_bind; auto. Qed.
  Lemma blind_collect : forall A B (f : A -> M V B) l, (forall x, blind (f x)) -> blind (collectM f l).
  Proof.
    induction l as [|x l IH]; intro H; cbn; [apply blind_ret|]. apply blind_bind; [auto|]. intro. apply blind_bind; [auto|]. intro. apply blind_ret.
  Qed.
End Crash.

(** * The parts of a build *)
Section Parts.
  Context {V : Type} (E : env V).
  Lemma quiet_read_links : forall sn k, quiet (fun st : state V => let '(b, l) := read_snapshot_partitions (db st) sn k in (with_db st b, Ok (iter_set E l))).
  Proof. intros sn k s. cbn [lim db]. destruct (read_snapshot_partitions (db s) sn k) as [b l]. exists (with_db s b), (Ok (iter_set E l)). reflexivity. Qed.
  Lemma quiet_write_links : forall sn k new, quiet (fun st : state V => (with_db st (write_snapshot_partitions (db st) sn k new), Ok tt)).
  Proof. intros sn k new s. exists (with_db s (write_snapshot_partitions (db s) sn k new)), (Ok tt). reflexivity. Qed.
  Lemma quiet_write_known : forall t new, quiet (fun st : state V => (with_db st (write_artifact_partitions (db st) t new), Ok tt)).
  Proof. intros t new s. exists (with_db s (write_artifact_partitions (db s) t new)), (Ok tt). reflexivity. Qed.
  Lemma quiet_read_known : forall t fps, quiet (fun s : state V =>
    let '(b, r) := read_artifact_partitions (db s) t fps (discover E (files s) t fps) in (with_db s b, rmap (iter_set E) r)).
  Proof.
    intros t fps s. cbn [lim db files]. destruct (read_artifact_partitions (db s) t fps (discover E (files s) t fps)) as [b r].
    exists (with_db s b), (rmap (iter_set E) r). reflexivity.
  Qed.
  Lemma quiet_log : forall A (a : action V) (x : result A), quiet (fun s => (with_log s a, x)).
  Proof. intros A a x s. exists (with_log s a), x. reflexivity. Qed.
  Lemma quiet_file : forall l d, quiet (fun s : state V => (with_file s l d, Ok tt)).
  Proof. intros l d s. exists (with_file s l d), (Ok tt). reflexivity. Qed.
  Lemma quiet_wrote : forall l d, quiet (fun s : state V => (with_log (with_file s l d) (Wrote l d), Ok tt)).
  Proof. intros l d s. exists (with_log (with_file s l d) (Wrote l d)), (Ok tt). reflexivity. Qed.
  Lemma quiet_files : forall A (f : list (location * str) -> result A), quiet (fun s : state V => (s, f (files s))).
  Proof. intros A f s. exists s, (f (files s)). reflexivity. Qed.

  Lemma splits_read_links : forall sn k, splits (read_links E sn k).
  Proof. intros. apply splits_effect, quiet_read_links. Qed.
  Lemma splits_write_links : forall sn k new, splits (V := V) (write_links sn k new).
  Proof. intros. apply splits_effect, quiet_write_links. Qed.
  Lemma splits_write_known : forall t new, splits (V := V) (write_known t new).
  Proof. intros. apply splits_effect, quiet_write_known. Qed.
  Lemma splits_read_known : forall t fps, splits (read_known E t fps).
  Proof. intros. apply splits_effect, quiet_read_known. Qed.
  Lemma splits_io_read : forall a parts, splits (io_read E a parts).
  Proof. intros a parts. apply splits_quiet. intro s. exists s, (snd (io_read E a parts s)). intro n. reflexivity. Qed.
  Lemma splits_io_write : forall a v p, splits (io_write E a v p).
  Proof.
    intros a v p. unfold io_write. destruct (st_kind (pt_storage p)).
    - apply splits_bind; [apply splits_effect, quiet_file|]. intros _. apply splits_bind; [apply splits_ret|]. intro d.
      apply splits_bind; [apply splits_effect, quiet_wrote|]. intros _. apply splits_quiet, (quiet_files _ (fun fs => take_snapshot E fs p)).
    - destruct (pt_value p); [apply splits_ret|]. apply splits_bind; [apply splits_ret|]. intro d.
      apply splits_quiet, (quiet_files _ (fun fs => take_snapshot E fs _)).
  Qed.
  Lemma splits_write_output : forall sn p i a f k v, splits (write_output E sn p i a f k v).
  Proof.
    intros. unfold write_output. do 4 (apply splits_bind; [apply splits_ret|intro]). apply splits_bind; [apply splits_io_write|intro].
    apply splits_bind; [apply splits_write_known|intro]. apply splits_write_links.
  Qed.
  Lemma splits_write_outputs : forall sn p f k outs vs i, splits (write_outputs E sn p f k i outs vs).
  Proof.
    intros sn p f k outs. induction vs as [|v vs IH]; intro i; cbn [write_outputs]; [apply splits_ret|].
    do 2 (apply splits_bind; [apply splits_ret|intro]). apply splits_bind; [apply splits_write_output|intro]. apply IH.
  Qed.
  Definition collect_args (sn : snapshot) (p : producer) (deps : list (str * list psnapshot)) : M V (list (str * V)) :=
    collectM (fun name =>
        a <- ret (match dget str_eqb (p_inputs p) name with Some a => Ok a | None => Err KeyError end) ;;
        d <- ret (match dget str_eqb deps name with Some d => Ok d | None => Err KeyError end) ;;
        v <- read_input E sn a d ;; ret (Ok (name, v))) (c_build_inputs (class_of E p)).
  Lemma splits_collect_args : forall sn p deps, splits (collect_args sn p deps).
  Proof.
    intros. apply splits_collect. intro. do 2 (apply splits_bind; [apply splits_ret|intro]). apply splits_bind; [|intro; apply splits_ret].
    apply splits_bind; [apply splits_ret|intro]. apply splits_io_read.
  Qed.
  Lemma splits_call_build : forall p k args, splits (call_build E p k args).
  Proof. intros. apply splits_effect, quiet_log. Qed.
  Lemma splits_call_validate : forall p k vs, splits (call_validate E p k vs).
  Proof. intros. apply splits_effect, quiet_log. Qed.
  Lemma splits_build_partition : forall sn p existing f deps k, splits (build_producer_partition E sn p existing f deps k).
  Proof.
    intros. unfold build_producer_partition. destruct (existsb (str_eqb k) existing); [apply splits_ret|].
    apply splits_bind; [apply splits_collect_args|intro]. apply splits_bind; [apply splits_call_build|intro].
    apply splits_bind; [apply splits_call_validate|]. intros [|]; [|apply splits_ret]. apply splits_bind; [apply splits_ret|intro]. apply splits_write_outputs.
  Qed.
  Lemma splits_get_inputs : forall sn p, splits (get_producer_inputs E sn p).
  Proof.
    intros. apply splits_collect. intro. apply splits_bind; [apply splits_ret|intro]. apply splits_bind; [apply splits_read_links|intro]. apply splits_ret.
  Qed.
  Lemma splits_discover : forall sn p fps, splits (discover_producer_partitions E sn p fps).
  Proof.
    intros. unfold discover_producer_partitions. apply splits_bind; [apply splits_ret|intro]. apply splits_bind; [|intro; apply splits_bind; [|intro; apply splits_ret]].
    - apply splits_collect. intro. apply splits_bind; [apply splits_read_known|intro]. apply splits_ret.
    - apply splits_each. intro. apply splits_bind; [apply splits_ret|intro]. apply splits_write_links.
  Qed.
  Lemma splits_build_producer : forall sn p, splits (build_producer E sn p).
  Proof.
    intros. apply splits_bind; [apply splits_get_inputs|intro]. apply splits_bind; [apply splits_ret|intro]. apply splits_bind; [apply splits_discover|intro].
    apply splits_each. intro. apply splits_bind; [apply splits_ret|intro]. apply splits_build_partition.
  Qed.
  Lemma splits_node : forall sn n, splits (match n with NArtifact _ => ret (Ok tt) | NProducer p => build_producer E sn p end).
  Proof. intros sn [a|p]; [apply splits_ret|apply splits_build_producer]. Qed.

  Lemma blind_db : forall A (f : backend -> list (location * str) -> backend * result A),
    blind (V := V) (fun s => let '(b, r) := f (db s) (files s) in (with_db s b, r)).
  Proof.
    intros A f s s' t r (F & D & U) H. rewrite <- F, <- D. destruct (f (db s) (files s)) as [b x]. injection H as <- <-.
    eexists. split; [reflexivity|]. repeat split; cbn; congruence.
  Qed.
  Lemma blind_read_links : forall sn k, blind (read_links E sn k).
  Proof.
    intros sn k. apply blind_effect. intros s s' t r L H. assert (B := blind_db _ (fun b fs => let '(b', l) := read_snapshot_partitions b sn k in (b', Ok (iter_set E l))) s s' t r L).
    cbn in B. destruct L as (F & D & U). rewrite <- D in *. destruct (read_snapshot_partitions (db s) sn k). apply B, H.
  Qed.
  Lemma blind_write_links : forall sn k new, blind (V := V) (write_links sn k new).
  Proof. intros. apply blind_effect. apply (blind_db _ (fun b fs => (write_snapshot_partitions b sn k new, Ok tt))). Qed.
  Lemma blind_write_known : forall t new, blind (V := V) (write_known t new).
  Proof. intros. apply blind_effect. apply (blind_db _ (fun b fs => (write_artifact_partitions b t new, Ok tt))). Qed.
  Lemma blind_read_known : forall t fps, blind (read_known E t fps).
  Proof.
    intros t fps. apply blind_effect. intros s s' u r L H.
    assert (B := blind_db _ (fun b fs => let '(b', x) := read_artifact_partitions b t fps (discover E fs t fps) in (b', rmap (iter_set E) x)) s s' u r L).
    cbn in B. destruct L as (F & D & U). rewrite <- D, <- F in *. destruct (read_artifact_partitions (db s) t fps (discover E (files s) t fps)). apply B, H.
  Qed.
  Lemma blind_io_read : forall a parts, blind (io_read E a parts).
  Proof.
    intros a parts s s' t r L H. unfold io_read in *. destruct L as (F & L). rewrite F in H. injection H as <- <-. eexists. split; [reflexivity|].
    repeat split; auto; tauto.
  Qed.
  Lemma blind_log : forall A (a : action V) (x : result A), blind (fun s => (with_log s a, x)).
  Proof. intros A a x s s' t r (F & D & U) H. injection H as <- <-. eexists. split; [reflexivity|]. repeat split; auto. Qed.
  Lemma blind_file : forall l d, blind (V := V) (fun s => (with_file s l d, Ok tt)).
  Proof. intros l d s s' t r (F & D & U) H. injection H as <- <-. eexists. split; [reflexivity|]. repeat split; cbn; congruence. Qed.
  Lemma blind_wrote : forall l d, blind (V := V) (fun s => (with_log (with_file s l d) (Wrote l d), Ok tt)).
  Proof. intros l d s s' t r (F & D & U) H. injection H as <- <-. eexists. split; [reflexivity|]. repeat split; cbn; congruence. Qed.
  Lemma blind_io_write : forall a v p, blind (io_write E a v p).
  Proof.
    intros a v p. unfold io_write. destruct (st_kind (pt_storage p)).
    - apply blind_bind; [apply blind_effect, blind_file|]. intros _. apply blind_bind; [apply blind_ret|]. intro d.
      apply blind_bind; [apply blind_effect, blind_wrote|]. intros _. apply (blind_files _ (fun fs => take_snapshot E fs p)).
    - destruct (pt_value p); [apply blind_ret|]. apply blind_bind; [apply blind_ret|]. intro d. apply (blind_files _ (fun fs => take_snapshot E fs _)).
  Qed.
  Lemma blind_write_output : forall sn p i a f k v, blind (write_output E sn p i a f k v).
  Proof.
    intros. unfold write_output. do 4 (apply blind_bind; [apply blind_ret|intro]). apply blind_bind; [apply blind_io_write|intro].
    apply blind_bind; [apply blind_write_known|intro]. apply blind_write_links.
  Qed.
  Lemma blind_write_outputs : forall sn p f k outs vs i, blind (write_outputs E sn p f k i outs vs).
  Proof.
    intros sn p f k outs. induction vs as [|v vs IH]; intro i; cbn [write_outputs]; [apply blind_ret|].
    do 2 (apply blind_bind; [apply blind_ret|intro]). apply blind_bind; [apply blind_write_output|intro]. apply IH.
  Qed.
  Lemma blind_build_partition : forall sn p existing f deps k, blind (build_producer_partition E sn p existing f deps k).
  Proof.
    intros. unfold build_producer_partition. destruct (existsb (str_eqb k) existing); [apply blind_ret|].
    apply blind_bind.
    { apply blind_collect. intro. do 2 (apply blind_bind; [apply blind_ret|intro]). apply blind_bind; [|intro; apply blind_ret].
      apply blind_bind; [apply blind_ret|intro]. apply blind_io_read. }
    intro. apply blind_bind; [apply blind_effect, blind_log|intro]. apply blind_bind; [apply blind_effect, blind_log|]. intros [|]; [|apply blind_ret].
    apply blind_bind; [apply blind_ret|intro]. apply blind_write_outputs.
  Qed.
  Lemma blind_build_producer : forall sn p, blind (build_producer E sn p).
  Proof.
    intros. apply blind_bind.
    { apply blind_collect. intro. apply blind_bind; [apply blind_ret|intro]. apply blind_bind; [apply blind_read_links|intro]. apply blind_ret. }
    intro. apply blind_bind; [apply blind_ret|intro]. apply blind_bind.
    { unfold discover_producer_partitions. apply blind_bind; [apply blind_ret|intro]. apply blind_bind; [|intro; apply blind_bind; [|intro; apply blind_ret]].
      - apply blind_collect. intro. apply blind_bind; [apply blind_read_known|intro]. apply blind_ret.
      - apply blind_each. intro. apply blind_bind; [apply blind_ret|intro]. apply blind_write_links. }
    intro. apply blind_each. intro. apply blind_bind; [apply blind_ret|intro]. apply blind_build_partition.
  Qed.
  Lemma blind_build_nodes : forall sn order, blind (build_nodes E sn order).
  Proof. intros. apply blind_each. intros [a|p]; [apply blind_ret|apply blind_build_producer]. Qed.
End Parts.

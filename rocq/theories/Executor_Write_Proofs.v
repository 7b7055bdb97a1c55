(** Rejected outputs, and which value goes where. *)
From Coq Require Import ZArith List Ascii String Bool Arith Lia.
From Verif Require Import Base Base_Proofs Str Str_Proofs Graph_Model Graph_Spec Graph_Proofs.
From Verif Require Import Backend_Model Backend_Spec Backend_Proofs.
From Verif Require Import Executor_Model Executor_Spec Executor_Proofs Executor_Done_Proofs Executor_Build_Proofs.
Import ListNotations.
Open Scope list_scope.

(** * Rejected partitions *)
Lemma recorded_known : forall V (s : state V) t x, recorded s t x <-> In x (known_of (db s) t).
Proof.
  intros V s t x. unfold recorded, known_of, getd. destruct (dget storage_eqb (known (db s)) t) as [l|]; split.
  - intros (l' & EQ & I). congruence.
  - eauto.
  - intros (l' & EQ & _). discriminate.
  - intros [].
Qed.

Section Rejected.
  Context {V : Type} (E : env V) (sn : snapshot).
  Definition rejected (a : action V) : Prop := match a with Validated p k vs => c_validate (class_of E p) vs = Ok false | _ => False end.
  Definition at_rejection (s' : state V) (a : action V) : Prop := exists p k vs args existing f deps s1,
    a = Validated p k vs /\ build_producer_partition E sn p existing f deps k s1 = (s', Err ValueError) /\
    files s' = files s1 /\ db s' = db s1 /\ log s' = Validated p k vs :: Built p k args :: log s1.
  Definition calm {A} (m : M V A) : Prop := forall s s' r, m s = (s', r) -> exists new, log s' = new ++ log s /\
    ((forall a, In a new -> ~ rejected a) \/
     (exists a new', new = a :: new' /\ rejected a /\ (forall b, In b new' -> ~ rejected b) /\ r = Err ValueError /\ at_rejection s' a)).
  (** Not even looking at user code. *)
  Definition quiet {A} (m : M V A) : Prop := forall s s' r, m s = (s', r) -> exists new, log s' = new ++ log s /\ forall a, In a new -> ~ rejected a.
  Lemma quiet_calm : forall A (m : M V A), quiet m -> calm m.
  Proof. intros A m Q s s' r H. destruct (Q s s' r H) as (new & L & N). eauto. Qed.
  Lemma quiet_same : forall A (m : M V A), (forall s s' r, m s = (s', r) -> log s' = log s) -> quiet m.
  Proof. intros A m H s s' r R. exists []. split; [eapply H, R|intros ? []]. Qed.
  Lemma quiet_ret : forall A (x : result A), quiet (ret x).
  Proof. intros A x. apply quiet_same. intros s s' r R. now injection R as <- _. Qed.
  Lemma quiet_pure : forall A (f : state V -> result A), quiet (fun s => (s, f s)).
  Proof. intros A f. apply quiet_same. intros s s' r R. now injection R as <- _. Qed.
  Lemma quiet_bind : forall A B (m : M V A) (f : A -> M V B), quiet m -> (forall a, quiet (f a)) -> quiet (andthen m f).
  Proof.
    intros A B m f Hm Hf s s' r R. unfold andthen in R. destruct (m s) as [s1 [a|e]] eqn:R1; destruct (Hm _ _ _ R1) as (n1 & L1 & N1).
    - destruct (Hf a _ _ _ R) as (n2 & L2 & N2). exists (n2 ++ n1). split; [now rewrite L2, L1, app_assoc|]. intros b I.
      apply in_app_iff in I. destruct I; auto.
    - injection R as <- <-. eauto.
  Qed.
  Lemma calm_bind : forall A B (m : M V A) (f : A -> M V B), calm m -> (forall a, calm (f a)) -> calm (andthen m f).
  Proof.
    intros A B m f Hm Hf s s' r R. unfold andthen in R. destruct (m s) as [s1 [a|e]] eqn:R1; destruct (Hm _ _ _ R1) as (n1 & L1 & N1).
    - destruct N1 as [N1|(x & n' & _ & _ & _ & X & _)]; [|discriminate]. destruct (Hf a _ _ _ R) as (n2 & L2 & N2). exists (n2 ++ n1).
      split; [now rewrite L2, L1, app_assoc|]. destruct N2 as [N2|(x & n' & -> & X & N' & -> & AR)].
      + left. intros b I. apply in_app_iff in I. destruct I; auto.
      + right. exists x, (n' ++ n1). split; [reflexivity|]. split; [exact X|]. split; [|auto]. intros b I. apply in_app_iff in I. destruct I; auto.
    - injection R as <- <-. exists n1. split; [exact L1|]. destruct N1 as [N1|(x & n' & -> & X & N' & EQ & AR)]; [now left|]. right.
      exists x, n'. injection EQ as ->. auto.
  Qed.
  Lemma calm_each : forall A (f : A -> M V unit) l, (forall x, calm (f x)) -> calm (eachM f l).
  Proof. induction l as [|x l IH]; intro H; cbn; [apply quiet_calm, quiet_ret|]. apply calm_bind; auto. Qed.
  Lemma quiet_each : forall A (f : A -> M V unit) l, (forall x, quiet (f x)) -> quiet (eachM f l).
  Proof. induction l as [|x l IH]; intro H; cbn; [apply quiet_ret|]. apply quiet_bind; auto. Qed.
  Lemma quiet_collect : forall A B (f : A -> M V B) l, (forall x, quiet (f x)) -> quiet (collectM f l).
  Proof. induction l as [|x l IH]; intro H; cbn; [apply quiet_ret|]. apply quiet_bind; [apply H|]. intros y. apply quiet_bind; [auto|]. intro. apply quiet_ret. Qed.
  Lemma quiet_tick : quiet tick.
  Proof. apply quiet_same. intros s s' r R. now apply tick_ok in R. Qed.
  Lemma quiet_effect : forall A (f : state V -> state V * result A), quiet f -> quiet (effect f).
  Proof. intros A f H. apply quiet_bind; [apply quiet_tick|auto]. Qed.
  Lemma quiet_links : forall sn' k, quiet (read_links E sn' k).
  Proof.
    intros. apply quiet_effect, quiet_same. intros s s' r R. destruct (read_snapshot_partitions (db s) sn' k). now injection R as <- _.
  Qed.
  Lemma quiet_write_links : forall sn' k new, quiet (write_links sn' k new).
  Proof. intros. apply quiet_effect, quiet_same. intros s s' r R. now injection R as <- _. Qed.
  Lemma quiet_write_known : forall t new, quiet (write_known t new).
  Proof. intros. apply quiet_effect, quiet_same. intros s s' r R. now injection R as <- _. Qed.
  Lemma quiet_read_known : forall t fps, quiet (read_known E t fps).
  Proof. intros. apply quiet_effect, quiet_same. intros s s' r R. destruct (read_artifact_partitions _ _ _ _). now injection R as <- _. Qed.
  Lemma quiet_io_write : forall a v p, quiet (io_write E a v p).
  Proof.
    intros a v p. unfold io_write. destruct (st_kind (pt_storage p)).
    - apply quiet_bind; [apply quiet_effect, quiet_same; intros s s' r R; now injection R as <- _|]. intros _.
      apply quiet_bind; [apply quiet_ret|]. intro d. apply quiet_bind; [|intro; apply quiet_pure].
      apply quiet_effect. intros s s' r R. injection R as <- _. exists [Wrote (location_of p) d]. split; [reflexivity|]. intros b [ <- |[]] [].
    - destruct (pt_value p); [apply quiet_ret|]. apply quiet_bind; [apply quiet_ret|]. intro d. apply quiet_pure.
  Qed.
  Lemma quiet_write_output : forall p i a f k v, quiet (write_output E sn p i a f k v).
  Proof.
    intros. apply quiet_bind; [apply quiet_ret|]. intro. apply quiet_bind; [apply quiet_ret|]. intros _. apply quiet_bind; [apply quiet_ret|]. intros _.
    apply quiet_bind; [apply quiet_ret|]. intro. apply quiet_bind; [apply quiet_io_write|]. intro. apply quiet_bind; [apply quiet_write_known|]. intros _. apply quiet_write_links.
  Qed.
  Lemma quiet_write_outputs : forall p f k outs vs i, quiet (write_outputs E sn p f k i outs vs).
  Proof.
    induction vs as [|v vs IH]; intro i; cbn [write_outputs]; [apply quiet_ret|]. apply quiet_bind; [apply quiet_ret|]. intro a.
    apply quiet_bind; [apply quiet_ret|]. intros _. apply quiet_bind; [apply quiet_write_output|]. intros _. apply IH.
  Qed.
  Lemma read_args_same : forall (p : producer) deps names s s' r,
    collectM (fun name =>
        a <- ret (match dget str_eqb (p_inputs p) name with Some a => Ok a | None => Err KeyError end) ;;
        d <- ret (match dget str_eqb deps name with Some d => Ok d | None => Err KeyError end) ;;
        v <- read_input E sn a d ;; ret (Ok (name, v))) names s = (s', r) -> s' = s.
  Proof.
    induction names as [|n names IH]; intros s s' r H; cbn [collectM] in H; [now injection H as <- _|].
    unfold andthen at 1 in H. unfold andthen at 1 in H. cbn [ret] in H. destruct (dget str_eqb (p_inputs p) n) as [a|]; [|now injection H as <- _].
    unfold andthen at 1 in H. cbn [ret] in H. destruct (dget str_eqb deps n) as [d|]; [|now injection H as <- _].
    unfold andthen at 1 in H. unfold read_input in H. unfold andthen at 1 in H. cbn [ret] in H. destruct (key_of (s_graph sn) a); [|now injection H as <- _].
    unfold io_read in H at 1. destruct (match d with [] => _ | _ => _ end) as [v|e]; [|now injection H as <- _].
    cbn [ret] in H. unfold andthen at 1 in H.
    destruct (collectM _ names s) as [s1 [ys|e]] eqn:C; [|injection H as <- _; eapply IH, C]. cbn [ret] in H. injection H as <- _. eapply IH, C.
  Qed.
  (** A partition whose outputs are not accepted leaves nothing behind. *)
  Theorem unaccepted : forall p existing f deps k s s' r, build_producer_partition E sn p existing f deps k s = (s', r) ->
    (forall vs, In (Validated p k vs) (log s') -> ~ In (Validated p k vs) (log s) -> c_validate (class_of E p) vs <> Ok true) ->
    (forall vs, c_validate (class_of E p) vs = Ok true -> ~ In (Validated p k vs) (log s)) ->
    db s' = db s /\ files s' = files s.
  Proof.
    intros p existing f deps k s s' r H N1 N2. unfold build_producer_partition in H.
    destruct (existsb (str_eqb k) existing); [now injection H as <- _|]. unfold andthen at 1 in H.
    destruct (collectM _ (c_build_inputs (class_of E p)) s) as [s1 [args|e]] eqn:C; apply read_args_same in C; subst s1; [|now injection H as <- _].
    unfold andthen at 1 in H. unfold call_build in H. unfold effect in H at 1. unfold andthen at 1 in H.
    destruct (tick s) as [s1 [u|e]] eqn:T; apply tick_ok in T; destruct T as (TF & TD & TL); [|now injection H as <- _].
    destruct (match c_build (class_of E p) with Single fn => rmap (fun v => [v]) (fn args) | Multiple _ fn => fn args end) as [vs|e]; [|now injection H as <- _].
    unfold andthen at 1 in H. unfold call_validate in H. unfold effect in H at 1. unfold andthen at 1 in H.
    destruct (tick (with_log s1 (Built p k args))) as [s2 [u2|e]] eqn:T2; apply tick_ok in T2; destruct T2 as (TF2 & TD2 & TL2); cbn in TF2, TD2, TL2;
      [|injection H as <- _; split; congruence].
    destruct (c_validate (class_of E p) vs) as [[|]|e] eqn:CV.
    - exfalso. assert (NN := N2 vs CV). apply (N1 vs); [|exact NN|exact CV].
      assert (L : exists new, log s' = new ++ Validated p k vs :: log s2).
      { unfold andthen at 1 in H. cbn [ret] in H. destruct (outputs_of (s_graph sn) p) as [outs|e]; [|injection H as <- _; now exists []].
        destruct (quiet_write_outputs p f k outs vs 0 _ _ _ H) as (new & L & _). cbn in L. eauto. }
      destruct L as (new & L). rewrite L. apply in_app_iff. right. now left.
    - injection H as <- _. split; cbn; congruence.
    - injection H as <- _. split; cbn; congruence.
  Qed.
  Lemma calm_build_partition : forall p existing f deps k, calm (build_producer_partition E sn p existing f deps k).
  Proof.
    intros p existing f deps k s s' r H. assert (H0 := H). unfold build_producer_partition in H.
    destruct (existsb (str_eqb k) existing); [injection H as <- _; exists []; split; [reflexivity|left; intros ? []]|]. unfold andthen at 1 in H.
    destruct (collectM _ (c_build_inputs (class_of E p)) s) as [s1 [args|e]] eqn:C; apply read_args_same in C; subst s1;
      [|injection H as <- _; exists []; split; [reflexivity|left; intros ? []]].
    unfold andthen at 1 in H. unfold call_build in H. unfold effect in H at 1. unfold andthen at 1 in H.
    destruct (tick s) as [s1 [u|e]] eqn:T; apply tick_ok in T; destruct T as (TF & TD & TL); [|injection H as <- _; exists []; split; [exact TL|left; intros ? []]].
    destruct (match c_build (class_of E p) with Single fn => rmap (fun v => [v]) (fn args) | Multiple _ fn => fn args end) as [vs|e].
    2: { injection H as <- _. exists [Built p k args]. split; [cbn; now rewrite TL|]. left. intros a [ <- |[]] []. }
    unfold andthen at 1 in H. unfold call_validate in H. unfold effect in H at 1. unfold andthen at 1 in H.
    destruct (tick (with_log s1 (Built p k args))) as [s2 [u2|e]] eqn:T2; apply tick_ok in T2; destruct T2 as (TF2 & TD2 & TL2); cbn in TF2, TD2, TL2.
    2: { injection H as <- _. exists [Built p k args]. split; [now rewrite TL2, TL|]. left. intros a [ <- |[]] []. }
    assert (LL : forall a, In a [Validated p k vs; Built p k args] -> rejected a -> c_validate (class_of E p) vs = Ok false).
    { intros a [ <- |[ <- |[]]] R; [exact R|destruct R]. }
    destruct (c_validate (class_of E p) vs) as [[|]|e] eqn:CV.
    - assert (Q : quiet (outs <- ret (outputs_of (s_graph sn) p) ;; write_outputs E sn p f k 0 outs vs)).
      { apply quiet_bind; [apply quiet_ret|]. intro. apply quiet_write_outputs. }
      destruct (Q _ _ _ H) as (new & L & N). exists (new ++ [Validated p k vs; Built p k args]). cbn [with_log log] in L.
      split; [rewrite L, TL2, TL, <- app_assoc; reflexivity|]. left. intros a I. apply in_app_iff in I. destruct I as [I|I]; [auto|].
      intro R. specialize (LL a I R). discriminate.
    - injection H as <- <-. exists [Validated p k vs; Built p k args]. split; [cbn; now rewrite TL2, TL|]. right.
      exists (Validated p k vs), [Built p k args]. split; [reflexivity|]. split; [exact CV|]. split; [intros b [ <- |[]] []|]. split; [reflexivity|].
      exists p, k, vs, args, existing, f, deps, s. split; [reflexivity|]. split; [exact H0|]. cbn. rewrite TF2, TF, TD2, TD, TL2, TL. auto.
    - injection H as <- _. exists [Validated p k vs; Built p k args]. split; [cbn; now rewrite TL2, TL|]. left. intros a I R. specialize (LL a I R). discriminate.
  Qed.
  Lemma calm_build_nodes : forall order, calm (build_nodes E sn order).
  Proof.
    intro order. apply calm_each. intros [a|p]; [apply quiet_calm, quiet_ret|]. apply calm_bind; [apply quiet_calm|].
    - apply quiet_collect. intro na. apply quiet_bind; [apply quiet_ret|]. intro key. apply quiet_bind; [apply quiet_links|]. intro. apply quiet_ret.
    - intro inputs. apply calm_bind; [apply quiet_calm, quiet_ret|]. intro df. apply calm_bind; [apply quiet_calm|].
      + apply quiet_bind; [apply quiet_ret|]. intro outs. apply quiet_bind.
        * apply quiet_collect. intro a. apply quiet_bind; [apply quiet_read_known|]. intro. apply quiet_ret.
        * intro found. apply quiet_bind; [|intro; apply quiet_ret]. apply quiet_each. intro al. apply quiet_bind; [apply quiet_ret|]. intro. apply quiet_write_links.
      + intro existing. apply calm_each. intro kd. apply calm_bind; [apply quiet_calm, quiet_ret|]. intro f. apply calm_build_partition.
  Qed.
  Theorem rejection : forall order s s' r new p k vs, build_nodes E sn order s = (s', r) -> log s' = new ++ log s ->
    In (Validated p k vs) new -> c_validate (class_of E p) vs = Ok false ->
    r = Err ValueError /\ exists args existing f deps s1, build_producer_partition E sn p existing f deps k s1 = (s', Err ValueError) /\
      files s' = files s1 /\ db s' = db s1 /\ log s' = Validated p k vs :: Built p k args :: log s1.
  Proof.
    intros order s s' r new p k vs H L I R. destruct (calm_build_nodes order s s' r H) as (new' & L' & D).
    assert (new' = new) by (rewrite L in L'; now apply app_inv_tail in L'). subst new'.
    destruct D as [D|(a & n' & -> & RA & N & -> & AR)]; [now destruct (D _ I)|]. split; [reflexivity|].
    destruct I as [ -> |I]; [|now destruct (N _ I)]. destruct AR as (p' & k' & vs' & args & existing & f & deps & s1 & EQ & A1 & A2 & A3 & A4).
    injection EQ as <- <- <-. exists args, existing, f, deps, s1. auto.
  Qed.
End Rejected.

Section Kept.
  Context {V : Type} (E : env V) (sn : snapshot).
  Lemma frame_kept : forall K T (s s' : state V), frame sn K T s s' -> kept s s'.
  Proof.
    intros K T s s' F. split; [|split].
    - intros sn' key x. rewrite !linked_links. apply (fr_links_mono _ _ _ _ _ F).
    - intros t x. rewrite !recorded_known. apply (fr_known_mono _ _ _ _ _ F).
    - apply (fr_files_mono _ _ _ _ _ F).
  Qed.
  Lemma within_build_nodes : forall order, within sn (fun _ => True) (fun _ => True) (build_nodes E sn order).
  Proof.
    intro order. apply within_each. intros [a|p] _; [apply within_ret|]. intros s s' r H. apply within_build_producer in H.
    revert H. apply frame_weaken; auto.
  Qed.
End Kept.

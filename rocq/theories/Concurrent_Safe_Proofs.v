(** Reasoning about programs while others move: what holds of a build follows from what holds of its
    accesses. *)
From Coq Require Import ZArith List Ascii String Bool Arith Lia.
From Verif Require Import Base Str Base_Proofs Str_Proofs Graph_Model Graph_Spec Graph_Proofs Backend_Model Backend_Proofs Executor_Model Executor_Spec
  Executor_Proofs Executor_Build_Proofs Concurrent_Model.
Import ListNotations.
Open Scope list_scope.

Definition next {V A} (m : prog V A) : option (state V -> state V) := match m with Act u _ => Some u | Done _ => None end.

Section Safe.
  Context {V : Type} (view : state V -> state V) (Pre : state V -> Prop).
  (** What an access from [s] to [s'] has to meet; [v] is where it leads from the view of [s]. *)
  Context (C : state V -> state V -> state V -> option (state V -> state V) -> Prop).
  Context (C_none : forall s s' v x, C s s' v None -> C s s' v x).
  Fixpoint safe {A} (Q : A -> Prop) (m : prog V A) : Prop :=
    match m with
    | Done (Ok a) => Q a
    | Done (Err _) => True
    | Act u k => forall s, Pre s -> C s (u s) (u (view s)) (next (k s)) /\ k s = k (view s) /\ safe Q (k s)
    end.
  Definition any {A} (_ : A) : Prop := True.
  Lemma safe_weaken : forall A (P Q : A -> Prop) m, safe P m -> (forall a, P a -> Q a) -> safe Q m.
  Proof.
    intros A P Q m H W. induction m as [[a|e]|u k IH]; cbn in *; [now apply W|exact I|]. intros s Ps. destruct (H s Ps) as (H1 & H2 & H3). auto.
  Qed.
  Lemma safe_bind : forall A B (P : A -> Prop) (Q : B -> Prop) m f, safe P m -> (forall a, P a -> safe Q (f a)) -> safe Q (pbind m f).
  Proof.
    intros A B P Q m f H F. induction m as [[a|e]|u k IH]; cbn in *; [now apply F|exact I|].
    intros s Ps. destruct (H s Ps) as (H1 & H2 & H3). split; [|split; [now rewrite H2|now apply IH]].
    destruct (k s) as [[a|e]|u' k']; cbn in *; [now apply C_none|exact H1|exact H1].
  Qed.
  Lemma safe_bind_done : forall A B (Q : B -> Prop) (r : result A) f, (forall a, r = Ok a -> safe Q (f a)) -> safe Q (pbind (Done r) f).
  Proof. intros A B Q [a|e] f H; cbn; [now apply H|exact I]. Qed.
  Lemma safe_done : forall A (Q : A -> Prop) r, (forall a, r = Ok a -> Q a) -> safe Q (Done r).
  Proof. intros A Q [a|e] H; cbn; [now apply H|exact I]. Qed.
  Lemma safe_act : forall A (Q : A -> Prop) (f : state V -> state V * result A),
    (forall s, Pre s -> C s (fst (f s)) (fst (f (view s))) None /\ snd (f s) = snd (f (view s)) /\ (forall a, snd (f s) = Ok a -> Q a)) ->
    safe Q (act f).
  Proof.
    intros A Q f H s Ps. destruct (H s Ps) as (H1 & H2 & H3). cbn [next]. split; [exact H1|]. split; [now rewrite H2|]. now apply safe_done.
  Qed.
  Lemma safe_each : forall A (f : A -> prog V unit) l, (forall x, In x l -> safe any (f x)) -> safe any (eachP f l).
  Proof.
    intros A f l. induction l as [|x l IH]; intro H; cbn [eachP]; [exact I|].
    apply (safe_bind _ _ any); [apply H; now left|intros _ _]. apply IH. intros y Iy. apply H. now right.
  Qed.
  Lemma safe_collect : forall A B (P : A -> B -> Prop) (f : A -> prog V B) l, (forall x, In x l -> safe (P x) (f x)) ->
    safe (Forall2 P l) (collectP f l).
  Proof.
    intros A B P f l. induction l as [|x l IH]; intro H; cbn [collectP]; [constructor|].
    apply (safe_bind _ _ (P x)); [apply H; now left|intros y Py]. apply (safe_bind _ _ (Forall2 P l)).
    - apply IH. intros z Iz. apply H. now right.
    - intros ys Pys. now constructor.
  Qed.
End Safe.

Section Build.
  Context {V : Type} (E : env V) (g : graph_def) (N : NoDup (map fst (g_arts g))) (It : iterates E).
  Context (view : state V -> state V) (C : state V -> state V -> state V -> option (state V -> state V) -> Prop)
          (C_none : forall s s' v x, C s s' v None -> C s s' v x).
  (** The partitions of a storage that may occur, and what is known about the files. *)
  Context (Good : storage -> psnapshot -> Prop) (J : list (location * str) -> Prop).
  Definition fine (b : backend) : Prop :=
    (forall sn key x a, In x (links_of b sn key) -> key_of g a = Ok key -> Good (a_storage a) x) /\
    (forall st x, In x (known_of b st) -> Good st x).
  Definition Pre (s : state V) : Prop := fine (db s) /\ J (files s).
  Notation safe := (safe view Pre C).

  Definition in_graph (st : storage) : Prop := exists k a, In (k, a) (g_arts g) /\ a_storage a = st.
  Context (V_db : forall s, db (view s) = db s).
  Context (H_id : forall s, Pre s -> C s s (view s) None).
  Context (H_db : forall s b, Pre s -> fine b -> C s (with_db s b) (with_db (view s) b) None).
  Context (H_log : forall s a, Pre s -> (forall l d, a <> Wrote l d) -> C s (with_log s a) (with_log (view s) a) None).
  Context (H_list : forall s st fps, in_graph st -> st_kind st = SFile ->
    filter (fun l => generated_by st l && option_eqb Z.eqb (get_fp fps (snd (fst l))) (snd l)) (map fst (files (view s))) =
    filter (fun l => generated_by st l && option_eqb Z.eqb (get_fp fps (snd (fst l))) (snd l)) (map fst (files s))).
  Context (H_snap : forall s p, in_graph (pt_storage p) -> take_snapshot E (files (view s)) p = take_snapshot E (files s) p).
  Context (H_good : forall fs p x, J fs \/ st_kind (pt_storage p) <> SFile -> in_graph (pt_storage p) ->
    take_snapshot E fs p = Ok x -> Good (pt_storage p) x).
  Context (Asked : producer -> pkey -> list (str * list psnapshot) -> Z -> Prop) (Args : producer -> pkey -> list (str * list psnapshot) -> Z -> list (str * V) -> Prop).
  Context (H_asked : forall p inputs deps fps k d, outputs_of g p <> Err KeyError ->
    Forall2 (fun na nl => fst nl = fst na /\ forall x, In x (snd nl) -> Good (a_storage (snd na)) x) (p_inputs p) inputs ->
    Forall (fun na => exists k, In (k, snd na) (g_arts g)) (p_inputs p) ->
    compute_dependencies E p inputs = Ok (deps, fps) -> In (k, d) deps -> Asked p k d (fingerprint_for E p d)).
  Context (H_args : forall sn p k d f, s_graph sn = g -> Asked p k d f -> safe (Args p k d f) (read_arguments_p E sn p d)).
  Context (H_write : forall p k d f args vs i a v outs part, Asked p k d f -> Args p k d f args -> runs (class_of E p) args (Ok vs) ->
    nth_error vs i = Some v -> outputs_of g p = Ok outs -> nth_error outs i = Some a -> check E p i a v = Ok tt ->
    generate_partition (a_storage a) (Some f) k = Ok part -> safe (Good (a_storage a)) (io_write_p E a v part)).

  Lemma key_in : forall a key, key_of g a = Ok key -> in_graph (a_storage a).
  Proof. intros a key K. exists key, a. split; [now apply key_of_In|reflexivity]. Qed.
  Lemma write_links_fine : forall b sn key new a, fine b -> key_of g a = Ok key -> (forall x, In x new -> Good (a_storage a) x) ->
    fine (write_snapshot_partitions b sn key new).
  Proof.
    intros b sn key new a (F1 & F2) K G. split.
    - intros sn' key' x a' Ix K'. rewrite wl_links in Ix. destruct (snapshot_eqb sn sn' && str_eqb key key') eqn:Q; [|eapply F1; eauto].
      apply andb_prop in Q. destruct Q as (_ & Q). apply str_eqb_spec in Q. subst key'. assert (a' = a) by (eapply key_inj; eauto). subst a'.
      apply adds_In in Ix. destruct Ix as [Ix|Ix]; [eapply F1; eauto|now apply G].
    - intros st x Ix. unfold known_of in Ix. rewrite (proj2 (proj2 (proj2 (wl_other b sn key new)))) in Ix. now apply F2.
  Qed.
  Lemma write_known_fine : forall b st new, fine b -> (forall x, In x new -> Good st x) -> fine (write_artifact_partitions b st new).
  Proof.
    intros b st new (F1 & F2) G. split.
    - intros sn key x a Ix K. unfold links_of in Ix. rewrite (proj1 (proj2 (proj2 (wa_other b st new)))) in Ix. eapply F1; eauto.
    - intros st' x Ix. rewrite wa_known in Ix. destruct (storage_eqb st st') eqn:Q; [|now apply F2].
      apply storage_eqb_spec in Q. subst st'. apply adds_In in Ix. destruct Ix as [Ix|Ix]; [now apply F2|now apply G].
  Qed.
  Lemma safe_db : forall A (Q : A -> Prop) (F : backend -> backend * result A) f, (forall s, f s = (with_db s (fst (F (db s))), snd (F (db s)))) ->
    (forall b, fine b -> fine (fst (F b)) /\ forall a, snd (F b) = Ok a -> Q a) -> safe Q (act f).
  Proof.
    intros A Q F f X H. apply safe_act. intros s Ps. rewrite !X, V_db. destruct (H (db s) (proj1 Ps)) as (H1 & H2).
    cbn [fst snd]. split; [now apply H_db|]. split; [reflexivity|exact H2].
  Qed.
  Lemma safe_write_links : forall sn key new a, key_of g a = Ok key -> (forall x, In x new -> Good (a_storage a) x) ->
    safe any (write_links_p sn key new).
  Proof.
    intros sn key new a K G. unfold write_links_p.
    apply (safe_db _ _ (fun b => (write_snapshot_partitions b sn key new, Ok tt))); [reflexivity|].
    intros b F. cbn. split; [eapply write_links_fine; eauto|now intros].
  Qed.
  Lemma safe_write_known : forall st new, (forall x, In x new -> Good st x) -> safe any (write_known_p st new).
  Proof.
    intros st new G. unfold write_known_p.
    apply (safe_db _ _ (fun b => (write_artifact_partitions b st new, Ok tt))); [reflexivity|].
    intros b F. cbn. split; [now apply write_known_fine|now intros].
  Qed.
  Lemma safe_read_links : forall sn key a, key_of g a = Ok key -> safe (fun l => forall x, In x l -> Good (a_storage a) x) (read_links_p E sn key).
  Proof.
    intros sn key a K. unfold read_links_p.
    apply (safe_db _ _ (fun b => let '(b', l) := read_snapshot_partitions b sn key in (b', Ok (iter_set E l)))).
    { intro s. destruct (read_snapshot_partitions (db s) sn key). reflexivity. }
    intros b F. assert (R := rl_spec b sn key). destruct (read_snapshot_partitions b sn key) as (b', l).
    destruct R as (-> & R & _ & _ & _ & RK). cbn [fst snd]. split.
    - destruct F as (F1 & F2). split.
      + intros sn' key' x a' Ix K'. rewrite R in Ix. now apply (F1 sn' key').
      + intros st x. unfold known_of. rewrite RK. apply F2.
    - intros l H x Ix. injection H as <-. apply (proj1 (It _ _)) in Ix. destruct F as (F1 & _). now apply (F1 sn key).
  Qed.
  Lemma safe_snapshot : forall p, in_graph (pt_storage p) -> safe (Good (pt_storage p)) (snapshot_p E p).
  Proof.
    intros p G. apply safe_act. intros s Ps. cbn [fst snd]. split; [now apply H_id|]. split; [now rewrite H_snap|].
    intros x Hx. eapply H_good; eauto. left. apply Ps.
  Qed.
  Lemma mapM_ok_In : forall A B (f : A -> result B) l r y, mapM f l = Ok r -> In y r -> exists x, In x l /\ f x = Ok y.
  Proof.
    intros A B f l r y M Iy. apply mapM_Forall2 in M. induction M as [|a b l' r' H M IH]; [destruct Iy|].
    destruct Iy as [<-|Iy]; [exists a; split; [now left|exact H]|]. destruct (IH Iy) as (x & Ix & Hx). exists x. split; [now right|exact Hx].
  Qed.
  Lemma safe_discover : forall st fps, in_graph st -> safe (fun l => forall x, In x l -> Good st x) (discover_p E st fps).
  Proof.
    intros st fps G. unfold discover_p. destruct (st_kind st) as [|v] eqn:K.
    - apply (safe_bind _ _ _ C_none _ _ any).
      + apply safe_act. intros s Ps. cbn [fst snd]. split; [now apply H_id|]. split; [|now intros]. f_equal. symmetry. now apply H_list.
      + intros found _. eapply safe_weaken.
        * apply (safe_collect _ _ _ C_none _ _ (fun _ => Good st)). intros l _. apply (safe_snapshot (Partition st (snd (fst l)) (snd l) None)). exact G.
        * intros ys F x Ix. induction F as [|a b la lb H F IH]; [destruct Ix|]. destruct Ix as [<-|Ix]; auto.
    - apply safe_done. intros l D x Ix. unfold discover in D. rewrite K in D. destruct (negb (is_nil fps) && is_some v); [discriminate|].
      destruct (st_partitioned st && is_nil fps); [discriminate|]. destruct v as [v|]; [|injection D as <-; destruct Ix].
      destruct (mapM_ok_In _ _ _ _ _ _ D Ix) as (kf & _ & H).
      destruct (generate_partition st (snd kf) (fst kf)) as [p|] eqn:GP; [|discriminate]. cbn [bind] in H.
      apply generate_partition_storage in GP. destruct GP as (GP & _). rewrite <- GP in *. eapply H_good; [right|exact G|exact H]. now rewrite K.
  Qed.
  Lemma safe_read_known : forall st fps, in_graph st -> safe (fun l => forall x, In x l -> Good st x) (read_known_p E st fps).
  Proof.
    intros st fps G. unfold read_known_p. apply (safe_bind _ _ _ C_none _ _ any).
    - apply safe_act. intros s Ps. cbn [fst snd]. split; [now apply H_id|]. split; [now rewrite V_db|now intros].
    - intros seen _. apply (safe_bind _ _ _ C_none _ _ (fun l => forall x, In x l -> Good st x)).
      + destruct seen; [intros x []|now apply safe_discover].
      + intros found Gf.
        apply (safe_db _ _ (fun b => let '(b', r) := read_artifact_partitions b st fps (Ok found) in (b', rmap (iter_set E) r))).
        { intro s. destruct (read_artifact_partitions (db s) st fps (Ok found)). reflexivity. }
        intros b F. assert (R := ra_spec b st fps (Ok found)). destruct (read_artifact_partitions b st fps (Ok found)) as (b', r).
        cbn [fst snd]. destruct R as (_ & _ & _ & _ & R). destruct r as [l|e]; cbn [rmap].
        * destruct R as (-> & R). assert (F' : fine b').
          { destruct R as [(_ & ->)|(fd & Q & _ & ->)]; [exact F|]. injection Q as <-. now apply write_known_fine. }
          split; [exact F'|]. intros a Q x Ix. injection Q as <-. apply (proj1 (It _ _)) in Ix. apply (proj1 (select_In _ _ _)) in Ix. destruct Ix as (Ix & _). now apply (proj2 F').
        * destruct R as (-> & R & _). discriminate.
  Qed.

  Lemma outs_in : forall p outs a, outputs_of g p = Ok outs -> In a outs -> in_graph (a_storage a).
  Proof.
    intros p outs a O Ia. destruct (out_produced (Snapshot 0 g) p outs a O Ia) as (i & k & I1 & _). exists k, a. now split.
  Qed.
  Lemma safe_write_output : forall sn p k d f args vs i a v outs, s_graph sn = g -> Asked p k d f -> Args p k d f args -> runs (class_of E p) args (Ok vs) ->
    nth_error vs i = Some v -> outputs_of g p = Ok outs -> nth_error outs i = Some a -> safe any (write_output_p E sn p i a f k v).
  Proof.
    intros sn p k d f args vs i a v outs SG As Ar R Nv O Na. unfold write_output_p. rewrite SG.
    apply safe_bind_done. intros key K. apply safe_bind_done. intros _ _. apply safe_bind_done. intros [] Ck. apply safe_bind_done. intros part GP.
    apply (safe_bind _ _ _ C_none _ _ (Good (a_storage a))); [eapply H_write; eauto|intros x Gx].
    apply (safe_bind _ _ _ C_none _ _ any); [apply safe_write_known; intros y [<-|[]]; exact Gx|intros _ _].
    apply (safe_write_links sn key [x] a K). intros y [<-|[]]. exact Gx.
  Qed.
  Lemma safe_write_outputs : forall sn p k d f args outs, s_graph sn = g -> Asked p k d f -> Args p k d f args -> outputs_of g p = Ok outs ->
    forall vs' vs0, runs (class_of E p) args (Ok (vs0 ++ vs')) -> safe any (write_outputs_p E sn p f k (List.length vs0) outs vs').
  Proof.
    intros sn p k d f args outs SG As Ar O. induction vs' as [|v vs' IH]; intros vs0 R; cbn [write_outputs_p]; [exact I|].
    apply safe_bind_done. intros a Na. destruct (nth_error outs (List.length vs0)) as [a'|] eqn:Na'; [|discriminate]. injection Na as ->.
    apply safe_bind_done. intros _ _. apply (safe_bind _ _ _ C_none _ _ any).
    - eapply safe_write_output; eauto. rewrite nth_error_app2 by lia. now rewrite Nat.sub_diag.
    - intros _ _. specialize (IH (vs0 ++ [v])). rewrite app_length in IH. cbn in IH. rewrite Nat.add_1_r in IH. apply IH. now rewrite <- app_assoc.
  Qed.
  Lemma safe_partition : forall sn p ex f d k, s_graph sn = g -> Asked p k d f -> safe any (build_producer_partition_p E sn p ex f d k).
  Proof.
    intros sn p ex f d k SG As. unfold build_producer_partition_p. destruct (existsb (str_eqb k) ex); [exact I|].
    apply (safe_bind _ _ _ C_none _ _ (Args p k d f)); [now apply H_args|intros args Ar].
    apply (safe_bind _ _ _ C_none _ _ (fun vs => runs (class_of E p) args (Ok vs))).
    - apply safe_act. intros s Ps. cbn [fst snd]. split; [apply H_log; [exact Ps|discriminate]|]. split; [reflexivity|]. intros vs Q. unfold runs.
      destruct (c_build (class_of E p)); [|now symmetry]. destruct (f0 args); cbn in Q; congruence.
    - intros vs R. apply (safe_bind _ _ _ C_none _ _ any).
      + apply safe_act. intros s Ps. cbn [fst snd]. split; [apply H_log; [exact Ps|discriminate]|]. split; [reflexivity|now intros].
      + intros [] _; [|exact I]. apply safe_bind_done. rewrite SG. intros outs O. now apply (safe_write_outputs sn p k d f args outs SG As Ar O vs []).
  Qed.
  Lemma safe_producer : forall sn p, s_graph sn = g -> safe any (build_producer_p E sn p).
  Proof.
    intros sn p SG. unfold build_producer_p.
    apply (safe_bind _ _ _ C_none _ _ (Forall2 (fun na nl => (fst nl = fst na /\ forall x, In x (snd nl) -> Good (a_storage (snd na)) x) /\
             exists k, In (k, snd na) (g_arts g)) (p_inputs p))).
    - apply safe_collect; [exact C_none|]. intros na _. rewrite SG. apply safe_bind_done. intros key K.
      apply (safe_bind _ _ _ C_none _ _ (fun l => forall x, In x l -> Good (a_storage (snd na)) x)); [now apply safe_read_links|].
      intros l G. cbn. split; [split; [reflexivity|exact G]|]. exists key. now apply key_of_In.
    - intros inputs Gi. apply safe_bind_done. intros (deps, fps) D. cbn [fst snd].
      destruct (outputs_of g p) as [outs|e0] eqn:O0.
      2: { unfold discover_producer_partitions_p. rewrite SG, O0. exact I. }
      apply (safe_bind _ _ _ C_none _ _ any).
      + unfold discover_producer_partitions_p. rewrite SG. apply safe_bind_done. intros outs' O. rewrite O0 in O. injection O as <-.
        apply (safe_bind _ _ _ C_none _ _ (fun found => forall al, In al found -> In (fst al) outs /\ forall x, In x (snd al) -> Good (a_storage (fst al)) x)).
        * eapply safe_weaken.
          -- apply (safe_collect _ _ _ C_none _ _ (fun a al => fst al = a /\ In a outs /\ forall x, In x (snd al) -> Good (a_storage a) x)). intros a Ia.
             apply (safe_bind _ _ _ C_none _ _ (fun l => forall x, In x l -> Good (a_storage a) x)).
             ++ apply safe_read_known. eapply outs_in; eauto.
             ++ intros l G. cbn. auto.
          -- intros found F al Ial. assert (W : forall la, Forall2 (fun a al => fst al = a /\ In a outs /\ forall x, In x (snd al) -> Good (a_storage a) x) la found ->
               In (fst al) outs /\ forall x, In x (snd al) -> Good (a_storage (fst al)) x).
             { clear F. intros la F. induction F as [|a b la lb H F IH]; [destruct Ial|]. destruct Ial as [<-|Ial]; [|auto]. destruct H as (<- & H1 & H2). auto. }
             now apply (W outs).
        * intros found F. apply (safe_bind _ _ _ C_none _ _ any); [|now intros].
          apply safe_each; [exact C_none|]. intros al Ial. apply safe_bind_done. intros key K. apply (safe_write_links sn key (snd al) (fst al) K). now apply F.
      + intros existing _. apply safe_each; [exact C_none|]. intros (k, d) Ikd. cbn [fst snd]. apply safe_bind_done. intros f Gf.
        assert (Ff : f = fingerprint_for E p d).
        { destruct (compute_dependencies_ok E p inputs deps fps D) as (m & _ & _ & _ & _ & CF & _). specialize (CF k d Ikd). unfold get_fp in Gf. rewrite CF in Gf. congruence. }
        subst f. apply safe_partition; [exact SG|]. apply (H_asked p inputs deps fps); auto.
        * congruence.
        * clear - Gi. induction Gi as [|na nl l1 l2 (H & _) F IH]; constructor; auto.
        * clear - Gi. induction Gi as [|na nl l1 l2 (_ & H) F IH]; constructor; auto.
  Qed.
  Lemma safe_build : forall sn, s_graph sn = g -> safe any (build_p E sn).
  Proof.
    intros sn SG. unfold build_p. apply safe_bind_done. intros order _. apply safe_each; [exact C_none|]. intros [a|p] _; [exact I|now apply safe_producer].
  Qed.
  Lemma fine_same : forall b b', links b' = links b -> known b' = known b -> fine b -> fine b'.
  Proof. intros b b' L K (F1 & F2). split; [intros sn key x a; unfold links_of; rewrite L; apply F1|intros st x; unfold known_of; rewrite K; apply F2]. Qed.
  Lemma safe_visit_all : forall l acc, (forall kap, In kap (snd acc) -> key_of g (snd (fst kap)) = Ok (fst (fst kap)) /\ forall x, In x (snd kap) -> Good (a_storage (snd (fst kap))) x) ->
    safe (fun r => forall kap, In kap (snd r) -> key_of g (snd (fst kap)) = Ok (fst (fst kap)) /\ forall x, In x (snd kap) -> Good (a_storage (snd (fst kap))) x)
         (visit_all_p E g acc l).
  Proof.
    induction l as [|n l IH]; intros acc H; cbn [visit_all_p]; [exact H|].
    apply (safe_bind _ _ _ C_none _ _ (fun r => forall kap, In kap (snd r) -> key_of g (snd (fst kap)) = Ok (fst (fst kap)) /\ forall x, In x (snd kap) -> Good (a_storage (snd (fst kap))) x));
      [|intros r Hr; now apply IH].
    unfold visit_p. destruct n as [a|p]; [|exact H]. apply safe_bind_done. intros key K. cbn zeta. destruct (a_output a); [exact H|].
    apply (safe_bind _ _ _ C_none _ _ (fun l => forall x, In x l -> Good (a_storage a) x)).
    - apply safe_discover. eapply key_in; eauto.
    - intros parts G. destruct parts as [|x0 parts]; [exact I|]. cbn. intros kap Ik. apply in_app_iff in Ik. destruct Ik as [Ik|[<-|[]]]; [now apply H|].
      cbn. split; [exact K|exact G].
  Qed.
  Theorem safe_graph_build : safe any (graph_build_p E g).
  Proof.
    unfold graph_build_p. apply (safe_bind _ _ _ C_none _ _ (fun sn => s_graph sn = g)).
    - unfold from_graph_p. eapply (safe_bind _ _ _ C_none); [apply safe_visit_all; intros kap []|]. intros found F. cbn zeta.
      apply (safe_bind _ _ _ C_none _ _ any).
      { apply (safe_db _ _ (fun b => (write_graph (graph_fp E) b g, Ok tt))); [reflexivity|].
        intros b Fb. cbn. split; [|now intros]. destruct (wg_spec (graph_fp E) b g) as (_ & L & _ & K & _). now apply (fine_same b). }
      intros _ _. apply (safe_bind _ _ _ C_none _ _ any).
      { apply (safe_db _ _ (fun b => (write_snapshot (snapshot_fp E) b (Snapshot (fst found) g), Ok tt))); [reflexivity|].
        intros b Fb. cbn. split; [|now intros]. destruct (ws_spec (snapshot_fp E) b (Snapshot (fst found) g)) as (_ & L & _ & K & _). now apply (fine_same b). }
      intros _ _. apply (safe_bind _ _ _ C_none _ _ any); [|now intros].
      apply safe_each; [exact C_none|]. intros kap Ik. destruct (F kap Ik) as (K & G).
      apply (safe_bind _ _ _ C_none _ _ any); [now apply safe_write_known|intros _ _]. eapply safe_write_links; eauto.
    - intros sn SG. apply (safe_bind _ _ _ C_none _ _ any); [now apply safe_build|now intros].
  Qed.
End Build.

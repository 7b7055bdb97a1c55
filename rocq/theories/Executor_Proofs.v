From Coq Require Import ZArith List Ascii String Bool Arith Lia.
From Verif Require Import Base Base_Proofs Str Str_Proofs Graph_Model Graph_Spec Graph_Proofs.
From Verif Require Import Backend_Model Backend_Spec Backend_Proofs Executor_Model.
Import ListNotations.
Open Scope list_scope.

Lemma location_eqb_spec : forall x y : location, location_eqb x y = true <-> x = y.
Proof.
  intros [[i k] f] [[i' k'] f']. unfold location_eqb. rewrite !andb_true_iff, !str_eqb_spec, (option_eqb_spec _ _ Z.eqb_eq).
  split; [intros [[-> ->] ->]; reflexivity|]. intro H; injection H; auto.
Qed.

(** * Sequencing *)
Section Monad.
  Context {V : Type}.
  Lemma andthen_ok : forall A B (m : M V A) (f : A -> M V B) s s' b, andthen m f s = (s', Ok b) ->
    exists s1 a, m s = (s1, Ok a) /\ f a s1 = (s', Ok b).
  Proof. intros A B m f s s' b. unfold andthen. destruct (m s) as [s1 [a|e]]; [eauto|discriminate]. Qed.
  Lemma ret_ok : forall A (x : result A) (s s' : state V) a, ret x s = (s', Ok a) -> s' = s /\ x = Ok a.
  Proof. intros A x s s' a H. injection H as <- ->. auto. Qed.
  Lemma tick_none : forall s : state V, fuel s = None -> tick s = (s, Ok tt).
  Proof. intros s H. unfold tick. now rewrite H. Qed.
  Lemma tick_ok : forall (s s' : state V) r, tick s = (s', r) -> files s' = files s /\ db s' = db s /\ log s' = log s.
  Proof. intros s s' r. unfold tick. destruct (fuel s) as [[|n]|]; intro H; injection H as <- _; auto. Qed.
  Lemma effect_ok : forall A (f : state V -> state V * result A) s s' a, effect f s = (s', Ok a) ->
    exists s1, files s1 = files s /\ db s1 = db s /\ log s1 = log s /\ f s1 = (s', Ok a).
  Proof.
    intros A f s s' a H. unfold effect, andthen in H. destruct (tick s) as [s1 [u|e]] eqn:T; [|discriminate].
    apply tick_ok in T. exists s1. tauto.
  Qed.
  Lemma collectM_ok : forall A B (f : A -> M V B) l s s' r, collectM f l s = (s', Ok r) ->
    List.length r = List.length l.
  Proof.
    induction l as [|x l IH]; intros s s' r H; cbn [collectM] in H.
    - apply ret_ok in H. destruct H as [_ H]. now injection H as <-.
    - apply andthen_ok in H. destruct H as (s1 & y & _ & H). apply andthen_ok in H. destruct H as (s2 & ys & H1 & H2).
      apply ret_ok in H2. destruct H2 as [_ H2]. injection H2 as <-. cbn. f_equal. eapply IH, H1.
  Qed.
End Monad.

(** * What an action may change *)
Definition has_entry (b : backend) (sn : snapshot) (k : str) : Prop :=
  exists byk l, dget snapshot_eqb (links b) sn = Some byk /\ dget str_eqb byk k = Some l.
Record frame {V} (sn : snapshot) (K : str -> Prop) (T : storage -> Prop) (s s' : state V) : Prop := {
  fr_links : forall sn' k, (sn' <> sn \/ ~ K k) -> links_of (db s') sn' k = links_of (db s) sn' k;
  fr_known : forall t, ~ T t -> dget storage_eqb (known (db s')) t = dget storage_eqb (known (db s)) t;
  fr_links_mono : forall sn' k x, In x (links_of (db s) sn' k) -> In x (links_of (db s') sn' k);
  fr_known_mono : forall t x, In x (known_of (db s) t) -> In x (known_of (db s') t);
  fr_mem : forall t, dmem storage_eqb (known (db s)) t = true -> dmem storage_eqb (known (db s')) t = true;
  fr_entry : forall sn' k, has_entry (db s) sn' k -> has_entry (db s') sn' k;
  fr_files : forall l, (forall t, T t -> st_id t <> fst (fst l)) -> dget location_eqb (files s') l = dget location_eqb (files s) l;
  fr_files_mono : forall l, dget location_eqb (files s) l <> None -> dget location_eqb (files s') l <> None;
  fr_meta : graphs (db s') = graphs (db s) /\ snapshots (db s') = snapshots (db s) /\ tags (db s') = tags (db s);
  fr_log : exists new, log s' = new ++ log s }.

Section Frame.
  Context {V : Type} (sn : snapshot) (K : str -> Prop) (T : storage -> Prop).
  Lemma frame_refl : forall s s' : state V, files s' = files s -> db s' = db s -> log s' = log s -> frame sn K T s s'.
  Proof. intros s s' F D L. constructor; rewrite ?F, ?D, ?L; auto. now exists []. Qed.
  Lemma frame_trans : forall s1 s2 s3 : state V, frame sn K T s1 s2 -> frame sn K T s2 s3 -> frame sn K T s1 s3.
  Proof.
    intros s1 s2 s3 A B. constructor.
    - intros sn' k N. now rewrite (fr_links _ _ _ _ _ B), (fr_links _ _ _ _ _ A).
    - intros t N. now rewrite (fr_known _ _ _ _ _ B), (fr_known _ _ _ _ _ A).
    - intros. apply (fr_links_mono _ _ _ _ _ B), (fr_links_mono _ _ _ _ _ A). assumption.
    - intros. apply (fr_known_mono _ _ _ _ _ B), (fr_known_mono _ _ _ _ _ A). assumption.
    - intros. apply (fr_mem _ _ _ _ _ B), (fr_mem _ _ _ _ _ A). assumption.
    - intros. apply (fr_entry _ _ _ _ _ B), (fr_entry _ _ _ _ _ A). assumption.
    - intros l N. now rewrite (fr_files _ _ _ _ _ B), (fr_files _ _ _ _ _ A).
    - intros. apply (fr_files_mono _ _ _ _ _ B), (fr_files_mono _ _ _ _ _ A). assumption.
    - destruct (fr_meta _ _ _ _ _ A) as (? & ? & ?), (fr_meta _ _ _ _ _ B) as (? & ? & ?). repeat split; congruence.
    - destruct (fr_log _ _ _ _ _ A) as (x & Hx), (fr_log _ _ _ _ _ B) as (y & Hy). exists (y ++ x). now rewrite Hy, Hx, app_assoc.
  Qed.
  Lemma frame_weaken : forall (K' : str -> Prop) (T' : storage -> Prop) (s s' : state V),
    (forall k, K k -> K' k) -> (forall t, T t -> T' t) -> frame sn K T s s' -> frame sn K' T' s s'.
  Proof.
    intros K' T' s s' HK HT F. destruct F. constructor; auto.
    - intros sn' k [N|N]; apply fr_links0; [now left|right; auto].
  Qed.
  Definition within {A} (m : M V A) : Prop := forall s s' r, m s = (s', r) -> frame sn K T s s'.
  Lemma within_ret : forall A (x : result A), within (ret x).
  Proof. intros A x s s' r H. injection H as <- _. now apply frame_refl. Qed.
  Lemma within_pure : forall A (f : state V -> result A), within (fun s => (s, f s)).
  Proof. intros A x s s' r H. injection H as <- _. now apply frame_refl. Qed.
  Lemma within_bind : forall A B (m : M V A) (f : A -> M V B), within m -> (forall a, within (f a)) -> within (andthen m f).
  Proof.
    intros A B m f Hm Hf s s' r H. unfold andthen in H. destruct (m s) as [s1 [a|e]] eqn:E1.
    - eapply frame_trans; [eapply Hm, E1|eapply Hf, H].
    - injection H as <- _. eapply Hm, E1.
  Qed.
  Lemma within_bind_ret : forall A B (x : result A) (f : A -> M V B), (forall a, x = Ok a -> within (f a)) -> within (andthen (ret x) f).
  Proof.
    intros A B x f Hf s s' r H. unfold andthen, ret in H. destruct x as [a|e].
    - eapply Hf; eauto.
    - injection H as <- _. now apply frame_refl.
  Qed.
  Lemma within_tick : within tick.
  Proof. intros s s' r H. apply tick_ok in H. destruct H as (? & ? & ?). now apply frame_refl. Qed.
  Lemma within_effect : forall A (f : state V -> state V * result A), within f -> within (effect f).
  Proof. intros A f H. apply within_bind; [apply within_tick|auto]. Qed.
  Lemma within_each : forall A (f : A -> M V unit) l, (forall x, In x l -> within (f x)) -> within (eachM f l).
  Proof.
    induction l as [|x l IH]; intro H; cbn; [apply within_ret|]. apply within_bind; [apply H; now left|].
    intros _. apply IH. intros y I. apply H. now right.
  Qed.
  Lemma within_collect : forall A B (f : A -> M V B) l, (forall x, In x l -> within (f x)) -> within (collectM f l).
  Proof.
    induction l as [|x l IH]; intro H; cbn; [apply within_ret|]. apply within_bind; [apply H; now left|].
    intros y. apply within_bind; [apply IH; intros z I; apply H; now right|]. intros. apply within_ret.
  Qed.

  (** ** Primitive actions *)
  Context (E : env V).
  Lemma within_read_links : forall sn' k, within (read_links E sn' k).
  Proof.
    intros sn' k. apply within_effect. intros s s' r H. assert (L := rl_spec (db s) sn' k).
    destruct (read_snapshot_partitions (db s) sn' k) as [b l] eqn:R. injection H as <- _.
    destruct L as (_ & L1 & L2 & L3 & L4 & L5). constructor; cbn [with_db db files log]; rewrite ?L5; auto.
    - intros sn'' k' x. now rewrite L1.
    - intros t x. unfold known_of. now rewrite L5.
    - intros sn'' k' (byk & x & E1 & E2). unfold read_snapshot_partitions in R.
      destruct (touch snapshot_eqb (links (db s)) sn' []) as [d byk0] eqn:T1.
      destruct (touch str_eqb byk0 k []) as [byk' l'] eqn:T2. injection R as <- _. unfold has_entry. cbn [links].
      rewrite (dget_dset _ snapshot_eqb_spec). destruct (snapshot_eqb sn' sn'') eqn:Q.
      + apply snapshot_eqb_spec in Q. subst sn''. unfold touch in T1. rewrite E1 in T1. injection T1 as <- <-.
        exists byk', x. split; [reflexivity|]. assert (TT := touch_dget _ str_eqb_spec byk k [] k' x E2). now rewrite T2 in TT.
      + exists byk, x. split; [|exact E2]. assert (TT := touch_dget _ snapshot_eqb_spec (links (db s)) sn' [] sn'' byk E1). now rewrite T1 in TT.
    - now exists [].
  Qed.
  Lemma wl_entry : forall b sn' k new sn'' k', has_entry b sn'' k' \/ (sn'' = sn' /\ k' = k) ->
    has_entry (write_snapshot_partitions b sn' k new) sn'' k'.
  Proof.
    intros b sn' k new sn'' k' H. unfold write_snapshot_partitions.
    destruct (touch snapshot_eqb (links b) sn' []) as [d byk0] eqn:T1.
    destruct (touch str_eqb byk0 k []) as [byk' l'] eqn:T2. unfold has_entry. cbn [links].
    rewrite (dget_dset _ snapshot_eqb_spec). destruct (snapshot_eqb sn' sn'') eqn:Q.
    - apply snapshot_eqb_spec in Q. subst sn''. exists (dset str_eqb byk' k (adds l' new)). rewrite (dget_dset _ str_eqb_spec). destruct (str_eqb k k') eqn:Q'; [eauto|].
      destruct H as [(byk & x & E1 & E2)|[_ ->]]; [|now rewrite (proj2 (str_eqb_spec k k) eq_refl) in Q'].
      unfold touch in T1. rewrite E1 in T1. injection T1 as <- <-. exists x. split; [reflexivity|].
      assert (TT := touch_dget _ str_eqb_spec byk k [] k' x E2). now rewrite T2 in TT.
    - destruct H as [(byk & x & E1 & E2)|[-> _]]; [|now rewrite (proj2 (snapshot_eqb_spec sn' sn') eq_refl) in Q].
      exists byk, x. split; [|exact E2]. assert (TT := touch_dget _ snapshot_eqb_spec (links b) sn' [] sn'' byk E1). now rewrite T1 in TT.
  Qed.
  Lemma within_write_links : forall k new, K k -> within (write_links sn k new).
  Proof.
    intros k new HK. apply within_effect. intros s s' r H. injection H as <- _.
    destruct (wl_other (db s) sn k new) as (L1 & L2 & L3 & L4). constructor; cbn [with_db db files log]; rewrite ?L4; auto.
    - intros sn' k' N. rewrite wl_links. destruct (snapshot_eqb sn sn') eqn:Q1; [|reflexivity].
      destruct (str_eqb k k') eqn:Q2; [|reflexivity]. apply snapshot_eqb_spec in Q1. apply str_eqb_spec in Q2. subst. now destruct N as [N|N].
    - intros sn' k' x I. rewrite wl_links. destruct (snapshot_eqb sn sn' && str_eqb k k')%bool eqn:Q; [|exact I].
      apply andb_true_iff in Q. destruct Q as [Q1 Q2]. apply snapshot_eqb_spec in Q1. apply str_eqb_spec in Q2. subst.
      apply adds_In. now left.
    - intros t x. unfold known_of. now rewrite L4.
    - intros sn' k' H. apply wl_entry. now left.
    - now exists [].
  Qed.
  Lemma within_write_known : forall t new, T t -> within (write_known t new).
  Proof.
    intros t new HT. apply within_effect. intros s s' r H. injection H as <- _.
    destruct (wa_other (db s) t new) as (L1 & L2 & L3 & L4). constructor; cbn [with_db db files log]; auto.
    - intros sn' k _. unfold links_of. now rewrite L3.
    - intros t' N. unfold write_artifact_partitions, touch. destruct (dget storage_eqb (known (db s)) t) eqn:D; cbn [known];
        rewrite ?(dget_dset _ storage_eqb_spec);
        (destruct (storage_eqb t t') eqn:Q; [apply storage_eqb_spec in Q; subst; contradiction|reflexivity]).
    - intros sn' k x. unfold links_of. now rewrite L3.
    - intros t' x I. rewrite wa_known. destruct (storage_eqb t t') eqn:Q; [|exact I]. apply storage_eqb_spec in Q. subst.
      apply adds_In. now left.
    - intros t' D. rewrite wa_mem, D. apply orb_true_r.
    - intros sn' k. unfold has_entry. now rewrite L3.
    - now exists [].
  Qed.
  Lemma within_read_known : forall t fps, T t -> within (read_known E t fps).
  Proof.
    intros t fps HT. apply within_effect. intros s s' r H.
    assert (L := ra_spec (db s) t fps (discover E (files s) t fps)).
    destruct (read_artifact_partitions (db s) t fps (discover E (files s) t fps)) as [b x]. injection H as <- _.
    destruct L as (_ & _ & _ & _ & L). assert (C : b = db s \/ exists found, b = write_artifact_partitions (db s) t found).
    { destruct x as [l|e]; [destruct L as (_ & [(_ & ->)|(f & _ & _ & ->)])|destruct L as (-> & _)]; eauto. }
    destruct C as [->|(found & ->)]; [apply frame_refl; now destruct s|].
    assert (W := within_write_known t found HT (State (files s) (db s) (log s) None)).
    unfold write_known, effect, andthen in W. rewrite tick_none in W by reflexivity. specialize (W _ _ eq_refl).
    destruct W. constructor; auto.
  Qed.
  Lemma within_io_write : forall a v p, T (pt_storage p) -> within (io_write E a v p).
  Proof.
    intros a v p HT. unfold io_write. destruct (st_kind (pt_storage p)) eqn:SK.
    - assert (F : forall d, within (fun s => (with_file s (location_of p) d, Ok tt))).
      { intros d s s' r H. injection H as <- _. constructor; cbn [with_file db files log]; auto.
        - intros l N. rewrite (dget_dset _ location_eqb_spec). destruct (location_eqb (location_of p) l) eqn:Q; [|reflexivity].
          apply location_eqb_spec in Q. subst l. now destruct (N _ HT).
        - intros l N. rewrite (dget_dset _ location_eqb_spec). destruct (location_eqb (location_of p) l); [discriminate|exact N].
        - now exists []. }
      apply within_bind; [apply within_effect, F|]. intros _. apply within_bind; [apply within_ret|]. intros d.
      apply within_bind; [apply within_effect|intros _; apply within_pure].
      intros s s' r H. injection H as <- _. specialize (F d s _ _ eq_refl). destruct F. constructor; auto.
      exists [Wrote (location_of p) d]. reflexivity.
    - destruct (pt_value p); [apply within_ret|]. apply within_bind; [apply within_ret|]. intros d. apply within_pure.
  Qed.
  Lemma within_io_read : forall a parts, within (io_read E a parts).
  Proof. intros a parts. unfold io_read. apply within_pure. Qed.
  Lemma within_log : forall A (g : state V -> result A) (x : action V), within (effect (fun s => (with_log s x, g s))).
  Proof.
    intros A g x. apply within_effect. intros s s' r H. injection H as <- _. constructor; cbn; auto. now exists [x].
  Qed.
End Frame.

(** * Frames of the executor's steps *)
Section Steps.
  Context {V : Type} (E : env V) (sn : snapshot).
  Notation g := (s_graph sn).
  Definition out_key (p : producer) (k : str) : Prop := exists outs a, outputs_of g p = Ok outs /\ In a outs /\ key_of g a = Ok k.
  Definition out_storage (p : producer) (t : storage) : Prop := exists outs a, outputs_of g p = Ok outs /\ In a outs /\ a_storage a = t.
  Definition nothing {A} (x : A) : Prop := False.

  Lemma within_get_inputs : forall p, within sn nothing nothing (get_producer_inputs E sn p).
  Proof.
    intro p. apply within_collect. intros na _. apply within_bind; [apply within_ret|]. intro key.
    apply within_bind; [apply within_read_links|]. intro. apply within_ret.
  Qed.
  Lemma within_discover : forall p fps, within sn (out_key p) (out_storage p) (discover_producer_partitions E sn p fps).
  Proof.
    intros p fps. apply within_bind_ret. intros outs O. 
    assert (C : within sn (out_key p) (out_storage p) (collectM (fun a => l <- read_known E (a_storage a) fps ;; ret (Ok (a, l))) outs)).
    { apply within_collect. intros a I. apply within_bind; [|intro; apply within_ret]. apply within_read_known. exists outs, a. auto. }
    intros s s' r H. unfold andthen in H at 1.
    destruct (collectM (fun a => l <- read_known E (a_storage a) fps ;; ret (Ok (a, l))) outs s) as [s1 [found|e]] eqn:F;
      [|injection H as <- _; eapply C, F].
    eapply frame_trans; [eapply C, F|].
    assert (IN : forall al, In al found -> In (fst al) outs).
    { clear - F. revert s s1 found F. induction outs as [|a outs IH]; intros s s1 found F al I; cbn [collectM] in F.
      - apply ret_ok in F. destruct F as [_ F]. injection F as <-. destruct I.
      - apply andthen_ok in F. destruct F as (s2 & y & F1 & F2). apply andthen_ok in F2. destruct F2 as (s3 & ys & F2 & F3).
        apply ret_ok in F3. destruct F3 as [_ F3]. injection F3 as <-. destruct I as [<-|I].
        + apply andthen_ok in F1. destruct F1 as (s4 & l & _ & F1). apply ret_ok in F1. destruct F1 as [_ F1]. injection F1 as <-. now left.
        + right. eapply IH; eauto. }
    revert H. apply within_bind; [|intro; apply within_ret]. apply within_each. intros al I. apply within_bind_ret.
    intros key K. apply within_write_links. exists outs, (fst al). auto.
  Qed.
  Lemma generate_partition_storage : forall t f k p, generate_partition t f k = Ok p -> 
    pt_storage p = t /\ pt_key p = k /\ pt_fp p = f /\ is_some f = st_templated t /\ negb (is_nil k) = st_partitioned t /\
    pt_value p = match st_kind t with SLiteral v => v | SFile => None end.
  Proof.
    intros t f k p. unfold generate_partition. destruct (st_partitioned t) eqn:P, (is_nil k) eqn:N; cbn; try discriminate;
    destruct (Bool.eqb (st_templated t) (is_some f)) eqn:Q; try discriminate; intro H; injection H as <-; apply eqb_prop in Q; cbn; auto 6.
  Qed.
  Lemma within_write_output : forall p outs i a f k v, outputs_of g p = Ok outs -> In a outs ->
    within sn (out_key p) (out_storage p) (write_output E sn p i a f k v).
  Proof.
    intros p outs i a f k v O I. apply within_bind_ret. intros key Ka. apply within_bind_ret. intros _ _.
    apply within_bind_ret. intros _ _. apply within_bind_ret. intros part P.
    assert (T : out_storage p (a_storage a)) by (exists outs, a; auto).
    apply generate_partition_storage in P. destruct P as (PS & _).
    apply within_bind; [apply within_io_write; now rewrite PS|]. intro x.
    apply within_bind; [now apply within_write_known|]. intros _. apply within_write_links. exists outs, a. auto.
  Qed.
  Lemma within_write_outputs : forall p outs f k vs i, outputs_of g p = Ok outs ->
    within sn (out_key p) (out_storage p) (write_outputs E sn p f k i outs vs).
  Proof.
    intros p outs f k. induction vs as [|v vs IH]; intros i O; cbn [write_outputs]; [apply within_ret|].
    apply within_bind_ret. intros a N. destruct (nth_error outs i) as [b|] eqn:NE; [|discriminate]. injection N as ->.
    apply within_bind_ret. intros _ _. apply within_bind; [|intros _; now apply IH].
    apply (within_write_output p outs); [exact O|]. eapply nth_error_In, NE.
  Qed.
  Lemma within_build_partition : forall p existing f deps k,
    within sn (out_key p) (out_storage p) (build_producer_partition E sn p existing f deps k).
  Proof.
    intros p existing f deps k. unfold build_producer_partition. destruct (existsb (str_eqb k) existing); [apply within_ret|].
    apply within_bind.
    - apply within_collect. intros name _. apply within_bind; [apply within_ret|]. intro a.
      apply within_bind; [apply within_ret|]. intro d. apply within_bind; [|intro; apply within_ret].
      apply within_bind; [apply within_ret|]. intros _. apply within_io_read.
    - intro args. apply within_bind; [apply (within_log sn (out_key p) (out_storage p) _ (fun _ => _))|]. intro vs.
      apply within_bind; [apply (within_log sn (out_key p) (out_storage p) _ (fun _ => _))|]. intros [|]; [|apply within_ret].
      apply within_bind_ret. intros outs O. now apply within_write_outputs.
  Qed.
  Lemma within_build_producer : forall p, within sn (out_key p) (out_storage p) (build_producer E sn p).
  Proof.
    intro p. apply within_bind.
    - intros s s' r H. apply within_get_inputs in H. revert H. apply frame_weaken; intros ? [].
    - intro inputs. apply within_bind; [apply within_ret|]. intros df. apply within_bind; [apply within_discover|].
      intro existing. apply within_each. intros kd _. apply within_bind; [apply within_ret|]. intro f. apply within_build_partition.
  Qed.
End Steps.

(** * Outputs of a producer *)
Definition last_at (g : artifacts) (p : producer) (i : nat) (a : artifact) : Prop :=
  exists l1 k l2, g = l1 ++ (k, a) :: l2 /\ a_output a = Some (p, i) /\
    (forall k' a', In (k', a') l2 -> a_output a' <> Some (p, i)).
Lemma insert_position_In : forall A (x : nat * A) l y, In y (insert_position x l) <-> y = x \/ In y l.
Proof.
  induction l as [|z l IH]; intro y; cbn; [intuition congruence|]. destruct (fst x <=? fst z); cbn; [intuition congruence|].
  rewrite IH. intuition congruence.
Qed.
Lemma sort_positions_In : forall A (l : list (nat * A)) y, In y (sort_positions l) <-> In y l.
Proof. induction l as [|x l IH]; intro y; cbn; [tauto|]. rewrite insert_position_In, IH. intuition congruence. Qed.
Fixpoint ascending {A} (l : list (nat * A)) : Prop :=
  match l with [] => True | x :: l' => (forall y, In y l' -> fst x < fst y) /\ ascending l' end.
Lemma insert_position_ascending : forall A (x : nat * A) l, ascending l -> ~ In (fst x) (map fst l) -> ascending (insert_position x l).
Proof.
  induction l as [|z l IH]; intros S N; cbn; [split; auto; intros ? []|]. destruct S as [S1 S2]. cbn in N.
  destruct (Nat.leb_spec (fst x) (fst z)) as [L|L]; cbn.
  - split; [|split; auto]. intros y [ <- |I]; [lia|]. specialize (S1 y I). lia.
  - split; [|apply IH; tauto]. intros y I. apply insert_position_In in I. destruct I as [->|I]; auto.
Qed.
Lemma sort_positions_ascending : forall A (l : list (nat * A)), NoDup (map fst l) -> ascending (sort_positions l).
Proof.
  induction l as [|x l IH]; intro N; cbn; [exact I|]. inversion N as [|? ? N1 N2]; subst. apply insert_position_ascending; [now apply IH|].
  intro H. apply in_map_iff in H. destruct H as (y & E & I). apply (proj1 (sort_positions_In _ l y)) in I. apply N1. rewrite <- E.  now apply (in_map fst).
Qed.
Definition positions (g : artifacts) (d : list (producer * list (nat * artifact))) : Prop :=
  NoDup (map fst d) /\
  (forall p l, dget producer_eqb d p = Some l -> l <> [] /\ NoDup (map fst l) /\ forall i a, In (i, a) l <-> last_at g p i a) /\
  (forall p, dget producer_eqb d p = None -> forall k a i, In (k, a) g -> a_output a <> Some (p, i)).
Lemma exists_last_or_nil : forall A (l : list A), l = [] \/ exists l' x, l = l' ++ [x].
Proof. intros A l. destruct l as [|x l] using rev_ind; [now left|right; eauto]. Qed.
Lemma last_at_snoc : forall g k a p i b, last_at (g ++ [(k, a)]) p i b <->
  (a_output a = Some (p, i) /\ b = a) \/ (a_output a <> Some (p, i) /\ last_at g p i b).
Proof.
  intros g k a p i b. split.
  - intros (l1 & k' & l2 & E & O & N). destruct (exists_last_or_nil _ l2) as [->|(l2' & [k2 a2] & ->)].
    + apply app_inj_tail in E. destruct E as [-> E]. injection E as -> ->. left. auto.
    + rewrite app_comm_cons, app_assoc in E. apply app_inj_tail in E. destruct E as [-> E]. injection E as <- <-. right. split.
      * apply (N k a). apply in_app_iff. right. now left.
      * exists l1, k', l2'. split; [reflexivity|split; [exact O|]]. intros k3 a3 I. apply (N k3). apply in_app_iff. now left.
  - intros [[O ->]|[O (l1 & k' & l2 & -> & O' & N)]].
    + exists g, k, []. split; [reflexivity|split; [exact O|intros ? ? []]].
    + exists l1, k', (l2 ++ [(k, a)]). split; [now rewrite <- app_assoc|split; [exact O'|]]. intros k3 a3 I. apply in_app_iff in I.
      destruct I as [I|[I|[]]]; [eauto|]. now injection I as <- <-.
Qed.

Lemma positions_ok : forall g, positions g (outputs_by_position g).
Proof.
  intro g. induction g as [|[k a] g IH] using rev_ind.
  - split; [constructor|]. split; [discriminate|]. intros p _ k a i [].
  - unfold outputs_by_position in *. rewrite fold_left_app. cbn [fold_left snd].
    set (d := fold_left _ g []) in *. destruct IH as (ND & S & N). destruct (a_output a) as [[p i]|] eqn:O.
    + set (old := match dget producer_eqb d p with Some l => l | None => [] end).
      assert (OLD : NoDup (map fst old) /\ forall j b, In (j, b) old <-> last_at g p j b).
      { unfold old. destruct (dget producer_eqb d p) as [l|] eqn:D; [destruct (S p l D) as (_ & ? & ?); auto|].
        split; [constructor|]. intros j b. split; [intros []|]. intros (l1 & k' & l2 & -> & O' & _).
        destruct (N p D k' b j); [apply in_app_iff; right; now left|exact O']. }
      destruct OLD as [ON OI]. split; [now apply (dset_NoDup _ producer_eqb_spec)|]. split.
      * intros q l. rewrite (dget_dset _ producer_eqb_spec). destruct (producer_eqb p q) eqn:Q.
        -- apply producer_eqb_spec in Q. subst q. intro H. injection H as <-. split; [|split].
           ++ intro H. assert (X := dget_dset_same _ Nat.eqb_eq old i a). rewrite H in X. discriminate.
           ++ now apply (dset_NoDup _ Nat.eqb_eq).
           ++ intros j b. rewrite last_at_snoc, O, <- OI.
              rewrite <- (dget_NoDup _ Nat.eqb_eq) by now apply (dset_NoDup _ Nat.eqb_eq).
              rewrite (dget_dset _ Nat.eqb_eq), <- (dget_NoDup _ Nat.eqb_eq old) by assumption.
              destruct (Nat.eqb_spec i j) as [->|NE].
              ** split; [intro H; injection H as <-; now left|]. intros [[_ ->]|[H _]]; [reflexivity|congruence].
              ** split; [intro H; right; split; [congruence|exact H]|]. intros [[H _]|[_ H]]; [congruence|exact H].
        -- intro D. destruct (S q l D) as (S1 & S2 & S3). split; [exact S1|split; [exact S2|]]. intros j b.
           rewrite S3, last_at_snoc, O. split; [intro H; right; split; [|exact H]|].
           ++ intro X. injection X as -> _. now rewrite (proj2 (producer_eqb_spec q q) eq_refl) in Q.
           ++ intros [[H _]|[_ H]]; [|exact H]. injection H as -> _. now rewrite (proj2 (producer_eqb_spec q q) eq_refl) in Q.
      * intros q. rewrite (dget_dset _ producer_eqb_spec). destruct (producer_eqb p q) eqn:Q; [discriminate|]. intros D k' b j I.
        apply in_app_iff in I. destruct I as [I|[I|[]]]; [eapply N; eauto|]. injection I as <- <-. rewrite O. intro X.
        injection X as -> _. now rewrite (proj2 (producer_eqb_spec q q) eq_refl) in Q.
    + split; [exact ND|split].
      * intros q l D. destruct (S q l D) as (S1 & S2 & S3). split; [exact S1|split; [exact S2|]]. intros j b.
        rewrite S3, last_at_snoc, O. split; [intro H; right; split; [discriminate|exact H]|]. intros [[H _]|[_ H]]; [discriminate|exact H].
      * intros q D k' b j I. apply in_app_iff in I. destruct I as [I|[I|[]]]; [eapply N; eauto|]. injection I as <- <-. rewrite O. discriminate.
Qed.
(** The outputs of a producer: the last artifact of each position, by position. *)
Theorem outputs_of_spec : forall g p, match outputs_of g p with
  | Ok outs => outs <> [] /\ exists l, outs = map snd l /\ ascending l /\ forall i a, In (i, a) l <-> last_at (g_arts g) p i a
  | Err e => e = KeyError /\ forall k a i, In (k, a) (g_arts g) -> a_output a <> Some (p, i)
  end.
Proof.
  intros g p. unfold outputs_of, producer_outputs. destruct (positions_ok (g_arts g)) as (ND & S & N).
  set (d := outputs_by_position (g_arts g)) in *.
  assert (M : dget producer_eqb (map (fun pl => (fst pl, map snd (sort_positions (snd pl)))) d) p =
              option_map (fun l => map snd (sort_positions l)) (dget producer_eqb d p)).
  { clear. induction d as [|[q l] d IH]; cbn; [reflexivity|]. destruct (producer_eqb q p) eqn:Q; cbn; [reflexivity|exact IH]. }
  rewrite M. destruct (dget producer_eqb d p) as [l|] eqn:D; cbn [option_map]; [|split; [reflexivity|now apply N]].
  destruct (S p l D) as (S1 & S2 & S3). split.
  - destruct l as [|[i a] l]; [congruence|]. intro H. assert (I : In (i, a) (sort_positions ((i, a) :: l))) by (apply sort_positions_In; now left).
    apply (in_map snd) in I. rewrite H in I. destruct I.
  - exists (sort_positions l). split; [reflexivity|split; [now apply sort_positions_ascending|]]. intros i a. now rewrite sort_positions_In.
Qed.

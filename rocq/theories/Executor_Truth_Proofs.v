(** Reused data is what would be computed. *)
From Coq Require Import ZArith List Ascii String Bool Arith Lia.
From Verif Require Import Base Base_Proofs Str Str_Proofs Graph_Model Graph_Spec Graph_Proofs.
From Verif Require Import Backend_Model Backend_Spec Backend_Proofs.
From Verif Require Import Executor_Model Executor_Spec Executor_Proofs Executor_Done_Proofs Executor_Build_Proofs Executor_Link_Proofs.
From Verif Require Import Executor_Write_Proofs Executor_Store_Proofs.
Import ListNotations.
Open Scope list_scope.

Section Truth.
  Context {V : Type} (E : env V) (IT : iterates E) (WR : writable E) (R : requests (V := V)) (AG : agree E R).
  Definition result_of (id : str) (k : pkey) (f : Z) (d : str) : Prop := exists a p i deps args, R a k deps args /\
    a_output a = Some (p, i) /\ st_id (a_storage a) = id /\ fingerprint_for E p deps = f /\ computes E a args d.
  Lemma result_unique : forall id k f d d', result_of id k f d -> result_of id k f d' -> d = d'.
  Proof.
    intros id k f d d' (a & p & i & deps & args & HR & O & ID & F & C) (a' & p' & i' & deps' & args' & HR' & O' & ID' & F' & C').
    eapply (AG a p i k deps args d a' p' i'); eauto; congruence.
  Qed.
  Definition files_le (s s' : state V) : Prop := forall i k f d,
    dget location_eqb (files s) (i, k, Some f) = Some d -> dget location_eqb (files s') (i, k, Some f) = Some d.
  Definition made_of (x : psnapshot) (d : str) : Prop :=
    ps_content x = match st_kind (pt_storage (ps_part x)) with SFile => file_fp E d | SLiteral _ => from_string E d end /\
    (st_kind (pt_storage (ps_part x)) = SFile -> pt_value (ps_part x) = None).
  Definition good (s : state V) (x : psnapshot) : Prop := forall f, ps_fp x = Some f ->
    exists d, holds_data s x d /\ made_of x d /\ result_of (st_id (pt_storage (ps_part x))) (ps_key x) f d.
  Lemma files_le_refl : forall s, files_le s s.
  Proof. intros s i k f d H. exact H. Qed.
  Ltac le_refl := match goal with |- files_le ?s _ => exact (files_le_refl s) end.
  Lemma files_le_trans : forall a b c, files_le a b -> files_le b c -> files_le a c.
  Proof. intros a b c A B i k f d H. now apply B, A. Qed.
  Lemma holds_le : forall s s' x f d, files_le s s' -> ps_fp x = Some f -> holds_data s x d -> holds_data s' x d.
  Proof. intros s s' x f d L F. unfold holds_data. destruct (st_kind _); [|auto]. rewrite F. apply L. Qed.
  Lemma good_le : forall s s' x, files_le s s' -> good s x -> good s' x.
  Proof. intros s s' x L G f F. destruct (G f F) as (d & H & MO & RO). exists d. split; [eapply holds_le; eauto|]. split; [exact MO|exact RO]. Qed.
  Record truthful (s : state V) : Prop := {
    t_fuel : fuel s = None;
    t_files : forall i k f d, dget location_eqb (files s) (i, k, Some f) = Some d -> result_of i k f d;
    t_known : forall t x, In x (known_of (db s) t) -> good s x;
    t_links : forall sn key x, In x (links_of (db s) sn key) -> good s x }.

  Definition sure {A} (s : state V) (m : M V A) (Post : state V -> A -> Prop) : Prop := forall s' r, m s = (s', r) ->
    truthful s' /\ files_le s s' /\ match r with Ok a => Post s' a | Err _ => True end.
  Definition whatever {A} (s : state V) (a : A) : Prop := True.
  Lemma sure_weaken : forall A s (m : M V A) (P Q : state V -> A -> Prop), sure s m P -> (forall s' a, P s' a -> Q s' a) -> sure s m Q.
  Proof. intros A s m P Q H I s' r M. destruct (H s' r M) as (T & L & X). split; [exact T|split; [exact L|]]. destruct r; auto. Qed.
  Lemma sure_pure : forall A s (f : state V -> result A) (P : state V -> A -> Prop), truthful s -> (forall a, f s = Ok a -> P s a) -> sure s (fun s => (s, f s)) P.
  Proof. intros A s f P T H s' r M. injection M as <- <-. split; [exact T|split; [le_refl|]]. destruct (f s); auto. Qed.
  Lemma sure_ret : forall A s (x : result A) (P : state V -> A -> Prop), truthful s -> (forall a, x = Ok a -> P s a) -> sure s (ret x) P.
  Proof. intros A s x P T H. now apply (sure_pure A s (fun _ => x)). Qed.
  Lemma sure_bind : forall A B s (m : M V A) (f : A -> M V B) P Q, sure s m P ->
    (forall s1 a, m s = (s1, Ok a) -> truthful s1 -> files_le s s1 -> P s1 a -> sure s1 (f a) Q) -> sure s (andthen m f) Q.
  Proof.
    intros A B s m f P Q Hm Hf s' r M. unfold andthen in M. destruct (m s) as [s1 [a|e]] eqn:M1; destruct (Hm _ _ M1) as (T1 & L1 & X1).
    - destruct (Hf s1 a eq_refl T1 L1 X1 _ _ M) as (T2 & L2 & X2). split; [exact T2|split; [eapply files_le_trans; eauto|exact X2]].
    - injection M as <- <-. auto.
  Qed.
  Lemma sure_bind_ret : forall A B s (x : result A) (f : A -> M V B) Q, truthful s -> (forall a, x = Ok a -> sure s (f a) Q) -> sure s (andthen (ret x) f) Q.
  Proof.
    intros A B s x f Q T H. eapply sure_bind with (P := fun _ a => x = Ok a); [now apply sure_ret|]. intros s1 a M _ _ X. injection M as <- _. now apply H.
  Qed.
  Lemma sure_effect : forall A s (f : state V -> state V * result A) P, truthful s -> sure s f P -> sure s (effect f) P.
  Proof. intros A s f P T H s' r M. unfold effect, andthen in M. rewrite tick_none in M by apply T. now apply H. Qed.
  Lemma sure_each : forall A (f : A -> M V unit) l s, truthful s -> (forall x s', In x l -> truthful s' -> files_le s s' -> sure s' (f x) whatever) -> sure s (eachM f l) whatever.
  Proof.
    induction l as [|x l IH]; intros s T H; cbn; [apply sure_ret; [exact T|intros ? ?; exact I]|].
    eapply sure_bind; [apply H; [now left|exact T|le_refl]|]. intros s1 u _ T1 L1 _. apply IH; [exact T1|]. intros y s2 J T2 L2.
    apply H; [now right|exact T2|eapply files_le_trans; eauto].
  Qed.
  Lemma sure_collect : forall A B (f : A -> M V B) (P : state V -> B -> Prop) l s, truthful s ->
    (forall s s' b, files_le s s' -> P s b -> P s' b) ->
    (forall x s', In x l -> truthful s' -> files_le s s' -> sure s' (f x) P) -> sure s (collectM f l) (fun s' ys => forall y, In y ys -> P s' y).
  Proof.
    induction l as [|x l IH]; intros s T MO H; cbn; [apply sure_ret; [exact T|]; intros a EQ; injection EQ as <-; intros ? []|].
    eapply sure_bind; [apply H; [now left|exact T|le_refl]|]. intros s1 y _ T1 L1 Y.
    eapply sure_bind; [apply IH; [exact T1|exact MO|]|].
    - intros z s2 J T2 L2. apply H; [now right|exact T2|eapply files_le_trans; eauto].
    - intros s2 ys _ T2 L2 YS. apply sure_ret; [exact T2|]. intros a EQ. injection EQ as <-. intros z [ <- |J]; [eapply MO; eauto|auto].
  Qed.

  (** Steps that leave the files alone. *)
  Lemma with_db_truthful : forall s b, truthful s -> (forall t x, In x (known_of b t) -> good s x) -> (forall sn key x, In x (links_of b sn key) -> good s x) ->
    truthful (with_db s b).
  Proof. intros s b [T1 T2 T3 T4] K L. split; auto. Qed.
  Lemma sure_read_links : forall sn k s, truthful s -> sure s (read_links E sn k) whatever.
  Proof.
    intros sn k s T. apply sure_effect; [exact T|]. intros s' r M. assert (L := rl_spec (db s) sn k).
    destruct (read_snapshot_partitions (db s) sn k) as [b l]. injection M as <- <-. destruct L as (_ & L1 & _ & _ & _ & L5).
    split; [|split; [le_refl|exact I]]. apply with_db_truthful; [exact T| |].
    - intros t x. unfold known_of. rewrite L5. apply (t_known _ T).
    - intros sn' key x. rewrite L1. apply (t_links _ T).
  Qed.
  Lemma sure_write_links : forall sn k new s, truthful s -> (forall x, In x new -> good s x) -> sure s (write_links sn k new) whatever.
  Proof.
    intros sn k new s T N. apply sure_effect; [exact T|]. intros s' r M. injection M as <- <-. split; [|split; [le_refl|exact I]].
    destruct (wl_other (db s) sn k new) as (_ & _ & _ & L4). apply with_db_truthful; [exact T| |].
    - intros t x. unfold known_of. rewrite L4. apply (t_known _ T).
    - intros sn' key x. rewrite wl_links. destruct (snapshot_eqb sn sn' && str_eqb k key)%bool; [|apply (t_links _ T)].
      intro J. apply adds_In in J. destruct J as [J|J]; [eapply (t_links _ T), J|auto].
  Qed.
  Lemma wa_good : forall s t new, truthful s -> (forall x, In x new -> good s x) -> truthful (with_db s (write_artifact_partitions (db s) t new)).
  Proof.
    intros s t new T N. destruct (wa_other (db s) t new) as (_ & _ & L3 & _). apply with_db_truthful; [exact T| |].
    - intros t' x. rewrite wa_known. destruct (storage_eqb t t'); [|apply (t_known _ T)].
      intro J. apply adds_In in J. destruct J as [J|J]; [eapply (t_known _ T), J|auto].
    - intros sn key x. unfold links_of. rewrite L3. apply (t_links _ T).
  Qed.
  Lemma sure_write_known : forall t new s, truthful s -> (forall x, In x new -> good s x) -> sure s (write_known t new) whatever.
  Proof.
    intros t new s T N. apply sure_effect; [exact T|]. intros s' r M. injection M as <- <-. split; [|split; [le_refl|exact I]].
    now apply wa_good.
  Qed.
  Lemma take_snapshot_good : forall s p x, truthful s -> st_kind (pt_storage p) = SFile -> pt_value p = None -> take_snapshot E (files s) p = Ok x -> good s x.
  Proof.
    intros s p x T K PV H f F. unfold take_snapshot in H. destruct (content (files s) p) as [d|] eqn:C; [|discriminate]. injection H as <-.
    exists d. split; [now apply holds_content|]. split; [split; [reflexivity|now intros _]|]. unfold ps_fp in F. cbn in F. unfold content in C. rewrite K in C. unfold location_of in C. rewrite F in C.
    cbn. now apply (t_files _ T).
  Qed.
  Lemma discover_good : forall s t fps found x, truthful s -> discover E (files s) t fps = Ok found -> In x found -> good s x.
  Proof.
    intros s t fps found x T D I. unfold discover in D. destruct (st_kind t) as [|v] eqn:SK.
    - apply mapM_Forall2 in D. induction D as [|l y ls ys H D IH]; [destruct I|]. destruct I as [ -> |I]; [|auto].
      eapply take_snapshot_good; [exact T| | |exact H]; [exact SK|reflexivity].
    - destruct (negb (is_nil fps) && is_some v)%bool eqn:Q; [discriminate|]. destruct (st_partitioned t && is_nil fps)%bool; [discriminate|].
      destruct v as [v|]; [|injection D as <-; destruct I]. destruct fps as [|kf fps]; [|discriminate]. apply mapM_Forall2 in D.
      inversion D as [|l y ls ys H D' EQ1 EQ2]; subst. inversion D'; subst. destruct I as [ -> |[]]. cbn [fst snd] in H.
      destruct (generate_partition t None []) as [p|] eqn:G; [|discriminate]. cbn [bind] in H. apply generate_partition_storage in G.
      destruct G as (_ & _ & G3 & _). unfold take_snapshot in H. destruct (content _ p); [|discriminate]. injection H as <-.
      intros f F. unfold ps_fp in F. cbn in F. congruence.
  Qed.
  Lemma sure_read_known : forall t fps s, truthful s -> sure s (read_known E t fps) (fun s' l => forall x, In x l -> good s' x).
  Proof.
    intros t fps s T. apply sure_effect; [exact T|]. intros s' r M.
    assert (L := ra_spec (db s) t fps (discover E (files s) t fps)).
    destruct (read_artifact_partitions (db s) t fps (discover E (files s) t fps)) as [b x]. injection M as <- <-.
    destruct L as (_ & _ & _ & LK & L). assert (TB : truthful (with_db s b)).
    { assert (SB : forall b', b' = db s -> truthful (with_db s b')) by (intros b' ->; now destruct s).
      destruct x as [l|e]; [|destruct L as (L & _); now apply SB]. destruct L as (_ & [(_ & L)|(found & D & _ & ->)]); [now apply SB|].
      apply wa_good; [exact T|]. intros y I. eapply discover_good; eauto. }
    split; [exact TB|]. split; [le_refl|]. destruct x as [l|e]; cbn [rmap]; [|exact I].
    intros y I. apply (proj1 (IT _ _)) in I. destruct L as (-> & _). apply select_In in I. destruct I as [I1 _]. now apply (t_known _ TB t).
  Qed.
  Lemma sure_log : forall A (f : state V -> result A) (x : action V) s, truthful s -> sure s (effect (fun s => (with_log s x, f s))) whatever.
  Proof.
    intros A f x s T. apply sure_effect; [exact T|]. intros s' r M. injection M as <- <-. split; [|split; [le_refl|now destruct (f s)]].
    destruct T as [T1 T2 T3 T4]. split; auto.
  Qed.

  (** Writing. *)
  Lemma sure_io_write : forall a v part f s, truthful s -> (exists d, dump E a v = Ok d) -> pt_fp part = Some f -> (st_kind (pt_storage part) = SFile -> pt_value part = None) ->
    (forall d, dump E a v = Ok d -> result_of (st_id (pt_storage part)) (pt_key part) f d) ->
    sure s (io_write E a v part) (fun s' x => good s' x).
  Proof.
    intros a v part f s T (d & D) F PV RO s' r M. specialize (RO d D). destruct r as [x|e].
    - assert (XD := io_write_data E _ _ _ _ _ _ M). destruct XD as (d' & D' & XK & XF & XS & XH & XC).
      assert (d' = d) by congruence. subst d'.
      assert (FL : files s' = files s \/ files s' = dset location_eqb (dset location_eqb (files s) (location_of part) []) (location_of part) d).
      { unfold io_write in M. destruct (st_kind (pt_storage part)).
        - unfold effect, andthen in M. rewrite tick_none in M by apply T. cbn [ret] in M. rewrite D in M. rewrite tick_none in M by apply T. injection M as <- _. now right.
        - destruct (pt_value part); [discriminate|]. unfold andthen in M. cbn [ret] in M. rewrite D in M. injection M as <- _. now left. }
      assert (DB : db s' = db s) by now apply io_write_ok in M.
      assert (FU : fuel s' = fuel s).
      { unfold io_write in M. destruct (st_kind (pt_storage part)).
        - unfold effect, andthen in M. rewrite tick_none in M by apply T. cbn [ret] in M. rewrite D in M. rewrite tick_none in M by apply T. now injection M as <- _.
        - destruct (pt_value part); [discriminate|]. unfold andthen in M. cbn [ret] in M. rewrite D in M. now injection M as <- _. }
      assert (GET : files s' = files s \/ forall l, dget location_eqb (files s') l = if location_eqb (location_of part) l then Some d else dget location_eqb (files s) l).
      { destruct FL as [FL|FL]; [now left|right]. intro l. rewrite FL, !(dget_dset _ location_eqb_spec). now destruct (location_eqb (location_of part) l). }
      assert (LE : files_le s s').
      { intros i k g d0 G. destruct GET as [GET|GET]; [now rewrite GET|]. rewrite GET. destruct (location_eqb (location_of part) (i, k, Some g)) eqn:Q; [|exact G].
        apply location_eqb_spec in Q. unfold location_of in Q. rewrite F in Q. injection Q as <- <- <-. f_equal. eapply result_unique; [exact RO|]. now apply (t_files _ T). }
      split; [|split; [exact LE|]].
      + split.
        * rewrite FU. apply T.
        * intros i k g d0 G. destruct GET as [GET|GET]; [rewrite GET in G; now apply (t_files _ T)|]. rewrite GET in G.
          destruct (location_eqb (location_of part) (i, k, Some g)) eqn:Q; [|now apply (t_files _ T)].
          apply location_eqb_spec in Q. unfold location_of in Q. rewrite F in Q. injection Q as <- <- <-. injection G as <-. exact RO.
        * intros t y. rewrite DB. intro J. eapply good_le; [exact LE|]. eapply (t_known _ T), J.
        * intros sn key y. rewrite DB. intro J. eapply good_le; [exact LE|]. eapply (t_links _ T), J.
      + intros f' F'. unfold ps_fp in F'. assert (f' = f) by congruence. subst f'. exists d. split; [exact XH|]. split; [|unfold ps_key; now rewrite XS, XK]. split; [rewrite XS; exact XC|]. rewrite XS. intro SK. revert M. unfold io_write. rewrite SK. intro M. apply andthen_ok in M. destruct M as (? & ? & _ & M). apply andthen_ok in M. destruct M as (? & ? & _ & M). apply andthen_ok in M. destruct M as (? & ? & _ & M). injection M as _ M. unfold take_snapshot in M. destruct (content _ part); [|discriminate]. injection M as <-. cbn. exact (PV SK).
    - assert (SAME : s' = s).
      { unfold io_write in M. destruct (st_kind (pt_storage part)) eqn:SK.
        - unfold effect, andthen in M. rewrite tick_none in M by apply T. cbn [ret] in M. rewrite D in M. rewrite tick_none in M by apply T.
          unfold take_snapshot, content in M. rewrite SK in M. cbn [files with_log with_file] in M. rewrite (dget_dset_same _ location_eqb_spec) in M. discriminate.
        - destruct (pt_value part); [now injection M as <- _|]. unfold andthen in M. cbn [ret] in M. rewrite D in M. now injection M as <- _. }
      subst s'. split; [exact T|split; [le_refl|exact I]].
  Qed.
  Lemma sure_write_output : forall sn p i a f k v s, truthful s -> (forall d, dump E a v = Ok d -> result_of (st_id (a_storage a)) k f d) ->
    sure s (write_output E sn p i a f k v) whatever.
  Proof.
    intros sn p i a f k v s T RO. apply sure_bind_ret; [exact T|]. intros key K. apply sure_bind_ret; [exact T|]. intros _ _.
    apply sure_bind_ret; [exact T|]. intros [] CK. apply sure_bind_ret; [exact T|]. intros part P.
    apply generate_partition_storage in P. destruct P as (P1 & P2 & P3 & _ & _ & P6).
    eapply sure_bind; [apply (sure_io_write _ _ _ f); [exact T|eapply WR, CK|exact P3|intro SK; rewrite P1 in SK; now rewrite P6, SK|now rewrite P1, P2]|]. intros s1 x _ T1 _ G.
    eapply sure_bind; [apply sure_write_known; [exact T1|]; intros y [ <- |[]]; exact G|]. intros s2 u _ T2 L2 _.
    apply sure_write_links; [exact T2|]. intros y [ <- |[]]. eapply good_le; eauto.
  Qed.
  Section Producer.
    Context (sn : snapshot) (NG : no_gaps (g_arts (s_graph sn))) (p : producer).
    Notation g := (s_graph sn).
    Lemma sure_write_outputs : forall outs f k deps args vs0 vs i s, truthful s -> outputs_of g p = Ok outs ->
      runs (classes E (p_class p)) args (Ok vs0) -> (forall j v, nth_error vs j = Some v -> nth_error vs0 (i + j) = Some v) ->
      f = fingerprint_for E p deps -> (forall j a, produces (g_arts g) p j a -> R a k deps args) ->
      sure s (write_outputs E sn p f k i outs vs) whatever.
    Proof.
      intros outs f k deps args vs0. induction vs as [|v vs IH]; intros i s T O RU NV FF HR; cbn [write_outputs]; [apply sure_ret; [exact T|intros; exact I]|].
      apply sure_bind_ret; [exact T|]. intros a A. destruct (nth_error outs i) as [b|] eqn:NE; [|discriminate]. injection A as ->.
      apply sure_bind_ret; [exact T|]. intros _ _. assert (PR := nth_position sn p outs i a NG O NE).
      eapply sure_bind; [apply sure_write_output; [exact T|]|].
      - intros d D. assert (PR' := PR). destruct PR' as (kk & _ & AO). exists a, p, i, deps, args. split; [eapply HR, PR|]. split; [exact AO|]. split; [reflexivity|]. split; [now symmetry|].
        exists p, i, vs0, v. split; [exact AO|]. split; [exact RU|]. split; [|exact D]. rewrite <- (Nat.add_0_r i). now apply (NV 0).
      - intros s1 u _ T1 L1 _. apply IH; auto. intros j w N. rewrite Nat.add_succ_l, <- Nat.add_succ_r. now apply (NV (S j)).
    Qed.
    Lemma build_partition_truth : forall existing f deps k s s' r, truthful s -> build_producer_partition E sn p existing f deps k s = (s', r) ->
      f = fingerprint_for E p deps ->
      (forall new args, log s' = new ++ log s -> In (Built p k args) new -> forall j a, produces (g_arts g) p j a -> R a k deps args) ->
      truthful s' /\ files_le s s'.
    Proof.
      intros existing f deps k s s' r T H FF HR. unfold build_producer_partition in H.
      destruct (existsb (str_eqb k) existing); [injection H as <- _; split; [exact T|le_refl]|]. unfold andthen at 1 in H.
      destruct (collectM _ (c_build_inputs (class_of E p)) s) as [s1 [args|e]] eqn:C; apply read_args_same in C; subst s1; [|injection H as <- _; split; [exact T|le_refl]].
      unfold andthen at 1 in H. unfold call_build in H. unfold effect in H at 1. unfold andthen at 1 in H. rewrite tick_none in H by apply T.
      assert (T1 : truthful (with_log s (Built p k args))) by (destruct T; split; auto).
      set (s1 := with_log s (Built p k args)) in *.
      assert (RU : forall vs, (match c_build (class_of E p) with Single fn => rmap (fun v => [v]) (fn args) | Multiple _ fn => fn args end) = Ok vs ->
                              runs (classes E (p_class p)) args (Ok vs)).
      { intros vs. unfold runs, class_of. destruct (c_build _) as [fn|n fn]; [|auto]. destruct (fn args); cbn; congruence. }
      destruct (match c_build (class_of E p) with Single fn => rmap (fun v => [v]) (fn args) | Multiple _ fn => fn args end) as [vs|e]; [|injection H as <- _; split; [exact T1|le_refl]].
      specialize (RU vs eq_refl). unfold andthen at 1 in H. unfold call_validate in H. unfold effect in H at 1. unfold andthen at 1 in H. rewrite tick_none in H by apply T1.
      assert (T2 : truthful (with_log s1 (Validated p k vs))) by (destruct T1; split; auto).
      set (s2 := with_log s1 (Validated p k vs)) in *.
      destruct (c_validate (class_of E p) vs) as [[|]|e]; [|injection H as <- _; split; [exact T2|le_refl]|injection H as <- _; split; [exact T2|le_refl]].
      assert (LG : exists w, log s' = w ++ log s2).
      { unfold andthen at 1 in H. cbn [ret] in H. destruct (outputs_of g p) as [outs|e]; [|injection H as <- _; now exists []].
        destruct (quiet_write_outputs E sn p f k outs vs 0 _ _ _ H) as (w & L & _). eauto. }
      destruct LG as (w & LG).
      assert (HR' : forall j a, produces (g_arts g) p j a -> R a k deps args).
      { intros j a. apply (HR (w ++ [Validated p k vs; Built p k args]) args); [now rewrite LG, <- app_assoc|]. apply in_app_iff. right. right. now left. }
      unfold andthen at 1 in H. cbn [ret] in H. destruct (outputs_of g p) as [outs|e] eqn:O; [|injection H as <- _; split; [exact T2|le_refl]].
      assert (SW := sure_write_outputs outs f k deps args vs vs 0 s2 T2 O RU (fun j v N => N) FF HR').
      destruct (SW _ _ H) as (T3 & L3 & _). auto.
    Qed.
    Lemma log_build_partition : forall existing f deps k s s' r, build_producer_partition E sn p existing f deps k s = (s', r) -> exists new, log s' = new ++ log s.
    Proof. intros existing f deps k s s' r H. apply calm_build_partition in H. destruct H as (new & L & _). eauto. Qed.
    Lemma build_all_truth : forall existing fps deps s s' r, truthful s -> build_all E sn p existing fps deps s = (s', r) ->
      (forall k d f, In (k, d) deps -> get_fp fps k = Some f -> f = fingerprint_for E p d) ->
      (forall new k d args, log s' = new ++ log s -> In (k, d) deps -> In (Built p k args) new -> forall j a, produces (g_arts g) p j a -> R a k d args) ->
      truthful s' /\ files_le s s' /\ exists new, log s' = new ++ log s.
    Proof.
      intros existing fps. induction deps as [|[k d] deps IH]; intros s s' r T H FF HR; cbn [build_all eachM] in H.
      { injection H as <- _. split; [exact T|]. split; [le_refl|]. now exists []. }
      unfold andthen at 1 in H. cbn [fst snd] in H. unfold andthen at 1 in H. cbn [ret] in H.
      destruct (get_fp fps k) as [f|] eqn:GF; [|injection H as <- _; split; [exact T|]; split; [le_refl|]; now exists []].
      destruct (build_producer_partition E sn p existing f d k s) as [s1 [u|e]] eqn:B.
      - assert (LG1 := log_build_partition _ _ _ _ _ _ _ B). destruct LG1 as (n1 & LG1).
        assert (LG2 : exists n2, log s' = n2 ++ log s1).
        { assert (CC : calm E sn (build_all E sn p existing fps deps)).
          { apply calm_each. intro kd. apply calm_bind; [apply quiet_calm, quiet_ret|]. intro. apply calm_build_partition. }
          destruct (CC _ _ _ H) as (n2 & L2 & _). eauto. }
        destruct LG2 as (n2 & LG2).
        destruct (build_partition_truth existing f d k s s1 (Ok u) T B) as (T1 & L1).
        + eapply FF; [now left|exact GF].
        + intros new args LN I j a P. apply (HR (n2 ++ new) k d args) with (j := j); [now rewrite LG2, LN, app_assoc|now left|apply in_app_iff; now right|exact P].
        + destruct (IH s1 s' r T1 H) as (T2 & L2 & _).
          * intros k' d' f' I. apply FF. now right.
          * intros new k' d' args LN I J j a P. apply (HR (new ++ n1) k' d' args) with (j := j); [now rewrite LN, LG1, app_assoc|now right|apply in_app_iff; now left|exact P].
          * split; [exact T2|]. split; [eapply files_le_trans; eauto|]. exists (n2 ++ n1). now rewrite LG2, LG1, app_assoc.
      - injection H as <- _. assert (LG1 := log_build_partition _ _ _ _ _ _ _ B).
        destruct (build_partition_truth existing f d k s s1 (Err e) T B) as (T1 & L1); [eapply FF; [now left|exact GF]| |auto].
        intros new args LN I j a P. apply (HR new k d args) with (j := j); auto. now left.
    Qed.
    Lemma build_producer_truth : forall s s' r, truthful s -> build_producer E sn p s = (s', r) ->
      (forall inputs deps fps new k d args, inputs_at E sn (db s) (p_inputs p) inputs -> compute_dependencies E p inputs = Ok (deps, fps) ->
         In (k, d) deps -> log s' = new ++ log s -> In (Built p k args) new -> forall j a, produces (g_arts g) p j a -> R a k d args) ->
      truthful s' /\ files_le s s'.
    Proof.
      intros s s' r T H HR. unfold build_producer in H. unfold andthen at 1 in H.
      assert (S1 : sure s (get_producer_inputs E sn p) (fun s' ys => forall y, In y ys -> whatever s' y)).
      { apply sure_collect; [exact T|constructor|]. intros na s1 _ T1 _. apply sure_bind_ret; [exact T1|]. intros key _.
        eapply sure_bind; [now apply sure_read_links|]. intros s2 l _ T2 _ _. apply sure_ret; [exact T2|constructor]. }
      assert (Q1 : quiet E (get_producer_inputs E sn p)).
      { apply quiet_collect. intro na. apply quiet_bind; [apply quiet_ret|]. intro key. apply quiet_bind; [apply quiet_links|]. intro. apply quiet_ret. }
      destruct (get_producer_inputs E sn p s) as [s1 [inputs|e]] eqn:GI; destruct (S1 _ _ GI) as (T1 & L1 & _); [|injection H as <- _; auto].
      destruct (Q1 _ _ _ GI) as (n1 & LG1 & _). unfold andthen at 1 in H. cbn [ret] in H.
      destruct (compute_dependencies E p inputs) as [[deps fps]|e] eqn:CD; [|injection H as <- _; auto].
      destruct (get_inputs_ok E sn _ _ _ _ GI) as (G1 & _). cbn [fst snd] in H. unfold andthen at 1 in H.
      assert (S2 : sure s1 (discover_producer_partitions E sn p fps) whatever).
      { apply sure_bind_ret; [exact T1|]. intros outs O.
        eapply sure_bind with (P := fun s2 found => forall al, In al found -> forall x, In x (snd al) -> good s2 x).
        - apply (sure_collect _ _ _ (fun s2 al => forall x, In x (snd al) -> good s2 x)); [exact T1| |].
          + intros s2 s3 b LE G x J. eapply good_le; eauto.
          + intros a s2 _ T2 _. eapply sure_bind; [now apply sure_read_known|]. intros s3 l _ T3 _ G. apply sure_ret; [exact T3|].
            intros al EQ. injection EQ as <-. exact G.
        - intros s2 found _ T2 _ G. eapply sure_bind; [|intros s3 u _ T3 _ _; apply sure_ret; [exact T3|intros; exact I]].
          apply sure_each; [exact T2|]. intros al s3 J T3 LE. apply sure_bind_ret; [exact T3|]. intros key _. apply sure_write_links; [exact T3|].
          intros x X. eapply good_le; [exact LE|]. eapply G; eauto. }
      assert (Q2 : quiet E (discover_producer_partitions E sn p fps)).
      { apply quiet_bind; [apply quiet_ret|]. intro outs. apply quiet_bind.
        - apply quiet_collect. intro a. apply quiet_bind; [apply quiet_read_known|]. intro. apply quiet_ret.
        - intro found. apply quiet_bind; [|intro; apply quiet_ret]. apply quiet_each. intro al. apply quiet_bind; [apply quiet_ret|]. intro. apply quiet_write_links. }
      destruct (discover_producer_partitions E sn p fps s1) as [s2 [existing|e]] eqn:DP; destruct (S2 _ _ DP) as (T2 & L2 & _).
      2: { injection H as <- _. split; [exact T2|eapply files_le_trans; eauto]. }
      destruct (Q2 _ _ _ DP) as (n2 & LG2 & _). destruct (compute_dependencies_ok E p _ _ _ CD) as (m & _ & _ & _ & _ & D1 & _).
      destruct (build_all_truth existing fps deps s2 s' r T2 H) as (T3 & L3 & _).
      - intros k d f I GF. unfold get_fp in GF. change pkey with str in *. rewrite (D1 _ _ I) in GF. congruence.
      - intros new k d args LN I J j a P. apply (HR inputs deps fps (new ++ n2 ++ n1) k d args) with (j := j); auto.
        + rewrite LN, LG2, LG1, !app_assoc. reflexivity.
        + apply in_app_iff. now left.
      - split; [exact T3|]. eapply files_le_trans; [|exact L3]. eapply files_le_trans; eauto.
    Qed.
  End Producer.

  Section Graph.
    Context (sn : snapshot) (ND : NoDup (map fst (g_arts (s_graph sn)))) (NG : no_gaps (g_arts (s_graph sn))).
    Notation g := (s_graph sn).
    Lemma inputs_final : forall rest pre p o j (s s' : state V) r inputs, build_order (dependencies (g_arts g)) (pre ++ rest) ->
      In (NProducer p) pre -> produces (g_arts g) p j o -> build_nodes E sn rest s = (s', r) ->
      inputs_at E sn (db s) (p_inputs p) inputs -> inputs_at E sn (db s') (p_inputs p) inputs.
    Proof.
      induction rest as [|n rest IH]; intros pre p o j s s' r inputs BO I P H IA; cbn [build_nodes eachM] in H; [now injection H as <- _|].
      unfold andthen in H. destruct n as [a|q].
      - cbn [ret] in H. eapply (IH (pre ++ [NArtifact a])); [rewrite <- app_assoc; exact BO|apply in_app_iff; now left|exact P|exact H|exact IA].
      - destruct (build_producer E sn q s) as [s1 [u|e]] eqn:B; assert (F := within_build_producer E sn q _ _ _ B).
        + eapply (IH (pre ++ [NProducer q])); [rewrite <- app_assoc; exact BO|apply in_app_iff; now left|exact P|exact H|].
          eapply inputs_later; eauto.
        + injection H as <- _. eapply inputs_later; eauto.
    Qed.
    Lemma build_nodes_truth : forall rest pre s0 s s' r, build_order (dependencies (g_arts g)) (pre ++ rest) -> truthful s ->
      (exists new, log s = new ++ log s0) -> build_nodes E sn rest s = (s', r) ->
      (forall new p i a k d args, log s' = new ++ log s0 -> produces (g_arts g) p i a -> asks E s' sn p k d -> In (Built p k args) new -> R a k d args) ->
      truthful s' /\ files_le s s'.
    Proof.
      induction rest as [|n rest IH]; intros pre s0 s s' r BO T (n0 & LG0) H HR; cbn [build_nodes eachM] in H; [injection H as <- _; split; [exact T|le_refl]|].
      unfold andthen in H. destruct n as [a|q].
      - cbn [ret] in H. apply (IH (pre ++ [NArtifact a]) s0 s s' r); auto; [now rewrite <- app_assoc|eauto].
      - destruct (build_producer E sn q s) as [s1 r1] eqn:B.
        assert (F := within_build_producer E sn q _ _ _ B). assert (LG1 := fr_log _ _ _ _ _ F). destruct LG1 as (n1 & LG1).
        assert (ST : exists s1', s1' = s1) by eauto.
        assert (FIN : (exists u, r1 = Ok u /\ build_nodes E sn rest s1 = (s', r)) \/ s' = s1).
        { destruct r1 as [u|e]; [left; eauto|right; now injection H as <- _]. }
        assert (LG2 : exists n2, log s' = n2 ++ log s1).
        { destruct FIN as [(u & _ & H')| -> ]; [|now exists []]. apply calm_build_nodes in H'. destruct H' as (n2 & L2 & _). eauto. }
        destruct LG2 as (n2 & LG2).
        destruct (build_producer_truth sn NG q s s1 r1 T B) as (T1 & L1).
        { intros inputs deps fps new k d args IA CD I LN J i a P.
          apply (HR (n2 ++ new ++ n0) q i a k d args); [now rewrite LG2, LN, LG0, !app_assoc|exact P| |apply in_app_iff; right; apply in_app_iff; now left].
          assert (IA1 : inputs_at E sn (db s1) (p_inputs q) inputs).
          { eapply inputs_at_frame; [exact F| |exact IA]. intros n b key' Ia K KO. destruct (input_not_out _ _ _ _ ND K KO) as (i' & AO).
            eapply size_input; eauto. }
          assert (IA2 : inputs_at E sn (db s') (p_inputs q) inputs).
          { destruct FIN as [(u & _ & H')| -> ]; [|exact IA1]. eapply (inputs_final rest (pre ++ [NProducer q])); [rewrite <- app_assoc; exact BO| |exact P|exact H'|exact IA1].
            apply in_app_iff. right. now left. }
          now apply (done_asks E sn q s' k d inputs deps fps IA2 CD). }
        destruct FIN as [(u & -> & H')| -> ]; [|auto].
        destruct (IH (pre ++ [NProducer q]) s0 s1 s' r) as (T2 & L2); auto; [now rewrite <- app_assoc|exists (n1 ++ n0); now rewrite LG1, LG0, app_assoc|].
        split; [exact T2|eapply files_le_trans; eauto].
    Qed.
  End Graph.

  Lemma visit_good : forall s g l acc acc', truthful s -> visit_all E g (files s) acc l = Ok acc' ->
    (forall k a ps x, In (k, a, ps) (snd acc) -> In x ps -> good s x) ->
    forall k a ps x, In (k, a, ps) (snd acc') -> In x ps -> good s x.
  Proof.
    intros s g. induction l as [|n l IH]; intros acc acc' T H A; cbn [visit_all] in H; [now injection H as <-|].
    destruct (visit E g (files s) acc n) as [acc1|e] eqn:VV; [|discriminate]. cbn [bind] in H. apply (IH acc1 acc' T H). clear IH H.
    unfold visit in VV. destruct n as [a|p]; [|injection VV as <-; exact A].
    destruct (key_of g a) as [key|]; [|discriminate]. cbn [bind] in VV. destruct (a_output a); [injection VV as <-; exact A|].
    destruct (discover E (files s) (a_storage a) []) as [parts|] eqn:D; [|discriminate]. cbn [bind] in VV.
    destruct parts as [|x0 parts]; [discriminate|]. injection VV as <-. cbn [snd]. intros k b ps x I J. apply in_app_iff in I.
    destruct I as [I|[I|[]]]; [eapply A; eauto|]. injection I as <- <- <-. eapply discover_good; eauto.
  Qed.
  Lemma from_graph_truth : forall g s s' r, truthful s -> from_graph E g s = (s', r) -> truthful s' /\ files_le s s'.
  Proof.
    intros g s s' r T H. assert (S : sure s (from_graph E g) whatever).
    { eapply sure_bind; [apply (sure_pure _ s _ (fun s' found => forall k a ps x, In (k, a, ps) (snd found) -> In x ps -> good s' x)); [exact T|]|].
      - intros found VA. eapply visit_good; [exact T|exact VA|]. intros k a ps x [].
      - intros s1 found _ T1 _ G. cbn zeta.
        eapply sure_bind with (P := whatever); [apply sure_effect; [exact T1|]|].
        { intros s2 r2 M. injection M as <- <-. split; [|split; [le_refl|exact I]]. destruct (wg_spec (graph_fp E) (db s1) g) as (_ & W1 & _ & W2 & _).
          apply with_db_truthful; [exact T1| |].
          - intros t x. unfold known_of. rewrite W2. apply (t_known _ T1).
          - intros sn key x. unfold links_of. rewrite W1. apply (t_links _ T1). }
        intros s2 u2 _ T2 L2 _. eapply sure_bind with (P := whatever); [apply sure_effect; [exact T2|]|].
        { intros s3 r3 M. injection M as <- <-. split; [|split; [le_refl|exact I]].
          destruct (ws_spec (snapshot_fp E) (db s2) (Snapshot (fst found) g)) as (_ & W1 & _ & W2 & _). apply with_db_truthful; [exact T2| |].
          - intros t x. unfold known_of. rewrite W2. apply (t_known _ T2).
          - intros sn key x. unfold links_of. rewrite W1. apply (t_links _ T2). }
        intros s3 u3 _ T3 L3 _. eapply sure_bind; [|intros s4 u4 _ T4 _ _; apply sure_ret; [exact T4|intros; exact I]].
        apply sure_each; [exact T3|]. intros [[k a] ps] s4 J T4 L4. cbn [fst snd].
        assert (G4 : forall x, In x ps -> good s4 x).
        { intros x X. eapply good_le; [exact L4|]. eapply good_le; [exact L3|]. eapply good_le; [exact L2|]. eapply G; eauto. }
        eapply sure_bind; [apply sure_write_known; [exact T4|exact G4]|]. intros s5 u5 _ T5 L5 _. apply sure_write_links; [exact T5|].
        intros x X. eapply good_le; [exact L5|auto]. }
    destruct (S _ _ H) as (T' & L & _). auto.
  Qed.
  Lemma follows_truth : forall s s', truthful s -> follows E R s s' -> truthful s' /\ files_le s s'.
  Proof.
    intros s s' T F. destruct F as [s fs SAME|s|s g s' r H|s sn order s' r H ND BO TP NG CV].
    - assert (LE : files_le s (State fs (db s) (log s) (fuel s))) by (intros i k f d D; cbn; now rewrite SAME).
      split; [|exact LE]. split.
      + apply T.
      + cbn. intros i k f d. rewrite SAME. apply T.
      + cbn. intros t x I. eapply good_le; [exact LE|]. eapply (t_known _ T), I.
      + cbn. intros sn key x I. eapply good_le; [exact LE|]. eapply (t_links _ T), I.
    - split; [|le_refl]. split; [apply T|apply T| |].
      + cbn. intros t x [].
      + cbn. intros sn key x [].
    - eapply from_graph_truth; eauto.
    - apply (build_nodes_truth sn ND NG order [] s s s' r BO T); [now exists []|exact H|].
      intros new p i a k d args LN P AS I. eapply CV; eauto.
  Qed.
  Lemma history_truth : forall s, history E R s -> truthful s.
  Proof.
    induction 1 as [fs NI|s s' _ IH F]; [|eapply follows_truth; eauto]. split; [reflexivity| | |].
    - cbn. intros i k f d D. apply (dget_In _ location_eqb_spec) in D. apply (in_map fst) in D. now apply NI in D.
    - intros t x [].
    - intros sn key x [].
  Qed.
  Lemma history_consistent : forall s, history E R s -> consistent (db s).
  Proof.
    induction 1 as [fs NI|s s' _ IH F]; [intros t x []|]. destruct F as [s fs SAME|s|s g s' r H|s sn order s' r H ND BO TP NG CV]; [exact IH|intros t x []| |].
    - eapply from_graph_consistent; eauto.
    - eapply build_nodes_consistent; eauto.
  Qed.
  (** What a build links is what its producer computes now. *)
  Theorem links_true : forall s sn order s' r, history E R s -> build_nodes E sn order s = (s', r) ->
    NoDup (map fst (g_arts (s_graph sn))) -> build_order (dependencies (g_arts (s_graph sn))) order ->
    templated (g_arts (s_graph sn)) -> no_gaps (g_arts (s_graph sn)) -> covers E R sn s s' ->
    forall key x, linked s' sn key x -> ~ linked s sn key x ->
    exists p i a, produces (g_arts (s_graph sn)) p i a /\ last_key (g_arts (s_graph sn)) a key /\ pt_storage (ps_part x) = a_storage a /\
      (exists data, holds_data s' x data) /\
      forall d args data, asks E s' sn p (ps_key x) d -> ps_fp x = Some (fingerprint_for E p d) -> reads E s' p d args -> computes E a args data -> holds_data s' x data.
  Proof.
    intros s sn order s' r HI H ND BO TP NG CV key x L NL. assert (F : follows E R s s') by (eapply follows_build; eauto).
    assert (T' := history_truth _ (history_then _ _ _ _ HI F)).
    destruct (only_asked E IT sn ND order s s' r (history_consistent _ HI) BO TP H sn key x L) as [L'|(_ & p & i & a & P & LK & XS & _)]; [contradiction|].
    exists p, i, a. split; [exact P|]. split; [exact LK|]. split; [exact XS|].
    assert (IL : In x (links_of (db s') sn key)) by now rewrite <- linked_links.
    assert (G := t_links _ T' _ _ _ IL). assert (FP : exists f, ps_fp x = Some f).
    { destruct (ps_fp x) as [f|] eqn:Q; [eauto|]. exfalso.
      destruct (only_asked E IT sn ND order s s' r (history_consistent _ HI) BO TP H sn key x L) as [L'|(_ & p' & i' & a' & P' & _ & XS' & AA)]; [contradiction|].
      assert (C := history_consistent _ (history_then _ _ _ _ HI F)). 
      destruct AA as [(d & _ & EQ)|_]; [congruence|]. clear G. assert (A0 : accounted E sn s [] s) by (intros ? ? ? J; now left).
      destruct (build_nodes_accounted E IT sn ND s order [] s s' r BO (history_consistent _ HI) A0 H) as (_ & pre' & A).
      rewrite linked_links in NL. destruct (A _ _ _ IL) as [J|(_ & q & inputs & deps & fps & _ & _ & _ & AB)]; [contradiction|].
      destruct (asked_by_producer _ _ _ _ _ AB) as (j & b & Pb & _ & _ & [_ FS]). rewrite Q, (TP _ _ _ Pb) in FS. discriminate. }
    destruct FP as (f & FP). destruct (G f FP) as (d0 & H0 & _ & RO). split; [eauto|].
    intros d args data AS FE RD CO. assert (RA : R a (ps_key x) d args).
    { destruct (calm_build_nodes E sn order s s' r H) as (new & LN & _). eapply (CV new p i a); eauto. }
    assert (data = d0); [|now subst d0]. eapply (result_unique (st_id (a_storage a)) (ps_key x) f).
    - destruct P as (kk & _ & AO). exists a, p, i, d, args. split; [exact RA|]. split; [exact AO|]. split; [reflexivity|]. split; [congruence|exact CO].
    - now rewrite <- XS.
  Qed.
  (** Data that was produced stays. *)
  Theorem data_stays : forall s s', history E R s -> follows E R s s' -> forall sn key x data f, linked s sn key x -> ps_fp x = Some f ->
    holds_data s x data -> holds_data s' x data.
  Proof.
    intros s s' HI F sn key x data f _ FP. eapply holds_le; [|exact FP]. eapply follows_truth; [|exact F]. now apply history_truth.
  Qed.
End Truth.

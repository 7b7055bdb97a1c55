From Coq Require Import ZArith List Ascii String Bool Arith Lia.
From Verif Require Import Base Base_Proofs Str Str_Proofs Graph_Model Graph_Spec Graph_Proofs Backend_Model Backend_Spec Backend_Proofs.
From Verif Require Import Executor_Model Executor_Spec Executor_Proofs Executor_Done_Proofs Executor_Build_Proofs Executor_Link_Proofs Executor_Write_Proofs Executor_Id_Proofs Executor_Top_Proofs.
From Verif Require Dangling_Proofs.
From Verif Require Import Missing_Spec.
Import ListNotations.
Open Scope list_scope.

Lemma calls_app : forall V (l m : list (action V)), calls (l ++ m) = calls l ++ calls m.
Proof. intros. unfold calls. apply flat_map_app. Qed.

Lemma nodup_app_intro : forall A (l m : list A), NoDup l -> NoDup m -> (forall x, In x l -> ~ In x m) -> NoDup (l ++ m).
Proof.
  intros A l m H G D. induction H as [|x l N _ IH]; [exact G|]. cbn. constructor.
  - intro I. apply in_app_iff in I. destruct I as [I|I]; [tauto|]. apply (D x); [now left|exact I].
  - apply IH. intros y I. apply D. now right.
Qed.

Section Calls.
  Import Dangling_Proofs.
  Context {V : Type} (E : env V) (sn : snapshot).
  Notation g := (s_graph sn).
  Definition no_call (x : action V) : Prop := match x with Built _ _ _ => False | _ => True end.
  Notation still := (logs no_call).
  Lemma still_calls : forall A (m : M V A) s s' r, still m -> m s = (s', r) -> exists new, log s' = new ++ log s /\ calls new = [].
  Proof.
    intros A m s s' r H R. destruct (H _ _ _ R) as (new & L & F). exists new. split; [exact L|]. clear L. induction F as [|x l Q _ IH]; [reflexivity|].
    destruct x; cbn in *; tauto.
  Qed.
  Lemma still_read_links : forall k, still (read_links E sn k).
  Proof. intro k. apply logs_effect, logs_nothing. intro s. destruct (read_snapshot_partitions (db s) sn k). reflexivity. Qed.
  Lemma still_write_links : forall k l, still (write_links (V := V) sn k l).
  Proof. intros k l. apply logs_effect, logs_nothing. reflexivity. Qed.
  Lemma still_inputs : forall p, still (get_producer_inputs E sn p).
  Proof.
    intro p. apply logs_collect. intros na _. apply logs_then; [apply logs_ret|]. intro k. apply logs_then; [apply still_read_links|]. intro. apply logs_ret.
  Qed.
  Lemma still_discover : forall p fps, still (discover_producer_partitions E sn p fps).
  Proof.
    intros p fps. unfold discover_producer_partitions. apply logs_then; [apply logs_ret|]. intro outs. apply logs_then.
    - apply logs_collect. intros a _. apply logs_then; [|intro; apply logs_ret]. apply logs_effect, logs_nothing. intro s.
      destruct (read_artifact_partitions _ _ _ _). reflexivity.
    - intro found. apply logs_then; [|intro; apply logs_ret]. apply logs_each. intros al _. apply logs_then; [apply logs_ret|]. intro k. apply still_write_links.
  Qed.
  Lemma still_outputs : forall p f k outs vs i, still (write_outputs E sn p f k i outs vs).
  Proof.
    intros p f k outs vs. induction vs as [|v vs IH]; intro i; cbn [write_outputs]; [apply logs_ret|].
    apply logs_then; [apply logs_ret|]. intro a. apply logs_then; [apply logs_ret|]. intros _. apply logs_then; [|intros _; apply IH].
    unfold write_output. apply logs_then; [apply logs_ret|]. intro key. apply logs_then; [apply logs_ret|]. intros _. apply logs_then; [apply logs_ret|].
    intros _. apply logs_then; [apply logs_ret|]. intro part. apply logs_then.
    - unfold io_write. destruct (st_kind (pt_storage part)).
      + apply logs_then; [apply logs_effect, logs_nothing; reflexivity|]. intros _. apply logs_then; [apply logs_ret|]. intro d.
        apply logs_then; [|intros _; apply logs_nothing; reflexivity]. apply logs_effect. intros s s' r H. injection H as <- _.
        exists [Wrote (location_of part) d]. split; [reflexivity|]. constructor; [exact I|constructor].
      + destruct (pt_value part); [apply logs_ret|]. apply logs_then; [apply logs_ret|]. intro d. apply logs_nothing. reflexivity.
    - intro x. apply logs_then; [|intros _; apply still_write_links]. apply logs_effect, logs_nothing. reflexivity.
  Qed.
  Lemma still_args : forall (p : producer) deps names, still (collectM (fun name =>
        a <- ret (match dget str_eqb (p_inputs p) name with Some a => Ok a | None => Err KeyError end) ;;
        d <- ret (match dget str_eqb deps name with Some d => Ok d | None => Err KeyError end) ;;
        v <- read_input E sn a d ;; ret (Ok (name, v))) names).
  Proof.
    intros p deps names. apply logs_collect. intros n _. apply logs_then; [apply logs_ret|]. intro a. apply logs_then; [apply logs_ret|]. intro d.
    apply logs_then; [|intro; apply logs_ret]. unfold read_input. apply logs_then; [apply logs_ret|]. intro. apply logs_nothing. reflexivity.
  Qed.
  Lemma validate_still : forall p k vs, still (call_validate E p k vs).
  Proof.
    intros p k vs. apply logs_effect. intros s s' r H. injection H as <- _. exists [Validated p k vs]. split; [reflexivity|]. constructor; [exact I|constructor].
  Qed.

  (** One partition. *)
  Lemma partition_calls : forall p existing f deps k s s' r, build_producer_partition E sn p existing f deps k s = (s', r) ->
    exists new, log s' = new ++ log s /\
      (calls new = [] \/ calls new = [(p, k)] /\ ~ In k existing) /\ (r = Ok tt -> ~ In k existing -> calls new = [(p, k)]).
  Proof.
    intros p existing f deps k s s' r H. unfold build_producer_partition in H. destruct (existsb (str_eqb k) existing) eqn:X.
    { injection H as <- <-. exists []. split; [reflexivity|]. split; [now left|]. intros _ N. destruct N. apply existsb_exists in X.
      destruct X as (k' & I & Q). apply str_eqb_spec in Q. now subst. }
    assert (N : ~ In k existing).
    { intro I. assert (existsb (str_eqb k) existing = true) by (apply existsb_exists; exists k; split; [exact I|now apply str_eqb_spec]). congruence. }
    unfold andthen at 1 in H. destruct (collectM _ (c_build_inputs (class_of E p)) s) as [s1 [args|e]] eqn:C;
      destruct (still_calls _ _ _ _ _ (still_args _ _ _) C) as (n1 & L1 & C1).
    2: { injection H as <- <-. exists n1. split; [exact L1|]. split; [now left|discriminate]. }
    unfold andthen at 1 in H. destruct (call_build E p k args s1) as [s2 r2] eqn:CB.
    assert (B : exists n2, log s2 = n2 ++ log s1 /\ (calls n2 = [] \/ calls n2 = [(p, k)]) /\ (forall vs, r2 = Ok vs -> calls n2 = [(p, k)])).
    { unfold call_build, effect, andthen in CB. destruct (tick s1) as [t [u|e]] eqn:T; apply tick_ok in T; destruct T as (_ & _ & TL).
      - injection CB as <- <-. exists [Built p k args]. cbn. split; [now rewrite TL|]. auto.
      - injection CB as <- <-. exists []. split; [exact TL|]. split; [now left|discriminate]. }
    destruct B as (n2 & L2 & C2 & C2'). assert (Y : log s2 = (n2 ++ n1) ++ log s) by now rewrite L2, L1, app_assoc.
    destruct r2 as [vs|e].
    2: { injection H as <- <-. exists (n2 ++ n1). split; [exact Y|]. rewrite calls_app, C1, app_nil_r. split; [|discriminate]. destruct C2; [now left|now right]. }
    specialize (C2' vs eq_refl).
    assert (S : still (ok <- call_validate E p k vs ;; if ok : bool then outs <- ret (outputs_of g p) ;; write_outputs E sn p f k 0 outs vs else ret (Err ValueError))).
    { apply logs_then; [apply validate_still|]. intros [|]; [|apply logs_ret]. apply logs_then; [apply logs_ret|]. intro. apply still_outputs. }
    destruct (still_calls _ _ _ _ _ S H) as (n3 & L3 & C3). exists (n3 ++ n2 ++ n1). split; [rewrite L3, Y; now rewrite !app_assoc|].
    rewrite !calls_app, C1, C2', C3. cbn. split; [now right|auto].
  Qed.
  Lemma each_calls : forall p existing fps deps s s' r, NoDup (map fst deps) ->
    eachM (fun kd => f <- ret (match get_fp fps (fst kd) with Some f => Ok f | None => Err ValueError end) ;;
                     build_producer_partition E sn p existing f (snd kd) (fst kd)) deps s = (s', r) ->
    exists new, log s' = new ++ log s /\ NoDup (calls new) /\
      (forall q k, In (q, k) (calls new) -> q = p /\ In k (map fst deps) /\ ~ In k existing) /\
      (r = Ok tt -> forall k, In k (map fst deps) -> ~ In k existing -> In (p, k) (calls new)).
  Proof.
    intros p existing fps. induction deps as [|[k d] deps IH]; intros s s' r ND H; cbn [eachM] in H.
    - injection H as <- <-. exists []. split; [reflexivity|]. split; [constructor|]. split; [intros q k []|intros _ k []].
    - inversion ND as [|? ? N1 N2]; subst. cbn [fst snd] in *. unfold andthen at 1 in H.
      destruct ((f <- ret (match get_fp fps k with Some f => Ok f | None => Err ValueError end) ;; build_producer_partition E sn p existing f d k) s) as [s1 r1] eqn:P.
      assert (X : exists n1, log s1 = n1 ++ log s /\ (calls n1 = [] \/ calls n1 = [(p, k)] /\ ~ In k existing) /\ (r1 = Ok tt -> ~ In k existing -> calls n1 = [(p, k)])).
      { unfold andthen, ret in P. destruct (get_fp fps k) as [f|]; [exact (partition_calls _ _ _ _ _ _ _ _ P)|]. injection P as <- <-. exists [].
        split; [reflexivity|]. split; [now left|discriminate]. }
      destruct X as (n1 & L1 & C1 & C1'). destruct r1 as [[]|e].
      + destruct (IH _ _ _ N2 H) as (n2 & L2 & D2 & S2 & T2). exists (n2 ++ n1). split; [now rewrite L2, L1, app_assoc|]. rewrite calls_app. split; [|split].
        * destruct C1 as [ -> |[ -> _]]; [now rewrite app_nil_r|]. apply nodup_app_intro; [exact D2|repeat constructor; intros []|].
          intros x I [<-|[]]. destruct (S2 _ _ I) as (_ & J & _). now destruct (N1 J).
        * intros q k' I. apply in_app_iff in I. destruct I as [I|I]; [destruct (S2 _ _ I) as (-> & J & K); split; [reflexivity|]; split; [now right|exact K]|].
          destruct C1 as [C1|[C1 K]]; rewrite C1 in I; [destruct I|]. destruct I as [I|[]]. injection I as <- <-. split; [reflexivity|]. split; [now left|exact K].
        * intros R k' [<-|I] K; apply in_app_iff; [right|left; now apply T2]. rewrite (C1' eq_refl K). now left.
      + injection H as <- <-. exists n1. split; [exact L1|]. destruct C1 as [ -> |[ -> K]].
        * split; [constructor|]. split; [intros q k' []|discriminate].
        * split; [repeat constructor; intros []|]. split; [|discriminate]. intros q k' [I|[]]. injection I as <- <-. split; [reflexivity|]. split; [now left|exact K].
  Qed.
End Calls.

Section Missing.
  Context {V : Type} (E : env V) (IT : iterates E) (sn : snapshot) (W : in_order E (g_arts (s_graph sn))) (DP : distinct_paths (g_arts (s_graph sn))).
  Notation g := (s_graph sn).
  (** One producer. *)
  Lemma producer_calls : forall p s s' r, build_producer E sn p s = (s', r) ->
    exists new, log s' = new ++ log s /\ NoDup (calls new) /\
      (forall q k, In (q, k) (calls new) -> q = p /\ exists d, asks E s' sn p k d /\ (exists i a, produces (g_arts g) p i a) /\
         missing s (g_arts g) p k (fingerprint_for E p d)) /\
      (r = Ok tt -> exists inputs deps fps, inputs_at E sn (db s') (p_inputs p) inputs /\ compute_dependencies E p inputs = Ok (deps, fps) /\
         (exists i a, produces (g_arts g) p i a) /\
         forall k d, In (k, d) deps -> missing s (g_arts g) p k (fingerprint_for E p d) -> In (p, k) (calls new)).
  Proof.
    intros p s s' r H. assert (F0 := within_build_producer E sn p _ _ _ H).
    assert (NONE : forall n, log s' = n ++ log s -> calls n = [] -> (r = Ok tt -> False) ->
      exists new, log s' = new ++ log s /\ NoDup (calls new) /\
      (forall q k, In (q, k) (calls new) -> q = p /\ exists d, asks E s' sn p k d /\ (exists i a, produces (g_arts g) p i a) /\
         missing s (g_arts g) p k (fingerprint_for E p d)) /\
      (r = Ok tt -> exists inputs deps fps, inputs_at E sn (db s') (p_inputs p) inputs /\ compute_dependencies E p inputs = Ok (deps, fps) /\
         (exists i a, produces (g_arts g) p i a) /\
         forall k d, In (k, d) deps -> missing s (g_arts g) p k (fingerprint_for E p d) -> In (p, k) (calls new))).
    { intros n L C N. exists n. rewrite C. split; [exact L|]. split; [constructor|]. split; [intros q k []|]. intro R. destruct (N R). }
    unfold build_producer in H. unfold andthen at 1 in H. destruct (get_producer_inputs E sn p s) as [s1 [inputs|e]] eqn:GI;
      destruct (still_calls _ _ _ _ _ (still_inputs E sn p) GI) as (n1 & L1 & C1).
    2: { injection H as <- <-. apply (NONE n1 L1 C1). discriminate. }
    unfold andthen at 1, ret at 1 in H. destruct (compute_dependencies E p inputs) as [[deps fps]|e] eqn:CD.
    2: { injection H as <- <-. apply (NONE n1 L1 C1). discriminate. }
    unfold andthen at 1 in H. cbn [fst snd] in H. destruct (discover_producer_partitions E sn p fps s1) as [s2 [existing|e]] eqn:DI;
      destruct (still_calls _ _ _ _ _ (still_discover E sn p fps) DI) as (n2 & L2 & C2).
    2: { injection H as <- <-. apply (NONE (n2 ++ n1)); [now rewrite L2, L1, app_assoc|now rewrite calls_app, C1, C2|discriminate]. }
    destruct (compute_dependencies_ok E p _ _ _ CD) as (m & M & DN & FK & DIn & D1 & D2).
    destruct (each_calls E sn p existing fps deps s2 s' r DN H) as (n3 & L3 & ND3 & O3 & A3).
    assert (FD := within_discover E sn p fps _ _ _ DI).
    assert (FB : frame sn (out_key sn p) (out_storage sn p) s2 s').
    { revert H. apply within_each. intros kd _. apply within_bind; [apply within_ret|]. intro. apply within_build_partition. }
    assert (F := frame_trans _ _ _ _ _ _ FD FB).
    destruct (get_inputs_ok E sn _ _ _ _ GI) as (G1 & G2 & G3 & G4 & G5).
    destruct (discover_ok E IT sn _ _ _ _ _ DI) as (outs & O & C & FI & _ & EX).
    assert (INP : inputs_at E sn (db s') (p_inputs p) inputs).
    { eapply inputs_at_frame; [exact F| |].
      - intros n a key I K KO. destruct (input_not_out _ _ _ _ (io_keys E _ W) K KO) as (i & AO). eapply size_input; eauto.
      - unfold inputs_at in *. eapply Forall2_impl; [|exact G1]. intros na nl (key & K & ->). exists key. now rewrite G3. }
    assert (PO : exists i a, produces (g_arts g) p i a).
    { assert (S := outputs_of_spec g p). rewrite O in S. destruct S as [NE _]. destruct outs as [|a outs]; [congruence|].
      destruct (out_produced _ _ _ _ O (or_introl eq_refl)) as (i & P). eauto. }
    assert (AV : forall t k f, available s1 t k f <-> available s t k f) by (intros t k f; unfold available; now rewrite G4, G5).
    assert (MI : forall k d, In (k, d) deps -> (In k existing <-> ~ missing s (g_arts g) p k (fingerprint_for E p d)) /\ (~ In k existing <-> missing s (g_arts g) p k (fingerprint_for E p d))).
    { intros k d I. assert (GF := fps_of _ _ _ _ _ _ _ CD I).
      assert (X : In k existing -> exists i a, produces (g_arts g) p i a /\ available s (a_storage a) k (fingerprint_for E p d)).
      { intro J. apply EX in J. destruct J as (a & x & Ia & Ix & K). destruct (out_produced _ _ _ _ O Ia) as (i & P). exists i, a. split; [exact P|].
        apply AV, (finds_available _ _ _ _ _ _ _ (FI a Ia) GF). exists x. split; [now apply select_In in Ix|]. split; [exact K|]. eapply select_fp; eauto. }
      assert (Y : forall i a, produces (g_arts g) p i a -> available s (a_storage a) k (fingerprint_for E p d) -> In k existing).
      { intros i a P A. destruct (produces_out E sn _ _ _ W P) as (outs' & O' & Ia). rewrite O in O'. injection O' as <-.
        apply AV, (finds_available _ _ _ _ _ _ _ (FI a Ia) GF) in A. destruct A as (x & Ix & K & XF). apply EX. exists a, x. split; [exact Ia|].
        split; [eapply select_match; eauto|exact K]. }
      split; split.
      - intros J Z. destruct (X J) as (i & a & P & A). exact (Z i a P A).
      - intro Z. destruct (in_dec (fun a b => Bool.reflect_dec _ _ (iff_reflect _ _ (iff_sym (str_eqb_spec a b)))) k existing) as [J|J]; [exact J|].
        destruct Z. intros i a P A. destruct J. eapply Y; eauto.
      - intros J i a P A. apply J. eapply Y; eauto.
      - intros Z J. destruct (X J) as (i & a & P & A). exact (Z i a P A). }
    exists (n3 ++ n2 ++ n1). split; [now rewrite L3, L2, L1, !app_assoc|]. rewrite !calls_app, C1, C2, !app_nil_r. split; [exact ND3|]. split.
    - intros q k I. destruct (O3 _ _ I) as (-> & J & N). split; [reflexivity|]. apply in_map_iff in J. destruct J as ([k' d] & Q & J). cbn in Q. subst k'.
      exists d. split; [now apply (done_asks E sn p s' k d inputs deps fps INP CD)|]. split; [exact PO|]. now apply (MI k d J).
    - intro R. exists inputs, deps, fps. split; [exact INP|]. split; [exact CD|]. split; [exact PO|]. intros k d I Z. apply (A3 R).
      + now apply (in_map fst) in I.
      + now apply (MI k d I).
  Qed.

  Definition accounted_for (s0 : state V) (pre : list node) (s : state V) (new : list (action V)) : Prop :=
    log s = new ++ log s0 /\ NoDup (calls new) /\
    forall q k, In (q, k) (calls new) -> In (NProducer q) pre /\ exists d, asks E s sn q k d /\ (exists i a, produces (g_arts g) q i a) /\
       missing s0 (g_arts g) q k (fingerprint_for E q d).
  Definition all_computed (s0 : state V) (pre : list node) (s : state V) (new : list (action V)) : Prop :=
    forall p, In (NProducer p) pre -> exists inputs deps fps, inputs_at E sn (db s) (p_inputs p) inputs /\ compute_dependencies E p inputs = Ok (deps, fps) /\
         (exists i a, produces (g_arts g) p i a) /\
         forall k d, In (k, d) deps -> missing s0 (g_arts g) p k (fingerprint_for E p d) -> In (p, k) (calls new).
  Definition rest_untouched (s0 : state V) (pre : list node) (s : state V) : Prop :=
    forall p i a, ~ In (NProducer p) pre -> produces (g_arts g) p i a -> untouched sn s0 s a.
  Lemma untouched_missing : forall s0 pre s p k f, rest_untouched s0 pre s -> ~ In (NProducer p) pre ->
    (missing s (g_arts g) p k f <-> missing s0 (g_arts g) p k f).
  Proof.
    intros s0 pre s p k f U N. unfold missing. split; intros M i a P A; apply (M i a P); destruct (U p i a N P) as [U1 U2]; specialize (U2 DP);
      unfold available in *; [rewrite U1, U2|rewrite U1, U2 in A]; exact A.
  Qed.
  Lemma asks_inputs : forall s s' p k d, (forall inputs, inputs_at E sn (db s) (p_inputs p) inputs -> inputs_at E sn (db s') (p_inputs p) inputs) ->
    asks E s sn p k d -> asks E s' sn p k d.
  Proof.
    intros s s' p k d L (inputs & m & l1 & l2 & d0 & I & R). exists inputs, m, l1, l2, d0. split; [|exact R].
    apply input_partitions_at, L, input_partitions_at, I.
  Qed.
  Lemma nodes_calls : forall s0 rest pre s s' r new, build_order (dependencies (g_arts g)) (pre ++ rest) ->
    accounted_for s0 pre s new -> all_computed s0 pre s new -> rest_untouched s0 pre s -> build_nodes E sn rest s = (s', r) ->
    exists new', accounted_for s0 (pre ++ rest) s' new' /\ (r = Ok tt -> all_computed s0 (pre ++ rest) s' new').
  Proof.
    intro s0. induction rest as [|n rest IH]; intros pre s s' r new BO A C U H; cbn [build_nodes eachM] in H.
    - injection H as <- <-. exists new. now rewrite app_nil_r.
    - unfold andthen at 1 in H. destruct n as [a|q].
      + cbn [ret] in H. specialize (IH (pre ++ [NArtifact a]) s s' r new). rewrite <- !app_assoc in IH. apply IH; [exact BO| | | |exact H].
        * destruct A as (A1 & A2 & A3). split; [exact A1|]. split; [exact A2|]. intros q k I. destruct (A3 q k I) as [J R]. split; [apply in_app_iff; now left|exact R].
        * intros p I. apply C. apply in_app_iff in I. destruct I as [I|[I|[]]]; [exact I|discriminate].
        * intros p i b N. apply U. intro I. apply N, in_app_iff. now left.
      + destruct (build_producer E sn q s) as [s1 r1] eqn:B.
        assert (F := within_build_producer E sn q _ _ _ B).
        assert (NQ : ~ In (NProducer q) pre).
        { destruct BO as (NO & _). intro I. apply NoDup_remove_2 in NO. apply NO, in_app_iff. now left. }
        destruct (producer_calls q s s1 r1 B) as (n1 & L1 & D1 & O1 & T1). destruct A as (A1 & A2 & A3).
        assert (LATER : forall p, In (NProducer p) pre -> (exists i a, produces (g_arts g) p i a) ->
                  forall inputs, inputs_at E sn (db s) (p_inputs p) inputs -> inputs_at E sn (db s1) (p_inputs p) inputs).
        { intros p Ip (i & a & P) inputs J. eapply (inputs_later E sn (io_keys E _ W)); eauto. }
        assert (A' : accounted_for s0 (pre ++ [NProducer q]) s1 (n1 ++ new)).
        { split; [now rewrite L1, A1, app_assoc|]. rewrite calls_app. split.
          - apply nodup_app_intro; [exact D1|exact A2|]. intros [p k] I J. destruct (O1 _ _ I) as [-> _]. now destruct NQ; apply (A3 q k).
          - intros p k I. apply in_app_iff in I. destruct I as [I|I].
            + destruct (O1 _ _ I) as (-> & d & AS & PO & MI). split; [apply in_app_iff; right; now left|]. exists d. split; [exact AS|]. split; [exact PO|].
              now apply (untouched_missing s0 pre s).
            + destruct (A3 p k I) as (J & d & AS & PO & MI). split; [apply in_app_iff; now left|]. exists d. split; [|auto].
              eapply asks_inputs; [|exact AS]. now apply LATER. }
        destruct r1 as [[]|e].
        * specialize (IH (pre ++ [NProducer q]) s1 s' r (n1 ++ new)). rewrite <- !app_assoc in IH. apply IH; [exact BO|exact A'| | |exact H].
          -- intros p I. apply in_app_iff in I. destruct I as [I|[I|[]]].
             ++ destruct (C p I) as (inputs & deps & fps & IA & CD & PO & X). exists inputs, deps, fps. split; [now apply LATER|]. split; [exact CD|]. split; [exact PO|].
                intros k d J M. rewrite calls_app. apply in_app_iff. right. now apply (X k d).
             ++ injection I as <-. destruct (T1 eq_refl) as (inputs & deps & fps & IA & CD & PO & X). exists inputs, deps, fps. split; [exact IA|].
                split; [exact CD|]. split; [exact PO|]. intros k d J M. rewrite calls_app. apply in_app_iff. left. apply (X k d J).
                now apply (untouched_missing s0 pre s).
          -- intros p i a N P. assert (NP : ~ In (NProducer p) pre) by (intro; apply N, in_app_iff; now left).
             assert (NE : p <> q) by (intros ->; apply N, in_app_iff; right; now left).
             destruct (produces_out E sn _ _ _ W P) as (outs & O & Ia).
             destruct (U p i a NP P) as [U1 U2]. destruct (untouched_frame E sn W q p s s1 outs a F NE O Ia) as [U3 U4].
             split; [congruence|]. intros _ k f. rewrite U4, U2; auto.
        * injection H as <- <-. exists (n1 ++ new). split; [|discriminate]. destruct A' as (B1 & B2 & B3). split; [exact B1|]. split; [exact B2|].
          intros p k I. destruct (B3 p k I) as [J R]. split; [|exact R]. apply in_app_iff in J. apply in_app_iff. destruct J as [J|[J|[]]]; [now left|right; now left].
  Qed.
  Theorem only_missing : forall s s' r, build E sn s = (s', r) -> exists new, log s' = new ++ log s /\ NoDup (calls new) /\
    (forall p k, In (p, k) (calls new) -> exists i a d, produces (g_arts g) p i a /\ asks E s' sn p k d /\ missing s (g_arts g) p k (fingerprint_for E p d)) /\
    (r = Ok tt -> forall p i a k d, produces (g_arts g) p i a -> asks E s' sn p k d -> missing s (g_arts g) p k (fingerprint_for E p d) -> In (p, k) (calls new)).
  Proof.
    intros s s' r H. destruct (build_is V E sn) as (order & BO & BB). rewrite BB in H.
    destruct (nodes_calls s order [] s s' r []) as (new & (A1 & A2 & A3) & C); [exact BO| | | |exact H|].
    - split; [reflexivity|]. split; [constructor|]. intros q k [].
    - intros p [].
    - intros p i a _ _. split; auto.
    - exists new. split; [exact A1|]. split; [exact A2|]. split.
      + intros p k I. destruct (A3 p k I) as (_ & d & AS & (i & a & P) & M). exists i, a, d. auto.
      + intros R p i a k d P AS M. destruct (C R p (out_in_order _ _ _ _ _ BO P)) as (inputs & deps & fps & IA & CD & _ & X).
        apply (done_asks E sn p s' k d inputs deps fps IA CD) in AS. now apply (X k d).
  Qed.
End Missing.

Section Again.
  Context {V : Type} (E : env V) (IT : iterates E).
  Theorem exactly_missing : forall sn, in_order E (g_arts (s_graph sn)) -> distinct_paths (g_arts (s_graph sn)) -> forall s s' u, build E sn s = (s', Ok u) ->
    exists new, log s' = new ++ log s /\ NoDup (calls new) /\
    forall p k, In (p, k) (calls new) <->
      exists i a d, produces (g_arts (s_graph sn)) p i a /\ asks E s' sn p k d /\ missing s (g_arts (s_graph sn)) p k (fingerprint_for E p d).
  Proof.
    intros sn W DP s s' [] H. destruct (only_missing E IT sn W DP s s' _ H) as (new & L & ND & O & C). exists new. split; [exact L|]. split; [exact ND|].
    intros p k. split; [apply O|]. intros (i & a & d & P & A & M). eapply C; eauto.
  Qed.
  Theorem nothing_else : forall sn, in_order E (g_arts (s_graph sn)) -> distinct_paths (g_arts (s_graph sn)) -> forall s s' r, build E sn s = (s', r) ->
    exists new, log s' = new ++ log s /\ NoDup (calls new) /\
    forall p k, In (p, k) (calls new) ->
      exists i a d, produces (g_arts (s_graph sn)) p i a /\ asks E s' sn p k d /\ missing s (g_arts (s_graph sn)) p k (fingerprint_for E p d).
  Proof. intros sn W DP s s' r H. destruct (only_missing E IT sn W DP s s' r H) as (new & L & ND & O & _). eauto. Qed.
  Theorem not_missing : forall sn, in_order E (g_arts (s_graph sn)) -> forall s s' u, build E sn s = (s', Ok u) -> forall p i a k d,
    produces (g_arts (s_graph sn)) p i a -> asks E s' sn p k d ->
    exists j b x, produces (g_arts (s_graph sn)) p j b /\ recorded s' (a_storage b) x /\ ps_key x = k /\ ps_fp x = Some (fingerprint_for E p d).
  Proof.
    intros sn W s s' u H p i a k d P A. destruct (build_is V E sn) as (order & BO & BB). rewrite BB in H.
    destruct (build_nodes_done E IT sn W order s s' u BO H) as [D _].
    destruct (D p (out_in_order _ _ _ _ _ BO P)) as [(inputs & deps & fps & outs & I1 & I2 & CD & O & C & X) _].
    apply (done_asks E sn p s' k d inputs deps fps I1 CD) in A. assert (GF := fps_of _ _ _ _ _ _ _ CD A).
    destruct (X k d A) as (f & b & GF' & Ib & x & Ix & XK & XF). rewrite GF in GF'. injection GF' as <-.
    destruct (out_produced _ _ _ _ O Ib) as (j & PB). exists j, b, x. split; [exact PB|]. split; [|auto].
    unfold known_of, getd in Ix. unfold recorded. destruct (dget storage_eqb (known (db s')) (a_storage b)) as [l|]; [|destruct Ix]. eauto.
  Qed.
  Theorem reused : forall sn sn', in_order E (g_arts (s_graph sn)) -> in_order E (g_arts (s_graph sn')) -> distinct_paths (g_arts (s_graph sn')) ->
    forall s0 s1 u s2 s3 r new, build E sn s0 = (s1, Ok u) -> (forall t x, recorded s1 t x -> recorded s2 t x) ->
    build E sn' s2 = (s3, r) -> log s3 = new ++ log s2 ->
    forall p i a k d, produces (g_arts (s_graph sn)) p i a -> (forall j b, produces (g_arts (s_graph sn)) p j b -> produces (g_arts (s_graph sn')) p j b) ->
    asks E s1 sn p k d -> asks E s3 sn' p k d -> ~ In (p, k) (calls new).
  Proof.
    intros sn sn' W W' DP s0 s1 u s2 s3 r new B1 KE B2 L p i a k d P IN A1 A3 I.
    destruct (not_missing sn W _ _ _ B1 p i a k d P A1) as (j & b & x & PB & R & XK & XF).
    destruct (only_missing E IT sn' W' DP _ _ _ B2) as (new' & L' & _ & O & _).
    assert (new' = new) by (rewrite L in L'; apply app_inv_tail in L'; congruence). subst new'.
    destruct (O p k I) as (i' & a' & d' & P' & A' & M). assert (d' = d).
    { destruct A' as (in1 & m1 & l1 & l2 & e1 & Q1 & Q2 & Q3 & Q4 & ->), A3 as (in2 & m2 & l3 & l4 & e2 & R1 & R2 & R3 & R4 & ->).
      apply input_partitions_at in Q1, R1. assert (in2 = in1) by (eapply inputs_at_fun; eauto). subst in2. rewrite Q2 in R2. injection R2 as <-.
      f_equal. assert (G1 := proj2 (dict_of_last _ _ _ str_eqb_spec m1 k e1)). assert (G2 := proj2 (dict_of_last _ _ _ str_eqb_spec m1 k e2)).
      assert (Some e1 = Some e2); [|congruence]. rewrite <- G1, <- G2; [reflexivity|exists l3, l4; auto|exists l1, l2; auto]. }
    subst d'. apply (M j b (IN j b PB)). destruct (KE _ _ R) as (l & D & Ix). unfold available. rewrite D. eauto.
  Qed.
  Theorem other_version : forall p q d, p_class p = p_class q -> (fingerprint_for E p d = fingerprint_for E q d <-> p_version p = p_version q).
  Proof.
    intros p q d C. unfold fingerprint_for. cbn [fold_right]. rewrite C. split; [|now intros ->]. intro H.
    set (c := from_string E (p_class q)) in *. set (z := fold_right Z.lxor 0%Z (map ps_content (flat_map snd d))) in *.
    assert (X : forall v, Z.lxor (Z.lxor c (Z.lxor c (Z.lxor v z))) z = v).
    { intro v. rewrite <- (Z.lxor_assoc c c), Z.lxor_nilpotent, Z.lxor_0_l, Z.lxor_assoc, Z.lxor_nilpotent. apply Z.lxor_0_r. }
    rewrite <- (X (p_version p)), <- (X (p_version q)). now rewrite H.
  Qed.
  Theorem recomputed : forall sn, in_order E (g_arts (s_graph sn)) -> distinct_paths (g_arts (s_graph sn)) -> forall s s' u new,
    build E sn s = (s', Ok u) -> log s' = new ++ log s -> forall p i a k d, produces (g_arts (s_graph sn)) p i a -> asks E s' sn p k d ->
    (forall j b f, produces (g_arts (s_graph sn)) p j b -> available s (a_storage b) k f -> exists q, p_class q = p_class p /\ p_version q <> p_version p /\ f = fingerprint_for E q d) ->
    In (p, k) (calls new).
  Proof.
    intros sn W DP s s' u new B L p i a k d P A AV. destruct (exactly_missing sn W DP s s' u B) as (new' & L' & _ & X).
    assert (new' = new) by (rewrite L in L'; apply app_inv_tail in L'; congruence). subst new'. apply X. exists i, a, d. split; [exact P|]. split; [exact A|].
    intros j b PB AB. destruct (AV j b _ PB AB) as (q & C & N & F). apply N. symmetry. now apply (other_version p q d).
  Qed.
End Again.

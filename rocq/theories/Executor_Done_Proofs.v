(** What holds after a producer has been built. *)
From Coq Require Import ZArith List Ascii String Bool Arith Lia.
From Verif Require Import Base Base_Proofs Str Str_Proofs Graph_Model Graph_Spec Graph_Proofs.
From Verif Require Import Backend_Model Backend_Spec Backend_Proofs Executor_Model Executor_Spec Executor_Proofs.
Import ListNotations.
Open Scope list_scope.

Lemma Forall2_impl : forall A B (P Q : A -> B -> Prop) l m, (forall a b, P a b -> Q a b) -> Forall2 P l m -> Forall2 Q l m.
Proof. induction 2; constructor; auto. Qed.
Lemma nth_error_Some_lt : forall A (l : list A) i a, nth_error l i = Some a -> i < List.length l.
Proof. intros A l i a H. apply nth_error_Some. congruence. Qed.
Lemma rl_entry : forall b sn k, has_entry (fst (read_snapshot_partitions b sn k)) sn k.
Proof.
  intros b sn k. unfold read_snapshot_partitions, has_entry.
  destruct (touch snapshot_eqb (links b) sn []) as [d byk0] eqn:T1.
  destruct (touch str_eqb byk0 k []) as [byk' l'] eqn:T2. cbn [fst links]. rewrite (dget_dset_same _ snapshot_eqb_spec).
  exists byk'. unfold touch in T2. destruct (dget str_eqb byk0 k) as [x|] eqn:D; injection T2 as <- <-.
  - eauto.
  - exists []. now rewrite (dget_dset_same _ str_eqb_spec).
Qed.

Section Done.
  Context {V : Type} (E : env V) (IT : iterates E) (sn : snapshot).
  Notation g := (s_graph sn).

  Definition inputs_at (b : backend) (l : list (str * artifact)) (inputs : list (str * list psnapshot)) : Prop :=
    Forall2 (fun na nl => exists key, key_of g (snd na) = Ok key /\ nl = (fst na, iter_set E (links_of b sn key))) l inputs.
  Definition inputs_entries (b : backend) (l : list (str * artifact)) : Prop :=
    forall n a key, In (n, a) l -> key_of g a = Ok key -> has_entry b sn key.

  Lemma read_links_ok : forall sn' key s s' l, read_links E sn' key s = (s', Ok l) ->
    l = iter_set E (links_of (db s) sn' key) /\ (forall sn'' k, links_of (db s') sn'' k = links_of (db s) sn'' k) /\ has_entry (db s') sn' key /\
    known (db s') = known (db s) /\ files s' = files s.
  Proof.
    intros sn' key s s' l H. apply effect_ok in H. destruct H as (s1 & F & D & L & H). rewrite D in H.
    assert (R := rl_spec (db s) sn' key). assert (EN := rl_entry (db s) sn' key).
    destruct (read_snapshot_partitions (db s) sn' key) as [b x]. injection H as <- <-. cbn [with_db db files].
    destruct R as (-> & R & _ & _ & _ & RK). auto.
  Qed.
  Lemma get_inputs_ok : forall l s s' inputs,
    collectM (fun na => key <- ret (key_of g (snd na)) ;; x <- read_links E sn key ;; ret (Ok (fst na, x))) l s = (s', Ok inputs) ->
    inputs_at (db s) l inputs /\ inputs_entries (db s') l /\ (forall sn'' k, links_of (db s') sn'' k = links_of (db s) sn'' k) /\
    known (db s') = known (db s) /\ files s' = files s.
  Proof.
    induction l as [|[n a] l IH]; intros s s' inputs H; cbn [collectM] in H.
    - apply ret_ok in H. destruct H as [-> H]. injection H as <-. split; [constructor|]. split; [intros ? ? ? []|auto].
    - apply andthen_ok in H. destruct H as (s1 & y & H1 & H). apply andthen_ok in H. destruct H as (s2 & ys & H2 & H3).
      apply ret_ok in H3. destruct H3 as [-> H3]. injection H3 as <-.
      apply andthen_ok in H1. destruct H1 as (s3 & key & K & H1). apply ret_ok in K. destruct K as [-> K]. cbn [snd fst] in *.
      apply andthen_ok in H1. destruct H1 as (s4 & x & R & H1). apply ret_ok in H1. destruct H1 as [-> H1]. injection H1 as <-.
      apply read_links_ok in R. destruct R as (-> & RL & RE & RK & RF).
      assert (W : frame sn nothing nothing s4 s2).
      { revert H2. apply within_collect. intros na _. apply within_bind; [apply within_ret|]. intro.
        apply within_bind; [apply within_read_links|]. intro. apply within_ret. }
      destruct (IH _ _ _ H2) as (I1 & I2 & I3 & I4 & I5). split; [|split; [|split; [|split]]].
      + constructor; [exists key; auto|]. unfold inputs_at in I1. eapply Forall2_impl; [|exact I1].
        intros na nl (key' & K' & ->). exists key'. now rewrite RL.
      + intros n' a' key' [H|H] K'.
        * injection H as <- <-. rewrite K in K'. injection K' as <-. apply (fr_entry _ _ _ _ _ W), RE.
        * eapply I2; eauto.
      + intros. now rewrite I3, RL.
      + congruence.
      + congruence.
  Qed.

  (** ** Discovery *)
  Lemma read_known_ok : forall t fps s s' l, read_known E t fps s = (s', Ok l) ->
    l = iter_set E (select fps (known_of (db s') t)) /\ dmem storage_eqb (known (db s')) t = true /\
    links (db s') = links (db s) /\ files s' = files s /\
    (if dmem storage_eqb (known (db s)) t then db s' = db s
     else exists found, discover E (files s) t fps = Ok found /\ db s' = write_artifact_partitions (db s) t found).
  Proof.
    intros t fps s s' l H. apply effect_ok in H. destruct H as (s1 & F & D & L & H). rewrite D, F in H.
    assert (R := ra_spec (db s) t fps (discover E (files s) t fps)).
    destruct (read_artifact_partitions (db s) t fps (discover E (files s) t fps)) as [b x]. injection H as <- HX.
    destruct x as [x|e]; [|discriminate]. cbn in HX. injection HX as <-. cbn [with_db db files].
    destruct R as (_ & _ & _ & LK & -> & C). split; [reflexivity|].
    destruct C as [(M & ->)|(found & DI & M & ->)].
    - rewrite M. auto.
    - rewrite M, wa_mem, (proj2 (storage_eqb_spec t t) eq_refl). cbn. split; [reflexivity|split; [|split; [exact F|eauto]]].
      exact LK.
  Qed.
  Lemma read_known_keeps : forall t fps s s' l t', read_known E t fps s = (s', Ok l) -> dmem storage_eqb (known (db s)) t' = true ->
    dget storage_eqb (known (db s')) t' = dget storage_eqb (known (db s)) t'.
  Proof.
    intros t fps s s' l t' H M. destruct (storage_eqb t t') eqn:Q.
    - apply storage_eqb_spec in Q. subst t'. apply read_known_ok in H. destruct H as (_ & _ & _ & _ & H). rewrite M in H. now rewrite H.
    - assert (W := within_read_known sn (@nothing str) (fun x => x = t) E t fps eq_refl _ _ _ H).
      apply (fr_known _ _ _ _ _ W). intros ->. now rewrite (proj2 (storage_eqb_spec t t) eq_refl) in Q.
  Qed.
  Lemma known_of_dget : forall b b' t, dget storage_eqb (known b') t = dget storage_eqb (known b) t -> known_of b' t = known_of b t.
  Proof. intros b b' t H. unfold known_of, getd. now rewrite H. Qed.
  Lemma dmem_dget : forall b t, dmem storage_eqb (known b) t = true <-> dget storage_eqb (known b) t <> None.
  Proof. intros b t. unfold dmem. destruct (dget storage_eqb (known b) t); split; congruence. Qed.

  Notation collect_known fps outs := (collectM (fun a => l <- read_known E (a_storage a) fps ;; ret (Ok (a, l))) outs).
  Lemma collect_known_keeps : forall fps outs s s' found t', collect_known fps outs s = (s', Ok found) ->
    dmem storage_eqb (known (db s)) t' = true -> dget storage_eqb (known (db s')) t' = dget storage_eqb (known (db s)) t'.
  Proof.
    induction outs as [|a outs IH]; intros s s' found t' H M; cbn [collectM] in H.
    - apply ret_ok in H. now destruct H as [-> _].
    - apply andthen_ok in H. destruct H as (s1 & y & H1 & H). apply andthen_ok in H. destruct H as (s2 & ys & H2 & H3).
      apply ret_ok in H3. destruct H3 as [-> _]. apply andthen_ok in H1. destruct H1 as (s4 & l & R & H1). apply ret_ok in H1.
      destruct H1 as [-> _]. assert (KE := read_known_keeps _ _ _ _ _ t' R M). rewrite <- KE. eapply IH; eauto.
      apply dmem_dget. rewrite KE. now apply dmem_dget.
  Qed.
  (** What is found for an output: what was available, as far as it was asked for. *)
  Definition finds (fps : list (pkey * option Z)) (s s' : state V) (t : storage) : Prop :=
    if dmem storage_eqb (known (db s)) t then known_of (db s') t = known_of (db s) t
    else exists found, discover E (files s) t fps = Ok found /\ known_of (db s') t = adds [] found.
  Lemma collect_known_ok : forall fps outs s s' found, collect_known fps outs s = (s', Ok found) ->
    found = map (fun a => (a, iter_set E (select fps (known_of (db s') (a_storage a))))) outs /\
    (forall a, In a outs -> dmem storage_eqb (known (db s')) (a_storage a) = true /\ finds fps s s' (a_storage a)) /\
    links (db s') = links (db s) /\ files s' = files s.
  Proof.
    induction outs as [|a outs IH]; intros s s' found H; cbn [collectM] in H.
    - apply ret_ok in H. destruct H as [-> H]. injection H as <-. split; [reflexivity|]. split; [intros ? []|auto].
    - apply andthen_ok in H. destruct H as (s1 & y & H1 & H). apply andthen_ok in H. destruct H as (s2 & ys & H2 & H3).
      apply ret_ok in H3. destruct H3 as [-> H3]. injection H3 as <-.
      apply andthen_ok in H1. destruct H1 as (s4 & x & R & H1). apply ret_ok in H1. destruct H1 as [-> H1]. injection H1 as <-.
      destruct (IH _ _ _ H2) as (-> & IA & IL & IFS). clear IH.
      assert (RK := fun t => read_known_keeps _ _ _ _ _ t R).
      destruct (read_known_ok _ _ _ _ _ R) as (-> & RM & RL & RF & RD).
      assert (K2 := collect_known_keeps _ _ _ _ _ _ H2 RM).
      split; [cbn [map]; now rewrite (known_of_dget _ _ _ K2)|]. split; [|split; congruence].
      intros b [ <- |I].
      + split; [apply dmem_dget; rewrite K2; now apply dmem_dget|]. unfold finds. rewrite (known_of_dget _ _ _ K2).
        destruct (dmem storage_eqb (known (db s)) (a_storage a)) eqn:M; [now rewrite RD|].
        destruct RD as (found & DI & ->). exists found. split; [exact DI|]. rewrite wa_known, (proj2 (storage_eqb_spec _ _) eq_refl).
        f_equal. unfold known_of, getd. unfold dmem in M. now destruct (dget storage_eqb (known (db s)) (a_storage a)).
      + destruct (IA b I) as [IM IFD]. split; [exact IM|]. unfold finds in *.
        destruct (dmem storage_eqb (known (db s)) (a_storage b)) eqn:M.
        * assert (M4 := RK (a_storage b) M). assert (M4' : dmem storage_eqb (known (db s4)) (a_storage b) = true).
          { apply dmem_dget. rewrite M4. now apply dmem_dget. }
          rewrite M4' in IFD. now rewrite IFD, (known_of_dget _ _ _ M4).
        * destruct (storage_eqb (a_storage a) (a_storage b)) eqn:Q.
          -- apply storage_eqb_spec in Q. rewrite <- Q in *. rewrite RM in IFD. rewrite M in RD. destruct RD as (found & DI & RD).
             exists found. split; [exact DI|]. rewrite IFD, RD, wa_known, (proj2 (storage_eqb_spec _ _) eq_refl).
             f_equal. unfold known_of, getd. unfold dmem in M. now destruct (dget storage_eqb (known (db s)) (a_storage a)).
          -- assert (M4 : dmem storage_eqb (known (db s4)) (a_storage b) = false).
             { destruct (dmem storage_eqb (known (db s)) (a_storage a)); [now rewrite RD|]. destruct RD as (found & _ & ->).
               now rewrite wa_mem, Q, M. }
             rewrite M4 in IFD. rewrite RF in IFD. exact IFD.
  Qed.

  Definition covered (fps : list (pkey * option Z)) (outs : list artifact) (s : state V) : Prop :=
    forall a, In a outs -> exists key, key_of g a = Ok key /\ dmem storage_eqb (known (db s)) (a_storage a) = true /\
      has_entry (db s) sn key /\
      forall x, In x (select fps (known_of (db s) (a_storage a))) -> In x (links_of (db s) sn key).
  Lemma write_links_ok : forall k new (s s' : state V) r, write_links sn k new s = (s', Ok r) ->
    db s' = write_snapshot_partitions (db s) sn k new /\ files s' = files s.
  Proof.
    intros k new s s' r H. apply effect_ok in H. destruct H as (s1 & F & D & L & H). injection H as <-. cbn. now rewrite D.
  Qed.
  Lemma write_links_in : forall k new (s s' : state V) r x, write_links sn k new s = (s', Ok r) -> In x new -> In x (links_of (db s') sn k).
  Proof.
    intros k new s s' r x H I. apply write_links_ok in H. destruct H as [-> _].
    rewrite wl_links, (proj2 (snapshot_eqb_spec _ _) eq_refl), (proj2 (str_eqb_spec _ _) eq_refl). cbn. apply adds_In. now right.
  Qed.
  Lemma write_links_entry : forall k new (s s' : state V) r, write_links sn k new s = (s', Ok r) -> has_entry (db s') sn k.
  Proof. intros k new s s' r H. apply write_links_ok in H. destruct H as [-> _]. apply wl_entry. now right. Qed.
  Lemma write_links_known : forall k new (s s' : state V) r, write_links sn k new s = (s', Ok r) -> known (db s') = known (db s).
  Proof.
    intros k new s s' r H. apply write_links_ok in H. destruct H as [-> _]. now destruct (wl_other (db s) sn k new) as (_ & _ & _ & ->).
  Qed.
  Notation link_all found := (eachM (fun al => key <- ret (key_of g (fst al)) ;; write_links sn key (snd al)) found).
  Lemma link_all_ok : forall (found : list (artifact * list psnapshot)) (s s' : state V) r, link_all found s = (s', Ok r) ->
    known (db s') = known (db s) /\ files s' = files s /\
    forall al, In al found -> exists key, key_of g (fst al) = Ok key /\ has_entry (db s') sn key /\
      forall x, In x (snd al) -> In x (links_of (db s') sn key).
  Proof.
    induction found as [|al found IH]; intros s s' r H; cbn [eachM] in H.
    - apply ret_ok in H. destruct H as [-> _]. split; [reflexivity|split; [reflexivity|intros ? []]].
    - apply andthen_ok in H. destruct H as (s1 & u & H1 & H2). apply andthen_ok in H1. destruct H1 as (s2 & key & K & W).
      apply ret_ok in K. destruct K as [-> K]. destruct (IH _ _ _ H2) as (IK & IFL & IA).
      assert (WK := write_links_known _ _ _ _ _ W). assert (WF := proj2 (write_links_ok _ _ _ _ _ W)).
      split; [congruence|split; [congruence|]]. intros al' [ <- |I]; [|auto]. exists key. split; [exact K|].
      assert (F : frame sn (fun _ => True) nothing s1 s').
      { revert H2. apply within_each. intros x _. apply within_bind; [apply within_ret|]. intro. now apply within_write_links. }
      split; [apply (fr_entry _ _ _ _ _ F); eapply write_links_entry, W|].
      intros x I. apply (fr_links_mono _ _ _ _ _ F). eapply write_links_in; eauto.
  Qed.
  Lemma discover_ok : forall p fps s s' existing, discover_producer_partitions E sn p fps s = (s', Ok existing) ->
    exists outs, outputs_of g p = Ok outs /\ covered fps outs s' /\ (forall a, In a outs -> finds fps s s' (a_storage a)) /\
      files s' = files s /\
      forall k, In k existing <-> exists a x, In a outs /\ In x (select fps (known_of (db s') (a_storage a))) /\ ps_key x = k.
  Proof.
    intros p fps s s' existing H. apply andthen_ok in H. destruct H as (s1 & outs & O & H). apply ret_ok in O. destruct O as [-> O].
    apply andthen_ok in H. destruct H as (s1 & found & C & H). apply andthen_ok in H. destruct H as (s2 & u & L & H).
    apply ret_ok in H. destruct H as [-> H]. injection H as <-. exists outs. split; [exact O|].
    destruct (collect_known_ok _ _ _ _ _ C) as (-> & CA & CL & CF). destruct (link_all_ok _ _ _ _ L) as (LK & LF & LA).
    assert (KN : forall t, known_of (db s2) t = known_of (db s1) t) by (intro; unfold known_of; now rewrite LK).
    split; [|split; [|split]].
    - intros a I. destruct (LA _ (in_map (fun a => (a, iter_set E (select fps (known_of (db s1) (a_storage a))))) _ _ I)) as (key & K & HE & HI).
      exists key. cbn in K. split; [exact K|]. split; [rewrite LK; now apply CA|]. split; [exact HE|]. rewrite KN. intros x X. apply HI.
      cbn. now apply IT.
    - intros a I. destruct (CA a I) as [_ F]. unfold finds in *. now rewrite KN.
    - congruence.
    - intro k. rewrite in_map_iff. split.
      + intros (x & EQ & I). apply in_flat_map in I. destruct I as (al & I & X). apply in_map_iff in I. destruct I as (a & <- & I).
        cbn in X. exists a, x. rewrite KN. split; [exact I|split; [|exact EQ]]. now apply IT.
      + intros (a & x & I & X & EQ). exists x. split; [exact EQ|]. apply in_flat_map. eexists. split; [apply in_map, I|]. cbn.
        rewrite <- KN. now apply IT.
  Qed.

  (** ** Writing *)
  Lemma io_write_ok : forall a v p s s' x, io_write E a v p s = (s', Ok x) ->
    db s' = db s /\ ps_key x = pt_key p /\ ps_fp x = pt_fp p /\ pt_storage (ps_part x) = pt_storage p.
  Proof.
    intros a v p s s' x. unfold io_write. destruct (st_kind (pt_storage p)) eqn:SK.
    - intro H. apply andthen_ok in H. destruct H as (s1 & u & H1 & H). apply effect_ok in H1. destruct H1 as (s0 & F0 & D0 & L0 & H1).
      injection H1 as <-. apply andthen_ok in H. destruct H as (s2 & d & H2 & H). apply ret_ok in H2. destruct H2 as [-> _].
      apply andthen_ok in H. destruct H as (s3 & u' & H3 & H). apply effect_ok in H3. destruct H3 as (s4 & F4 & D4 & L4 & H3).
      injection H3 as <-. injection H as <- H. cbn in D4. cbn. split; [congruence|]. unfold take_snapshot in H.
      destruct (content _ p); [|discriminate]. injection H as <-. auto.
    - destruct (pt_value p); [discriminate|]. intro H. apply andthen_ok in H. destruct H as (s2 & d & H2 & H).
      apply ret_ok in H2. destruct H2 as [-> _]. injection H as <- H. split; [reflexivity|]. unfold take_snapshot in H.
      destruct (content _ _); [|discriminate]. injection H as <-. auto.
  Qed.
  Lemma write_output_ok : forall p i a f k v s s' r, write_output E sn p i a f k v s = (s', Ok r) ->
    exists key x b, key_of g a = Ok key /\ ps_key x = k /\ ps_fp x = Some f /\ pt_storage (ps_part x) = a_storage a /\
      b = write_artifact_partitions (db s) (a_storage a) [x] /\
      db s' = write_snapshot_partitions b sn key [x].
  Proof.
    intros p i a f k v s s' r H. apply andthen_ok in H. destruct H as (s1 & key & K & H). apply ret_ok in K. destruct K as [-> K].
    apply andthen_ok in H. destruct H as (s1 & u1 & U1 & H). apply ret_ok in U1. destruct U1 as [-> _].
    apply andthen_ok in H. destruct H as (s1 & u2 & U2 & H). apply ret_ok in U2. destruct U2 as [-> _].
    apply andthen_ok in H. destruct H as (s1 & part & U3 & H). apply ret_ok in U3. destruct U3 as [-> P].
    apply andthen_ok in H. destruct H as (s1 & x & W & H). apply io_write_ok in W. destruct W as (D & XK & XF & XS).
    apply generate_partition_storage in P. destruct P as (P1 & P2 & P3 & _).
    apply andthen_ok in H. destruct H as (s2 & u4 & W1 & W2). apply effect_ok in W1. destruct W1 as (s3 & _ & D3 & _ & W1).
    injection W1 as <-. apply write_links_ok in W2. destruct W2 as [W2 _]. cbn [with_db db] in W2.
    exists key, x, (write_artifact_partitions (db s) (a_storage a) [x]). rewrite W2, D3, D. repeat split; congruence.
  Qed.
  Lemma write_output_covered : forall fps outs p i a f k v s s' r,
    (forall b, In b outs -> a_storage b = a_storage a -> b = a) ->
    write_output E sn p i a f k v s = (s', Ok r) -> In a outs -> covered fps outs s ->
    covered fps outs s' /\ exists x, In x (known_of (db s') (a_storage a)) /\ ps_key x = k /\ ps_fp x = Some f.
  Proof.
    intros fps outs p i a f k v s s' r DS W I C.
    apply write_output_ok in W. destruct W as (key & x & b & K & XK & XF & XS & B & D).
    assert (KN : forall t, known_of (db s') t = known_of b t).
    { intro t. rewrite D. unfold known_of. now destruct (wl_other b sn key [x]) as (_ & _ & _ & ->). }
    assert (KM : forall t, dmem storage_eqb (known (db s')) t = dmem storage_eqb (known b) t).
    { intro t. rewrite D. now destruct (wl_other b sn key [x]) as (_ & _ & _ & ->). }
    assert (LB : links b = links (db s)) by (subst b; now destruct (wa_other (db s) (a_storage a) [x]) as (_ & _ & -> & _)).
    split.
    - intros c Ic. destruct (C c Ic) as (key' & K' & M & HE & HI). exists key'. split; [exact K'|]. split; [|split].
      + rewrite KM, B, wa_mem, M. apply orb_true_r.
      + rewrite D. apply wl_entry. left. unfold has_entry in *. now rewrite LB.
      + intros y Y. rewrite KN, B, wa_known in Y. rewrite D, wl_links. unfold links_of in *. rewrite LB.
        rewrite (proj2 (snapshot_eqb_spec _ _) eq_refl). cbn [andb].
        assert (OLD : In y (select fps (known_of (db s) (a_storage c))) ->
          In y (if str_eqb key key' then adds (getd str_eqb (getd snapshot_eqb (links (db s)) sn []) key []) [x]
                else getd str_eqb (getd snapshot_eqb (links (db s)) sn []) key' [])).
        { intro H. specialize (HI y H). destruct (str_eqb key key') eqn:Q; [|exact HI]. apply str_eqb_spec in Q. subst key'.
          apply adds_In. now left. }
        destruct (storage_eqb (a_storage a) (a_storage c)) eqn:Q; [|now apply OLD].
        apply storage_eqb_spec in Q. assert (c = a) by (apply DS; auto). subst c. rewrite K in K'. injection K' as <-.
        rewrite (proj2 (str_eqb_spec _ _) eq_refl) in *.
        apply select_In in Y. destruct Y as [Y1 Y2]. apply adds_In in Y1. destruct Y1 as [Y1|[ <- |[]]].
        * apply OLD. now apply select_In.
        * apply adds_In. right. now left.
    - exists x. rewrite KN, B, wa_known, (proj2 (storage_eqb_spec _ _) eq_refl). split; [|auto]. apply adds_In. right. now left.
  Qed.
  Lemma write_outputs_ok : forall fps outs p f k vs i s s' r,
    (forall b c, In b outs -> In c outs -> a_storage b = a_storage c -> b = c) -> outputs_of g p = Ok outs ->
    write_outputs E sn p f k i outs vs s = (s', Ok r) -> covered fps outs s ->
    covered fps outs s' /\ (vs <> [] -> i + List.length vs <= List.length outs) /\
    forall j a, i <= j < i + List.length vs -> nth_error outs j = Some a ->
      exists x, In x (known_of (db s') (a_storage a)) /\ ps_key x = k /\ ps_fp x = Some f.
  Proof.
    intros fps outs p f k. induction vs as [|v vs IH]; intros i s s' r DS O H C; cbn [write_outputs] in H.
    - apply ret_ok in H. destruct H as [-> _]. split; [exact C|]. split; [congruence|]. cbn. intros j a H. lia.
    - apply andthen_ok in H. destruct H as (s1 & a & N & H). apply ret_ok in N. destruct N as [-> N].
      destruct (nth_error outs i) as [a'|] eqn:NE; [|discriminate]. injection N as ->.
      apply andthen_ok in H. destruct H as (s1 & u & U & H). apply ret_ok in U. destruct U as [-> _].
      apply andthen_ok in H. destruct H as (s1 & u' & W & H). assert (I := nth_error_In _ _ NE).
      destruct (write_output_covered _ _ _ _ _ _ _ _ _ _ _ (fun b Ib Eb => DS b a Ib I Eb) W I C) as (C1 & x & X).
      destruct (IH _ _ _ _ DS O H C1) as (C2 & L2 & X2). split; [exact C2|]. split.
      + intros _. cbn. destruct vs as [|w vs']; [|assert (NN : w :: vs' <> []) by discriminate; specialize (L2 NN); cbn in *; lia].
        cbn. apply nth_error_Some_lt in NE. lia.
      + intros j b R NB. destruct (Nat.eq_dec j i) as [->|NJ]; [|apply (X2 j); auto; cbn in R; lia].
        rewrite NE in NB. injection NB as <-. exists x. split; [|apply X].
        assert (F := within_write_outputs E sn p outs f k vs (S i) O _ _ _ H). apply (fr_known_mono _ _ _ _ _ F). apply X.
  Qed.
End Done.

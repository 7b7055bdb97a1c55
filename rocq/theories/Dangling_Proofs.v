From Coq Require Import ZArith List Ascii String Bool Arith Lia.
From Verif Require Import Base Base_Proofs Str Str_Proofs Graph_Model Graph_Spec Graph_Proofs Backend_Model Executor_Model Executor_Proofs Dangling_Spec.
Import ListNotations.
Open Scope list_scope.

(** * What is logged *)
Section Logged.
  Context {V : Type} (Q : action V -> Prop).
  Definition logs {A} (m : M V A) : Prop := forall s s' r, m s = (s', r) -> exists new, log s' = new ++ log s /\ Forall Q new.
  Lemma logs_nothing : forall A (m : M V A), (forall s, log (fst (m s)) = log s) -> logs m.
  Proof. intros A m H s s' r E. exists []. split; [|constructor]. specialize (H s). rewrite E in H. exact H. Qed.
  Lemma logs_ret : forall A (x : result A), logs (ret x).
  Proof. intros A x. apply logs_nothing. reflexivity. Qed.
  Lemma logs_then : forall A B (m : M V A) (f : A -> M V B), logs m -> (forall a, logs (f a)) -> logs (andthen m f).
  Proof.
    intros A B m f Hm Hf s s' r E. unfold andthen in E. destruct (m s) as [s1 [a|e]] eqn:M1; destruct (Hm _ _ _ M1) as (n1 & L1 & F1).
    - destruct (Hf a _ _ _ E) as (n2 & L2 & F2). exists (n2 ++ n1). split; [now rewrite L2, L1, app_assoc|]. apply Forall_app. tauto.
    - injection E as <- _. now exists n1.
  Qed.
  Lemma logs_effect : forall A (f : state V -> state V * result A), logs f -> logs (effect f).
  Proof.
    intros A f H. unfold effect. apply logs_then; [|intros _; exact H]. apply logs_nothing.
    intro s. destruct (tick s) as [s1 u] eqn:T. apply tick_ok in T. cbn. tauto.
  Qed.
  Lemma logs_collect : forall A B (f : A -> M V B) l, (forall x, In x l -> logs (f x)) -> logs (collectM f l).
  Proof.
    intros A B f l. induction l as [|x l IH]; intro H; cbn [collectM]; [apply logs_ret|].
    apply logs_then; [apply H; now left|]. intro y. apply logs_then; [apply IH; intros; apply H; now right|]. intro. apply logs_ret.
  Qed.
  Lemma logs_each : forall A (f : A -> M V unit) l, (forall x, In x l -> logs (f x)) -> logs (eachM f l).
  Proof.
    intros A f l. induction l as [|x l IH]; intro H; cbn [eachM]; [apply logs_ret|].
    apply logs_then; [apply H; now left|]. intros _. apply IH. intros; apply H; now right.
  Qed.
End Logged.

Section Build.
  Context {V : Type} (E : env V) (sn : snapshot).
  Notation g := (g_arts (s_graph sn)).

  Lemma key_lookup : forall a, dget artifact_eqb (artifact_to_key g) a = None <-> ~ In a (map snd g).
  Proof.
    intro a. unfold artifact_to_key, dict_of. rewrite (dget_dupdate artifact_eqb artifact_eqb_spec). cbn [dget].
    rewrite <- (map_rev). assert (H := dget_None artifact_eqb artifact_eqb_spec (map (fun ka : str * artifact => (snd ka, fst ka)) (rev g)) a).
    rewrite map_map in H. cbn [fst] in H.
    assert (R : In a (map snd (rev g)) <-> In a (map snd g)) by (rewrite map_rev; symmetry; apply in_rev).
    change (map (fun x => snd x) (rev g)) with (map snd (rev g)) in H. rewrite R in H. rewrite <- H. destruct (dget _ _ a); split; congruence.
  Qed.
  Lemma key_missing : forall a, ~ In a (map snd g) -> key_of (s_graph sn) a = Err KeyError.
  Proof. intros a N. apply key_lookup in N. unfold key_of. now rewrite N. Qed.
  Lemma key_known : forall a, In a (map snd g) -> exists k, key_of (s_graph sn) a = Ok k.
  Proof.
    intros a I. unfold key_of. destruct (dget artifact_eqb (artifact_to_key g) a) as [k|] eqn:D; [now exists k|].
    apply key_lookup in D. contradiction.
  Qed.

  Notation input := (fun na : str * artifact => key <- ret (key_of (s_graph sn) (snd na)) ;; l <- read_links E sn key ;; ret (Ok (fst na, l))).
  Lemma read_links_kept : forall key s, fuel s = None ->
    exists l, exists s', read_links E sn key s = (s', Ok l) /\ files s' = files s /\ log s' = log s /\ fuel s' = None.
  Proof.
    intros key s F. unfold read_links, effect, andthen. rewrite tick_none by exact F.
    destruct (read_snapshot_partitions (db s) sn key) as [b l]. do 2 eexists. split; [reflexivity|]. cbn. auto.
  Qed.
  Lemma then_ok : forall A B (m : M V A) (f : A -> M V B) s s1 a, m s = (s1, Ok a) -> andthen m f s = f a s1.
  Proof. intros A B m f s s1 a H. unfold andthen. now rewrite H. Qed.
  Lemma then_err : forall A B (m : M V A) (f : A -> M V B) s s1 e, m s = (s1, Err e) -> andthen m f s = (s1, Err e).
  Proof. intros A B m f s s1 e H. unfold andthen. now rewrite H. Qed.
  Lemma input_step : forall n b s k s1 l, key_of (s_graph sn) b = Ok k -> read_links E sn k s = (s1, Ok l) -> input (n, b) s = (s1, Ok (n, l)).
  Proof. intros n b s k s1 l K R. cbn [fst snd]. unfold andthen, ret. now rewrite K, R. Qed.
  Lemma input_fails : forall n b s e, key_of (s_graph sn) b = Err e -> input (n, b) s = (s, Err e).
  Proof. intros n b s e K. cbn [fst snd]. unfold andthen, ret. now rewrite K. Qed.
  Lemma inputs_fail : forall ins s, (exists a, In a (map snd ins) /\ ~ In a (map snd g)) -> fuel s = None ->
    exists s', collectM input ins s = (s', Err KeyError) /\ files s' = files s /\ log s' = log s /\ fuel s' = None.
  Proof.
    induction ins as [|[n b] ins IH]; intros s (a & I & N) F; [destruct I|].
    cbn [collectM]. destruct (key_of (s_graph sn) b) as [k|e] eqn:K.
    - assert (Ia : In a (map snd ins)).
      { destruct I as [Ea|I]; [|exact I]. cbn in Ea. subst a. rewrite (key_missing _ N) in K. discriminate. }
      destruct (read_links_kept k s F) as (l & s1 & R & F1 & L1 & F1').
      destruct (IH s1 (ex_intro _ a (conj Ia N)) F1') as (s2 & C & F2 & L2 & F2').
      exists s2. erewrite then_ok by (eapply input_step; eassumption). erewrite then_err by exact C.
      split; [reflexivity|]. split; [congruence|]. split; [congruence|exact F2'].
    - assert (e = KeyError) by (unfold key_of in K; destruct (dget artifact_eqb (artifact_to_key g) b); congruence). subst e.
      exists s. erewrite then_err by (apply input_fails; exact K). auto.
  Qed.
  Lemma producer_fails : forall p a s, dangling g p a -> fuel s = None ->
    exists s', build_producer E sn p s = (s', Err KeyError) /\ files s' = files s /\ log s' = log s.
  Proof.
    intros p a s (_ & I & N) F. destruct (inputs_fail (p_inputs p) s (ex_intro _ a (conj I N)) F) as (s' & C & Fs & Ls & _).
    exists s'. unfold build_producer, get_producer_inputs. erewrite then_err by exact C. auto.
  Qed.
  Lemma inputs_ok : forall ins s, (forall a, In a (map snd ins) -> In a (map snd g)) -> fuel s = None ->
    exists s' l, collectM input ins s = (s', Ok l) /\ map fst l = map fst ins /\ files s' = files s /\ log s' = log s /\ fuel s' = None.
  Proof.
    induction ins as [|[n b] ins IH]; intros s H F; [exists s, []; cbn; auto|].
    cbn [collectM]. destruct (key_known b (H b (or_introl eq_refl))) as (k & K).
    destruct (read_links_kept k s F) as (l & s1 & R & F1 & L1 & F1').
    destruct (IH s1 (fun a I => H a (or_intror I)) F1') as (s2 & l2 & C & M2 & F2 & L2 & F2').
    exists s2, ((n, l) :: l2). split.
    - erewrite then_ok by (eapply input_step; eassumption). erewrite then_ok by exact C. reflexivity.
    - cbn. rewrite M2. repeat split; congruence.
  Qed.
  Lemma complete_inputs : forall p k x i s, complete g -> In (k, x) g -> a_output x = Some (p, i) -> fuel s = None ->
    exists s' l, get_producer_inputs E sn p s = (s', Ok l) /\ map fst l = map fst (p_inputs p) /\ files s' = files s /\ log s' = log s.
  Proof.
    intros p k x i s C I O F. assert (H : forall a, In a (map snd (p_inputs p)) -> In a (map snd g)).
    { intros a Ia. destruct (in_dec (fun a b => match Bool.bool_dec (artifact_eqb a b) true with
        | left e => left (proj1 (artifact_eqb_spec a b) e) | right n => right (fun e => n (proj2 (artifact_eqb_spec a b) e)) end) a (map snd g)) as [J|J]; [exact J|].
      destruct (C p a). split; [now exists k, x, i|]. now split. }
    destruct (inputs_ok (p_inputs p) s H F) as (s' & l & Cl & M1 & Fs & Ls & _). exists s', l. now split.
  Qed.

  (** A failing step. *)
  Lemma each_fails : forall A (f : A -> M V unit) l x, In x l -> (forall s, snd (f x s) <> Ok tt) -> forall s, snd (eachM f l s) <> Ok tt.
  Proof.
    intros A f l x I H. induction l as [|y l IH]; [destruct I|]. intro s. cbn [eachM]. unfold andthen.
    destruct I as [->|I].
    - specialize (H s). destruct (f x s) as [s' [[]|e]]; cbn in *; [congruence|discriminate].
    - destruct (f y s) as [s' [u|e]]; cbn; [now apply IH|discriminate].
  Qed.
  Lemma collect_fails : forall ins s, (exists a, In a (map snd ins) /\ ~ In a (map snd g)) -> exists s' e, collectM input ins s = (s', Err e).
  Proof.
    induction ins as [|[n b] ins IH]; intros s (a & I & N); [destruct I|]. cbn [collectM].
    destruct (key_of (s_graph sn) b) as [k|e] eqn:K.
    2: { do 2 eexists. erewrite then_err by (apply input_fails; exact K). reflexivity. }
    assert (Ia : In a (map snd ins)).
    { destruct I as [Ea|I]; [|exact I]. cbn in Ea. subst a. rewrite (key_missing _ N) in K. discriminate. }
    destruct (read_links E sn k s) as [s1 [x|e]] eqn:R.
    - destruct (IH s1 (ex_intro _ a (conj Ia N))) as (s2 & e & C). exists s2, e.
      erewrite then_ok by (eapply input_step; eassumption). erewrite then_err by exact C. reflexivity.
    - exists s1, e. apply then_err. cbn [fst snd]. unfold andthen, ret. now rewrite K, R.
  Qed.
  Lemma build_fails : forall p a s, dangling g p a -> snd (build E sn s) <> Ok tt.
  Proof.
    intros p a s ((k & x & i & I & O) & D & N). unfold build, andthen, ret.
    destruct (dependencies_order g) as (l & S & (_ & B & _)). rewrite S. unfold build_nodes. apply each_fails with (x := NProducer p).
    - apply B. assert (J : In (NProducer p) (map fst (dependencies g))) by (apply dependencies_defines; eapply defines_producer; eassumption).
      apply in_map_iff in J. destruct J as ([n ps] & <- & J). exists n, ps. split; [exact J|now left].
    - intros s1. destruct (collect_fails (p_inputs p) s1 (ex_intro _ a (conj D N))) as (s2 & e & C).
      unfold build_producer, get_producer_inputs. erewrite then_err by exact C. discriminate.
  Qed.

  (** * Whose code is called *)
  Definition by_other (p : producer) (x : action V) : Prop := ~ called p x.
  Lemma producer_logs : forall p q, q <> p -> logs (by_other p) (build_producer E sn q).
  Proof.
    intros p q N. unfold build_producer, get_producer_inputs.
    assert (RL : forall k, logs (by_other p) (read_links E sn k)).
    { intro k. apply logs_effect, logs_nothing. intro s. destruct (read_snapshot_partitions (db s) sn k). reflexivity. }
    assert (WL : forall k l, logs (by_other p) (write_links (V := V) sn k l)).
    { intros k l. apply logs_effect, logs_nothing. reflexivity. }
    apply logs_then.
    { apply logs_collect. intros na _. apply logs_then; [apply logs_ret|]. intro k. apply logs_then; [apply RL|]. intro. apply logs_ret. }
    intro ins. apply logs_then; [apply logs_ret|]. intro df. apply logs_then.
    { unfold discover_producer_partitions. apply logs_then; [apply logs_ret|]. intro outs. apply logs_then.
      - apply logs_collect. intros a _. apply logs_then; [|intro; apply logs_ret]. apply logs_effect, logs_nothing. intro s.
        destruct (read_artifact_partitions _ _ _ _). reflexivity.
      - intro found. apply logs_then; [|intro; apply logs_ret]. apply logs_each. intros al _. apply logs_then; [apply logs_ret|]. intro k. apply WL. }
    intro existing. apply logs_each. intros kd _. apply logs_then; [apply logs_ret|]. intro f. unfold build_producer_partition.
    match goal with |- logs _ (if ?b then _ else _) => destruct b end; [apply logs_ret|]. apply logs_then.
    { apply logs_collect. intros n _. apply logs_then; [apply logs_ret|]. intro a. apply logs_then; [apply logs_ret|]. intro d.
      apply logs_then; [|intro; apply logs_ret]. unfold read_input. apply logs_then; [apply logs_ret|]. intro. apply logs_nothing. reflexivity. }
    intro args. apply logs_then.
    { apply logs_effect. intros s s' r H. injection H as <- _. exists [Built q (fst kd) args]. split; [reflexivity|]. constructor; [|constructor].
      intro C. inversion C. congruence. }
    intro vs. apply logs_then.
    { apply logs_effect. intros s s' r H. injection H as <- _. exists [Validated q (fst kd) vs]. split; [reflexivity|]. constructor; [|constructor].
      intro C. inversion C. congruence. }
    intros [|]; [|apply logs_ret]. apply logs_then; [apply logs_ret|]. intro outs. generalize 0 as i. induction vs as [|v vs IH]; intro i; cbn [write_outputs]; [apply logs_ret|].
    apply logs_then; [apply logs_ret|]. intro a. apply logs_then; [apply logs_ret|]. intros _. apply logs_then; [|intros _; apply IH].
    unfold write_output. apply logs_then; [apply logs_ret|]. intro key. apply logs_then; [apply logs_ret|]. intros _. apply logs_then; [apply logs_ret|].
    intros _. apply logs_then; [apply logs_ret|]. intro part. apply logs_then.
    - unfold io_write. destruct (st_kind (pt_storage part)).
      + apply logs_then; [apply logs_effect, logs_nothing; reflexivity|]. intros _. apply logs_then; [apply logs_ret|]. intro d.
        apply logs_then; [|intros _; apply logs_nothing; reflexivity]. apply logs_effect. intros s s' r H. injection H as <- _.
        exists [Wrote (location_of part) d]. split; [reflexivity|]. constructor; [|constructor]. intro C. inversion C.
      + destruct (pt_value part); [apply logs_ret|]. apply logs_then; [apply logs_ret|]. intro d. apply logs_nothing. reflexivity.
    - intro x. apply logs_then; [|intros _; apply WL]. apply logs_effect, logs_nothing. reflexivity.
  Qed.
  Lemma dangling_logs : forall p a, dangling g p a -> logs (by_other p) (build_producer E sn p).
  Proof.
    intros p a (_ & D & N) s s' r H. destruct (collect_fails (p_inputs p) s (ex_intro _ a (conj D N))) as (s2 & e & C).
    assert (L : logs (by_other p) (collectM input (p_inputs p))).
    { apply logs_collect. intros na _. apply logs_then; [apply logs_ret|]. intro k. apply logs_then; [|intro; apply logs_ret].
      apply logs_effect, logs_nothing. intro s0. destruct (read_snapshot_partitions (db s0) sn k). reflexivity. }
    unfold build_producer, get_producer_inputs in H. erewrite then_err in H by exact C. injection H as <- _.
    exact (L _ _ _ C).
  Qed.
  Lemma never_called : forall p a s s' r, dangling g p a -> build E sn s = (s', r) ->
    exists new, log s' = new ++ log s /\ forall x, In x new -> ~ called p x.
  Proof.
    intros p a s s' r D H. assert (L : logs (by_other p) (build E sn)).
    { unfold build. apply logs_then; [apply logs_ret|]. intro order. unfold build_nodes. apply logs_each. intros n _.
      destruct n as [b|q]; [apply logs_ret|]. destruct (producer_eqb q p) eqn:Q.
      - apply producer_eqb_spec in Q. subst q. eapply dangling_logs, D.
      - apply producer_logs. intros ->. assert (producer_eqb p p = true) by now apply producer_eqb_spec. congruence. }
    destruct (L _ _ _ H) as (new & E1 & F). exists new. split; [exact E1|]. intros x I. rewrite Forall_forall in F. exact (F x I).
  Qed.
End Build.

(** * Assigning replaces artifacts *)
From Verif Require Partitions_Model Template_Spec Storage_Model Placement_Model Placement_Spec Placement_Proofs Places_Proofs.
Section Replaced.
  Import Template_Spec Storage_Model Placement_Model Placement_Spec Placement_Proofs.
  Lemma first_level : forall g names, context_ok g -> names_in_graph names ->
    exists c rest, c <> "{"%char /\ flat_map (fun n => $"/" ++ n) (levels g names) = "/"%char :: c :: rest.
  Proof.
    intros g names [Hn Ht] [N S]. unfold levels. destruct (g_name g) as [|c n] eqn:G.
    - cbn [app]. destruct (g_tags g) as [|[t v] tags].
      + cbn [map app]. destruct names as [|n names]; [congruence|]. inversion S as [|? ? [Ne A] _]; subst. destruct n as [|c n]; [congruence|].
        inversion A as [|? ? A1]; subst. exists c. eexists. split; [intros ->; apply A1; cbn; tauto|reflexivity].
      + cbn [map app flat_map fst snd]. destruct (Ht t v (or_introl eq_refl)) as [A _]. destruct t as [|c t].
        * exists "="%char. eexists. split; [discriminate|reflexivity].
        * inversion A as [|? ? A1]; subst. exists c. eexists. split; [intros ->; apply A1; cbn; tauto|reflexivity].
    - inversion Hn as [|? ? A1]; subst. exists c. eexists. split; [intros ->; apply A1; cbn; tauto|reflexivity].
  Qed.
  Lemma replaced : forall other root g names x st a, avoids $"{}" root -> context_ok g -> names_in_graph names -> defaulted_ok x ->
    artifact_storage other (rooted_at root) (d_key_types x) (d_extension x) = Ok st -> place_default other root g names x = Ok a ->
    Placement_Model.a_storage a <> st.
  Proof.
    intros other root g names x st a R G N D S P. rewrite Places_Proofs.placed_exactly in P by assumption. injection P as <-. cbn [Placement_Model.a_storage].
    destruct x as [kts ext pr]. destruct D as (Pn & Nr & Ex). cbn [d_key_types d_extension d_produced] in *.
    rewrite (stage2 other root ext kts R Pn) in S by (intro I; apply (Nr _ I); cbn; tauto). injection S as <-.
    unfold local_file, path_storage_of. intro E.
    assert (T : default_place root g names {| d_key_types := kts; d_extension := ext; d_produced := pr |} = print (t2 root ext kts)) by congruence.
    unfold default_place, directory in T. destruct (first_level g names G N) as (c & rest & Nc & L). rewrite L in T.
    unfold t2, front in T. cbn [app] in T. cbn [print flat_map print_tok] in T. rewrite <- !app_assoc in T. apply app_inv_head in T.
    cbn [app] in T. injection T as T _. congruence.
  Qed.
End Replaced.

(** Building a snapshot again, after whatever happened since it was built. *)
From Coq Require Import ZArith List Ascii String Bool Arith Lia.
From Verif Require Import Base Base_Proofs Str Str_Proofs Graph_Model Graph_Spec Graph_Proofs.
From Verif Require Import Backend_Model Backend_Spec Backend_Proofs Executor_Model Executor_Spec Executor_Proofs.
From Verif Require Import Executor_Done_Proofs Executor_Build_Proofs Executor_Link_Proofs Executor_Resume_Proofs Executor_Resumed_Proofs Executor_New_Proofs.
From Verif Require Import Executor_Stop_Proofs Executor_Top_Proofs Lasting_Model Lasting_Spec Lasting_Proofs.
Import ListNotations.
Open Scope list_scope.

(** * Actions that change nothing *)
Section Still.
  Context {V : Type} (E : env V) (IT : iterates E).
  Implicit Types s : state V.
  Definition same s s' : Prop := files s' = files s /\ known (db s') = known (db s) /\ forall sn key, links_of (db s') sn key = links_of (db s) sn key.
  Definition stil {A} s0 (m : M V A) (Q : A -> Prop) : Prop := forall s s' r, same s0 s -> m s = (s', r) -> same s0 s' /\ match r with Ok a => Q a | Err _ => True end.
  Definition any {A} (a : A) : Prop := True.
  Lemma stil_ret : forall A s0 (x : result A), stil s0 (ret x) (fun a => x = Ok a).
  Proof. intros A s0 x s s' r S H. injection H as <- <-. split; [exact S|]. now destruct x. Qed.
  Lemma stil_bind : forall A B s0 (m : M V A) (f : A -> M V B) Q R, stil s0 m Q -> (forall a, Q a -> stil s0 (f a) R) -> stil s0 (andthen m f) R.
  Proof.
    intros A B s0 m f Q R Hm Hf s s' r S H. unfold andthen in H. destruct (m s) as [s1 [a|e]] eqn:E1; destruct (Hm _ _ _ S E1) as [S1 Q1].
    - eapply Hf; eauto.
    - injection H as <- <-. now split.
  Qed.
  Lemma stil_post : forall A s0 (m : M V A) (Q R : A -> Prop), stil s0 m Q -> (forall a, Q a -> R a) -> stil s0 m R.
  Proof. intros A s0 m Q R H HQ s s' r S X. destruct (H _ _ _ S X) as [S1 Q1]. split; [exact S1|]. destruct r; auto. Qed.
  Lemma stil_each : forall A s0 (f : A -> M V unit) l, (forall x, In x l -> stil s0 (f x) any) -> stil s0 (eachM f l) any.
  Proof.
    intros A s0 f. induction l as [|x l IH]; intro H; cbn [eachM]; [eapply stil_post; [apply stil_ret|]; now intros|].
    eapply stil_bind; [apply H; now left|]. intros ? _. apply IH. intros y J. apply H. now right.
  Qed.
  Lemma stil_collect : forall A B s0 (f : A -> M V B) (Q : A -> B -> Prop) l, (forall x, In x l -> stil s0 (f x) (Q x)) -> stil s0 (collectM f l) (Forall2 Q l).
  Proof.
    intros A B s0 f Q. induction l as [|x l IH]; intro H; cbn [collectM].
    - eapply stil_post; [apply stil_ret|]. intros a X. injection X as <-. constructor.
    - eapply stil_bind; [apply H; now left|]. intros y Y. eapply stil_bind; [apply IH; intros z J; apply H; now right|]. intros ys YS.
      eapply stil_post; [apply stil_ret|]. intros a X. injection X as <-. now constructor.
  Qed.
  Lemma stil_effect : forall A s0 (f : state V -> state V * result A) Q, stil s0 f Q -> stil s0 (effect f) Q.
  Proof.
    intros A s0 f Q H. eapply stil_bind with any; [|intros ? _; exact H]. intros s s' r (S1 & S2 & S3) X. apply tick_ok in X. destruct X as (F & B & _).
    split; [|now destruct r]. split; [congruence|]. split; [congruence|]. intros. now rewrite B.
  Qed.
  Lemma stil_read_links : forall s0 sn k, stil s0 (read_links E sn k) (fun l => l = iter_set E (links_of (db s0) sn k)).
  Proof.
    intros s0 sn k. apply stil_effect. intros s s' r (S1 & S2 & S3) H. assert (L := rl_spec (db s) sn k).
    destruct (read_snapshot_partitions (db s) sn k) as [b l]. injection H as <- <-. destruct L as (-> & L1 & _ & _ & _ & L5).
    split; [|now rewrite S3]. split; [exact S1|]. cbn [with_db db]. split; [congruence|]. intros. now rewrite L1.
  Qed.
  Lemma stil_read_known : forall s0 t fps, known_of (db s0) t <> [] -> stil s0 (read_known E t fps) (fun l => l = iter_set E (select fps (known_of (db s0) t))).
  Proof.
    intros s0 t fps M. apply stil_effect. intros s s' r (S1 & S2 & S3) H. rewrite ra_present in H.
    - rewrite with_db_same in H. injection H as <- <-. split; [now repeat split|]. cbn. unfold known_of. now rewrite S2.
    - rewrite S2. unfold dmem. unfold known_of, getd in M. destruct (dget storage_eqb (known (db s0)) t); [reflexivity|now destruct M].
  Qed.
  Lemma stil_write_links : forall s0 sn k new, (forall x, In x new -> In x (links_of (db s0) sn k)) -> stil s0 (write_links sn k new) any.
  Proof.
    intros s0 sn k new I. apply stil_effect. intros s s' r (S1 & S2 & S3) H. injection H as <- <-. split; [|exact Logic.I].
    destruct (wl_other (db s) sn k new) as (_ & _ & _ & K). split; [exact S1|]. cbn [with_db db]. split; [congruence|]. intros sn' k'. rewrite wl_links.
    destruct (snapshot_eqb sn sn' && str_eqb k k')%bool eqn:Q; [|apply S3]. apply andb_true_iff in Q. destruct Q as [Q1 Q2].
    apply snapshot_eqb_spec in Q1. apply str_eqb_spec in Q2. subst sn' k'. rewrite adds_present; [apply S3|]. intros x J. rewrite S3. now apply I.
  Qed.

  Context (sn : snapshot).
  Notation g := (s_graph sn).
  (** All a producer asks for is there and linked. *)
  Definition kept (p : producer) s : Prop := exists inputs deps fps outs,
    inputs_at E sn (db s) (p_inputs p) inputs /\ compute_dependencies E p inputs = Ok (deps, fps) /\ deps <> [] /\ outputs_of g p = Ok outs /\ outs <> [] /\
    (forall a, In a outs -> exists key, key_of g a = Ok key /\ forall x, In x (select fps (known_of (db s) (a_storage a))) -> In x (links_of (db s) sn key)) /\
    (forall a k d, In a outs -> In (k, d) deps -> exists f, get_fp fps k = Some f /\ provided s (a_storage a) k f).
  Lemma stil_producer : forall p s0, kept p s0 -> stil s0 (build_producer E sn p) any.
  Proof.
    intros p s0 (inputs & deps & fps & outs & IN & CD & DN & O & ON & CO & PR). unfold build_producer.
    eapply stil_bind with (fun i => i = inputs).
    { unfold get_producer_inputs. eapply stil_post; [apply (stil_collect _ _ _ _ (fun na nl => exists key, key_of g (snd na) = Ok key /\ nl = (fst na, iter_set E (links_of (db s0) sn key))))|].
      - intros na _. eapply stil_bind; [apply stil_ret|]. intros key K. eapply stil_bind; [apply stil_read_links|]. cbn beta. intros l ->.
        eapply stil_post; [apply stil_ret|]. intros y Y. injection Y as <-. exists key. now split.
      - intros i I. eapply inputs_at_fun; [exact I|exact IN]. }
    intros i ->. eapply stil_bind; [apply stil_ret|]. intros df Q. rewrite CD in Q. injection Q as <-. cbn [fst snd].
    assert (SOME : forall a, In a outs -> known_of (db s0) (a_storage a) <> []).
    { intros a Ia. destruct deps as [|[k d] deps]; [now destruct DN|]. destruct (PR a k d Ia (or_introl eq_refl)) as (f & _ & x & Ix & _). intro Q. now rewrite Q in Ix. }
    eapply stil_bind with (fun existing => forall k d, In (k, d) deps -> In k existing).
    { unfold discover_producer_partitions. eapply stil_bind; [apply stil_ret|]. intros outs' O'. rewrite O in O'. injection O' as <-.
      eapply stil_bind; [apply (stil_collect _ _ _ _ (fun a al => al = (a, iter_set E (select fps (known_of (db s0) (a_storage a))))))|].
      { intros a Ia. eapply stil_bind; [apply stil_read_known, SOME, Ia|]. cbn beta. intros l ->. eapply stil_post; [apply stil_ret|]. cbn beta. congruence. }
      intros found FO. assert (FE : found = map (fun a => (a, iter_set E (select fps (known_of (db s0) (a_storage a))))) outs).
      { clear - FO. induction FO as [|a al outs found -> FO IH]; [reflexivity|]. cbn [map]. now rewrite IH. }
      subst found. clear FO. eapply stil_bind with any.
      - apply stil_each. intros al Ial. apply in_map_iff in Ial. destruct Ial as (a & <- & Ia). cbn [fst snd]. eapply stil_bind; [apply stil_ret|].
        intros key K. destruct (CO a Ia) as (key' & K' & CL). rewrite K in K'. injection K' as <-. apply stil_write_links. intros x Ix.
        apply (proj1 (IT _ _)) in Ix. now apply CL.
      - intros u _. eapply stil_post; [apply stil_ret|]. intros ex Q k d J. injection Q as <-. destruct outs as [|a outs]; [now destruct ON|].
        destruct (PR a k d (or_introl eq_refl) J) as (f & GF & x & Ix & XK & XF). apply in_map_iff. exists x. split; [exact XK|]. cbn [map flat_map snd].
        apply in_app_iff. left. apply IT. eapply select_match; eauto. }
    intros existing EX. apply stil_each. intros [k d] J. cbn [fst snd]. eapply stil_bind; [apply stil_ret|]. intros f _. unfold build_producer_partition.
    replace (existsb (str_eqb k) existing) with true; [eapply stil_post; [apply stil_ret|]; now intros|]. symmetry. apply existsb_exists.
    exists k. split; [eapply EX, J|now apply str_eqb_spec].
  Qed.
  Lemma stil_nodes : forall order s0, (forall p, In (NProducer p) order -> kept p s0) -> stil s0 (build_nodes E sn order) any.
  Proof.
    intros order s0 K. apply stil_each. intros [a|p] I; [eapply stil_post; [apply stil_ret|]; now intros|]. apply stil_producer. now apply K.
  Qed.
  Lemma same_refl : forall s, same s s.
  Proof. now repeat split. Qed.
End Still.

(** * Records are added where there are none *)
Section Fresh.
  Context {V : Type} (E : env V) (IT : iterates E).
  Implicit Types s : state V.
  Record fresh s s' : Prop := {
    fr_old : forall t x, In x (known_of (db s) t) -> In x (known_of (db s') t);
    fr_new : forall t x, In x (known_of (db s') t) -> In x (known_of (db s) t) \/ ps_fp x = None \/
      forall y, In y (known_of (db s) t) -> ps_key y = ps_key x -> ps_fp y <> ps_fp x }.
  Lemma fresh_same : forall s s', known (db s') = known (db s) -> fresh s s'.
  Proof. intros s s' K. constructor; unfold known_of; rewrite K; auto. Qed.
  Lemma fresh_trans : forall s1 s2 s3, fresh s1 s2 -> fresh s2 s3 -> fresh s1 s3.
  Proof.
    intros s1 s2 s3 A B. constructor.
    - intros t x I. apply (fr_old _ _ B), (fr_old _ _ A), I.
    - intros t x I. destruct (fr_new _ _ B t x I) as [X|[X|X]]; [apply (fr_new _ _ A _ _ X)|now right; left|]. right. right. intros y J. apply X, (fr_old _ _ A), J.
  Qed.
  Definition freshly {A} (m : M V A) : Prop := forall s s' r, m s = (s', r) -> fresh s s'.
  Lemma freshly_ret : forall A (x : result A), freshly (ret x).
  Proof. intros A x s s' r H. injection H as <- _. now apply fresh_same. Qed.
  Lemma freshly_bind : forall A B (m : M V A) (f : A -> M V B), freshly m -> (forall a, freshly (f a)) -> freshly (andthen m f).
  Proof.
    intros A B m f Hm Hf s s' r H. unfold andthen in H. destruct (m s) as [s1 [a|e]] eqn:E1.
    - eapply fresh_trans; [eapply Hm, E1|eapply Hf, H].
    - injection H as <- _. eapply Hm, E1.
  Qed.
  Lemma freshly_each : forall A (f : A -> M V unit) l, (forall x, freshly (f x)) -> freshly (eachM f l).
  Proof. intros A f l H. induction l as [|x l IH]; cbn [eachM]; [apply freshly_ret|]. now apply freshly_bind. Qed.
  Lemma freshly_collect : forall A B (f : A -> M V B) l, (forall x, freshly (f x)) -> freshly (collectM f l).
  Proof.
    intros A B f l H. induction l as [|x l IH]; cbn [collectM]; [apply freshly_ret|]. apply freshly_bind; [apply H|]. intro. apply freshly_bind; [exact IH|].
    intro. apply freshly_ret.
  Qed.
  Lemma freshly_effect : forall A (f : state V -> state V * result A), freshly f -> freshly (effect f).
  Proof. intros A f H. apply freshly_bind; [|intro; exact H]. intros s s' r X. apply tick_ok in X. destruct X as (_ & B & _). apply fresh_same. now rewrite B. Qed.
  Lemma freshly_read_links : forall sn k, freshly (read_links E sn k).
  Proof.
    intros sn k. apply freshly_effect. intros s s' r H. assert (L := rl_spec (db s) sn k).
    destruct (read_snapshot_partitions (db s) sn k) as [b l]. injection H as <- _. apply fresh_same. cbn. tauto.
  Qed.
  Lemma freshly_write_links : forall sn k new, freshly (write_links sn k new).
  Proof.
    intros sn k new. apply freshly_effect. intros s s' r H. injection H as <- _. apply fresh_same. cbn. now destruct (wl_other (db s) sn k new) as (_ & _ & _ & ->).
  Qed.
  Lemma freshly_read_known : forall t fps, freshly (read_known E t fps).
  Proof.
    intros t fps. apply freshly_effect. intros s s' r H. assert (L := ra_spec (db s) t fps (discover E (files s) t fps)).
    destruct (read_artifact_partitions (db s) t fps (discover E (files s) t fps)) as [b x]. injection H as <- _.
    destruct L as (_ & _ & _ & _ & L). assert (CC : b = db s \/ exists found, dmem storage_eqb (known (db s)) t = false /\ b = write_artifact_partitions (db s) t found).
    { destruct x as [l|e]; [destruct L as (_ & [(_ & ->)|(f & _ & D & ->)])|destruct L as (-> & _)]; eauto. }
    destruct CC as [-> |(found & D & ->)]; [now apply fresh_same|]. constructor; cbn [with_db db]; intros t' y; rewrite wa_known; destruct (storage_eqb t t') eqn:Q; auto.
    - apply storage_eqb_spec in Q. subst t'. rewrite adds_In. auto.
    - apply storage_eqb_spec in Q. subst t'. intros _. right. right. intros z J. exfalso. unfold known_of, getd in J. unfold dmem in D.
      destruct (dget storage_eqb (known (db s)) t); [discriminate|destruct J].
  Qed.
  Context (sn : snapshot).
  Notation g := (s_graph sn).
  Lemma freshly_discover : forall p fps, freshly (discover_producer_partitions E sn p fps).
  Proof.
    intros p fps. apply freshly_bind; [apply freshly_ret|]. intro outs. apply freshly_bind.
    - apply freshly_collect. intro a. apply freshly_bind; [apply freshly_read_known|]. intro. apply freshly_ret.
    - intro found. apply freshly_bind; [|intro; apply freshly_ret]. apply freshly_each. intro al. apply freshly_bind; [apply freshly_ret|]. intro. apply freshly_write_links.
  Qed.
  Lemma freshly_inputs : forall p, freshly (get_producer_inputs E sn p).
  Proof.
    intro p. apply freshly_collect. intro na. apply freshly_bind; [apply freshly_ret|]. intro. apply freshly_bind; [apply freshly_read_links|]. intro. apply freshly_ret.
  Qed.
  Lemma fresh_loop : forall p existing fps deps s s' r, NoDup (map fst deps) ->
    (forall k d f t x, In (k, d) deps -> ~ In k existing -> get_fp fps k = Some f -> out_storage sn p t -> In x (known_of (db s) t) -> ps_key x = k -> ps_fp x <> Some f) ->
    eachM (fun kd => f <- ret (match get_fp fps (fst kd) with Some f => Ok f | None => Err ValueError end) ;;
                     build_producer_partition E sn p existing f (snd kd) (fst kd)) deps s = (s', r) -> fresh s s'.
  Proof.
    intros p existing fps. induction deps as [|[k d] deps IH]; intros s s' r ND FR H; cbn [eachM] in H.
    - injection H as <- _. now apply fresh_same.
    - inversion ND as [|? ? N1 N2]; subst. cbn [fst snd] in *. unfold andthen at 1 in H.
      destruct ((f <- ret (match get_fp fps k with Some f => Ok f | None => Err ValueError end) ;; build_producer_partition E sn p existing f d k) s) as [s1 r1] eqn:P.
      assert (X : fresh s s1 /\ forall t x, In x (known_of (db s1) t) -> In x (known_of (db s) t) \/ ps_key x = k).
      { unfold andthen, ret in P. destruct (get_fp fps k) as [f|] eqn:GF; [|injection P as <- _; split; [now apply fresh_same|auto]].
        destruct (existsb (str_eqb k) existing) eqn:EX.
        - unfold build_producer_partition in P. rewrite EX in P. injection P as <- _. split; [now apply fresh_same|auto].
        - assert (NE : ~ In k existing).
          { intro J. assert (existsb (str_eqb k) existing = true) by (apply existsb_exists; exists k; split; [exact J|now apply str_eqb_spec]). congruence. }
          destruct (acts_partition E sn p existing f d k s s1 r1 I P) as [M _]. split.
          + constructor; [apply (mv_mono _ _ _ _ M)|]. intros t x J. destruct (mv_known _ _ _ _ M t x J) as [Y|(OT & XK & XF)]; [now left|]. right. right.
            intros y Iy YK. rewrite XF. eapply FR; [now left|exact NE|exact GF|exact OT|exact Iy|congruence].
          + intros t x J. destruct (mv_known _ _ _ _ M t x J) as [Y|(_ & Y & _)]; auto. }
      destruct X as [F1 K1]. destruct r1 as [u|e]; [|now injection H as <- _].
      eapply fresh_trans; [exact F1|]. eapply IH; [exact N2| |exact H].
      intros k' d' f t x J NE GF OT Ix XK. destruct (K1 t x Ix) as [Y|Y].
      + exact (FR k' d' f t x (or_intror J) NE GF OT Y XK).
      + exfalso. apply N1. rewrite <- Y, XK. now apply (in_map fst) in J.
  Qed.
  Lemma fresh_producer : forall p, freshly (build_producer E sn p).
  Proof.
    intros p s s' r H. unfold build_producer in H. unfold andthen at 1 in H. destruct (get_producer_inputs E sn p s) as [s1 [inputs|e]] eqn:GI; apply freshly_inputs in GI.
    2: { now injection H as <- _. }
    unfold andthen at 1, ret at 1 in H. destruct (compute_dependencies E p inputs) as [[deps fps]|e] eqn:CD; [|now injection H as <- _].
    unfold andthen at 1 in H. cbn [fst snd] in H. destruct (discover_producer_partitions E sn p fps s1) as [s2 [existing|e]] eqn:DI; assert (F2 := freshly_discover _ _ _ _ _ DI).
    2: { injection H as <- _. eapply fresh_trans; eauto. }
    eapply fresh_trans; [exact GI|]. eapply fresh_trans; [exact F2|]. destruct (compute_dependencies_ok E p _ _ _ CD) as (m & _ & DN & _).
    destruct (discover_ok E IT sn _ _ _ _ _ DI) as (outs & O & _ & _ & _ & EX). eapply fresh_loop; [exact DN| |exact H].
    intros k d f t x J NE GF (outs' & a & O' & Ia & <-) Ix XK XF. rewrite O in O'. injection O' as <-. apply NE, EX. exists a, x.
    split; [exact Ia|]. split; [|exact XK]. eapply select_match; eauto.
  Qed.
  Lemma fresh_nodes : forall order, freshly (build_nodes E sn order).
  Proof. intro order. apply freshly_each. intros [a|p]; [apply freshly_ret|apply fresh_producer]. Qed.
End Fresh.

(** * Links are appended *)
Definition grows {V} (s s' : state V) : Prop := forall sn key, exists l, links_of (db s') sn key = links_of (db s) sn key ++ l /\ forall x, In x l -> ~ In x (links_of (db s) sn key).
Lemma grows_same : forall V (s s' : state V), (forall sn key, links_of (db s') sn key = links_of (db s) sn key) -> grows s s'.
Proof. intros V s s' L sn key. exists []. rewrite app_nil_r. split; [apply L|intros x []]. Qed.
Lemma grows_trans : forall V (s1 s2 s3 : state V), grows s1 s2 -> grows s2 s3 -> grows s1 s3.
Proof.
  intros V s1 s2 s3 A B sn key. destruct (A sn key) as (l & LA & NA), (B sn key) as (m & LB & NB). exists (l ++ m). rewrite LB, LA, app_assoc. split; [reflexivity|].
  intros x J. apply in_app_iff in J. destruct J as [J|J]; [now apply NA|]. intro X. apply (NB x J). rewrite LA. apply in_app_iff. now left.
Qed.
Lemma adds_fresh : forall new s, exists l, adds s new = s ++ l /\ forall x, In x l -> ~ In x s.
Proof.
  induction new as [|y new IH]; intro s.
  - exists []. cbn. rewrite app_nil_r. split; [reflexivity|intros x []].
  - cbn [adds fold_left]. change (exists l, adds (if existsb (psnapshot_eqb y) s then s else s ++ [y]) new = s ++ l /\ forall x, In x l -> ~ In x s).
    destruct (existsb (psnapshot_eqb y) s) eqn:Q; [apply IH|]. destruct (IH (s ++ [y])) as (l & -> & N). exists (y :: l). rewrite <- app_assoc. split; [reflexivity|].
    intros x [<-|J] X.
    + assert (existsb (psnapshot_eqb y) s = true) by (apply existsb_exists; exists y; split; [exact X|now apply psnapshot_eqb_spec]). congruence.
    + apply (N x J). apply in_app_iff. now left.
Qed.
Section Grow.
  Context {V : Type} (E : env V).
  Implicit Types s : state V.
  Definition growing {A} (m : M V A) : Prop := forall s s' r, m s = (s', r) -> grows s s'.
  Lemma growing_ret : forall A (x : result A), growing (ret x).
  Proof. intros A x s s' r H. injection H as <- _. now apply grows_same. Qed.
  Lemma growing_bind : forall A B (m : M V A) (f : A -> M V B), growing m -> (forall a, growing (f a)) -> growing (andthen m f).
  Proof.
    intros A B m f Hm Hf s s' r H. unfold andthen in H. destruct (m s) as [s1 [a|e]] eqn:E1.
    - eapply grows_trans; [eapply Hm, E1|eapply Hf, H].
    - injection H as <- _. eapply Hm, E1.
  Qed.
  Lemma growing_each : forall A (f : A -> M V unit) l, (forall x, growing (f x)) -> growing (eachM f l).
  Proof. intros A f l H. induction l as [|x l IH]; cbn [eachM]; [apply growing_ret|]. now apply growing_bind. Qed.
  Lemma growing_db : forall A (f : backend -> backend) (x : result A), (forall b, links (f b) = links b) -> growing (effect (fun st => (with_db st (f (db st)), x))).
  Proof.
    intros A f x L s s' r H. apply effect_db in H. destruct H as [_ H]. apply grows_same. intros. destruct H as [-> | ->]; [reflexivity|]. unfold links_of. now rewrite L.
  Qed.
  Lemma growing_write_links : forall sn k new, growing (write_links sn k new).
  Proof.
    intros sn k new s s' r H. apply (effect_db _ (fun b => write_snapshot_partitions b sn k new)) in H. destruct H as [_ [H|H]]; [apply grows_same; now rewrite H|].
    intros sn' k'. rewrite H, wl_links. destruct (snapshot_eqb sn sn' && str_eqb k k')%bool eqn:Q; [|exists []; rewrite app_nil_r; split; [reflexivity|intros x []]].
    apply andb_true_iff in Q. destruct Q as [Q1 Q2]. apply snapshot_eqb_spec in Q1. apply str_eqb_spec in Q2. subst sn' k'. apply adds_fresh.
  Qed.
  Lemma growing_from_graph : forall g, growing (from_graph E g).
  Proof.
    intro g. apply growing_bind; [intros s s' r H; injection H as <- _; now apply grows_same|]. intros [id fnd]. cbn [fst snd].
    apply growing_bind; [apply (growing_db _ (fun b => write_graph (graph_fp E) b g)); intro b; apply (wg_spec (graph_fp E) b g)|]. intros _.
    apply growing_bind; [apply (growing_db _ (fun b => write_snapshot (snapshot_fp E) b (Snapshot id g))); intro b; apply (ws_spec (snapshot_fp E) b (Snapshot id g))|]. intros _.
    apply growing_bind; [|intro; apply growing_ret]. apply growing_each. intros [[k a] ps]. cbn [fst snd].
    apply growing_bind; [|intro; apply growing_write_links]. apply (growing_db _ (fun b => write_artifact_partitions b (a_storage a) ps)). intro b. apply (wa_other b (a_storage a) ps).
  Qed.
End Grow.

(** * A snapshot that was built *)
Section Kept.
  Context {V : Type} (E : env V) (IT : iterates E) (U : storage -> Prop) (OE : one_each U) (sn : snapshot).
  Notation g := (s_graph sn).
  Implicit Types s : state V.
  Lemma kept_fresh : forall p s s', templated (g_arts g) -> consistent (db s') -> fresh s s' ->
    (forall a key, key_of g a = Ok key -> links_of (db s') sn key = links_of (db s) sn key) -> kept E sn p s -> kept E sn p s'.
  Proof.
    intros p s s' TE CO FR LS (inputs & deps & fps & outs & IN & CD & DN & O & ON & CL & PR). exists inputs, deps, fps, outs.
    split.
    { unfold inputs_at in *. eapply Forall2_impl; [|exact IN]. cbn beta. intros na nl (key & K & Q). exists key. split; [exact K|]. now rewrite (LS _ _ K). }
    split; [exact CD|]. split; [exact DN|]. split; [exact O|]. split; [exact ON|].
    destruct (compute_dependencies_ok E p _ _ _ CD) as (m & _ & _ & FK & _ & _ & FD). split.
    - intros a Ia. destruct (CL a Ia) as (key & K & C). exists key. split; [exact K|]. rewrite (LS _ _ K). intros x Ix. apply C. apply select_In in Ix.
      destruct Ix as [Ix W]. apply select_In. split; [|exact W]. destruct (out_produced _ _ _ _ O Ia) as (i & PA).
      destruct (CO _ _ Ix) as [_ XT]. rewrite (TE _ _ _ PA) in XT. destruct (fr_new _ _ FR _ _ Ix) as [X|[X|X]]; [exact X|now rewrite X in XT|].
      destruct W as [W|[W|[_ W]]]; [|clear C|now rewrite W in XT].
      + exfalso. apply DN. rewrite W in FK. now destruct deps.
      + destruct (FD _ _ W) as (d & J & XF). destruct (PR a _ _ Ia J) as (f & GF & y & Iy & YK & YF). destruct (X y Iy YK). unfold get_fp in GF. rewrite W in GF. congruence.
    - intros a k d Ia J. destruct (PR a k d Ia J) as (f & GF & x & Ix & XX). exists f. split; [exact GF|]. exists x. split; [now apply (fr_old _ _ FR)|exact XX].
  Qed.
  Definition all_kept s : Prop := forall order, build_order (dependencies (g_arts g)) order -> forall p, In (NProducer p) order -> kept E sn p s.
  Lemma step_links : forall e s s' key x, step E U e s s' -> In x (links_of (db s) sn key) -> In x (links_of (db s') sn key).
  Proof.
    intros e s s' key x H I. destruct H as [s fs RF|s n|s g' s' r H|s sn' s' r PU H|s sn' t o s' r H]; try exact I.
    - assert (G := growing_from_graph E g' s s' r H). destruct (G sn key) as (l & -> & _). apply in_app_iff. now left.
    - destruct (build_is V E sn') as (order & BO & BB). rewrite BB in H. apply nodes_frame in H. now apply (fr_links_mono _ _ _ _ _ H).
    - destruct (tag_step _ _ _ _ _ _ H) as (_ & L & _). unfold links_of. now rewrite L.
  Qed.
  Lemma steps_more_links : forall es s s' key x, steps E U es s s' -> In x (links_of (db s) sn key) -> In x (links_of (db s') sn key).
  Proof. intros es s s' key x H. induction H as [s|e es s s1 s' H1 H2 IH]; intro I; [exact I|]. apply IH. eapply step_links; eauto. Qed.
  Lemma step_kept : forall e s s', NoDup (map fst (g_arts g)) -> step E U e s s' -> all_kept s -> fresh s s' /\
    forall a key, key_of g a = Ok key -> (a_output a = None -> forall x, In x (links_of (db s') sn key) -> In x (links_of (db s) sn key)) ->
    links_of (db s') sn key = links_of (db s) sn key.
  Proof.
    intros e s s' ND H AK. destruct H as [s fs RF|s n|s g' s' r H|s sn' s' r PU H|s sn' t o s' r H].
    - split; [now apply fresh_same|reflexivity].
    - split; [now apply fresh_same|reflexivity].
    - split.
      + destruct (from_graph_fine E (fun _ => False) g' s s' r H) as (F & _). constructor; [apply (fi_mono _ _ _ F)|].
        intros t x J. destruct (ps_fp x) as [f|] eqn:XF; [|now right; left]. destruct (fi_known _ _ _ F t x f J XF) as [Y|[]]. now left.
      + intros a key K RAW. destruct (a_output a) as [q|] eqn:AO.
        * destruct (from_graph_fine E (fun _ => False) g' s s' r H) as (_ & _ & _ & L). apply (L sn key a ND K). congruence.
        * destruct (growing_from_graph E g' s s' r H sn key) as (l & L & N). destruct l as [|x l]; [now rewrite L, app_nil_r|]. exfalso.
          apply (N x (or_introl eq_refl)), (RAW eq_refl). rewrite L. apply in_app_iff. right. now left.
    - destruct (build_is V E sn') as (order & BO & BB). rewrite BB in H. split; [eapply fresh_nodes; eauto|]. intros a key _ _.
      destruct (snapshot_eqb sn' sn) eqn:Q.
      + apply snapshot_eqb_spec in Q. subst sn'. destruct (stil_nodes E IT sn order s (AK order BO) s s' r (same_refl s) H) as [(_ & _ & S) _]. apply S.
      + apply nodes_frame in H. apply (fr_links _ _ _ _ _ H). left. intros ->. now rewrite (proj2 (snapshot_eqb_spec _ _) eq_refl) in Q.
    - destruct (tag_step _ _ _ _ _ _ H) as (_ & L & K & _). split; [now apply fresh_same|]. intros a key _ _. unfold links_of. now rewrite L.
  Qed.
  (** If no other raw partitions are linked, nothing else is linked. *)
  Lemma steps_kept : forall es s s', templated (g_arts g) -> NoDup (map fst (g_arts g)) -> sound U s -> steps E U es s s' -> all_kept s ->
    (forall a key x, key_of g a = Ok key -> a_output a = None -> In x (links_of (db s') sn key) -> In x (links_of (db s) sn key)) ->
    forall a key, key_of g a = Ok key -> links_of (db s') sn key = links_of (db s) sn key.
  Proof.
    intros es s s' TE ND SO H. revert SO. induction H as [s|e es s s1 s' H1 H2 IH]; intros SO AK RAW a key K; [reflexivity|].
    destruct (step_kept _ _ _ ND H1 AK) as (FR & EQ). destruct (step_sound E IT U OE _ _ _ SO H1) as [_ SO1].
    assert (L1 : forall a key, key_of g a = Ok key -> links_of (db s1) sn key = links_of (db s) sn key).
    { intros b kb KB. apply (EQ b kb KB). intros BO x J. eapply RAW; [exact KB|exact BO|]. eapply steps_more_links; eauto. }
    rewrite <- (L1 _ _ K). eapply IH; [exact SO1| | |exact K].
    - intros order BO p J. eapply kept_fresh; [exact TE|apply SO1|exact FR|exact L1|]. eapply AK; eauto.
    - intros b kb x KB BO J. rewrite (L1 _ _ KB). eapply RAW; eauto.
  Qed.
  (** After a build all is kept. *)
  Lemma built_kept : forall s s' r, in_order E (g_arts g) -> produced_in U (g_arts g) -> all_or_none s (g_arts g) -> build E sn s = (s', Ok r) ->
    (forall p i a, produces (g_arts g) p i a -> exists k d, asks E s' sn p k d) -> all_kept s'.
  Proof.
    intros s s' r W PU AN H AS order BO p J. destruct (build_is V E sn) as (order' & BO' & BB). rewrite BB in H.
    destruct (build_nodes_done E IT sn W order' s s' r BO' H) as [D _]. assert (J' : In (NProducer p) order').
    { destruct BO as (_ & BV & _), BO' as (_ & BV' & _). now apply BV', BV. }
    destruct (D p J') as [(inputs & deps & fps & outs & IN & _ & CD & O & CV & X) C].
    assert (DP : distinct_paths (g_arts g)).
    { intros q i a q' j b PA PB Q. eapply (io_storages E _ W); eauto. }
    specialize (C DP AN). assert (OS := outputs_of_spec g p). rewrite O in OS. destruct OS as (ON & _).
    assert (DN : deps <> []).
    { destruct outs as [|a outs]; [now destruct ON|]. destruct (out_produced _ _ _ _ O (or_introl eq_refl)) as (i & PA). destruct (AS _ _ _ PA) as (k & d & A).
      apply (done_asks E sn p s' k d inputs deps fps IN CD) in A. intros ->. destruct A. }
    exists inputs, deps, fps, outs. split; [exact IN|]. split; [exact CD|]. split; [exact DN|]. split; [exact O|]. split; [exact ON|]. split.
    - intros a Ia. destruct (CV a Ia) as (key & K & _ & _ & L). eauto.
    - intros a k d Ia I. destruct (X k d I) as (f & _ & GF & _). exists f. split; [exact GF|]. eapply C; eauto.
  Qed.
End Kept.

(** * The theorem *)
Theorem rebuilt_stays : forall V (E : env V), iterates E -> forall U, one_each U -> forall es s0 s s' r n t sn p i a, in_process E U s0 ->
  in_order E (g_arts (s_graph sn)) -> produced_in U (g_arts (s_graph sn)) -> templated (g_arts (s_graph sn)) -> all_or_none s0 (g_arts (s_graph sn)) ->
  build E sn s0 = (s, Ok r) -> (forall q j b, produces (g_arts (s_graph sn)) q j b -> exists k d, asks E s sn q k d) ->
  steps E U es s s' -> (forall b key x, last_key (g_arts (s_graph sn)) b key -> a_output b = None -> linked s' sn key x -> linked s sn key x) ->
  snd (from_tag n t (unlimited s')) = Ok sn -> produces (g_arts (s_graph sn)) p i a ->
  snd (read_tagged E n t a (unlimited s')) = snd (read_at E sn a (unlimited s)).
Proof.
  intros V E IT U OE es s0 s s' r n t sn p i a P0 W PU TE AN B AS H RAW T PR.
  assert (ST : step E U (BuiltAt sn) s0 s) by (eapply step_build; eauto).
  destruct (step_sound E IT U OE _ _ _ (process_sound E IT U OE s0 P0) ST) as [_ SO]. destruct (steps_sound E IT U OE _ _ _ SO H) as [F _].
  assert (AK := built_kept E IT U OE sn s0 s r W PU AN B AS).
  assert (L := steps_kept E IT U OE sn es s s' TE (io_keys _ _ W) SO H AK).
  destruct (from_tag_is s' n t) as (_ & LT & FT & FU). unfold read_tagged, andthen at 1. destruct (from_tag n t (unlimited s')) as [s1 r1]. cbn [fst snd] in *. subst r1.
  rewrite !read_at_is by (assumption || reflexivity). destruct (key_of (s_graph sn) a) as [key|e] eqn:K; [|reflexivity]. rewrite LT. cbn [unlimited db].
  rewrite (L (fun b kb x KB BO J => proj1 (linked_links s sn kb x) (RAW b kb x (proj1 (key_of_last _ _ _) KB) BO (proj2 (linked_links s' sn kb x) J))) a key K).
  apply io_read_same. intros x Ix. apply (proj1 (IT _ _)) in Ix. rewrite FT. cbn [unlimited files].
  unfold content. destruct (st_kind (pt_storage (ps_part x))); [|reflexivity]. apply (fi_files _ _ _ F).
  destruct SO as (_ & C & BL & LK). destruct (LK _ _ _ Ix) as [t' It]. destruct (BL _ _ _ Ix) as (b & KB & FB & _).
  assert (a = b) by (eapply key_inj; [exact (io_keys _ _ W)|exact K|exact KB]). subst b. destruct (C t' x It) as [<- _]. destruct FB as [FB1 FB2].
  rewrite (TE p i a PR) in FB2. destruct (ps_fp x) as [f|] eqn:XF; [|discriminate].
  exists (pt_storage (ps_part x)), x, f. split; [exact It|]. split; [exact XF|]. unfold location_of. now rewrite <- XF.
Qed.

(** What builds leave alone in one process. *)
From Coq Require Import ZArith List Ascii String Bool Arith Lia.
From Verif Require Import Base Base_Proofs Str Str_Proofs Graph_Model Graph_Spec Graph_Proofs.
From Verif Require Import Backend_Model Backend_Spec Backend_Proofs Executor_Model Executor_Spec Executor_Proofs.
From Verif Require Import Executor_Done_Proofs Executor_Build_Proofs Executor_Link_Proofs Executor_Resume_Proofs Executor_Resumed_Proofs Executor_New_Proofs.
From Verif Require Import Executor_Stop_Proofs Executor_Top_Proofs Lasting_Model Lasting_Spec.
Import ListNotations.
Open Scope list_scope.

Lemma recorded_known : forall V (s : state V) t x, Executor_Spec.recorded s t x <-> In x (known_of (db s) t).
Proof.
  intros V s t x. unfold Executor_Spec.recorded, known_of, getd. destruct (dget storage_eqb (known (db s)) t) as [l|].
  - split; [intros (l' & Q & I); now injection Q as <-|eauto].
  - split; [intros (l' & Q & _); discriminate|intros []].
Qed.

(** * What an action writes and records *)
Section Moves.
  Context {V : Type} (E : env V).
  Implicit Types (s : state V) (C : location -> Prop) (D : storage -> psnapshot -> Prop).
  Record moves C D s s' : Prop := {
    mv_files : forall l, dget location_eqb (files s') l = dget location_eqb (files s) l \/ C l;
    mv_known : forall t x, In x (known_of (db s') t) -> In x (known_of (db s) t) \/ D t x;
    mv_mono : forall t x, In x (known_of (db s) t) -> In x (known_of (db s') t);
    mv_links : forall sn key x, In x (links_of (db s') sn key) -> In x (links_of (db s) sn key) \/ exists t, In x (known_of (db s') t) }.
  Lemma moves_same : forall C D s s', files s' = files s -> known (db s') = known (db s) ->
    (forall sn key, links_of (db s') sn key = links_of (db s) sn key) -> moves C D s s'.
  Proof. intros C D s s' F K L. constructor; unfold known_of; rewrite ?F, ?K; auto. intros sn key x. rewrite L. auto. Qed.
  Lemma moves_refl : forall C D s, moves C D s s.
  Proof. intros. now apply moves_same. Qed.
  Lemma moves_trans : forall C D s1 s2 s3, moves C D s1 s2 -> moves C D s2 s3 -> moves C D s1 s3.
  Proof.
    intros C D s1 s2 s3 A B. constructor.
    - intro l. destruct (mv_files _ _ _ _ B l) as [-> |X]; [apply (mv_files _ _ _ _ A)|now right].
    - intros t x I. destruct (mv_known _ _ _ _ B t x I) as [X|X]; [apply (mv_known _ _ _ _ A _ _ X)|now right].
    - intros t x I. apply (mv_mono _ _ _ _ B), (mv_mono _ _ _ _ A), I.
    - intros sn key x I. destruct (mv_links _ _ _ _ B sn key x I) as [X|X]; [|now right].
      destruct (mv_links _ _ _ _ A sn key x X) as [Y|[t Y]]; [now left|]. right. exists t. now apply (mv_mono _ _ _ _ B).
  Qed.
  Lemma moves_weaken : forall C D (C' : location -> Prop) (D' : storage -> psnapshot -> Prop) s s', (forall l, C l -> C' l) -> (forall t x, D t x -> D' t x) -> moves C D s s' -> moves C' D' s s'.
  Proof.
    intros C D C' D' s s' HC HD M. constructor.
    - intro l. destruct (mv_files _ _ _ _ M l); auto.
    - intros t x I. destruct (mv_known _ _ _ _ M t x I); auto.
    - apply (mv_mono _ _ _ _ M).
    - apply (mv_links _ _ _ _ M).
  Qed.

  (** From states with [P], [m] only moves like this and establishes [Q]. *)
  Definition acts {A} C D (P : state V -> Prop) (m : M V A) (Q : A -> state V -> Prop) : Prop := forall s s' r, P s -> m s = (s', r) ->
    moves C D s s' /\ match r with Ok a => Q a s' | Err _ => True end.
  Definition top {A} (a : A) (s : state V) : Prop := True.
  Definition top1 (s : state V) : Prop := True.
  Lemma acts_ret : forall A C D (P : state V -> Prop) (x : result A), acts C D P (ret x) (fun a s => x = Ok a /\ P s).
  Proof. intros A C D P x s s' r HP H. injection H as <- <-. split; [apply moves_refl|]. now destruct x. Qed.
  Lemma acts_pure : forall A C D (P : state V -> Prop) (f : state V -> result A), acts C D P (fun s => (s, f s)) (fun a s => f s = Ok a /\ P s).
  Proof. intros A C D P f s s' r HP H. injection H as <- <-. split; [apply moves_refl|]. now destruct (f s). Qed.
  Lemma acts_bind : forall A B C D P (m : M V A) (f : A -> M V B) Q R, acts C D P m Q -> (forall a, acts C D (Q a) (f a) R) -> acts C D P (andthen m f) R.
  Proof.
    intros A B C D P m f Q R Hm Hf s s' r HP H. unfold andthen in H. destruct (m s) as [s1 [a|e]] eqn:E1; destruct (Hm _ _ _ HP E1) as [M1 Q1].
    - destruct (Hf a _ _ _ Q1 H) as [M2 R2]. split; [eapply moves_trans; eauto|exact R2].
    - injection H as <- <-. now split.
  Qed.
  Lemma acts_post : forall A C D P (m : M V A) (Q Q' : A -> state V -> Prop), acts C D P m Q -> (forall a s, Q a s -> Q' a s) -> acts C D P m Q'.
  Proof. intros A C D P m Q Q' H HQ s s' r HP R. destruct (H _ _ _ HP R) as [M1 Q1]. split; [exact M1|]. destruct r; auto. Qed.
  Lemma acts_pre : forall A C D (P P' : state V -> Prop) (m : M V A) Q, acts C D P m Q -> (forall s, P' s -> P s) -> acts C D P' m Q.
  Proof. intros A C D P P' m Q H HP s s' r HP' R. eapply H; eauto. Qed.
  Lemma acts_bind_ret : forall A B C D (P : state V -> Prop) (x : result A) (f : A -> M V B) R, (forall a, x = Ok a -> acts C D P (f a) R) -> acts C D P (andthen (ret x) f) R.
  Proof.
    intros A B C D P x f R Hf s s' r HP H. unfold andthen, ret in H. destruct x as [a|e]; [eapply Hf; eauto|].
    injection H as <- <-. split; [apply moves_refl|exact I].
  Qed.
  (** Predicates that stay. *)
  Definition stays (P : state V -> Prop) : Prop := forall C D s s', moves C D s s' -> P s -> P s'.
  Lemma stays_known : forall t l, stays (fun s => forall x, In x l -> In x (known_of (db s) t)).
  Proof. intros t l C D s s' M H x I. apply (mv_mono _ _ _ _ M). auto. Qed.
  Lemma acts_keep : forall A C D P (m : M V A) Q P', stays P' -> acts C D P m Q -> acts C D (fun s => P s /\ P' s) m (fun a s => Q a s /\ P' s).
  Proof. intros A C D P m Q P' S H s s' r [HP HP'] R. destruct (H _ _ _ HP R) as [M1 Q1]. split; [exact M1|]. destruct r; [|exact I]. split; [exact Q1|eapply S; eauto]. Qed.
  Lemma acts_effect : forall A C D P (f : state V -> state V * result A) Q, stays P -> acts C D P f Q -> acts C D P (effect f) Q.
  Proof.
    intros A C D P f Q S H. apply acts_bind with (fun _ => P); [|intros _; exact H]. intros s s' r HP R. apply tick_ok in R. destruct R as (F & B & _).
    assert (M1 : moves C D s s') by (apply moves_same; [exact F|now rewrite B|now rewrite B]). split; [exact M1|]. destruct r; [|exact I]. eapply S; eauto.
  Qed.
  Lemma stays_top : stays top1.
  Proof. intros C D s s' _ _. exact I. Qed.
  Lemma acts_each : forall A C D (f : A -> M V unit) P l, (forall x, In x l -> acts C D P (f x) (fun _ => P)) -> acts C D P (eachM f l) (fun _ => P).
  Proof.
    intros A C D f P. induction l as [|x l IH]; intro H; cbn [eachM].
    - eapply acts_post; [apply acts_ret|]. now intros a s [_ HP].
    - eapply acts_bind; [apply H; now left|]. intros ?. cbn beta. apply IH. intros y J. apply H. now right.
  Qed.
  Lemma acts_collect : forall A B C D (f : A -> M V B) (R : B -> state V -> Prop) l, (forall b, stays (R b)) ->
    (forall x, In x l -> acts C D top1 (f x) R) -> acts C D top1 (collectM f l) (fun ys s => forall y, In y ys -> R y s).
  Proof.
    intros A B C D f R l S. induction l as [|x l IH]; intro H; cbn [collectM].
    - eapply acts_post; [apply acts_ret|]. intros a s [Q _] y J. injection Q as <-. destruct J.
    - eapply acts_bind; [apply H; now left|]. intros y. cbn beta.
      eapply acts_bind with (fun ys s => (forall z, In z ys -> R z s) /\ R y s).
      + eapply acts_pre; [apply acts_keep; [apply S|apply IH; intros z J; apply H; now right]|]. intros s X. split; [exact I|exact X].
      + intros ys. eapply acts_post; [apply acts_ret|]. cbn beta. intros a s [Q [H1 H2]] z J. injection Q as <-. destruct J as [<-|J]; auto.
  Qed.

  (** ** Primitive actions *)
  Lemma acts_read_links : forall C D sn k, acts C D top1 (read_links E sn k) top.
  Proof.
    intros C D sn k. apply acts_effect; [apply stays_top|]. intros s s' r _ H. assert (L := rl_spec (db s) sn k).
    destruct (read_snapshot_partitions (db s) sn k) as [b l]. injection H as <- <-. split; [|exact I].
    destruct L as (_ & L1 & _ & _ & _ & L5). apply moves_same; cbn [with_db db files]; auto.
  Qed.
  Lemma acts_write_links : forall C D sn k new t, acts C D (fun s => forall x, In x new -> In x (known_of (db s) t)) (write_links sn k new) top.
  Proof.
    intros C D sn k new t. apply acts_effect; [apply stays_known|]. intros s s' r HP H. injection H as <- <-. split; [|exact I].
    destruct (wl_other (db s) sn k new) as (_ & _ & _ & K). constructor; cbn [with_db db files]; unfold known_of; rewrite ?K; auto.
    intros sn' k' x. rewrite wl_links. destruct (snapshot_eqb sn sn' && str_eqb k k')%bool eqn:Q; [|auto].
    apply andb_true_iff in Q. destruct Q as [Q1 Q2]. apply snapshot_eqb_spec in Q1. apply str_eqb_spec in Q2. subst sn' k'.
    rewrite adds_In. intros [J|J]; [now left|right]. exists t. now apply HP.
  Qed.
  Lemma moves_write_known : forall C D (s : state V) fs lg fu t new, (forall l, dget location_eqb fs l = dget location_eqb (files s) l) -> (forall x, In x new -> D t x) ->
    moves C D s (State fs (write_artifact_partitions (db s) t new) lg fu).
  Proof.
    intros C D s fs lg fu t new HF HD. destruct (wa_other (db s) t new) as (_ & _ & L & _). constructor; cbn [db files].
    - intro l. now left.
    - intros t' x. rewrite wa_known. destruct (storage_eqb t t') eqn:Q; [|auto]. apply storage_eqb_spec in Q. subst t'.
      rewrite adds_In. intros [J|J]; auto.
    - intros t' x J. rewrite wa_known. destruct (storage_eqb t t') eqn:Q; [|exact J]. apply storage_eqb_spec in Q. subst t'. apply adds_In. now left.
    - intros sn key x. unfold links_of. rewrite L. auto.
  Qed.
  Lemma acts_write_known : forall C D t new, (forall x, In x new -> D t x) ->
    acts C D top1 (write_known t new) (fun _ s => forall x, In x new -> In x (known_of (db s) t)).
  Proof.
    intros C D t new HD. apply acts_effect; [apply stays_top|]. intros s s' r _ H. injection H as <- <-. split; [now apply moves_write_known|].
    cbn [with_db db]. intros x J. rewrite wa_known, (proj2 (storage_eqb_spec t t) eq_refl). apply adds_In. now right.
  Qed.
  Lemma acts_read_known : forall C (D : storage -> psnapshot -> Prop) t fps, iterates E -> (forall x, D t x) ->
    acts C D top1 (read_known E t fps) (fun l s => forall x, In x l -> In x (known_of (db s) t)).
  Proof.
    intros C D t fps IT HD. apply acts_effect; [apply stays_top|]. intros s s' r _ H.
    assert (L := ra_spec (db s) t fps (discover E (files s) t fps)).
    destruct (read_artifact_partitions (db s) t fps (discover E (files s) t fps)) as [b x]. injection H as <- <-.
    destruct L as (_ & _ & _ & _ & L). assert (CC : b = db s \/ exists found, b = write_artifact_partitions (db s) t found).
    { destruct x as [l|e]; [destruct L as (_ & [(_ & ->)|(f & _ & _ & ->)])|destruct L as (-> & _)]; eauto. }
    split.
    - destruct CC as [->|(found & ->)]; [now apply moves_same|]. now apply moves_write_known.
    - destruct x as [l|e]; [|exact I]. cbn. destruct L as [-> _]. intros y J. apply (proj1 (IT _ _)) in J. now apply select_In in J.
  Qed.
  Lemma acts_file : forall C D p, C (location_of p) -> forall d, acts (A := unit) C D top1 (fun s => (with_file s (location_of p) d, Ok tt)) top.
  Proof.
    intros C D p HC d s s' r _ H. injection H as <- <-. split; [|exact I]. constructor; cbn [with_file db files]; auto.
    intro l. rewrite (dget_dset _ location_eqb_spec). destruct (location_eqb (location_of p) l) eqn:Q; [|now left].
    apply location_eqb_spec in Q. subst l. now right.
  Qed.
  Lemma acts_io_write : forall C D a v p, C (location_of p) -> acts C D top1 (io_write E a v p) (fun x _ => ps_key x = pt_key p /\ ps_fp x = pt_fp p).
  Proof.
    intros C D a v p HC. enough (X : acts C D top1 (io_write E a v p) top).
    { intros s s' r HP H. destruct (X s s' r HP H) as [M _]. split; [exact M|]. destruct r as [x|e]; [|exact I].
      apply io_write_ok in H. now destruct H as (_ & H1 & H2 & _). }
    unfold io_write. destruct (st_kind (pt_storage p)).
    - eapply acts_bind; [apply acts_effect; [apply stays_top|apply acts_file, HC]|]. intros ?. apply acts_bind_ret. intros d _.
      eapply acts_bind with top.
      + apply acts_effect; [intros ? ? ? ? _ _; exact I|]. intros s s' r _ H. injection H as <- <-. split; [|exact I].
        destruct (acts_file C D p HC d s _ _ I eq_refl) as [[M1 M2 M3 M4] _]. constructor; auto.
      + intros ?. eapply acts_post; [apply acts_pure|]. now intros.
    - destruct (pt_value p); [eapply acts_post; [apply acts_ret|]; now intros|]. apply acts_bind_ret. intros d _.
      eapply acts_post; [apply acts_pure|]. now intros.
  Qed.

  (** ** The executor *)
  Context (IT : iterates E) (sn : snapshot).
  Notation g := (s_graph sn).
  Definition none_at (l : location) : Prop := False.
  Definition none_of (t : storage) (x : psnapshot) : Prop := False.
  Lemma acts_get_inputs : forall C D p, acts C D top1 (get_producer_inputs E sn p) top.
  Proof.
    intros C D p. eapply acts_post; [apply acts_collect with (R := top); [intros b; apply stays_top|]|now intros].
    intros na _. apply acts_bind_ret. intros key _. eapply acts_bind; [apply acts_read_links|]. intros l.
    eapply acts_post; [apply acts_ret|]. now intros.
  Qed.
  Lemma acts_discover : forall C p fps, acts C (fun t _ => out_storage sn p t) top1 (discover_producer_partitions E sn p fps) top.
  Proof.
    intros C p fps. apply acts_bind_ret. intros outs O.
    eapply acts_bind; [apply (acts_collect _ _ _ _ (fun a => l <- read_known E (a_storage a) fps ;; ret (Ok (a, l)))
                                (fun al s => forall x, In x (snd al) -> In x (known_of (db s) (a_storage (fst al))))); [intro; apply stays_known|]|].
    - intros a Ia. eapply acts_bind; [apply acts_read_known; [exact IT|]; intros x; exists outs, a; auto|].
      intros l. eapply acts_post; [apply acts_ret|]. cbn beta. intros [a' l'] s [Q H]. injection Q as <- <-. exact H.
    - intros found. cbn beta. eapply acts_bind with top; [|intros ?; eapply acts_post; [apply acts_ret|]; now intros].
      eapply acts_post; [apply acts_each with (P := fun s => forall y, In y found -> forall x, In x (snd y) -> In x (known_of (db s) (a_storage (fst y))))|now intros].
      intros al Ial. apply acts_bind_ret. intros key _.
      eapply acts_post with (Q := fun _ s => _ /\ (forall y, In y found -> forall x, In x (snd y) -> In x (known_of (db s) (a_storage (fst y))))); [|intros ? ? [_ X]; exact X].
      eapply acts_pre; [apply acts_keep; [|apply (acts_write_links _ _ sn key (snd al) (a_storage (fst al)))]|].
      + intros C' D' s s' M H y Iy x Ix. apply (mv_mono _ _ _ _ M). eauto.
      + cbn beta. intros s H. split; [now apply H|exact H].
  Qed.
  Definition new_at (p : producer) (k : pkey) (f : Z) (l : location) : Prop := exists t, out_storage sn p t /\ l = (st_id t, k, Some f).
  Definition new_of (p : producer) (k : pkey) (f : Z) (t : storage) (x : psnapshot) : Prop := out_storage sn p t /\ ps_key x = k /\ ps_fp x = Some f.
  Lemma acts_write_output : forall p outs i a f k v, outputs_of g p = Ok outs -> In a outs ->
    acts (new_at p k f) (new_of p k f) top1 (write_output E sn p i a f k v) top.
  Proof.
    intros p outs i a f k v O Ia. apply acts_bind_ret. intros key _. apply acts_bind_ret. intros _ _. apply acts_bind_ret. intros _ _.
    apply acts_bind_ret. intros part P. apply generate_partition_storage in P. destruct P as (PS & PK & PF & _).
    assert (T : out_storage sn p (a_storage a)) by (exists outs, a; auto).
    eapply acts_bind; [apply acts_io_write; exists (a_storage a); split; [exact T|]; unfold location_of; now rewrite PS, PK, PF|].
    intro x. cbn beta. intros s s' r [XK XF] H.
    enough (X : acts (new_at p k f) (new_of p k f) top1 (_ <- write_known (a_storage a) [x];; write_links sn key [x]) top) by now apply (X s s' r I).
    eapply acts_bind; [apply acts_write_known; intros y [<-|[]]; split; [exact T|split; congruence]|]. intros ?. cbn beta. apply acts_write_links.
  Qed.
  Lemma acts_write_outputs : forall p outs f k vs i, outputs_of g p = Ok outs ->
    acts (new_at p k f) (new_of p k f) top1 (write_outputs E sn p f k i outs vs) top.
  Proof.
    intros p outs f k vs. induction vs as [|v vs IH]; intros i O; cbn [write_outputs]; [eapply acts_post; [apply acts_ret|]; now intros|].
    apply acts_bind_ret. intros a Na. apply acts_bind_ret. intros _ _. destruct (nth_error outs i) as [a'|] eqn:N; [|discriminate]. injection Na as ->.
    eapply acts_bind; [eapply acts_write_output; [exact O|eapply nth_error_In, N]|]. intros ?. now apply IH.
  Qed.
  Lemma acts_args : forall C D p deps names, acts C D top1 (collectM (fun name =>
        a <- ret (match dget str_eqb (p_inputs p) name with Some a => Ok a | None => Err KeyError end) ;;
        d <- ret (match dget str_eqb deps name with Some d => Ok d | None => Err KeyError end) ;;
        v <- read_input E sn a d ;; ret (Ok (name, v))) names) top.
  Proof.
    intros C D p deps names. eapply acts_post; [apply acts_collect with (R := top); [intros b; apply stays_top|]|now intros].
    intros name _. apply acts_bind_ret. intros a _. apply acts_bind_ret. intros d _. eapply acts_bind with top; [|intros v; eapply acts_post; [apply acts_ret|]; now intros].
    unfold read_input. apply acts_bind_ret. intros key _. eapply acts_post; [apply acts_pure|]. now intros.
  Qed.
  Lemma acts_log : forall A C D (x : action V) (y : result A), acts C D top1 (effect (fun s => (with_log s x, y))) top.
  Proof. intros A C D x y. apply acts_effect; [apply stays_top|]. intros s s' r _ H. injection H as <- <-. split; [now apply moves_same|now destruct y]. Qed.
  Lemma acts_partition : forall p existing f deps k, acts (new_at p k f) (new_of p k f) top1 (build_producer_partition E sn p existing f deps k) top.
  Proof.
    intros p existing f deps k. unfold build_producer_partition. destruct (existsb (str_eqb k) existing); [eapply acts_post; [apply acts_ret|]; now intros|].
    eapply acts_bind; [apply acts_args|]. intros args. eapply acts_bind; [apply acts_log|]. intros vs. eapply acts_bind; [apply acts_log|]. intros [|].
    - apply acts_bind_ret. intros outs O. now apply acts_write_outputs.
    - eapply acts_post; [apply acts_ret|]. now intros.
  Qed.
End Moves.

(** * Steps that spare what is recorded *)
Section Spared.
  Context {V : Type} (E : env V) (IT : iterates E) (U : storage -> Prop) (OE : one_each U).
  Implicit Types s : state V.
  Definition taken s (l : location) : Prop := exists t x f, In x (known_of (db s) t) /\ ps_fp x = Some f /\ l = (st_id t, ps_key x, Some f).
  Record fine s s' : Prop := {
    fi_files : forall l, taken s l -> dget location_eqb (files s') l = dget location_eqb (files s) l;
    fi_mono : forall t x, In x (known_of (db s) t) -> In x (known_of (db s') t);
    fi_links : forall sn key x, In x (links_of (db s') sn key) -> In x (links_of (db s) sn key) \/ exists t, In x (known_of (db s') t);
    fi_known : forall t x f, In x (known_of (db s') t) -> ps_fp x = Some f -> In x (known_of (db s) t) \/ U t }.
  Lemma taken_mono : forall s s' l, (forall t x, In x (known_of (db s) t) -> In x (known_of (db s') t)) -> taken s l -> taken s' l.
  Proof. intros s s' l M (t & x & f & I & X & Q). exists t, x, f. auto. Qed.
  Lemma fine_trans : forall s1 s2 s3, fine s1 s2 -> fine s2 s3 -> fine s1 s3.
  Proof.
    intros s1 s2 s3 A B. constructor.
    - intros l T. rewrite (fi_files _ _ B); [now apply (fi_files _ _ A)|]. eapply taken_mono; [apply (fi_mono _ _ A)|exact T].
    - intros t x I. apply (fi_mono _ _ B), (fi_mono _ _ A), I.
    - intros sn key x I. destruct (fi_links _ _ B sn key x I) as [X|X]; [|now right].
      destruct (fi_links _ _ A sn key x X) as [Y|[t Y]]; [now left|]. right. exists t. now apply (fi_mono _ _ B).
    - intros t x f I X. destruct (fi_known _ _ B t x f I X) as [Y|Y]; [|now right]. apply (fi_known _ _ A t x f Y X).
  Qed.
  Lemma fine_moves : forall (C : location -> Prop) (D : storage -> psnapshot -> Prop) s s', moves C D s s' -> (forall l, C l -> ~ taken s l) -> (forall t x f, D t x -> ps_fp x = Some f -> U t) -> fine s s'.
  Proof.
    intros C D s s' [M1 M2 M3 M4] HC HD. constructor; auto.
    - intros l T. destruct (M1 l) as [Q|Q]; [exact Q|]. now destruct (HC l Q).
    - intros t x f I X. destruct (M2 t x I); eauto.
  Qed.
  Lemma fine_same : forall s s', files s' = files s -> known (db s') = known (db s) ->
    (forall sn key, links_of (db s') sn key = links_of (db s) sn key) -> fine s s'.
  Proof. intros s s' F K L. apply (fine_moves none_at none_of); [now apply moves_same| |]; intros; unfold none_at, none_of in *; easy. Qed.
  Lemma fine_refl : forall s, fine s s.
  Proof. intros. now apply fine_same. Qed.
  Definition held s : Prop := forall t x f, In x (known_of (db s) t) -> ps_fp x = Some f -> U t.
  Lemma held_fine : forall s s', fine s s' -> held s -> held s'.
  Proof. intros s s' F H t x f I X. destruct (fi_known _ _ F t x f I X) as [Y|Y]; [eapply H; eauto|exact Y]. Qed.

  Section Build.
    Context (sn : snapshot) (PU : produced_in U (g_arts (s_graph sn))).
    Notation g := (s_graph sn).
    Lemma out_U : forall p t, out_storage sn p t -> U t.
    Proof. intros p t (outs & a & O & I & <-). destruct (out_produced _ _ _ _ O I) as (i & P). eapply PU, P. Qed.
    Lemma loop_fine : forall p existing fps deps s s' r, NoDup (map fst deps) -> held s ->
      (forall k d f t x, In (k, d) deps -> ~ In k existing -> get_fp fps k = Some f -> out_storage sn p t -> In x (known_of (db s) t) -> ps_key x = k -> ps_fp x <> Some f) ->
      eachM (fun kd => f <- ret (match get_fp fps (fst kd) with Some f => Ok f | None => Err ValueError end) ;;
                       build_producer_partition E sn p existing f (snd kd) (fst kd)) deps s = (s', r) -> fine s s'.
    Proof.
      intros p existing fps. induction deps as [|[k d] deps IH]; intros s s' r ND HE FR H; cbn [eachM] in H.
      - injection H as <- _. apply fine_refl.
      - inversion ND as [|? ? N1 N2]; subst. cbn [fst snd] in *. unfold andthen at 1 in H.
        destruct ((f <- ret (match get_fp fps k with Some f => Ok f | None => Err ValueError end) ;; build_producer_partition E sn p existing f d k) s) as [s1 r1] eqn:P.
        assert (X : fine s s1 /\ forall t x, In x (known_of (db s1) t) -> In x (known_of (db s) t) \/ ps_key x = k).
        { unfold andthen, ret in P. destruct (get_fp fps k) as [f|] eqn:GF; [|injection P as <- _; split; [apply fine_refl|auto]].
          destruct (existsb (str_eqb k) existing) eqn:EX.
          - unfold build_producer_partition in P. rewrite EX in P. injection P as <- _. split; [apply fine_refl|auto].
          - assert (NE : ~ In k existing).
            { intro J. assert (existsb (str_eqb k) existing = true) by (apply existsb_exists; exists k; split; [exact J|now apply str_eqb_spec]). congruence. }
            destruct (acts_partition E sn p existing f d k s s1 r1 I P) as [M _]. split.
            + eapply fine_moves; [exact M| |].
              * intros l (t & OT & ->) (t' & x & f' & Ix & XF & Q). injection Q as Q1 Q2 <-.
                assert (t' = t) by (apply OE; [eapply HE; eauto|eapply out_U, OT|congruence]). subst t'.
                exact (FR k d f t x (or_introl eq_refl) NE GF OT Ix (eq_sym Q2) XF).
              * intros t x f' (OT & _) _. eapply out_U, OT.
            + intros t x J. destruct (mv_known _ _ _ _ M t x J) as [Y|(_ & Y & _)]; auto. }
        destruct X as [F1 K1]. destruct r1 as [u|e]; [|now injection H as <- _].
        eapply fine_trans; [exact F1|]. eapply IH; [exact N2|eapply held_fine; eauto| |exact H].
        intros k' d' f t x J NE GF OT Ix XK. destruct (K1 t x Ix) as [Y|Y].
        + exact (FR k' d' f t x (or_intror J) NE GF OT Y XK).
        + exfalso. apply N1. rewrite <- Y, XK. now apply (in_map fst) in J.
    Qed.
    Lemma producer_fine : forall p s s' r, held s -> build_producer E sn p s = (s', r) -> fine s s'.
    Proof.
      intros p s s' r HE H. unfold build_producer in H. unfold andthen at 1 in H. destruct (get_producer_inputs E sn p s) as [s1 [inputs|e]] eqn:GI;
        destruct (acts_get_inputs E sn none_at none_of p s s1 _ I GI) as [M1 _];
        assert (F1 : fine s s1) by (eapply fine_moves; [exact M1| |]; unfold none_at, none_of; easy).
      2: { injection H as <- _. exact F1. }
      unfold andthen at 1, ret at 1 in H. destruct (compute_dependencies E p inputs) as [[deps fps]|e] eqn:CD; [|now injection H as <- _].
      unfold andthen at 1 in H. cbn [fst snd] in H. destruct (discover_producer_partitions E sn p fps s1) as [s2 r2] eqn:DI.
      destruct (acts_discover E IT sn none_at p fps s1 s2 _ I DI) as [M2 _].
      assert (F2 : fine s1 s2) by (eapply fine_moves; [exact M2|unfold none_at; easy|intros t x f OT _; eapply out_U, OT]).
      assert (F12 := fine_trans _ _ _ F1 F2). destruct r2 as [existing|e]; [|now injection H as <- _].
      eapply fine_trans; [exact F12|]. destruct (compute_dependencies_ok E p _ _ _ CD) as (m & _ & DN & _).
      destruct (discover_ok E IT sn _ _ _ _ _ DI) as (outs & O & _ & _ & _ & EX).
      eapply loop_fine; [exact DN|eapply held_fine; eauto| |exact H].
      intros k d f t x J NE GF (outs' & a & O' & Ia & <-) Ix XK XF. rewrite O in O'. injection O' as <-. apply NE, EX. exists a, x.
      split; [exact Ia|]. split; [|exact XK]. eapply select_match; eauto.
    Qed.
    Lemma nodes_fine : forall order s s' r, held s -> build_nodes E sn order s = (s', r) -> fine s s'.
    Proof.
      induction order as [|n order IH]; intros s s' r HE H; cbn [build_nodes eachM] in H; [injection H as <- _; apply fine_refl|].
      unfold andthen in H. destruct n as [a|q]; [cbn [ret] in H; eapply IH; eauto|].
      destruct (build_producer E sn q s) as [s1 [u|e]] eqn:B; assert (F := producer_fine _ _ _ _ HE B); [|now injection H as <- _].
      eapply fine_trans; [exact F|]. eapply IH; [eapply held_fine; eauto|exact H].
    Qed.
  End Build.
End Spared.

(** * Steps of a process *)
Section Steps.
  Context {V : Type} (E : env V) (IT : iterates E) (U : storage -> Prop) (OE : one_each U).
  Implicit Types s : state V.
  Lemma effect_db : forall A (f : backend -> backend) (x : result A) s s' r, effect (fun st => (with_db st (f (db st)), x)) s = (s', r) ->
    files s' = files s /\ (db s' = db s \/ db s' = f (db s)).
  Proof.
    intros A f x s s' r H. unfold effect, andthen in H. destruct (tick s) as [s0 [u|e]] eqn:T; apply tick_ok in T; destruct T as (TF & TD & _); injection H as <- _.
    - cbn [with_db files db]. split; [exact TF|right; now rewrite TD].
    - split; [exact TF|now left].
  Qed.
  Lemma from_graph_fine : forall g s s' r, from_graph E g s = (s', r) -> fine U s s' /\ files s' = files s /\ tags (db s') = tags (db s) /\
    (forall sn key a, NoDup (map fst (g_arts (s_graph sn))) -> key_of (s_graph sn) a = Ok key -> a_output a <> None -> links_of (db s') sn key = links_of (db s) sn key).
  Proof.
    intros g s s' r H. assert (KF := keeps_from_graph E g s s' r H). unfold from_graph in H. unfold andthen at 1 in H.
    destruct (visit_all E g (files s) (graph_fp E g, []) (map fst (dependencies (g_arts g)))) as [[id fnd]|e] eqn:VA.
    2: { injection H as <- _. split; [apply fine_refl|]. split; [reflexivity|]. split; [reflexivity|]. now intros. }
    assert (VF := visit_facts E _ _ _ _ _ VA). cbn [snd] in VF. specialize (VF (fun k a ps I => match I with end)).
    cbn [fst] in H. set (sn := Snapshot id g) in *.
    assert (SAME : forall s1 : state V, files s1 = files s -> links (db s1) = links (db s) -> known (db s1) = known (db s) -> fine U s s1).
    { intros s1 F L K. apply fine_same; [exact F|exact K|]. intros. unfold links_of. now rewrite L. }
    unfold andthen at 1 in H. destruct (effect (fun st : state V => (with_db st (write_graph (graph_fp E) (db st) g), Ok tt)) s) as [s1 r1] eqn:E1.
    apply (effect_db _ (fun b => write_graph (graph_fp E) b g)) in E1. destruct E1 as [F1 E1].
    assert (D1 : links (db s1) = links (db s) /\ known (db s1) = known (db s) /\ tags (db s1) = tags (db s)).
    { destruct E1 as [-> | ->]; [auto|]. destruct (wg_spec (graph_fp E) (db s) g) as (_ & A1 & A2 & A3 & _). auto. }
    destruct D1 as (L1 & K1 & T1).
    destruct r1 as [u1|e1].
    2: { injection H as <- _. split; [auto|]. split; [exact F1|]. split; [exact T1|]. intros. unfold links_of. now rewrite L1. }
    unfold andthen at 1 in H. destruct (effect (fun st : state V => (with_db st (write_snapshot (snapshot_fp E) (db st) sn), Ok tt)) s1) as [s2 r2] eqn:E2.
    apply (effect_db _ (fun b => write_snapshot (snapshot_fp E) b sn)) in E2. destruct E2 as [F2 E2].
    assert (D2 : links (db s2) = links (db s) /\ known (db s2) = known (db s) /\ tags (db s2) = tags (db s)).
    { destruct E2 as [-> | ->]; [auto|]. destruct (ws_spec (snapshot_fp E) (db s1) sn) as (_ & A1 & A2 & A3 & _). rewrite A1, A2, A3. auto. }
    destruct D2 as (L2 & K2 & T2). assert (FF : files s2 = files s) by congruence.
    destruct r2 as [u2|e2].
    2: { injection H as <- _. split; [auto|]. split; [exact FF|]. split; [exact T2|]. intros. unfold links_of. now rewrite L2. }
    assert (F02 : fine U s s2) by auto.
    assert (A : acts none_at (fun _ x => ps_fp x = None) top1 (_ <- eachM (fun kap => _ <- write_known (V := V) (a_storage (snd (fst kap))) (snd kap) ;; write_links sn (fst (fst kap)) (snd kap)) fnd ;; ret (Ok sn)) top).
    { eapply acts_bind with top; [|intros ?; eapply acts_post; [apply acts_ret|]; now intros].
      eapply acts_post; [apply acts_each with (P := top1)|now intros]. intros [[k a] ps] Ik. cbn [fst snd]. destruct (VF _ _ _ Ik) as (_ & _ & VX).
      eapply acts_bind; [apply acts_write_known; intros x Ix; now apply VX|]. intros ?. cbn beta. apply acts_write_links. }
    assert (W : within sn (fun key => exists a, key_of g a = Ok key /\ a_output a = None) (fun _ => True)
                  (_ <- eachM (fun kap => _ <- write_known (V := V) (a_storage (snd (fst kap))) (snd kap) ;; write_links sn (fst (fst kap)) (snd kap)) fnd ;; ret (Ok sn))).
    { apply within_bind; [|intros; apply within_ret]. apply within_each. intros [[k a] ps] Ik. cbn [fst snd]. destruct (VF _ _ _ Ik) as (VK & VO & _).
      apply within_bind; [now apply within_write_known|]. intros _. apply within_write_links. eauto. }
    destruct (A _ _ _ I H) as [M _]. assert (FR := W _ _ _ H).
    assert (F23 : fine U s2 s').
    { eapply fine_moves; [exact M|unfold none_at; easy|]. intros t x f Q1 Q2. congruence. }
    split; [eapply fine_trans; eauto|].
    split; [exact KF|].
    split; [destruct (fr_meta _ _ _ _ _ FR) as (_ & _ & FT); congruence|].
    intros sn' key a ND KA AO. rewrite (fr_links _ _ _ _ _ FR); [unfold links_of; now rewrite L2|]. destruct (snapshot_eqb sn' sn) eqn:Q.
    - apply snapshot_eqb_spec in Q. subst sn'. right. intros (b & KB & BO). apply AO. now rewrite (key_inj g a b key ND KA KB).
    - left. intros ->. now rewrite (proj2 (snapshot_eqb_spec _ _) eq_refl) in Q.
  Qed.
  Lemma tag_step : forall sn t o s s' r, tag sn t o s = (s', r) -> files s' = files s /\ links (db s') = links (db s) /\ known (db s') = known (db s) /\
    forall n t', (o = false \/ g_name (s_graph sn) <> n \/ t <> t') -> tag_of (db s) n t' <> None -> tag_of (db s') n t' = tag_of (db s) n t'.
  Proof.
    intros sn t o s s' r H. unfold tag, effect, andthen in H. destruct (tick s) as [s0 [u|e]] eqn:T; apply tick_ok in T; destruct T as (TF & TD & _).
    2: { injection H as <- _. rewrite TF, TD. repeat split; reflexivity. }
    assert (W := wt_spec (db s0) sn t o). destruct (write_snapshot_tag (db s0) sn t o) as [b x]. injection H as <- <-. cbn [with_db files db].
    rewrite TD in W. destruct W as (_ & _ & WL & WK & W). split; [exact TF|]. split; [exact WL|]. split; [exact WK|]. intros n t' C N.
    destruct x as [u'|e]; [|now destruct W as (_ & _ & _ & ->)]. destruct W as [W1 W2]. rewrite W2.
    destruct (str_eqb (g_name (s_graph sn)) n && str_eqb t t')%bool eqn:Q; [|reflexivity]. apply andb_true_iff in Q. destruct Q as [Q1 Q2].
    apply str_eqb_spec in Q1. apply str_eqb_spec in Q2. subst n t'. destruct C as [ -> |[C|C]]; [|now destruct C|now destruct C].
    destruct W1 as [W1|W1]; [discriminate|]. now destruct N.
  Qed.
  Definition sound s : Prop := held U s /\ consistent (db s) /\ belonging (db s) /\
    forall sn key x, In x (links_of (db s) sn key) -> exists t, In x (known_of (db s) t).
  Lemma sound_fine : forall s s', sound s -> fine U s s' -> consistent (db s') -> belonging (db s') -> sound s'.
  Proof.
    intros s s' (H & _ & _ & L) F C B. split; [eapply held_fine; eauto|]. split; [exact C|]. split; [exact B|]. intros sn key x I.
    destruct (fi_links _ _ _ F sn key x I) as [X|X]; [|exact X]. destruct (L _ _ _ X) as [t Y]. exists t. now apply (fi_mono _ _ _ F).
  Qed.
  Lemma same_sound : forall s s', known (db s') = known (db s) -> links (db s') = links (db s) -> consistent (db s) -> belonging (db s) -> consistent (db s') /\ belonging (db s').
  Proof.
    intros s s' K L C B. split; [intros t x; unfold known_of; rewrite K; apply C|]. intros sn key x. unfold links_of. rewrite L. apply B.
  Qed.
  Lemma step_sound : forall e s s', sound s -> step E U e s s' -> fine U s s' /\ sound s'.
  Proof.
    intros e s s' S H. assert (X : fine U s s' /\ consistent (db s') /\ belonging (db s')).
    { destruct S as (HE & C & B & _). destruct H as [s fs RF|s n|s g s' r H|s sn s' r PU H|s sn t o s' r H].
      - split; [|now split]. constructor; cbn [db files]; auto. intros l (t & x & f & _ & _ & ->). apply RF.
      - split; [now apply fine_same|now split].
      - split; [now apply (from_graph_fine g s s' r)|]. split; [now apply (from_graph_consistent E g s s' r)|now apply (from_graph_belonging E g s s' r)].
      - destruct (build_is V E sn) as (order & _ & BB). rewrite BB in H. split; [eapply nodes_fine; eauto|].
        split; [eapply build_nodes_consistent; eauto|eapply build_nodes_belonging; eauto].
      - destruct (tag_step _ _ _ _ _ _ H) as (F & L & K & _). split; [|now apply (same_sound s)].
        apply fine_same; [exact F|exact K|]. intros. unfold links_of. now rewrite L. }
    destruct X as (F & C & B). split; [exact F|]. eapply sound_fine; eauto.
  Qed.
  Lemma steps_sound : forall es s s', sound s -> steps E U es s s' -> fine U s s' /\ sound s'.
  Proof.
    intros es s s' S H. revert S. induction H as [s|e es s s1 s' H1 H2 IH]; intro S; [split; [apply fine_refl|exact S]|].
    destruct (step_sound _ _ _ S H1) as [F1 S1]. destruct (IH S1) as [F2 S2]. split; [eapply fine_trans; eauto|exact S2].
  Qed.
  Lemma process_sound : forall s, in_process E U s -> sound s.
  Proof.
    intros s (fs & l & n & es & H). eapply steps_sound; [|exact H]. split; [intros t x f []|]. split; [apply empty_consistent|].
    split; [intros sn key x []|intros sn key x []].
  Qed.
  (** The links of a snapshot that is not built. *)
  Lemma steps_links : forall es s s' sn key a, steps E U es s s' -> ~ In (BuiltAt sn) es -> NoDup (map fst (g_arts (s_graph sn))) ->
    key_of (s_graph sn) a = Ok key -> a_output a <> None -> links_of (db s') sn key = links_of (db s) sn key.
  Proof.
    intros es s s' sn key a H N ND KA AO. induction H as [s|e es s s1 s' H1 H2 IH]; [reflexivity|].
    rewrite IH by (intro; apply N; now right). clear IH H2. assert (NE : e <> BuiltAt sn) by (intros ->; apply N; now left). clear N.
    destruct H1 as [s fs RF|s n|s g s1 r H|s sn' s1 r PU H|s sn' t o s1 r H]; try reflexivity.
    - destruct (from_graph_fine g s s1 r H) as (_ & _ & _ & X). eapply X; eauto.
    - destruct (build_is V E sn') as (order & _ & BB). rewrite BB in H. apply nodes_frame in H. apply (fr_links _ _ _ _ _ H). left. congruence.
    - destruct (tag_step _ _ _ _ _ _ H) as (_ & L & _). unfold links_of. now rewrite L.
  Qed.
  Lemma steps_tags : forall es s s' n t sn, steps E U es s s' -> leaves_tag n t es -> tag_of (db s) n t = Some sn -> tag_of (db s') n t = Some sn.
  Proof.
    intros es s s' n t sn H. induction H as [s|e es s s1 s' H1 H2 IH]; intros N T; [exact T|].
    apply IH; [intros sn' J; apply N; now right|]. clear IH H2.
    destruct H1 as [s fs RF|s m|s g s1 r H|s sn' s1 r PU H|s sn' t' o s1 r H]; try exact T.
    - destruct (from_graph_fine g s s1 r H) as (_ & _ & X & _). unfold tag_of. now rewrite X.
    - destruct (build_is V E sn') as (order & _ & BB). rewrite BB in H. apply nodes_frame in H. destruct (fr_meta _ _ _ _ _ H) as (_ & _ & X). unfold tag_of. now rewrite X.
    - destruct (tag_step _ _ _ _ _ _ H) as (_ & _ & _ & X). rewrite X; [exact T| |congruence]. destruct o; [right|now left].
      destruct (str_eqb t' t) eqn:Q; [|right; intros ->; now rewrite (proj2 (str_eqb_spec t t) eq_refl) in Q].
      apply str_eqb_spec in Q. subst t'. left. apply (N sn'). now left.
  Qed.

  (** ** The theorems *)
  Theorem data_stays : forall es s s' t x f, in_process E U s -> steps E U es s s' -> Executor_Spec.recorded s t x -> ps_fp x = Some f ->
    forall d, holds_data s' x d <-> holds_data s x d.
  Proof.
    intros es s s' t x f P H R XF d. assert (S := process_sound s P). destruct (steps_sound _ _ _ S H) as [F _]. apply recorded_known in R.
    unfold holds_data. destruct (st_kind (pt_storage (ps_part x))); [|reflexivity]. rewrite (fi_files _ _ _ F); [reflexivity|].
    destruct S as (_ & C & _). exists t, x, f. split; [exact R|]. split; [exact XF|]. destruct (C t x R) as [-> _]. now rewrite XF.
  Qed.
  Lemma from_tag_is : forall s n t, snd (from_tag n t (unlimited s)) = match tag_of (db s) n t with Some sn => Ok sn | None => Err ValueError end /\
    (forall sn key, links_of (db (fst (from_tag n t (unlimited s)))) sn key = links_of (db s) sn key) /\ files (fst (from_tag n t (unlimited s))) = files s /\
    fuel (fst (from_tag n t (unlimited s))) = None.
  Proof.
    intros s n t. unfold from_tag, effect, andthen. rewrite tick_none by reflexivity. cbn [unlimited db]. assert (R := rt_spec (db s) n t).
    destruct (read_snapshot_tag (db s) n t) as [b r]. destruct R as (-> & _ & _ & L & _). cbn. split; [reflexivity|]. split; [|split; reflexivity].
    intros. unfold links_of. now rewrite L.
  Qed.
  Theorem tag_stays : forall es s s' n t sn, steps E U es s s' -> leaves_tag n t es ->
    snd (from_tag n t (unlimited s)) = Ok sn -> snd (from_tag n t (unlimited s')) = Ok sn.
  Proof.
    intros es s s' n t sn H N T. destruct (from_tag_is s n t) as [X _]. rewrite X in T. destruct (tag_of (db s) n t) as [sn'|] eqn:G; [|discriminate].
    injection T as ->. destruct (from_tag_is s' n t) as [-> _]. now rewrite (steps_tags _ _ _ _ _ _ H N G).
  Qed.
  Lemma read_at_is : forall s sn a, fuel s = None -> snd (read_at E sn a s) = match key_of (s_graph sn) a with
    | Ok key => snd (io_read E a (iter_set E (links_of (db s) sn key)) s) | Err e => Err e end.
  Proof.
    intros s sn a F. unfold read_at, andthen, ret. destruct (key_of (s_graph sn) a) as [key|e]; [|reflexivity].
    unfold read_links, effect, andthen. rewrite tick_none by exact F. assert (R := rl_spec (db s) sn key).
    destruct (read_snapshot_partitions (db s) sn key) as [b l]. destruct R as (-> & _). reflexivity.
  Qed.
  Theorem read_stays : forall es s s' sn p i a, in_process E U s -> steps E U es s s' -> ~ In (BuiltAt sn) es ->
    NoDup (map fst (g_arts (s_graph sn))) -> templated (g_arts (s_graph sn)) -> produces (g_arts (s_graph sn)) p i a ->
    snd (read_at E sn a (unlimited s')) = snd (read_at E sn a (unlimited s)).
  Proof.
    intros es s s' sn p i a P H N ND TE (k & Ia & AO). assert (S := process_sound s P). destruct (steps_sound _ _ _ S H) as [F _].
    rewrite !read_at_is by reflexivity. destruct (key_of (s_graph sn) a) as [key|e] eqn:KA; [|reflexivity]. cbn [unlimited db].
    assert (AO' : a_output a <> None) by congruence. rewrite (steps_links _ _ _ _ _ _ H N ND KA AO'). apply io_read_same. intros x Ix. apply (proj1 (IT _ _)) in Ix.
    cbn [unlimited files]. unfold content. destruct (st_kind (pt_storage (ps_part x))); [|reflexivity]. apply (fi_files _ _ _ F).
    destruct S as (_ & C & B & L). destruct (L _ _ _ Ix) as [t It]. destruct (B _ _ _ Ix) as (b & KB & FB & _).
    assert (a = b) by (eapply key_inj; eauto). subst b. destruct (C t x It) as [<- _]. destruct FB as [FB1 FB2].
    rewrite (TE p i a) in FB2 by (exists k; auto). destruct (ps_fp x) as [f|] eqn:XF; [|discriminate].
    exists (pt_storage (ps_part x)), x, f. split; [exact It|]. split; [exact XF|]. unfold location_of. now rewrite <- XF.
  Qed.
  Theorem tagged_stays : forall es s s' n t sn p i a, in_process E U s -> steps E U es s s' -> ~ In (BuiltAt sn) es -> leaves_tag n t es ->
    snd (from_tag n t (unlimited s)) = Ok sn ->
    NoDup (map fst (g_arts (s_graph sn))) -> templated (g_arts (s_graph sn)) -> produces (g_arts (s_graph sn)) p i a ->
    snd (read_tagged E n t a (unlimited s')) = snd (read_at E sn a (unlimited s)).
  Proof.
    intros es s s' n t sn p i a P H N LT T ND TE PR. assert (T' := tag_stays _ _ _ _ _ _ H LT T). rewrite <- (read_stays es s s' sn p i a) by assumption.
    destruct (from_tag_is s' n t) as (_ & L & F & FU). unfold read_tagged, andthen at 1. destruct (from_tag n t (unlimited s')) as [s1 r]. cbn [fst snd] in *. subst r.
    rewrite !read_at_is by (assumption || reflexivity). destruct (key_of (s_graph sn) a) as [key|e]; [|reflexivity]. rewrite L. apply io_read_same. intros. now rewrite F.
  Qed.
End Steps.

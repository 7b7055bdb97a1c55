(** Facts about the concrete processes, and the theorems in the form of Concurrent_Props. *)
From Coq Require Import ZArith List Ascii String Bool Arith Lia.
From Verif Require Import Base Str Base_Proofs Str_Proofs Graph_Model Graph_Spec Graph_Proofs Backend_Model Backend_Proofs Executor_Model Executor_Spec
  Executor_Proofs Executor_Build_Proofs Executor_Cases Executor_Cases_Proofs
  Concurrent_Model Concurrent_Proofs Concurrent_Safe_Proofs Concurrent_Spec Concurrent_Independent_Proofs Concurrent_Right_Proofs Concurrent_Cases.
Import ListNotations.
Open Scope list_scope.

Lemma step_evolves : forall V i (S S' : system V), evolves S S' -> evolves S (step i S').
Proof.
  intros V i S [fs ps] X. unfold step. cbn [running shared]. destruct (nth_error ps i) as [[b lg [r|u k]]|] eqn:N; try exact X.
  apply nth_error_split in N. destruct N as (before & after & -> & <-).
  assert (F : firstn (List.length before) (before ++ {| own_db := b; own_log := lg; rest := Act u k |} :: after) = before).
  { rewrite firstn_app, Nat.sub_diag, firstn_all, firstn_O. apply app_nil_r. }
  assert (K : skipn (Datatypes.S (List.length before)) (before ++ {| own_db := b; own_log := lg; rest := Act u k |} :: after) = after).
  { rewrite skipn_app. replace (Datatypes.S (List.length before) - List.length before) with 1 by lia. rewrite skipn_all2 by lia. reflexivity. }
  rewrite F, K. eapply evolves_more; [exact X|]. apply (move fs before b lg u k after).
Qed.
Lemma steps_evolves : forall V i n (S S' : system V), evolves S S' -> evolves S (steps i n S').
Proof. intros V i n S S' X. unfold steps. induction n as [|n IH]; [exact X|]. cbn. now apply step_evolves. Qed.
Lemma schedule_evolves : forall V l (S : system V), evolves S (schedule l S).
Proof.
  intros V l S. unfold schedule. assert (G : forall S', evolves S S' -> evolves S (fold_left (fun S0 in_ => steps (fst in_) (snd in_) S0) l S')).
  { induction l as [|[i n] l IH]; intros S' X; [exact X|]. cbn [fold_left fst snd]. apply IH. now apply steps_evolves. }
  apply G. constructor.
Qed.

Lemma strict_iterates : iterates strict.
Proof. intros l x. reflexivity. Qed.
Lemma strict_writable : writable strict.
Proof. intros p i a v _. exists v. reflexivity. Qed.
Lemma strict_rejects : rejects_empty strict.
Proof.
  intros a ds v L I. cbn [strict load] in L. destruct (existsb is_nil ds) eqn:X; [discriminate|]. rewrite <- not_true_iff_false in X. apply X.
  apply existsb_exists. exists []. auto.
Qed.
Lemma g13_no_gaps : no_gaps (g_arts g13).
Proof. intros p i a j P L. cases13 P; lia. Qed.
Lemma g13_files : forall p i a, produces (g_arts g13) p i a -> st_kind (a_storage a) = SFile.
Proof. intros p i a P. cases13 P; reflexivity. Qed.
Lemma g13_keys : NoDup (map fst (g_arts g13)).
Proof. vm_compute. repeat constructor; cbn; intuition discriminate. Qed.
Lemma g15_keys : NoDup (map fst (g_arts g15)).
Proof. vm_compute. repeat constructor; cbn; intuition discriminate. Qed.
Definition twins : list (env str * graph_def) := [(strict, g13); (strict, g13)].
Lemma twins_orderly : orderly twins.
Proof.
  intros E g [Q|[Q|[]]]; injection Q as <- <-; (split; [exact g13_keys|]; split; [exact strict_iterates|]; split; [exact g13_no_gaps|];
    split; [exact strict_writable|]; split; [exact strict_rejects|exact g13_files]).
Qed.
Definition strangers : list (env str * graph_def) := [(demo, g13); (demo, g15)].
Lemma strangers_proper : proper strangers.
Proof. intros E g [Q|[Q|[]]]; injection Q as <- <-; (split; [apply g13_keys || apply g15_keys|]; split; [exact demo_iterates|exact demo_picks]). Qed.
Lemma strangers_independent : independent strangers.
Proof.
  intros before E g after E' g' i Q I1 (k & a & I2 & O & <-) (k' & a' & I3 & Q').
  assert (D : (g = g13 /\ g' = g15) \/ (g = g15 /\ g' = g13)).
  { unfold strangers in Q. destruct before as [|x [|y before]]; cbn in Q.
    - injection Q as <- <- <-. destruct I1 as [I1|[]]. injection I1 as <- <-. auto.
    - injection Q as <- <- <- <-. destruct I1 as [I1|[]]. injection I1 as <- <-. auto.
    - apply (f_equal (@List.length _)) in Q. cbn in Q. rewrite app_length in Q. cbn in Q. lia. }
  destruct D as [(-> & ->)|(-> & ->)]; cbn in I2, I3;
    repeat match goal with H : _ \/ _ |- _ => destruct H | H : False |- _ => destruct H end;
    repeat match goal with H : (_, _) = (_, _) |- _ => injection H as ? ?; subst end; try (now apply O); vm_compute in Q'; discriminate.
Qed.

(** The data of [g13]. *)
Definition truth13 (l : location) (d : str) : Prop :=
  (l = ($"a", [], None) /\ d = $"1") \/ (exists f, l = ($"b", [], Some f) /\ d = $"11") \/ (exists f, l = ($"c", [], Some f) /\ d = $"1111").
Lemma truth13_one : forall l d d', truth13 l d -> truth13 l d' -> d = d'.
Proof.
  intros l d d' [(-> & ->)|[(f & -> & ->)|(f & -> & ->)]] [(Q & ->)|[(f' & Q & ->)|(f' & Q & ->)]]; try reflexivity; discriminate.
Qed.
Lemma truth13_start : forall l d, dget location_eqb files13 l = Some d -> truth13 l d.
Proof.
  intros l d D. apply (dget_In _ location_eqb_spec) in D. destruct D as [Q|[]]. injection Q as <- <-. left. split; reflexivity.
Qed.
Lemma of_x_args : forall p a, p_inputs p = [($"x", a)] -> p_class p = $"double" -> st_partitioned (a_storage a) = false -> forall k deps args, may_ask truth13 strict p k deps ->
  arguments truth13 strict p deps args -> k = [] /\ exists x d, pt_storage (ps_part x) = a_storage a /\ holds truth13 x d /\ args = [($"x", d)].
Proof.
  intros p a HI HC NP k deps args (inputs & m & l1 & l2 & d & F & M & Q & _ & ->) A. rewrite HI, HC in *.
  inversion F as [|na nl la lb (H1 & H2) F' X1 X2]; subst. inversion F'; subst. destruct nl as [n parts]. cbn [fst snd] in *. subst n.
  cbn in M. injection M as M. destruct l1 as [|? [|? ?]]; try discriminate. injection M as <- <- <-. split; [reflexivity|].
  unfold arguments in A. rewrite HI, HC in A. cbn in A. unfold x_only in A.
  inversion A as [|n0 nv l0 l' (N & a0 & d0 & ds & Ia & D0 & _ & On & H & LD) A']; subst. inversion A'; subst.
  cbn in Ia, D0. injection Ia as <-. injection D0 as <-. destruct On as [On|On]; [|congruence].
  destruct parts as [|x [|? ?]]; try discriminate. inversion H as [|x0 t l3 l4 HD H']; subst. inversion H'; subst. exists x, t.
  split; [inversion H2 as [|? ? (S & _) ?]; exact S|]. split; [exact HD|]. destruct nv as [n w]. cbn [fst snd] in *. subst n.
  cbn [strict load existsb] in LD. destruct (is_nil t); [discriminate|]. cbn in LD. injection LD as <-. now rewrite app_nil_r.
Qed.
Lemma truth13_closed : closed truth13 strict g13.
Proof.
  intros p i a k deps args vs v data P MA A Ru Nv D. cbn in D. injection D as <-. cases13 P.
  - destruct (of_x_args double (raw "a") eq_refl eq_refl eq_refl k deps args MA A) as (-> & x & d & S & H & ->). right. left. eexists. split; [reflexivity|].
    unfold holds in H. rewrite S in H. cbn in H. destruct H as [(_ & ->)|[(f & Q & _)|(f & Q & _)]]; try discriminate.
    cbn in Ru. injection Ru as ->. cbn in Nv. injection Nv as <-. reflexivity.
  - destruct (of_x_args again13 b1 eq_refl eq_refl eq_refl k deps args MA A) as (-> & x & d & S & H & ->). right. right. eexists. split; [reflexivity|].
    unfold holds in H. rewrite S in H. cbn in H. destruct H as [(Q & _)|[(f & _ & ->)|(f & Q & _)]]; try discriminate.
    cbn in Ru. injection Ru as ->. cbn in Nv. injection Nv as <-. reflexivity.
Qed.

Lemma all_through : forall V (S : system V), forallb is_some (outcomes S) = true -> forall P, In P (running S) -> through P.
Proof.
  intros V S H P I. rewrite forallb_forall in H. specialize (H (outcome (rest P)) (in_map (fun P => outcome (rest P)) _ _ I)). unfold through.
  destruct (rest P) as [r|u k]; [now exists r|discriminate H].
Qed.
Lemma all_well : forall V (S : system V), forallb (fun o => match o with Some (Ok _) => true | _ => false end) (outcomes S) = true ->
  forall P, In P (running S) -> exists sn, rest P = Done (Ok sn).
Proof.
  intros V S H P I. rewrite forallb_forall in H. specialize (H (outcome (rest P)) (in_map (fun P => outcome (rest P)) _ _ I)).
  destruct (rest P) as [[sn|e]|u k]; [now exists sn|discriminate H|discriminate H].
Qed.

(** ** The theorems *)
Theorem right_end : forall V (jobs : list (env V * graph_def)) fs (R : location -> str -> Prop), orderly jobs -> (forall l d, dget location_eqb fs l = Some d -> R l d) ->
  (forall E g, In (E, g) jobs -> closed R E g) -> forall S, evolves (started fs jobs) S -> (forall P, In P (running S) -> through P) ->
  forall l d, dget location_eqb (shared S) l = Some d -> R l d.
Proof.
  intros V jobs fs R Od R0 Cl S X T l d D. destruct (right_always jobs fs R Od R0 Cl S X l d D) as [H|(_ & P & Ip & (d' & k & Q))]; [exact H|].
  destruct (T P Ip) as (r & Hr). congruence.
Qed.
Theorem right_recorded : forall V (jobs : list (env V * graph_def)) fs (R : location -> str -> Prop), orderly jobs -> (forall l d, dget location_eqb fs l = Some d -> R l d) ->
  (forall E g, In (E, g) jobs -> closed R E g) -> forall S i E g P sn key a x, evolves (started fs jobs) S -> (forall P, In P (running S) -> through P) ->
  nth_error jobs i = Some (E, g) -> nth_error (running S) i = Some P -> last_key (g_arts g) a key -> st_kind (a_storage a) = SFile ->
  In x (snd (read_snapshot_partitions (own_db P) sn key)) ->
  pt_storage (ps_part x) = a_storage a /\
  exists d, dget location_eqb (shared S) (st_id (a_storage a), ps_key x, ps_fp x) = Some d /\ R (st_id (a_storage a), ps_key x, ps_fp x) d.
Proof.
  intros V jobs fs R Od R0 Cl S i E g P sn key a x X T Nj Np L K Ix. apply key_of_last in L.
  assert (RL := rl_spec (own_db P) sn key). destruct (read_snapshot_partitions (own_db P) sn key) as (b', l). destruct RL as (-> & _). cbn [snd] in Ix.
  destruct (recorded_right jobs fs R Od R0 Cl S i E g P sn key a x X Nj Np Ix L) as ((St & _) & H). specialize (H K). split; [exact St|].
  unfold present, location_of in H. rewrite St in H. fold (ps_key x) in H. fold (ps_fp x) in H.
  destruct (dget location_eqb (shared S) (st_id (a_storage a), ps_key x, ps_fp x)) as [d|] eqn:D; [|now contradiction H]. exists d. split; [reflexivity|].
  eapply right_end; eauto.
Qed.
Theorem right_agree : forall V (jobs : list (env V * graph_def)) fs (R : location -> str -> Prop), orderly jobs -> (forall l d, dget location_eqb fs l = Some d -> R l d) ->
  (forall E g, In (E, g) jobs -> closed R E g) -> (forall l d d', R l d -> R l d' -> d = d') ->
  forall S1 S2, evolves (started fs jobs) S1 -> evolves (started fs jobs) S2 -> (forall P, In P (running S1) \/ In P (running S2) -> through P) ->
  forall l d1 d2, dget location_eqb (shared S1) l = Some d1 -> dget location_eqb (shared S2) l = Some d2 -> d1 = d2.
Proof.
  intros V jobs fs R Od R0 Cl One S1 S2 X1 X2 T l d1 d2 D1 D2. apply (One l).
  - eapply (right_end V jobs fs R Od R0 Cl S1); eauto.
  - eapply (right_end V jobs fs R Od R0 Cl S2); eauto.
Qed.

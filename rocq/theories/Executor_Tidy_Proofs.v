(** Facts about [tidy] and its graph. *)
From Coq Require Import ZArith List Ascii String Bool Arith Lia.
From Verif Require Import Base Base_Proofs Str Str_Proofs Graph_Model Graph_Spec Graph_Proofs.
From Verif Require Import Backend_Model Backend_Spec Backend_Proofs.
From Verif Require Import Executor_Model Executor_Spec Executor_Proofs Executor_Build_Proofs Executor_Top_Proofs Executor_Cases Executor_Cases_Proofs.
Import ListNotations.
Open Scope list_scope.

Lemma enc_str_inj : forall s s' r r', enc_str s ++ r = enc_str s' ++ r' -> s = s' /\ r = r'.
Proof.
  unfold enc_str. intros s s' r r' H. cbn in H. injection H as L H. apply Nat2Z.inj in L. revert s' L H. induction s as [|c s IH]; intros [|c' s'] L H; try discriminate; cbn in *; [auto|].
  injection H as C H. injection L as L. destruct (IH s' L H) as [-> ->]. split; [|reflexivity]. f_equal. apply N2Z.inj in C. now rewrite <- (ascii_N_embedding c), <- (ascii_N_embedding c'), C.
Qed.
Lemma enc_opt_inj : forall A (f : A -> list Z), (forall x y r r', f x ++ r = f y ++ r' -> x = y /\ r = r') ->
  forall o o' r r', enc_opt f o ++ r = enc_opt f o' ++ r' -> o = o' /\ r = r'.
Proof.
  intros A f F [x|] [y|] r r' H; cbn in H; try discriminate; injection H as H; [|auto]. apply F in H. destruct H as [-> ->]. auto.
Qed.
Lemma enc_kind_inj : forall k k' r r', enc_kind k ++ r = enc_kind k' ++ r' -> k = k' /\ r = r'.
Proof.
  intros [|v] [|v'] r r' H; cbn [enc_kind app] in H; try discriminate; injection H as H; [auto|]. apply (enc_opt_inj _ _ enc_str_inj) in H. destruct H as [-> ->]. auto.
Qed.
Lemma enc_bool_inj : forall b b', enc_bool b = enc_bool b' -> b = b'.
Proof. intros [|] [|] H; auto; discriminate. Qed.
Lemma enc_inj : forall x y, enc x = enc y -> x = y.
Proof.
  intros [[[i k p t] pk f v] c] [[[i' k' p' t'] pk' f' v'] c'] H. unfold enc in H. cbn [ps_part ps_content pt_storage st_partitioned st_templated st_id st_kind pt_key pt_fp pt_value] in H.
  assert (CI : forall (a b : Z) l m, a :: l = b :: m -> a = b /\ l = m) by (intros a b l m Q; injection Q; auto).
  apply CI in H. destruct H as [-> H]. apply CI in H. destruct H as [P H]. apply CI in H. destruct H as [T H]. apply enc_bool_inj in P, T. subst p' t'. apply enc_str_inj in H. destruct H as [-> H]. apply enc_kind_inj in H. destruct H as [-> H].
  apply enc_str_inj in H. destruct H as [-> H]. apply enc_opt_inj in H; [|intros a b r r' Q; injection Q; auto]. destruct H as [-> H].
  rewrite <- (app_nil_r (enc_opt enc_str v)), <- (app_nil_r (enc_opt enc_str v')) in H. apply (enc_opt_inj _ _ enc_str_inj) in H. now destruct H as [-> _].
Qed.
Lemma before_eq : forall x y, before x y = Eq <-> x = y.
Proof.
  induction x as [|a x IH]; intros [|b y]; cbn; try (split; [discriminate|discriminate]); [split; reflexivity|].
  destruct (a ?= b)%Z eqn:C.
  - apply Z.compare_eq in C. subst b. rewrite IH. split; [now intros ->|]. intro H. now injection H.
  - split; [discriminate|]. intro H. injection H as -> ->. now rewrite Z.compare_refl in C.
  - split; [discriminate|]. intro H. injection H as -> ->. now rewrite Z.compare_refl in C.
Qed.
Lemma before_flip : forall x y, before x y = CompOpp (before y x).
Proof.
  induction x as [|a x IH]; intros [|b y]; cbn; auto. rewrite (Z.compare_antisym b a). destruct (b ?= a)%Z; cbn; auto.
Qed.
Lemma before_trans : forall x y z, before x y = Lt -> before y z = Lt -> before x z = Lt.
Proof.
  induction x as [|a x IH]; intros [|b y] [|c z]; cbn; auto; try discriminate. 
  destruct (a ?= b)%Z eqn:C1; try discriminate; destruct (b ?= c)%Z eqn:C2; try discriminate; intros H1 H2.
  - apply Z.compare_eq in C1, C2. subst. rewrite Z.compare_refl. eauto.
  - apply Z.compare_eq in C1. subst. now rewrite C2.
  - apply Z.compare_eq in C2. subst. now rewrite C1.
  - rewrite Z.compare_lt_iff in C1, C2. assert (C : (a ?= c)%Z = Lt) by (apply Z.compare_lt_iff; lia). now rewrite C.
Qed.
Inductive ordered : list psnapshot -> Prop :=
| ordered_nil : ordered []
| ordered_cons : forall x l, (forall y, In y l -> before (enc x) (enc y) = Lt) -> ordered l -> ordered (x :: l).
Lemma insert_In : forall x l y, In y (insert x l) <-> y = x \/ In y l.
Proof.
  intros x. induction l as [|z l IH]; intro y; cbn [insert]; [cbn; split; intros [ -> |[]]; auto|]. assert (SY : x = y <-> y = x) by (split; auto). destruct (before (enc x) (enc z)) eqn:C; cbn.
  - apply before_eq, enc_inj in C. subst z. tauto.
  - tauto.
  - rewrite IH. tauto.
Qed.
Lemma insert_ordered : forall x l, ordered l -> ordered (insert x l).
Proof.
  intros x l H. induction H as [|z l Z H IH]; cbn [insert]; [constructor; [intros y []|constructor]|]. destruct (before (enc x) (enc z)) eqn:C.
  - now constructor.
  - constructor; [|now constructor]. intros y [ <- |I]; [exact C|]. eapply before_trans; [exact C|now apply Z].
  - constructor; [|exact IH]. intros y I. apply insert_In in I. destruct I as [ -> |I]; [|auto]. rewrite before_flip, C. reflexivity.
Qed.
Lemma ordered_unique : forall l l', ordered l -> ordered l' -> (forall x, In x l <-> In x l') -> l = l'.
Proof.
  intros l l' H. revert l'. induction H as [|x l X H IH]; intros l' H' EQ.
  - destruct l' as [|y l']; [reflexivity|]. destruct (proj2 (EQ y) (or_introl eq_refl)).
  - destruct H' as [|y l' Y H']; [destruct (proj1 (EQ x) (or_introl eq_refl))|].
    assert (IR : forall z, before z z = Lt -> False) by (intros z Q; assert (Q' := proj2 (before_eq z z) eq_refl); congruence).
    assert (x = y).
    { destruct (proj1 (EQ x) (or_introl eq_refl)) as [Q|I]; [now symmetry|]. destruct (proj2 (EQ y) (or_introl eq_refl)) as [Q|J]; [exact Q|].
      exfalso. eapply IR. eapply before_trans; [apply X, J|apply Y, I]. }
    subst y. f_equal. apply IH; [exact H'|]. intro z. split; intro I.
    + destruct (proj1 (EQ z) (or_intror I)) as [ <- |J]; [exfalso; eapply IR, X, I|exact J].
    + destruct (proj2 (EQ z) (or_intror I)) as [ <- |J]; [exfalso; eapply IR, Y, I|exact J].
Qed.
Lemma tidy_iterates : iterates tidy.
Proof. intros l x. cbn [tidy iter_set]. induction l as [|y l IH]; [reflexivity|]. cbn [fold_right]. rewrite insert_In, IH. cbn. assert (SY : y = x <-> x = y) by (split; auto). tauto. Qed.
Lemma tidy_settled : settled tidy.
Proof.
  intros l l' EQ. assert (O : forall l, ordered (iter_set tidy l)) by (induction l0 as [|x l0 IH]; [constructor|cbn [tidy iter_set fold_right]; now apply insert_ordered]).
  apply ordered_unique; auto. intro x. rewrite (tidy_iterates l x), (tidy_iterates l' x). apply EQ.
Qed.
Lemma tidy_picks : picks tidy.
Proof. exact demo_picks. Qed.
Lemma g14_produces : forall p i a, produces (g_arts g14) p i a -> (p = each /\ i = 0 /\ a = b14) \/ (p = double14 /\ i = 0 /\ a = c14).
Proof. intros p i a (k & I & O). destruct I as [Q|[Q|[Q|[]]]]; injection Q as <- <-; [discriminate| |]; injection O as <- <-; auto. Qed.
Ltac cases14 P := apply g14_produces in P; destruct P as [(-> & -> & ->)|(-> & -> & ->)].
Lemma g14_in_order : in_order tidy (g_arts g14).
Proof.
  constructor.
  - vm_compute. repeat constructor; cbn; intuition discriminate.
  - intros p i a q j b P Q E. cases14 P; cases14 Q; try reflexivity; discriminate.
  - intros p i a b P Q. cases14 P; apply g14_produces in Q; destruct Q as [(Q1 & Q2 & ->)|(Q1 & Q2 & ->)]; try reflexivity; try discriminate.
  - intros p i a P. cases14 P; vm_compute; lia.
  - intros p i a args vs P H. cases14 P; unfold runs in H; cbn in H; injection H as ->; reflexivity.
Qed.
Lemma g14_distinct : distinct_paths (g_arts g14).
Proof. intros p i a q j b P Q E. cases14 P; cases14 Q; try reflexivity; discriminate. Qed.
Lemma g14_templated : templated (g_arts g14).
Proof. intros p i a P. cases14 P; reflexivity. Qed.
Lemma g14_one : forall p i a j b, produces (g_arts g14) p i a -> produces (g_arts g14) p j b -> b = a.
Proof. intros p i a j b P Q. cases14 P; apply g14_produces in Q; destruct Q as [(Q1 & Q2 & ->)|(Q1 & Q2 & ->)]; try reflexivity; discriminate. Qed.
(** Files left by stopped builds. *)
Lemma checked_files : forall (fs a b : list (location * str)),
  (forall l, In l (map fst fs ++ map fst a ++ map fst b) -> dget location_eqb fs l = dget location_eqb a l \/ dget location_eqb fs l = dget location_eqb b l) ->
  forall l, dget location_eqb fs l = dget location_eqb a l \/ dget location_eqb fs l = dget location_eqb b l.
Proof.
  intros fs a b H l. assert (X : forall m : list (location * str), ~ In l (map fst m) -> dget location_eqb m l = None).
  { intros m NI. destruct (dget location_eqb m l) eqn:D; [|reflexivity]. apply (dget_Some_key _ location_eqb_spec) in D. tauto. }
  destruct (existsb (location_eqb l) (map fst fs ++ map fst a ++ map fst b)) eqn:EX.
  - apply H. apply existsb_exists in EX. destruct EX as (l' & I & Q). apply location_eqb_spec in Q. now subst.
  - left. assert (N : ~ In l (map fst fs ++ map fst a ++ map fst b)).
    { intro I. assert (T : existsb (location_eqb l) (map fst fs ++ map fst a ++ map fst b) = true); [|congruence]. apply existsb_exists. exists l. split; [exact I|now apply location_eqb_spec]. }
    rewrite !in_app_iff in N. rewrite !X; tauto.
Qed.
Ltac check_all := apply checked_files; vm_compute; let I := fresh in intros l I; repeat destruct I as [ <- |I]; [..|destruct I]; first [left; reflexivity|right; reflexivity].
Lemma left14_attempts : attempts tidy g14 (files (fst (run14 None ex14))) ex14 left14'.
Proof.
  apply attempts_more with (fs1 := left14) (n := 19) (s := fst (run14 (Some 19) left14)) (r := snd (run14 (Some 19) left14)).
  - apply attempts_more with (fs1 := ex14) (n := 16) (s := fst (run14 (Some 16) ex14)) (r := snd (run14 (Some 16) ex14)).
    + constructor.
    + unfold run14. now destruct (graph_build tidy g14 (State ex14 empty_backend [] (Some 16))).
    + vm_compute. repeat constructor; cbn; intuition discriminate.
    + check_all.
    + intros l d D. apply (dget_In _ location_eqb_spec) in D. revert D. vm_compute. intro D. repeat destruct D as [D|D]; try (injection D as <- <-; reflexivity). destruct D.
  - unfold run14. now destruct (graph_build tidy g14 (State left14 empty_backend [] (Some 19))).
  - vm_compute. repeat constructor; cbn; intuition discriminate.
  - check_all.
  - intros l d D. apply (dget_In _ location_eqb_spec) in D. revert D. vm_compute. intro D. repeat destruct D as [D|D]; try (injection D as <- <-; reflexivity). destruct D.
Qed.
Lemma other14_attempts : attempts demo g14 (files (fst (plain14 None ex14))) ex14 other14.
Proof.
  apply attempts_more with (fs1 := ex14) (n := 19) (s := fst (plain14 (Some 19) ex14)) (r := snd (plain14 (Some 19) ex14)).
  - constructor.
  - unfold plain14. now destruct (graph_build demo g14 (State ex14 empty_backend [] (Some 19))).
  - vm_compute. repeat constructor; cbn; intuition discriminate.
  - check_all.
  - intros l d D. apply (dget_In _ location_eqb_spec) in D. revert D. vm_compute. intro D. repeat destruct D as [D|D]; try (injection D as <- <-; reflexivity). destruct D.
Qed.
Lemma g14_in_order' : in_order demo (g_arts g14).
Proof. destruct g14_in_order. constructor; auto. Qed.

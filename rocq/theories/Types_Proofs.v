From Coq Require Import List Ascii String Bool.
From Verif Require Import Base Str Str_Proofs Base_Proofs Types_Model Types_Spec.
Import ListNotations.
Open Scope list_scope.

Lemma dmem_In : forall A (d : list (str * A)) k, dmem str_eqb d k = true <-> In k (map fst d).
Proof.
  intros A d k. unfold dmem. destruct (dget str_eqb d k) eqn:E.
  - split; [intros _|reflexivity]. apply (dget_Some_key _ str_eqb_spec _ _ _ E).
  - apply (dget_None _ str_eqb_spec) in E. split; [discriminate|contradiction].
Qed.

Lemma known_all : forall element refs, known_refs element refs = true <-> forall n, In n refs -> In n (map fst (fields_of element)).
Proof.
  intros. unfold known_refs. rewrite forallb_forall. split; intros H n I; apply dmem_In, H, I.
Qed.

Lemma disjoint_names : forall p c, existsb (fun n => existsb (str_eqb n) p) c = false <-> forall n : str, In n p -> ~ In n c.
Proof.
  intros p c. rewrite <- not_true_iff_false, existsb_exists. split.
  - intros H n I J. apply H. exists n. split; [exact J|]. apply existsb_exists. exists n. split; [exact I|apply str_eqb_refl].
  - intros H (n & I & J). apply existsb_exists in J. destruct J as (k & K & E). apply str_eqb_spec in E. subst. exact (H _ K I).
Qed.

Lemma valid_decided : forall e p c,
  is_struct e && known_refs e p && known_refs e c && negb (existsb (fun n => existsb (str_eqb n) p) c) = true <-> valid_collection e p c.
Proof.
  intros e p c. rewrite !andb_true_iff, negb_true_iff, disjoint_names, !known_all. unfold valid_collection. split.
  - intros (((S & P) & C) & D). destruct e; try discriminate. exists name, fields, m. auto.
  - intros (name & fs & m & -> & P & C & D). auto.
Qed.

Theorem collection_created : forall name e p c m x,
  mk_collection name e p c m = Ok x <-> valid_collection e p c /\ x = Collection name e p c m.
Proof.
  intros name e p c m x. unfold mk_collection. rewrite <- valid_decided. destruct (_ && _) eqn:V; split.
  - intro H. injection H as <-. auto.
  - intros [_ ->]. reflexivity.
  - discriminate.
  - intros [H _]. discriminate.
Qed.

Theorem collection_refused : forall name e p c m, ~ valid_collection e p c -> mk_collection name e p c m = Err ValueError.
Proof.
  intros name e p c m V. unfold mk_collection. rewrite <- valid_decided in V. apply not_true_iff_false in V. rewrite V. reflexivity.
Qed.

Lemma mapM_snoc : forall A B (f : A -> result B) l x r,
  mapM f (l ++ [x]) = Ok r -> exists r' y, mapM f l = Ok r' /\ f x = Ok y /\ r = r' ++ [y].
Proof.
  induction l as [|a l IH]; intros x r H.
  - cbn in H. destruct (f x) as [y|]; [|discriminate]. injection H as <-. exists [], y. auto.
  - cbn in H |- *. destruct (f a) as [b|]; [|discriminate]. cbn in H |- *. destruct (mapM f (l ++ [x])) as [r0|] eqn:E; [|discriminate].
    injection H as <-. destruct (IH _ _ E) as (r' & y & -> & Y & ->). exists (b :: r'), y. auto.
Qed.

Lemma dupdate_snoc : forall l (d : list (str * ty)) kv, dupdate str_eqb d (l ++ [kv]) = dset str_eqb (dupdate str_eqb d l) (fst kv) (snd kv).
Proof. intros. unfold dupdate. rewrite fold_left_app. reflexivity. Qed.

Lemma first_mention_In : forall names l, first_mention names l -> forall n, In n names <-> In n l.
Proof.
  induction 1 as [|names l n F IH N|names l n F IH N]; intro x; [reflexivity| |]; rewrite ?in_app_iff; rewrite IH; [reflexivity|].
  split; [|auto]. intros [H|[->|[]]]; [exact H|apply IH, N].
Qed.

Lemma dset_there : forall (d : list (str * ty)) k v x, In x (dset str_eqb d k v) -> In x d \/ x = (k, v).
Proof.
  induction d as [|[j w] d IH]; intros k v x; cbn.
  - intros [<-|[]]; auto.
  - destruct (str_eqb j k) eqn:E; cbn.
    + apply str_eqb_spec in E. subst. intros [<-|I]; auto.
    + intros [<-|I]; auto. destruct (IH _ _ _ I); auto.
Qed.

Theorem picked : forall e names, NoDup (map fst (fields_of e)) -> (forall n, In n names -> In n (map fst (fields_of e))) ->
  exists l, pick_fields e names = Ok l /\ declared (fields_of e) names l.
Proof.
  intros e names ND K. unfold pick_fields.
  assert (G : exists r, mapM (fun n => match dget str_eqb (fields_of e) n with Some t => Ok (n, t) | None => Err KeyError end) names = Ok r).
  { clear ND. induction names as [|n names IH]; [exists []; reflexivity|]. cbn. destruct (dget str_eqb (fields_of e) n) eqn:E.
    - destruct IH as [r ->]; [intros; apply K; right; assumption|]. eexists. reflexivity.
    - apply (dget_None _ str_eqb_spec) in E. destruct E. apply K. left. reflexivity. }
  destruct G as [r G]. rewrite G. cbn [rmap]. eexists. split; [reflexivity|]. clear K.
  revert r G. induction names as [|n names IH] using rev_ind; intros r G.
  - injection G as <-. split; [constructor|intros ? ? []].
  - apply mapM_snoc in G. destruct G as (r' & y & G & Y & ->). destruct (IH _ G) as [F D].
    destruct (dget str_eqb (fields_of e) n) as [t|] eqn:E; [|discriminate]. injection Y as <-. unfold dict_of in *. rewrite dupdate_snoc. cbn [fst snd].
    apply dget_In in E; [|exact str_eqb_spec]. split.
    + rewrite dset_keys. destruct (dmem str_eqb (dupdate str_eqb [] r') n) eqn:M.
      * apply fm_again; [exact F|]. apply dmem_In in M. apply (first_mention_In _ _ F), M.
      * apply fm_new; [exact F|]. intro I. apply (first_mention_In _ _ F) in I. apply dmem_In in I. congruence.
    + intros k v I. apply dset_there in I. destruct I as [I|I]; [exact (D _ _ I)|]. injection I as -> ->. exact E.
Qed.

Lemma first_mention_nil : forall names, first_mention names [] -> names = [].
Proof. intros names F. destruct names as [|n names]; [reflexivity|]. destruct (proj1 (first_mention_In _ _ F n) (or_introl eq_refl)). Qed.

Theorem partitioned_iff : forall name e p c m x, mk_collection name e p c m = Ok x -> NoDup (map fst (fields_of e)) ->
  is_partitioned x = Ok (match p with [] => false | _ => true end).
Proof.
  intros name e p c m x H ND. apply collection_created in H. destruct H as [(sn & fs & sm & -> & P & _) ->].
  cbn [is_partitioned partition_fields]. destruct (picked (Struct sn fs sm) p ND P) as (l & -> & F & _). cbn [rmap].
  destruct l as [|x l]; [rewrite (first_mention_nil _ F); reflexivity|].
  destruct p as [|n p]; [|reflexivity]. destruct (proj2 (first_mention_In _ _ F (fst x))). left. reflexivity.
Qed.

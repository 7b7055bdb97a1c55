(** What the operations on a box answer. *)
From Coq Require Import ZArith List Bool Ascii String.
From Verif Require Import Base Str Str_Proofs TypedBox_Model TypedBox_Spec TypedBox_Proofs.
Import ListNotations.
Open Scope list_scope.

Section Answers.
  Context {V R : Type} (cast : list str -> str -> R -> result V).

  Lemma step_same : forall s h o sd r, find (Sub (st_data s)) h = Some (Sub sd) ->
    run_op cast (st_status s) o h sd = (sd, r) -> step cast s (EOp h o) = (s, Some r).
  Proof.
    intros [st d] h o sd r F E. cbn [step st_data st_status] in *.
    rewrite (at_handle_found _ (run_op cast st o) h [] d sd F); cbn [app]; rewrite E; reflexivity.
  Qed.

  Lemma found_parts : forall s h key n, reachable cast s -> find (Sub (st_data s)) (h ++ parts key) = Some n ->
    exists sd, find (Sub (st_data s)) h = Some (Sub sd) /\ find (Sub sd) (parts key) = Some n /\ public key.
  Proof.
    intros s h key n Rs H. apply reachable_wf in Rs. pose proof H as H0. rewrite find_app in H.
    destruct (find (Sub (st_data s)) h) as [[w|sd]|] eqn:F; try discriminate.
    - rewrite parts_split in H. destruct (head_of key); discriminate.
    - exists sd. split; [reflexivity|]. split; [exact H|]. intros p Hp.
      destruct (wf_find _ _ _ Rs H0) as [_ P]. apply (P p). apply in_or_app. right. exact Hp.
  Qed.

  Theorem answers_get : forall s h key n, reachable cast s -> find (Sub (st_data s)) (h ++ parts key) = Some n ->
    step cast s (EOp h (OGet key)) = (s, Some (Ok (Got n))) /\
    (private key = false -> step cast s (EOp h (OGetAttr key)) = (s, Some (Ok (Got n)))).
  Proof.
    intros s h key n Rs H. destruct (found_parts s h key n Rs H) as (sd & F & G & P).
    pose proof (getitem_found (st_status s) sd key n P G) as E. split; [|intros Q]; apply (step_same s h _ sd _ F); cbn [run_op].
    - rewrite E. reflexivity.
    - rewrite Q, E. reflexivity.
  Qed.

  Theorem answers_contains : forall s h sd key, find (Sub (st_data s)) h = Some (Sub sd) -> public key ->
    exists r, step cast s (EOp h (OContains key)) = (s, Some r) /\
      (r = Ok (Answer true) <-> exists n, find (Sub (st_data s)) (h ++ parts key) = Some n).
  Proof.
    intros s h sd key F P. exists (rmap Answer (snd (contains (st_status s) sd key))). split.
    - apply (step_same s h _ sd _ F). cbn [run_op]. pose proof (contains_pure (st_status s) sd key) as E.
      destruct (contains (st_status s) sd key) as [d' r]. cbn in *. subst. reflexivity.
    - rewrite find_app, F. rewrite <- (contains_iff (st_status s) sd key P).
      pose proof (contains_pure (st_status s) sd key) as E. destruct (contains (st_status s) sd key) as [d' r]. cbn in *. subst.
      split; [|intros H; injection H as ->; reflexivity]. destruct r as [b|e]; [|discriminate]. cbn. intros H. injection H as ->. reflexivity.
  Qed.

  Theorem answers_walk : forall s h sd, reachable cast s -> find (Sub (st_data s)) h = Some (Sub sd) ->
    exists l, step cast s (EOp h OWalk) = (s, Some (Ok (Walked l))) /\ NoDup (map fst l) /\
      forall key v, In (key, v) l <-> find (Sub (st_data s)) (h ++ parts key) = Some (Leaf v).
  Proof.
    intros s h sd Rs F. exists (walk sd). split; [apply (step_same s h _ sd _ F); reflexivity|].
    pose proof (reachable_wf cast s Rs) as W. destruct (wf_find _ _ _ W F) as [Wsd _].
    split; [apply walk_NoDup; exact Wsd|]. intros key v. rewrite find_app, F. apply walk_spec. exact Wsd.
  Qed.

  Theorem answers_missing : forall s h sd key, st_status s = Closed -> find (Sub (st_data s)) h = Some (Sub sd) ->
    plain_key key -> find (Sub (st_data s)) (h ++ [key]) = None ->
    step cast s (EOp h (OGet key)) = (s, Some (Err KeyError)) /\
    step cast s (EOp h (OGetAttr key)) = (s, Some (Err AttributeError)).
  Proof.
    intros s h sd key C F [D P] N. rewrite find_app, F in N. cbn in N.
    assert (parts key = [key]) as K. { unfold parts. apply split_plain. exact D. }
    assert (getitem (st_status s) sd key = (sd, Err KeyError)) as E.
    { rewrite C. unfold getitem, head_of, tail_of. rewrite K. cbn [removelast last descend]. rewrite P. unfold getitem1. rewrite P.
      destruct (dget str_eqb sd key); [discriminate|reflexivity]. }
    split; apply (step_same s h _ sd _ F); cbn [run_op]; rewrite ?P, E; reflexivity.
  Qed.

  Theorem answers_private : forall s h sd key i, find (Sub (st_data s)) h = Some (Sub sd) -> private key = true ->
    step cast s (EOp h (OGetAttr key)) = (s, Some (Err InvalidKeyError)) /\
    step cast s (EOp h (OSetAttr key i)) = (s, Some (Err InvalidKeyError)).
  Proof. intros s h sd key i F P. split; apply (step_same s h _ sd _ F); cbn [run_op]; rewrite P; reflexivity. Qed.
End Answers.

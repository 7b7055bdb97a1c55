From Coq Require Import ZArith List Bool Ascii String.
From Verif Require Import Base Base_Proofs Str Str_Proofs TypedBox_Model TypedBox_Spec TypedBox_Proofs Keys_Spec.
Import ListNotations.
Open Scope list_scope.

Lemma dotted_join : forall path, dotted path = join ["."%char] path.
Proof.
  induction path as [|p [|q rest] IH]; [reflexivity|reflexivity|]. change (p ++ "."%char :: dotted (q :: rest) = p ++ ["."%char] ++ join ["."%char] (q :: rest)).
  now rewrite IH.
Qed.
Theorem parts_dotted : forall key path, parts key = path <-> path <> [] /\ key = dotted path /\ forall p, In p path -> ~ In "."%char p.
Proof.
  intros key path. unfold parts. rewrite dotted_join. split.
  - intros <-. split; [apply split_nonempty|]. split; [symmetry; apply join_split|]. apply split_no_sep.
  - intros (NE & -> & ND). now apply split_join.
Qed.
Lemma private_hidden : forall p, private p = true <-> hidden p.
Proof.
  intro p. unfold private, hidden. destruct p as [|c p]; cbn [starts_with]; [split; [discriminate|intros (r & H); discriminate]|]. rewrite andb_true_r.
  split; [intro H; apply Ascii.eqb_eq in H; subst; eauto|]. intros (r & H). injection H as -> _. reflexivity.
Qed.
Lemma not_private : forall p, private p = false <-> ~ hidden p.
Proof. intro p. rewrite <- private_hidden. now destruct (private p). Qed.
Theorem public_iff : forall key, public key <-> forall p, In p (parts key) -> ~ hidden p.
Proof. intro key. unfold public. split; intros H p I; apply not_private, H, I. Qed.

Section Box.
  Context {V R : Type} (cast : list str -> str -> R -> result V).
  Theorem stored_keys : forall s path n, reachable cast s -> find (Sub (st_data s)) path = Some n -> forall p, In p path -> ~ In "."%char p /\ ~ hidden p.
  Proof.
    intros s path n H F p I. destruct (wf_find _ _ _ (reachable_wf cast s H) F) as [_ PK]. destruct (PK p I) as [D P]. split; [exact D|]. now apply not_private.
  Qed.
  Lemma getitem_ok_public : forall st (d d' : list (str * node V)) key n, getitem st d key = (d', Ok n) -> public key.
  Proof.
    intros st d d' key n H. unfold getitem in H. unfold public. rewrite parts_split.
    assert (G : forall heads ns (d d' : list (str * node V)), descend st ns d heads (tail_of key) (fun _ d' => getitem1 st d' (tail_of key)) = (d', Ok n) ->
      forall p, In p (heads ++ [tail_of key]) -> private p = false).
    { clear. induction heads as [|p heads IH]; intros ns d d' H q Q; cbn [descend app] in *.
      - destruct Q as [<-|[]]. destruct (private (tail_of key)); [discriminate|reflexivity].
      - destruct (getitem1 st d p) as [d1 [[v|sd]|e]] eqn:G1; try discriminate. destruct (getitem1_found _ _ _ _ _ G1) as [_ P].
        destruct Q as [<-|Q]; [exact P|]. destruct (descend st (ns ++ [p]) sd heads (tail_of key) _) as [sd' r] eqn:D. injection H as _ ->. eapply IH; eauto. }
    exact (G _ _ _ _ H).
  Qed.
  Theorem hidden_keys : forall st (d : list (str * node V)) key, (exists p, In p (parts key) /\ hidden p) ->
    (forall n, snd (getitem st d key) <> Ok n) /\ (forall i, snd (setitem cast st i [] d key) <> Ok tt) /\ snd (contains st d key) <> Ok true.
  Proof.
    intros st d key (p & I & H). apply private_hidden in H. split; [|split].
    - intros n Q. destruct (getitem st d key) as [d' r] eqn:G. cbn in Q. subst r. apply getitem_ok_public in G. rewrite (G p I) in H. discriminate.
    - intros i Q. destruct (setitem cast st i [] d key) as [d' r] eqn:G. cbn in Q. subst r. apply setitem_ok_public in G. rewrite (G p I) in H. discriminate.
    - intro Q. apply contains_true_public in Q. rewrite (Q p I) in H. discriminate.
  Qed.
  Theorem hidden_name : forall st (d : list (str * node V)) key, ~ In "."%char key -> hidden key ->
    getitem st d key = (d, Err InvalidKeyError) /\ (forall i, setitem cast st i [] d key = (d, Err InvalidKeyError)) /\ contains st d key = (d, Err InvalidKeyError).
  Proof.
    intros st d key D H. apply private_hidden in H. assert (P : parts key = [key]) by (apply split_plain, D).
    assert (HD : head_of key = []) by (unfold head_of; now rewrite P). assert (TL : tail_of key = key) by (unfold tail_of; now rewrite P).
    split; [|split].
    - unfold getitem. rewrite HD, TL. cbn [descend contains_in]. now rewrite H.
    - intros [x|l]; cbn [setitem]; rewrite HD, TL; cbn [descend]; now rewrite H.
    - unfold contains. rewrite HD, TL. cbn [descend contains_in]. now rewrite H.
  Qed.
End Box.

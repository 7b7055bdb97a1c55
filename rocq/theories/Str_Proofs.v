(** Laws of the string functions. *)
From Coq Require Import List Ascii Bool Lia.
From Verif Require Import Str.
Import ListNotations.

Lemma str_eqb_spec : forall a b, str_eqb a b = true <-> a = b.
Proof.
  intros a b. unfold str_eqb. destruct (list_eq_dec ascii_dec a b); split; congruence.
Qed.

Lemma str_eqb_refl : forall a, str_eqb a a = true.
Proof. intro a. now apply str_eqb_spec. Qed.

Lemma split_nonempty : forall c s, split_char c s <> [].
Proof.
  intros c s. induction s as [|a s IH]; cbn; [discriminate|].
  destruct (Ascii.eqb a c); [discriminate|]. destruct (split_char c s); [congruence|discriminate].
Qed.

Lemma split_no_sep : forall c s p, In p (split_char c s) -> ~ In c p.
Proof.
  intros c s. induction s as [|a s IH]; intros p; cbn.
  - intros [<-|[]] [].
  - destruct (Ascii.eqb_spec a c) as [E|N].
    + intros [<-|H]; [intros []|]. now apply IH.
    + destruct (split_char c s) as [|q qs] eqn:Q.
      * intros [<-|[]]. intros [H|[]]. congruence.
      * intros [<-|H].
        -- intros [H|H]; [congruence|]. apply (IH q); [left; reflexivity|exact H].
        -- apply IH. right. exact H.
Qed.

Lemma split_plain : forall c s, ~ In c s -> split_char c s = [s].
Proof.
  intros c s. induction s as [|a s IH]; intro H; cbn; [reflexivity|].
  destruct (Ascii.eqb_spec a c) as [E|N]; [exfalso; apply H; left; exact E|].
  rewrite IH; [reflexivity|]. intro Hin. apply H. now right.
Qed.

Lemma split_app : forall c p s, ~ In c p ->
  split_char c (p ++ c :: s) = p :: split_char c s.
Proof.
  intros c p s. induction p as [|a p IH]; intro H; cbn.
  - now rewrite Ascii.eqb_refl.
  - destruct (Ascii.eqb_spec a c) as [E|N]; [exfalso; apply H; left; exact E|].
    rewrite IH; [reflexivity|]. intro Hin. apply H. now right.
Qed.

Lemma split_join : forall c ps, ps <> [] -> (forall p, In p ps -> ~ In c p) ->
  split_char c (join [c] ps) = ps.
Proof.
  intros c ps. induction ps as [|p ps IH]; intros N H; [congruence|].
  destruct ps as [|q qs].
  - cbn. apply split_plain. apply H. now left.
  - change (join [c] (p :: q :: qs)) with (p ++ c :: join [c] (q :: qs)).
    rewrite split_app by (apply H; now left). f_equal. apply IH; [discriminate|].
    intros x Hx. apply H. now right.
Qed.

Lemma join_split : forall c s, join [c] (split_char c s) = s.
Proof.
  intros c s. induction s as [|a s IH]; cbn [split_char]; [reflexivity|].
  destruct (Ascii.eqb_spec a c) as [E|N].
  - subst. destruct (split_char c s) as [|q qs] eqn:Q; [now destruct (split_nonempty c s)|].
    change (join [c] ([] :: q :: qs)) with (c :: join [c] (q :: qs)). now rewrite IH.
  - destruct (split_char c s) as [|q qs] eqn:Q; [now destruct (split_nonempty c s)|].
    destruct qs as [|r rs].
    + cbn in *. now rewrite IH.
    + change (join [c] ((a :: q) :: r :: rs)) with (a :: join [c] (q :: r :: rs)). now rewrite IH.
Qed.

Lemma join_inj : forall c ps qs, ps <> [] -> qs <> [] ->
  (forall p, In p ps -> ~ In c p) -> (forall p, In p qs -> ~ In c p) ->
  join [c] ps = join [c] qs -> ps = qs.
Proof.
  intros c ps qs N1 N2 H1 H2 E. rewrite <- (split_join c ps N1 H1), <- (split_join c qs N2 H2).
  now rewrite E.
Qed.

(** The recursion of the scanner is bounded by the length of the text. *)
From Coq Require Import ZArith NArith List Ascii String Bool Lia.
From Verif Require Import Base Str Numerals_Model Json_Model Json_Spec Json_Text_Proofs Json_Codec_Proofs Json_Prefix_Proofs.
Import ListNotations.
Open Scope list_scope.
Local Notation len := (@List.length ascii).

Lemma skip_ws_length : forall s, (len (skip_ws s) <= len s)%nat.
Proof. induction s as [|c s IH]; cbn; [lia|]. destruct (is_ws c); cbn; lia. Qed.
Lemma span_length : forall p s a r, span p s = (a, r) -> (len a + len r = len s)%nat.
Proof.
  induction s as [|c s IH]; cbn; intros a r E; [injection E as <- <-; reflexivity|].
  destruct (p c); [|injection E as <- <-; reflexivity]. destruct (span p s) as [a' r']. injection E as <- <-. specialize (IH _ _ eq_refl). cbn. lia.
Qed.
Lemma scan_string_length : forall n s x r, (len s <= n)%nat -> scan_string s = Some (x, r) -> (len r < len s)%nat.
Proof.
  induction n as [|n IH]; intros s x r L E; [destruct s; [discriminate E|cbn in L; lia]|].
  destruct s as [|c s1]; [discriminate E|]. cbn [List.length] in *.
  assert (K : forall y s', (len s' <= len s1)%nat -> add y (scan_string s') = Some (x, r) -> (len r < S (len s1))%nat).
  { intros y s' Ls H. destruct (add_some _ _ _ _ _ _ H) as (l & El & _). apply IH in El; lia. }
  cbn [scan_string] in E. destruct (Ascii.eqb c """"); [injection E as <- <-; lia|].
  destruct (Ascii.eqb c "\").
  - destruct s1 as [|e s2]; [discriminate E|]. destruct (Ascii.eqb e "u").
    + destruct s2 as [|a [|b [|c' [|d s3]]]]; try discriminate E. destruct (hex4 a b c' d) as [h|]; [|discriminate E].
      assert (K3 : add h (scan_string s3) = Some (x, r) -> (len r < S (len (e :: a :: b :: c' :: d :: s3)))%nat) by (apply K; cbn; lia).
      destruct s3 as [|c1 [|c2 [|a1 [|b1 [|c3 [|d1 s4]]]]]]; try (apply K3; exact E).
      destruct (is_high h && Ascii.eqb c1 "\" && Ascii.eqb c2 "u"); [|apply K3; exact E].
      destruct (hex4 a1 b1 c3 d1) as [l|]; [|discriminate E]. destruct (is_low l); [|apply K3; exact E].
      revert E. apply K. cbn; lia.
    + destruct (unescape e) as [m|]; [|discriminate E]. revert E. apply K. cbn; lia.
  - destruct (N_of_ascii c <? 32)%N; [discriminate E|]. revert E. apply K. lia.
Qed.
Lemma scan_number_length : forall fl s (v : value fl) r, scan_number s = Some (v, r) -> (len r < len s)%nat.
Proof.
  intros fl s v r E. unfold scan_number in E.
  assert (A : forall s g s1, scan_sign s = (g, s1) -> (len s1 <= len s)%nat).
  { intros [|c s0] g s1 H; cbn in H; [injection H as <- <-; lia|]. destruct (Ascii.eqb c "-"); injection H as <- <-; cbn; lia. }
  assert (B : forall s i s1, scan_integer s = Some (i, s1) -> (len s1 < len s)%nat).
  { intros [|c s0] i s1 H; cbn in H; [discriminate H|]. destruct (Ascii.eqb c "0"); [injection H as <- <-; cbn; lia|].
    destruct (is_digit c); [|discriminate H]. destruct (span is_digit s0) as [a q] eqn:Es. injection H as <- <-. apply span_length in Es. cbn. lia. }
  assert (C : forall s f s1, scan_fraction s = (f, s1) -> (len s1 <= len s)%nat).
  { intros [|c s0] f s1 H; cbn in H; [injection H as <- <-; lia|]. destruct (Ascii.eqb c "."); [|injection H as <- <-; lia].
    destruct (span is_digit s0) as [a q] eqn:Es. apply span_length in Es. destruct a; injection H as <- <-; cbn in *; lia. }
  assert (D : forall s e s1, scan_exponent s = (e, s1) -> (len s1 <= len s)%nat).
  { intros [|c s0] e s1 H; cbn in H; [injection H as <- <-; lia|]. destruct (Ascii.eqb c "e" || Ascii.eqb c "E"); [|injection H as <- <-; lia].
    assert (Q : forall g (s2 : str), (len s2 <= len s0)%nat ->
                  match span is_digit s2 with ([], _) => ([], c :: s0) | (a, r) => (c :: g ++ a, r) end = (e, s1) -> (len s1 <= S (len s0))%nat).
    { intros g s2 L2 Q. destruct (span is_digit s2) as [a q] eqn:Es. apply span_length in Es. destruct a; injection Q as <- <-; cbn [List.length] in *; lia. }
    destruct s0 as [|d s0]; [|destruct (Ascii.eqb d "+" || Ascii.eqb d "-")]; revert H; apply Q; cbn; lia. }
  destruct (scan_sign s) as [g s1] eqn:E1. destruct (scan_integer s1) as [[i s2]|] eqn:E2; [|discriminate E].
  destruct (scan_fraction s2) as [f s3] eqn:E3. destruct (scan_exponent s3) as [e s4] eqn:E4.
  apply A in E1. apply B in E2. apply C in E3. apply D in E4.
  assert (r = s4) as -> by (destruct f, e; try (injection E as _ <-; reflexivity); destruct (py_int 10 (g ++ i)); [injection E as _ <-; reflexivity|discriminate E]).
  lia.
Qed.
Lemma scan_word_length : forall fl s (v : value fl) r, scan_word words s = Some (v, r) -> (len r < len s)%nat.
Proof.
  intros fl s v r E. destruct (scan_word_cases _ _ _ _ E) as (w & I & ->). rewrite app_length.
  cbn in I. repeat (destruct I as [X|I]; [injection X as <- _; cbn; lia|]). destruct I.
Qed.

Lemma enough : forall fl n,
  (forall s (v : value fl) r, scan_value n s = Some (v, r) -> (len r < len s)%nat /\ forall m, (2 * len s <= m)%nat -> scan_value m s = Some (v, r)) /\
  (forall s (l : list (value fl)) r, scan_items n s = Some (l, r) -> (len r < len s)%nat /\ forall m, (2 * len s + 1 <= m)%nat -> scan_items m s = Some (l, r)) /\
  (forall s (l : list (text * value fl)) r, scan_members n s = Some (l, r) -> (len r < len s)%nat /\ forall m, (2 * len s <= m)%nat -> scan_members m s = Some (l, r)).
Proof.
  intros fl. induction n as [|n (IHv & IHi & IHm)].
  - split; [|split]; intros s v r E; discriminate E.
  - split; [|split].
    + intros [|c s] v r E; [discriminate E|]. rewrite scan_value_step in E. cbn [List.length].
      assert (G : (len r < S (len s))%nat /\ forall m, (2 * S (len s) <= S m)%nat -> scan_value (fl := fl) (S m) (c :: s) = Some (v, r)).
      2: { destruct G as [G1 G2]. split; [exact G1|]. intros [|m] Lm; [lia|]. apply G2. exact Lm. }
      destruct (Ascii.eqb c """") eqn:N1.
      { destruct (scan_string s) as [[x r']|] eqn:Es; [|discriminate E]. injection E as <- <-. split.
        - pose proof (scan_string_length _ _ _ _ (le_n _) Es). lia.
        - intros m _. rewrite scan_value_step, N1, Es. reflexivity. }
      destruct (Ascii.eqb c "[") eqn:N2.
      { pose proof (skip_ws_length s) as Ls. destruct (skip_ws s) as [|d r'] eqn:Es; [discriminate E|]. cbn [List.length] in Ls.
        destruct (Ascii.eqb d "]") eqn:Nd; [injection E as <- <-; split; [lia|intros m _; rewrite scan_value_step, N1, N2, Es, Nd; reflexivity]|].
        destruct (scan_items n (d :: r')) as [[l q]|] eqn:Ei; [|discriminate E]. injection E as <- <-. apply IHi in Ei. destruct Ei as [L H]. cbn [List.length] in *.
        split; [lia|]. intros m Lm. rewrite scan_value_step, N1, N2, Es, Nd, H by lia. reflexivity. }
      destruct (Ascii.eqb c "{") eqn:N3.
      { pose proof (skip_ws_length s) as Ls. destruct (skip_ws s) as [|d r'] eqn:Es; [discriminate E|]. cbn [List.length] in Ls.
        destruct (Ascii.eqb d "}") eqn:Nd; [injection E as <- <-; split; [lia|intros m _; rewrite scan_value_step, N1, N2, N3, Es, Nd; reflexivity]|].
        destruct (scan_members n (d :: r')) as [[l q]|] eqn:Ei; [|discriminate E]. injection E as <- <-. apply IHm in Ei. destruct Ei as [L H]. cbn [List.length] in *.
        split; [lia|]. intros m Lm. rewrite scan_value_step, N1, N2, N3, Es, Nd, H by lia. reflexivity. }
      split; [|intros m _; rewrite scan_value_step, N1, N2, N3; exact E].
      destruct (scan_number (fl := fl) (c :: s)) as [[x q]|] eqn:En; [injection E as <- <-; apply scan_number_length in En; exact En|].
      apply scan_word_length in E. exact E.
    + intros s l r E. rewrite scan_items_step in E. destruct (scan_value n s) as [[v q]|] eqn:Ev; [|discriminate E].
      apply IHv in Ev. destruct Ev as [Lv Hv].
      assert (G : (len r < len s)%nat /\ forall m, (2 * len s + 1 <= S m)%nat -> scan_items (fl := fl) (S m) s = Some (l, r)).
      2: { destruct G as [G1 G2]. split; [exact G1|]. intros [|m] Lm; [lia|]. apply G2. exact Lm. }
      pose proof (skip_ws_length q) as Lq. destruct (skip_ws q) as [|c q'] eqn:Eq; [discriminate E|]. cbn [List.length] in Lq.
      destruct (Ascii.eqb c "]") eqn:N1; [injection E as <- <-; split; [lia|intros m Lm; rewrite scan_items_step, Hv, Eq, N1 by lia; reflexivity]|].
      destruct (Ascii.eqb c ",") eqn:N2; [|discriminate E]. destruct (add_some _ _ _ _ _ _ E) as (l' & El & ->).
      apply IHi in El. destruct El as [L H]. pose proof (skip_ws_length q') as Lq'. split; [lia|]. intros m Lm.
      rewrite scan_items_step, Hv, Eq, N1, N2, H by lia. reflexivity.
    + intros [|q s] l r E; [discriminate E|]. rewrite scan_members_step in E. cbn [List.length].
      assert (G : (len r < S (len s))%nat /\ forall m, (2 * S (len s) <= S m)%nat -> scan_members (fl := fl) (S m) (q :: s) = Some (l, r)).
      2: { destruct G as [G1 G2]. split; [exact G1|]. intros [|m] Lm; [lia|]. apply G2. exact Lm. }
      destruct (Ascii.eqb q """") eqn:N1; [|discriminate E].
      destruct (scan_string s) as [[k s1]|] eqn:Es; [|discriminate E]. pose proof (scan_string_length _ _ _ _ (le_n _) Es) as Ls.
      pose proof (skip_ws_length s1) as L1. destruct (skip_ws s1) as [|c s2] eqn:E1; [discriminate E|]. cbn [List.length] in L1.
      destruct (Ascii.eqb c ":") eqn:N2; [|discriminate E]. pose proof (skip_ws_length s2) as L2.
      destruct (scan_value n (skip_ws s2)) as [[v s3]|] eqn:Ev; [|discriminate E]. apply IHv in Ev. destruct Ev as [Lv Hv].
      pose proof (skip_ws_length s3) as L3. destruct (skip_ws s3) as [|d s4] eqn:E3; [discriminate E|]. cbn [List.length] in L3.
      destruct (Ascii.eqb d "}") eqn:N3; [injection E as <- <-; split; [lia|intros m Lm; rewrite scan_members_step, N1, Es, E1, N2, Hv, E3, N3 by lia; reflexivity]|].
      destruct (Ascii.eqb d ",") eqn:N4; [|discriminate E]. destruct (add_some _ _ _ _ _ _ E) as (l' & El & ->).
      pose proof (skip_ws_length s4) as L4. apply IHm in El. destruct El as [L H]. split; [lia|]. intros m Lm.
      rewrite scan_members_step, N1, Es, E1, N2, Hv, E3, N3, N4, H by lia. reflexivity.
Qed.

(** Whatever depth the scanner is allowed, it reads no other texts. *)
Lemma loads_fuel : forall fl s (v : value fl),
  loads s = Ok v <-> exists n r, scan_value n (skip_ws s) = Some (v, r) /\ skip_ws r = [].
Proof.
  intros fl s v. unfold loads. split.
  - destruct (scan_value _ _) as [[v' r]|] eqn:E; [|discriminate]. destruct (skip_ws r) eqn:Er; [|discriminate]. intro H. injection H as ->. eauto.
  - intros (n & r & E & Er). destruct (proj1 (enough fl n) _ _ _ E) as [_ H]. rewrite (H (2 * len s + 1)%nat), Er; [reflexivity|].
    pose proof (skip_ws_length s). lia.
Qed.

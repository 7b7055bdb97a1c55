(** The JSON text determines the JSON tree. *)
From Coq Require Import ZArith NArith List Ascii String Bool Lia.
From Verif Require Import Base Str Str_Proofs Numerals_Model Numerals_Proofs Models_Model.
Import ListNotations.
Open Scope nat_scope.
Open Scope list_scope.

Section JsonInd.
  Variable P : json -> Prop.
  Hypotheses (Hn : P JNull) (Hb : forall b, P (JBool b)) (Hi : forall z, P (JInt z)) (Hs : forall s, P (JStr s))
    (Ha : forall l, Forall P l -> P (JArr l)) (Ho : forall l, Forall (fun kj => P (snd kj)) l -> P (JObj l)).
  Fixpoint json_ind' (j : json) : P j :=
    match j with
    | JNull => Hn | JBool b => Hb b | JInt z => Hi z | JStr s => Hs s
    | JArr l => Ha l ((fix go l := match l return Forall P l with [] => Forall_nil _ | x :: l' => Forall_cons x (json_ind' x) (go l') end) l)
    | JObj l => Ho l ((fix go l := match l return Forall (fun kj : str * json => P (snd kj)) l with
                                   | [] => Forall_nil _
                                   | x :: l' => Forall_cons x (json_ind' (snd x)) (go l') end) l)
    end.
End JsonInd.

(** * Strings *)

Definition all_chars : list ascii := map ascii_of_nat (seq 0 256).
Lemma all_chars_complete : forall c, In c all_chars.
Proof.
  intro c. unfold all_chars. apply in_map_iff. exists (nat_of_ascii c). split; [apply ascii_nat_embedding|].
  apply in_seq. assert (H := nat_ascii_bounded c). lia.
Qed.

Lemma escape_code : forall c d, c <> d -> starts_with (escape c) (escape d) = false.
Proof.
  assert (H : forallb (fun c => forallb (fun d => Ascii.eqb c d || negb (starts_with (escape c) (escape d))) all_chars)
                all_chars = true) by (vm_compute; reflexivity).
  intros c d N. rewrite forallb_forall in H. specialize (H c (all_chars_complete c)). rewrite forallb_forall in H.
  specialize (H d (all_chars_complete d)). apply orb_true_iff in H. destruct H as [H|H].
  - apply Ascii.eqb_eq in H. contradiction.
  - now apply negb_true_iff in H.
Qed.

Lemma escape_noquote : forall c, exists a t, escape c = a :: t /\ a <> """"%char.
Proof.
  assert (H : forallb (fun c => match escape c with a :: _ => negb (Ascii.eqb a """") | [] => false end) all_chars = true)
    by (vm_compute; reflexivity).
  intro c. rewrite forallb_forall in H. specialize (H c (all_chars_complete c)).
  destruct (escape c) as [|a t]; [discriminate|]. exists a, t. split; [reflexivity|].
  intros ->. discriminate.
Qed.

Lemma starts_with_app : forall p q r s, p ++ r = q ++ s -> List.length p <= List.length q -> starts_with p q = true.
Proof.
  induction p as [|a p IH]; intros q r s E L; [reflexivity|]. destruct q as [|b q]; cbn in L; [lia|].
  cbn in E. inversion E; subst. cbn. rewrite Ascii.eqb_refl. cbn. eapply IH; [eassumption|lia].
Qed.

Lemma quoted : forall s t r r', flat_map escape s ++ """"%char :: r = flat_map escape t ++ """"%char :: r' -> s = t /\ r = r'.
Proof.
  induction s as [|c s IH]; intros [|d t] r r' E; cbn [flat_map] in E.
  - inversion E. auto.
  - exfalso. destruct (escape_noquote d) as (a & u & Ed & N). rewrite Ed in E. cbn in E. inversion E. congruence.
  - exfalso. destruct (escape_noquote c) as (a & u & Ed & N). rewrite Ed in E. cbn in E. inversion E. congruence.
  - rewrite <- !app_assoc in E. destruct (ascii_dec c d) as [->|N].
    + apply app_inv_head in E. apply IH in E. destruct E; subst; auto.
    + exfalso. destruct (le_ge_dec (List.length (escape c)) (List.length (escape d))) as [L|L].
      * apply starts_with_app in E; [|exact L]. rewrite escape_code in E by exact N. discriminate.
      * symmetry in E. apply starts_with_app in E; [|exact L]. rewrite escape_code in E by congruence. discriminate.
Qed.

Lemma json_str_split : forall s t r r', json_str s ++ r = json_str t ++ r' -> s = t /\ r = r'.
Proof.
  intros s t r r' E. unfold json_str in E. cbn in E. inversion E as [E']. rewrite <- !app_assoc in E'. now apply quoted in E'.
Qed.

(** * Integers *)

Definition ends (r : str) : Prop := match r with [] => True | c :: _ => In c $",]}" end.

Lemma int_char_in : forall c, int_char c -> In c $"-0123456789".
Proof.
  intros c [->|(d & L & ->)]; [now left|]. right. assert (d = N.of_nat (N.to_nat d)) by now rewrite N2Nat.id.
  assert (N.to_nat d < 10) by lia. destruct (N.to_nat d) as [|[|[|[|[|[|[|[|[|[|n]]]]]]]]]]; subst; cbn; try tauto; lia.
Qed.
Lemma int_char_not : forall c, int_char c -> In c $",]}ntf""[{" -> False.
Proof.
  intros c H I. apply int_char_in in H. cbn in I. repeat (destruct I as [<-|I]; [cbn in H; intuition discriminate|]). exact I.
Qed.
Lemma int_char_ends : forall c, int_char c -> ~ In c $",]}".
Proof. intros c H I. apply (int_char_not c H). cbn in *. tauto. Qed.

Lemma int_run : forall a b r s, Forall int_char a -> Forall int_char b -> a ++ r = b ++ s -> ends r -> ends s -> a = b /\ r = s.
Proof.
  induction a as [|x a IH]; intros [|y b] r s Fa Fb E Er Es; cbn in E.
  - auto.
  - exfalso. subst r. inversion Fb; subst. cbn in Er. now apply (int_char_ends y).
  - exfalso. subst s. inversion Fa; subst. cbn in Es. now apply (int_char_ends x).
  - inversion E; subst. inversion Fa; subst. inversion Fb; subst.
    destruct (IH b r s) as [-> ->]; auto.
Qed.

(** * Trees *)

Definition starts_ok (s : str) : Prop := exists c t, s = c :: t /\ ~ In c $",]}".
Lemma json_starts : forall j, starts_ok (json_text j).
Proof.
  intros [|[]|z|s|l|l]; try (eexists; eexists; split; [reflexivity|cbn; intuition discriminate]).
  destruct (py_str_chars z) as [F N]. cbn [json_text]. destruct (py_str z) as [|c t]; [congruence|].
  exists c, t. split; [reflexivity|]. inversion F; subst. now apply int_char_ends.
Qed.

Section Items.
  Context {A : Type} (f : A -> str) (close : ascii).
  Definition determined (x : A) : Prop := forall y r s, f x ++ r = f y ++ s -> ends r -> ends s -> x = y /\ r = s.
  Hypotheses (Hs : forall x, starts_ok (f x)) (Hc : close = "]"%char \/ close = "}"%char).

  Lemma close_ends : forall r, ends (close :: r).
  Proof. intro r. cbn. destruct Hc as [ -> | -> ]; tauto. Qed.
  Lemma close_comma : close <> ","%char.
  Proof. destruct Hc; subst; discriminate. Qed.
  Lemma starts_close : forall x r s, f x ++ r <> close :: s.
  Proof.
    intros x r s E. destruct (Hs x) as (c & t & Ex & N). rewrite Ex in E. cbn in E. inversion E; subst.
    apply N. destruct Hc as [ -> | -> ]; cbn; tauto.
  Qed.

  Lemma join_step : forall x y l, join $"," (map f (x :: y :: l)) = f x ++ $"," ++ join $"," (map f (y :: l)).
  Proof. reflexivity. Qed.

  Lemma items_split : forall l m r s, Forall determined l ->
    join $"," (map f l) ++ close :: r = join $"," (map f m) ++ close :: s -> l = m /\ r = s.
  Proof.
    induction l as [|x l IH]; intros m r s F E.
    - destruct m as [|y m]; [cbn in E; inversion E; auto|]. exfalso. symmetry in E.
      destruct m as [|z m]; [cbn in E; now apply starts_close in E|].
      rewrite join_step, <- app_assoc in E. now apply starts_close in E.
    - inversion F as [|? ? Dx F']; subst. destruct m as [|y m].
      + exfalso. destruct l as [|z l]; [cbn in E; now apply starts_close in E|].
        rewrite join_step, <- app_assoc in E. now apply starts_close in E.
      + destruct l as [|x' l], m as [|y' m].
        * cbn in E. pose proof (Dx _ _ _ E (close_ends _) (close_ends _)) as D. clear E. rename D into E. destruct E as [-> E]. inversion E. auto.
        * exfalso. rewrite join_step, <- app_assoc in E. cbn [map join] in E.
          destruct (fun H => Dx _ _ _ E (close_ends _) H) as [_ E']; [cbn; tauto|clear E; rename E' into E]. inversion E. now apply close_comma.
        * exfalso. rewrite join_step, <- app_assoc in E. cbn [map join] in E.
          destruct (fun H => Dx _ _ _ E H (close_ends _)) as [_ E']; [cbn; tauto|clear E; rename E' into E]. inversion E. now apply close_comma.
        * rewrite !join_step, <- !app_assoc in E. destruct (fun H H' => Dx _ _ _ E H H') as [-> E']; [cbn; tauto|cbn; tauto|clear E; rename E' into E]. apply app_inv_head in E. apply IH in E; [|exact F']. destruct E as [E ->].
          inversion E. auto.
  Qed.
End Items.

Lemma json_determined : forall j, determined json_text j.
Proof.
  induction j as [| b | z | s | l IH | l IH] using json_ind'; intros k r r' E Er Er'.
  - destruct k as [|[]|z'|s'|m|m]; cbn in E; try discriminate.
    + inversion E. auto.
    + exfalso. destruct (py_str_chars z') as [F N]. destruct (py_str z') as [|c t]; [congruence|].
      inversion F; subst. inversion E; subst. (eapply int_char_not; [eassumption|cbn; tauto]).
  - destruct k as [|b'|z'|s'|m|m]; try (destruct b; discriminate E).
    + destruct b, b'; cbn in E; inversion E; auto.
    + exfalso. destruct (py_str_chars z') as [F N]. cbn in E. destruct (py_str z') as [|c t]; [congruence|].
      inversion F; subst. destruct b; inversion E; subst; (eapply int_char_not; [eassumption|cbn; tauto]).
  - destruct (py_str_chars z) as [F N]. destruct k as [|b'|z'|s'|m|m].
    2: destruct b'.
    4: { cbn [json_text] in E. destruct (py_str_chars z') as [F' N']. apply int_run in E; try assumption.
         destruct E as [E ->]. apply py_str_inj in E. now subst. }
    all: exfalso; cbn in E; destruct (py_str z) as [|c t]; [congruence|]; inversion F; subst; inversion E; subst;
      (eapply int_char_not; [eassumption|cbn; tauto]).
  - destruct k as [|b'|z'|s'|m|m].
    2: destruct b'.
    all: try discriminate E.
    + exfalso. destruct (py_str_chars z') as [F N]. cbn in E. destruct (py_str z') as [|c t]; [congruence|].
      inversion F; subst. inversion E; subst. (eapply int_char_not; [eassumption|cbn; tauto]).
    + cbn [json_text] in E. apply json_str_split in E. destruct E; subst; auto.
  - destruct k as [|b'|z'|s'|m|m].
    2: destruct b'.
    all: try discriminate E.
    + exfalso. destruct (py_str_chars z') as [F N]. cbn in E. destruct (py_str z') as [|c t]; [congruence|].
      inversion F; subst. inversion E; subst. (eapply int_char_not; [eassumption|cbn; tauto]).
    + cbn [json_text] in E. rewrite <- !app_assoc in E. apply app_inv_head in E.
      apply (items_split json_text "]"%char json_starts) in E; [|now left|exact IH]. destruct E; subst; auto.
  - destruct k as [|b'|z'|s'|m|m].
    2: destruct b'.
    all: try discriminate E.
    + exfalso. destruct (py_str_chars z') as [F N]. cbn in E. destruct (py_str z') as [|c t]; [congruence|].
      inversion F; subst. inversion E; subst. (eapply int_char_not; [eassumption|cbn; tauto]).
    + cbn [json_text] in E. rewrite <- !app_assoc in E. apply app_inv_head in E.
      apply (items_split (fun kj => json_str (fst kj) ++ $":" ++ json_text (snd kj)) "}"%char) in E.
      * destruct E; subst; auto.
      * intros [n j]. eexists; eexists. split; [reflexivity|]. cbn. intuition discriminate.
      * now right.
      * eapply Forall_impl; [|exact IH]. intros [n j] D [n' j'] q q' Eq Hq Hq'. cbn [fst snd] in *.
        rewrite <- !app_assoc in Eq. apply json_str_split in Eq. destruct Eq as [-> Eq].
        apply app_inv_head in Eq. destruct (D _ _ _ Eq Hq Hq') as [-> ->]. auto.
Qed.

Lemma json_text_inj : forall j k, json_text j = json_text k -> j = k.
Proof.
  intros j k E. apply (json_determined j k [] []); [now rewrite !app_nil_r|exact I|exact I].
Qed.

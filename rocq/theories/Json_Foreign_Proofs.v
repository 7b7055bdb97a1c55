(** Strings in any spelling are read. *)
From Coq Require Import NArith List Ascii String Bool Lia.
From Verif Require Import Base Str Numerals_Model IO_Model Json_Model Json_Foreign_Spec.
Import ListNotations.
Open Scope list_scope.

Lemma digit : forall c n, In (c, n) hex_digits -> char_digit 16 c = Some n.
Proof. intros c n I. cbv [hex_digits] in I. repeat (destruct I as [I|I]; [injection I as <- <-; reflexivity|]). destruct I. Qed.

Lemma code_hex : forall a b c d n, code a b c d n -> hex4 a b c d = Some n.
Proof.
  intros a b c d n (w & x & y & z & A & B & C & D & E). unfold hex4.
  rewrite (digit _ _ A), (digit _ _ B), (digit _ _ C), (digit _ _ D). congruence.
Qed.

Lemma escaped : forall e n, In (e, n) escapes -> unescape e = Some n /\ Ascii.eqb e "u" = false.
Proof. intros e n I. cbv [escapes] in I. repeat (destruct I as [I|I]; [injection I as <- <-; split; reflexivity|]). destruct I. Qed.

Lemma scan_code : forall a b c d n s, hex4 a b c d = Some n -> is_high n = false ->
  scan_string ("\"%char :: "u"%char :: a :: b :: c :: d :: s) = add n (scan_string s).
Proof.
  intros a b c d n s E H.
  change (scan_string ("\"%char :: "u"%char :: a :: b :: c :: d :: s)) with
    (match hex4 a b c d with
     | Some h =>
         match s with
         | c1 :: c2 :: a :: b :: c :: d :: s4 =>
             if is_high h && Ascii.eqb c1 "\" && Ascii.eqb c2 "u" then
               match hex4 a b c d with
               | Some l => if is_low l then add (pair_up h l) (scan_string s4) else add h (scan_string s)
               | None => None
               end
             else add h (scan_string s)
         | _ => add h (scan_string s)
         end
     | None => None
     end).
  rewrite E, H. cbn [andb]. do 6 (destruct s as [|? s]; [reflexivity|]). reflexivity.
Qed.

Lemma scan_pair : forall a b c d e f g h m n s, hex4 a b c d = Some m -> is_high m = true -> hex4 e f g h = Some n ->
  is_low n = true ->
  scan_string ("\"%char :: "u"%char :: a :: b :: c :: d :: "\"%char :: "u"%char :: e :: f :: g :: h :: s) =
  add (pair_up m n) (scan_string s).
Proof.
  intros a b c d e f g h m n s E H F L.
  change (scan_string ("\"%char :: "u"%char :: a :: b :: c :: d :: "\"%char :: "u"%char :: e :: f :: g :: h :: s)) with
    (match hex4 a b c d with
     | Some x =>
         if is_high x && Ascii.eqb "\" "\" && Ascii.eqb "u" "u" then
           match hex4 e f g h with
           | Some l => if is_low l then add (pair_up x l) (scan_string s)
                       else add x (scan_string ("\"%char :: "u"%char :: e :: f :: g :: h :: s))
           | None => None
           end
         else add x (scan_string ("\"%char :: "u"%char :: e :: f :: g :: h :: s))
     | None => None
     end).
  rewrite E, H, F. cbn [andb Ascii.eqb]. rewrite L. reflexivity.
Qed.

Lemma scan_spelled : forall s t, spells s t -> forall r, scan_string (s ++ """"%char :: r) = Some (t, r).
Proof.
  induction 1 as [|c s t Q B L S IH|e n s t I S IH|a b c d n s t C L S IH|a b c d e f g h m n s t C L D M S IH]; intros r.
  - reflexivity.
  - cbn [app scan_string]. destruct (Ascii.eqb c """") eqn:E1; [apply Ascii.eqb_eq in E1; congruence|].
    destruct (Ascii.eqb c "\") eqn:E2; [apply Ascii.eqb_eq in E2; congruence|].
    destruct (N_of_ascii c <? 32)%N eqn:E3; [apply N.ltb_lt in E3; lia|]. rewrite IH. reflexivity.
  - destruct (escaped e n I) as [U V]. cbn [app].
    change (scan_string ("\"%char :: e :: s ++ """"%char :: r)) with
      (if Ascii.eqb e "u" then
         match s ++ """"%char :: r with
         | a :: b :: c :: d :: s3 =>
             match hex4 a b c d with
             | Some h =>
                 match s3 with
                 | c1 :: c2 :: a :: b :: c :: d :: s4 =>
                     if is_high h && Ascii.eqb c1 "\" && Ascii.eqb c2 "u" then
                       match hex4 a b c d with
                       | Some l => if is_low l then add (pair_up h l) (scan_string s4) else add h (scan_string s3)
                       | None => None
                       end
                     else add h (scan_string s3)
                 | _ => add h (scan_string s3)
                 end
             | None => None
             end
         | _ => None
         end
       else match unescape e with Some n => add n (scan_string (s ++ """"%char :: r)) | None => None end).
    rewrite V, U, IH. reflexivity.
  - cbn [app]. rewrite (scan_code a b c d n); [rewrite IH; reflexivity|apply code_hex; auto|].
    unfold is_high. apply andb_false_iff. destruct L as [L|L]; [left|right]; apply N.leb_gt; lia.
  - cbn [app]. rewrite (scan_pair a b c d e f g h m n); try (apply code_hex; auto).
    + rewrite IH. reflexivity.
    + unfold is_high. apply andb_true_iff. split; apply N.leb_le; lia.
    + unfold is_low. apply andb_true_iff. split; apply N.leb_le; lia.
Qed.

Lemma blank_ws : forall c, In (N_of_ascii c) [32; 9; 10; 13]%N -> is_ws c = true.
Proof.
  intros c I. unfold is_ws. cbn [In] in I.
  destruct I as [I|[I|[I|[I|[]]]]]; rewrite <- I; reflexivity.
Qed.

Lemma skip_blank : forall w s, blank w -> skip_ws (w ++ s) = skip_ws s.
Proof.
  induction w as [|c w IH]; intros s B; auto. cbn [app skip_ws]. rewrite (blank_ws c (B c (or_introl eq_refl))).
  apply IH. intros d D. apply B. right. auto.
Qed.

Lemma string_read : forall fl s t v w, spells s t -> blank v -> blank w ->
  loads (fl := fl) (v ++ """"%char :: s ++ """"%char :: w) = Ok (VText t).
Proof.
  intros fl s t v w Sp V W. unfold loads. rewrite skip_blank by auto.
  replace (2 * List.length (v ++ """"%char :: s ++ """"%char :: w) + 1)%nat
    with (S (2 * List.length (v ++ """"%char :: s ++ """"%char :: w)))%nat by lia.
  change (skip_ws (""""%char :: s ++ """"%char :: w)) with (""""%char :: s ++ """"%char :: w).
  cbn [scan_value]. replace (Ascii.eqb """" """") with true by reflexivity.
  rewrite (scan_spelled s t Sp w). cbn [option_map fst snd].
  pose proof (skip_blank w [] W) as E. rewrite app_nil_r in E. rewrite E. reflexivity.
Qed.

Lemma spelled_once : forall s t u, spells s t -> spells s u -> t = u.
Proof. intros s t u T U. pose proof (scan_spelled s t T []) as A. rewrite (scan_spelled s u U []) in A. congruence. Qed.

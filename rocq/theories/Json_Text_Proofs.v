(** Strings and numbers of JSON. *)
From Coq Require Import ZArith NArith List Ascii String Bool Lia.
From Verif Require Import Base Str Numerals_Model Numerals_Proofs Json_Model Json_Spec.
Import ListNotations.
Open Scope list_scope.

(** * Strings *)

Lemma hex4_digits : forall n, (n < 65536)%N ->
  hex4 (digit_char (n / 4096)) (digit_char (n / 256 mod 16)) (digit_char (n / 16 mod 16)) (digit_char (n mod 16)) = Some n.
Proof.
  intros n L. unfold hex4.
  rewrite !char_digit_char; try lia; try (apply N.mod_lt; lia).
  - f_equal.
    pose proof (N.div_mod n 16 ltac:(lia)) as E1. pose proof (N.div_mod (n / 16) 16 ltac:(lia)) as E2.
    pose proof (N.div_mod (n / 256) 16 ltac:(lia)) as E3.
    replace (n / 16 / 16)%N with (n / 256)%N in E2 by (rewrite N.div_div by lia; reflexivity).
    replace (n / 256 / 16)%N with (n / 4096)%N in E3 by (rewrite N.div_div by lia; reflexivity).
    lia.
  - apply N.div_lt_upper_bound; lia.
Qed.

Lemma is_high_spec : forall n, is_high n = true <-> high n.
Proof. intro n. unfold is_high, high. rewrite andb_true_iff, !N.leb_le. tauto. Qed.
Lemma is_low_spec : forall n, is_low n = true <-> low n.
Proof. intro n. unfold is_low, low. rewrite andb_true_iff, !N.leb_le. tauto. Qed.

(** Scanning one \u escape. *)
Lemma scan_string_u : forall a b c d r, scan_string ("\"%char :: "u"%char :: a :: b :: c :: d :: r) =
    (match hex4 a b c d with
     | Some h =>
         match r with
         | c1 :: c2 :: a :: b :: c :: d :: s4 =>
             if is_high h && Ascii.eqb c1 "\" && Ascii.eqb c2 "u" then
               match hex4 a b c d with
               | Some l => if is_low l then add (pair_up h l) (scan_string s4) else add h (scan_string r)
               | None => None
               end
             else add h (scan_string r)
         | _ => add h (scan_string r)
         end
     | None => None
     end).
Proof. reflexivity. Qed.
Lemma scan_u : forall n r, (n < 65536)%N -> is_high n = false ->
  scan_string (u_escape n ++ r) = add n (scan_string r).
Proof.
  intros n r L H. unfold u_escape. cbn [map app S_ list_ascii_of_string].
  pose proof (hex4_digits n L) as E.
  set (a := digit_char (n / 4096)) in *. set (b := digit_char (n / 256 mod 16)) in *.
  set (c := digit_char (n / 16 mod 16)) in *. set (d := digit_char (n mod 16)) in *.
  clearbody a b c d. rewrite scan_string_u, E, H. cbn [andb].
  destruct r as [|c1 [|c2 [|a' [|b' [|c' [|d' s4]]]]]]; reflexivity.
Qed.
Lemma scan_pair : forall h l r, (h < 65536)%N -> (l < 65536)%N -> is_high h = true -> is_low l = true ->
  scan_string (u_escape h ++ u_escape l ++ r) = add (pair_up h l) (scan_string r).
Proof.
  intros h l r Lh Ll H L. unfold u_escape. cbn [map app S_ list_ascii_of_string].
  pose proof (hex4_digits h Lh) as E. pose proof (hex4_digits l Ll) as E'.
  set (a := digit_char (h / 4096)) in *. set (b := digit_char (h / 256 mod 16)) in *.
  set (c := digit_char (h / 16 mod 16)) in *. set (d := digit_char (h mod 16)) in *.
  set (a' := digit_char (l / 4096)) in *. set (b' := digit_char (l / 256 mod 16)) in *.
  set (c' := digit_char (l / 16 mod 16)) in *. set (d' := digit_char (l mod 16)) in *.
  clearbody a b c d a' b' c' d'. rewrite scan_string_u, E, H. cbn [andb app]. rewrite !Ascii.eqb_refl, E', L. reflexivity.
Qed.
(** A high surrogate in front of what is no low one. *)
Lemma scan_high : forall h r, (h < 65536)%N -> is_high h = true ->
  (forall a b c d s, r = $"\u" ++ a :: b :: c :: d :: s -> exists l, hex4 a b c d = Some l /\ is_low l = false) ->
  scan_string (u_escape h ++ r) = add h (scan_string r).
Proof.
  intros h r Lh H O. unfold u_escape. cbn [map app S_ list_ascii_of_string].
  pose proof (hex4_digits h Lh) as E.
  set (a := digit_char (h / 4096)) in *. set (b := digit_char (h / 256 mod 16)) in *.
  set (c := digit_char (h / 16 mod 16)) in *. set (d := digit_char (h mod 16)) in *.
  clearbody a b c d.
  rewrite scan_string_u, E, H. cbn [andb].
  destruct r as [|c1 [|c2 [|a' [|b' [|c' [|d' s4]]]]]]; try reflexivity.
  destruct (Ascii.eqb_spec c1 "\") as [->|]; [|reflexivity].
  destruct (Ascii.eqb_spec c2 "u") as [->|]; [|reflexivity]. cbn [andb].
  destruct (O a' b' c' d' s4 eq_refl) as (l & El & Nl). rewrite El, Nl. reflexivity.
Qed.

(** The escape of one code point that is no high surrogate. *)
Lemma plain_char : forall n, ((32 <=? n) && (n <=? 126))%N = true -> n <> 34%N -> n <> 92%N ->
  Ascii.eqb (ascii_of_N n) """" = false /\ Ascii.eqb (ascii_of_N n) "\" = false /\ N_of_ascii (ascii_of_N n) = n.
Proof.
  intros n H N1 N2. apply andb_true_iff in H. rewrite !N.leb_le in H.
  assert (E : N_of_ascii (ascii_of_N n) = n) by (apply N_ascii_embedding; lia).
  split; [|split]; [..|exact E]; apply Ascii.eqb_neq; intro C; rewrite C in E; cbn in E; congruence.
Qed.
Lemma scan_wide : forall n r, (65536 <= n)%N -> (n < 1114112)%N ->
  scan_string ((u_escape (55296 + (n - 65536) / 1024)%N ++ u_escape (56320 + (n - 65536) mod 1024)%N) ++ r) = add n (scan_string r).
Proof.
  intros n r L U. rewrite <- app_assoc.
  assert (A : ((n - 65536) / 1024 < 1024)%N) by (apply N.div_lt_upper_bound; lia).
  assert (B : ((n - 65536) mod 1024 < 1024)%N) by (apply N.mod_lt; lia).
  pose proof (N.div_mod (n - 65536) 1024 ltac:(lia)) as E.
  remember ((n - 65536) / 1024)%N as q. remember ((n - 65536) mod 1024)%N as m.
  rewrite scan_pair; [|lia|lia|apply is_high_spec; unfold high; lia|apply is_low_spec; unfold low; lia].
  unfold pair_up. f_equal. lia.
Qed.
Lemma scan_escaped : forall n r, (n < 1114112)%N -> is_high n = false ->
  scan_string (escaped n ++ r) = add n (scan_string r).
Proof.
  intros n r U H. unfold escaped.
  destruct (N.eqb_spec n 34) as [->|N1]; [reflexivity|]. destruct (N.eqb_spec n 92) as [->|N2]; [reflexivity|].
  destruct (N.eqb_spec n 8) as [->|N3]; [reflexivity|]. destruct (N.eqb_spec n 9) as [->|N4]; [reflexivity|].
  destruct (N.eqb_spec n 10) as [->|N5]; [reflexivity|]. destruct (N.eqb_spec n 12) as [->|N6]; [reflexivity|].
  destruct (N.eqb_spec n 13) as [->|N7]; [reflexivity|].
  destruct ((32 <=? n) && (n <=? 126))%N eqn:P.
  - destruct (plain_char n P N1 N2) as (A & B & C). cbn [app scan_string]. rewrite A, B, C.
    replace (n <? 32)%N with false; [reflexivity|]. apply andb_true_iff in P. destruct P as [P _]. apply N.leb_le in P. symmetry. apply N.ltb_ge. exact P.
  - destruct (N.ltb_spec n 65536) as [L|L]; [apply scan_u; assumption|apply scan_wide; assumption].
Qed.

(** What starts with \u in the text of a string says a code point. *)
Lemma escaped_high : forall n, is_high n = true -> escaped n = u_escape n /\ (n < 65536)%N.
Proof.
  intros n H. apply is_high_spec in H. unfold high in H. unfold escaped.
  repeat (match goal with |- context [(n =? ?k)%N] => destruct (N.eqb_spec n k); [lia|] end).
  replace (n <=? 126)%N with false by (symmetry; apply N.leb_gt; lia). rewrite andb_false_r.
  replace (n <? 65536)%N with true by (symmetry; apply N.ltb_lt; lia). split; [reflexivity|lia].
Qed.
Lemma starts_u : forall n s a b c d r, (n < 1114112)%N -> is_low n = false ->
  escaped n ++ s = $"\u" ++ a :: b :: c :: d :: r -> exists l, hex4 a b c d = Some l /\ is_low l = false.
Proof.
  intros n s a b c d r U Nl E. unfold escaped in E.
  repeat (match type of E with context [(n =? ?k)%N] => destruct (N.eqb_spec n k) as [->|]; [discriminate E|] end).
  destruct ((32 <=? n) && (n <=? 126))%N eqn:P.
  - exfalso. cbn in E. injection E as E _. destruct (plain_char n P) as (_ & B & _); [assumption..|]. rewrite E in B. discriminate B.
  - destruct (N.ltb_spec n 65536) as [L|L].
    + unfold u_escape in E. cbn [map app S_ list_ascii_of_string] in E. injection E as <- <- <- <- _. exists n. split; [apply hex4_digits; exact L|exact Nl].
    + assert (A : ((n - 65536) / 1024 < 1024)%N) by (apply N.div_lt_upper_bound; lia).
      assert (Hh : (55296 + (n - 65536) / 1024 < 56320)%N) by lia. remember (55296 + (n - 65536) / 1024)%N as h eqn:Q. clear Q A.
      rewrite <- app_assoc in E. set (m := (_ ++ s)) in E. clearbody m.
      unfold u_escape at 1 in E. cbn [map app S_ list_ascii_of_string] in E. injection E as <- <- <- <- _.
      exists h. split; [apply hex4_digits; lia|]. unfold is_low. apply andb_false_iff. left. apply N.leb_gt. lia.
Qed.

Lemma joined_pair : forall h l s, is_high h = true -> is_low l = true -> joined (h :: l :: s) = pair_up h l :: joined s.
Proof.
  intros h l s H L. cbn [joined]. unfold is_high, is_low in *. apply andb_true_iff in H, L. destruct H as [-> ->], L as [-> ->]. reflexivity.
Qed.
Lemma joined_other : forall h l s, is_high h && is_low l = false -> joined (h :: l :: s) = h :: joined (l :: s).
Proof.
  intros h l s N. cbn [joined]. unfold is_high, is_low in N. rewrite <- andb_assoc, N. reflexivity.
Qed.

Lemma scan_quoted : forall n s r, (List.length s <= n)%nat -> unicode s ->
  scan_string (flat_map escaped s ++ $"""" ++ r) = Some (joined s, r).
Proof.
  induction n as [|n IH]; intros s r L U; (destruct s as [|h s]; [reflexivity|]); [cbn in L; lia|].
  assert (Uh : (h < 1114112)%N) by (apply U; left; reflexivity).
  assert (Us : unicode s) by (intros x I; apply U; right; exact I).
  cbn [flat_map]. rewrite <- app_assoc. cbn [List.length] in L.
  destruct (is_high h) eqn:H.
  - destruct (escaped_high h H) as [Eh Lh]. rewrite Eh.
    destruct s as [|l s].
    + cbn [flat_map app]. rewrite scan_high; [reflexivity|exact Lh|exact H|]. intros a b c d s E. discriminate E.
    + assert (Ul : (l < 1114112)%N) by (apply Us; left; reflexivity).
      destruct (is_low l) eqn:Lo.
      * rewrite joined_pair by assumption. cbn [flat_map]. rewrite <- app_assoc.
        assert (El : escaped l = u_escape l /\ (l < 65536)%N).
        { pose proof Lo as Lo'. apply is_low_spec in Lo'. unfold low in Lo'. unfold escaped.
          repeat (match goal with |- context [(l =? ?k)%N] => destruct (N.eqb_spec l k); [lia|] end).
          replace (l <=? 126)%N with false by (symmetry; apply N.leb_gt; lia). rewrite andb_false_r.
          replace (l <? 65536)%N with true by (symmetry; apply N.ltb_lt; lia). split; [reflexivity|lia]. }
        destruct El as [El Ll]. rewrite El, scan_pair by assumption. rewrite IH; [reflexivity| |].
        -- cbn [List.length] in L. lia.
        -- intros x I. apply Us. right. exact I.
      * rewrite joined_other by (rewrite Lo; apply andb_false_r).
        rewrite scan_high; [|exact Lh|exact H|].
        -- rewrite IH; [reflexivity|lia|exact Us].
        -- intros a b c d s' E. cbn [flat_map] in E. rewrite <- app_assoc in E. eapply starts_u; eassumption.
  - rewrite scan_escaped by assumption. rewrite IH; [|lia|exact Us].
    destruct s as [|l s]; [reflexivity|]. rewrite joined_other by (rewrite H; reflexivity). reflexivity.
Qed.

(** What is joined and what is not. *)
Lemma joined_unpaired : forall s, unpaired s -> joined s = s.
Proof.
  induction s as [|h s IH]; intro U; [reflexivity|]. destruct s as [|l s]; [reflexivity|].
  rewrite joined_other.
  - f_equal. apply IH. intros a x y b E. apply (U (h :: a) x y b). rewrite E. reflexivity.
  - destruct (is_high h) eqn:H; [|reflexivity]. destruct (is_low l) eqn:L; [|reflexivity].
    exfalso. apply (U [] h l s eq_refl); [apply is_high_spec|apply is_low_spec]; assumption.
Qed.
Lemma joined_length : forall n s, (List.length s <= n)%nat -> (List.length (joined s) <= List.length s)%nat.
Proof.
  induction n as [|n IH]; intros s L; (destruct s as [|h s]; [cbn; lia|]); [cbn in L; lia|].
  destruct s as [|l s]; [cbn; lia|]. destruct (is_high h && is_low l) eqn:P.
  - apply andb_true_iff in P. rewrite joined_pair by apply P. cbn [List.length] in *. specialize (IH s ltac:(lia)). lia.
  - rewrite joined_other by exact P. cbn [List.length] in *. specialize (IH (l :: s) ltac:(cbn; lia)). cbn [List.length] in IH. lia.
Qed.
Lemma joined_same : forall s, joined s = s -> unpaired s.
Proof.
  induction s as [|h s IH]; intros E a x y b Es Hx Ly.
  - destruct a; discriminate Es.
  - destruct s as [|l s].
    + destruct a as [|? [|? ?]]; discriminate Es.
    + destruct (is_high h && is_low l) eqn:P.
      * apply andb_true_iff in P. rewrite joined_pair in E by apply P.
        pose proof (joined_length _ s (le_n _)) as J. apply (f_equal (@List.length N)) in E. cbn [List.length] in E. lia.
      * rewrite joined_other in E by exact P. injection E as E. destruct a as [|a0 a].
        -- injection Es as <- <- _. apply is_high_spec in Hx. apply is_low_spec in Ly. rewrite Hx, Ly in P. discriminate P.
        -- injection Es as _ Es. exact (IH E a x y b Es Hx Ly).
Qed.
Lemma of_str_unicode : forall s, unicode (of_str s).
Proof. intros s c I. apply in_map_iff in I. destruct I as (a & <- & _). pose proof (N_ascii_bounded a). lia. Qed.
Lemma of_str_unpaired : forall s, unpaired (of_str s).
Proof.
  intros s a h l b E H _. assert (I : In h (of_str s)) by (rewrite E; apply in_or_app; right; left; reflexivity).
  apply in_map_iff in I. destruct I as (c & <- & _). pose proof (N_ascii_bounded c). unfold high in H. lia.
Qed.

(** * Numbers *)

Lemma is_digit_spec : forall c, is_digit c = true <-> (48 <= N_of_ascii c <= 57)%N.
Proof. intro c. unfold is_digit. rewrite andb_true_iff, !N.leb_le. tauto. Qed.

(** What may not follow a number. *)
Definition ends_number (r : str) : Prop :=
  match r with [] => True | c :: _ => is_digit c = false /\ c <> "."%char /\ c <> "e"%char /\ c <> "E"%char end.

Lemma span_all : forall p a r, (forall c, In c a -> p c = true) -> match r with c :: _ => p c = false | [] => True end ->
  span p (a ++ r) = (a, r).
Proof.
  intros p a r A R. induction a as [|c a IH]; cbn.
  - destruct r as [|c r]; [reflexivity|]. cbn. rewrite R. reflexivity.
  - rewrite A by (left; reflexivity). rewrite IH; [reflexivity|]. intros x I. apply A. right. exact I.
Qed.
Lemma decimal_digit : forall s, decimal s -> forall c, In c s -> is_digit c = true.
Proof. intros s [_ D] c I. apply is_digit_spec. apply D. exact I. Qed.
Definition no_digit (r : str) : Prop := match r with c :: _ => is_digit c = false | [] => True end.
Lemma span_decimal : forall a r, decimal a -> no_digit r -> span is_digit (a ++ r) = (a, r).
Proof. intros a r D R. apply span_all; [apply decimal_digit; exact D|exact R]. Qed.

Lemma scan_integer_ok : forall i r, integer_text i -> no_digit r -> scan_integer (i ++ r) = Some (i, r).
Proof.
  intros i r [D Z] R. destruct Z as [->|Z]; [reflexivity|].
  destruct i as [|c i]; [destruct D as [D _]; congruence|]. cbn [app scan_integer].
  destruct (Ascii.eqb_spec c "0") as [->|N]; [exfalso; eapply Z; reflexivity|].
  rewrite (decimal_digit _ D) by (left; reflexivity).
  rewrite span_all; [reflexivity| |exact R]. intros x I. apply (decimal_digit _ D). right. exact I.
Qed.
Lemma sign_of : forall sign i r, sign = [] \/ sign = $"-" -> integer_text i -> scan_sign (sign ++ i ++ r) = (sign, i ++ r).
Proof.
  intros sign i r [->| ->] [D _]; [|reflexivity]. destruct i as [|c i]; [destruct D as [D _]; congruence|]. cbn.
  destruct (Ascii.eqb_spec c "-") as [->|N]; [|reflexivity]. exfalso. pose proof (decimal_digit _ D "-"%char ltac:(left; reflexivity)) as X. discriminate X.
Qed.
Lemma scan_no_fraction : forall r, match r with c :: _ => c <> "."%char | [] => True end -> scan_fraction r = ([], r).
Proof. intros [|c r] N; [reflexivity|]. cbn. destruct (Ascii.eqb_spec c "."); [contradiction|reflexivity]. Qed.
Lemma scan_no_exponent : forall r, match r with c :: _ => c <> "e"%char /\ c <> "E"%char | [] => True end -> scan_exponent r = ([], r).
Proof.
  intros [|c r] N; [reflexivity|]. destruct N as [N1 N2]. cbn.
  destruct (Ascii.eqb_spec c "e"); [contradiction|]. destruct (Ascii.eqb_spec c "E"); [contradiction|]. reflexivity.
Qed.
Lemma scan_fraction_ok : forall d r, decimal d -> no_digit r -> scan_fraction (("."%char :: d) ++ r) = ("."%char :: d, r).
Proof.
  intros d r D R. cbn. rewrite span_decimal by assumption. destruct d; [destruct D; congruence|reflexivity].
Qed.
Lemma scan_exponent_ok : forall c g d r, (c = "e" \/ c = "E")%char -> g = [] \/ g = $"+" \/ g = $"-" -> decimal d -> no_digit r ->
  scan_exponent ((c :: g ++ d) ++ r) = (c :: g ++ d, r).
Proof.
  intros c g d r C G D R. cbn [app scan_exponent].
  replace (Ascii.eqb c "e" || Ascii.eqb c "E") with true by (destruct C as [->| ->]; reflexivity).
  rewrite <- app_assoc. destruct d as [|d0 d]; [destruct D; congruence|].
  assert (S0 : is_digit d0 = true) by (apply (decimal_digit _ D); left; reflexivity).
  destruct G as [->|[->| ->]]; cbn [app S_ list_ascii_of_string].
  - assert (Ascii.eqb d0 "+" || Ascii.eqb d0 "-" = false) as ->.
    { apply orb_false_iff. split; apply Ascii.eqb_neq; intros ->; discriminate S0. }
    change (d0 :: d ++ r) with ((d0 :: d) ++ r). rewrite span_decimal by assumption. reflexivity.
  - change (Ascii.eqb "+" "+" || Ascii.eqb "+" "-") with true. cbv iota. change (d0 :: d ++ r) with ((d0 :: d) ++ r). rewrite span_decimal by assumption. reflexivity.
  - change (Ascii.eqb "-" "+" || Ascii.eqb "-" "-") with true. cbv iota. change (d0 :: d ++ r) with ((d0 :: d) ++ r). rewrite span_decimal by assumption. reflexivity.
Qed.

Lemma scan_float : forall fl s r, float_text s -> ends_number r -> scan_number (fl := fl) (s ++ r) = Some (VFloat (of_text fl s), r).
Proof.
  intros fl s r (sign & i & f & e & -> & Sg & I & Fr & Ex & Some_) R. unfold scan_number.
  rewrite <- !app_assoc, sign_of by assumption.
  assert (R0 : no_digit r) by (destruct r; [exact Logic.I|apply R]).
  assert (Ee : scan_exponent (e ++ r) = (e, r)).
  { destruct Ex as [->|(c & g & d & -> & C & G & D)].
    - apply scan_no_exponent. destruct r; [exact Logic.I|]. split; apply R.
    - apply scan_exponent_ok; assumption. }
  assert (Ne : no_digit (e ++ r)).
  { destruct Ex as [->|(c & g & d & -> & C & G & D)]; [exact R0|]. cbn. destruct C as [->| ->]; reflexivity. }
  assert (Ef : scan_fraction (f ++ e ++ r) = (f, e ++ r)).
  { destruct Fr as [->|(d & -> & D)].
    - apply scan_no_fraction. destruct Ex as [->|(c & g & d & -> & C & G & D)]; cbn.
      + destruct r; [exact Logic.I|apply R].
      + destruct C as [->| ->]; discriminate.
    - apply scan_fraction_ok; assumption. }
  assert (Nf : no_digit (f ++ e ++ r)).
  { destruct Fr as [->|(d & -> & D)]; [exact Ne|reflexivity]. }
  rewrite scan_integer_ok by assumption. rewrite Ef, Ee.
  destruct f as [|f0 f]; [|reflexivity]. destruct e as [|e0 e]; [destruct Some_; congruence|reflexivity].
Qed.

(** The digits of integers have no leading zeros. *)
Lemma digits_le_last : forall b, (2 <= b)%N -> forall fuel n, (n < 2 ^ N.of_nat fuel)%N -> n <> 0%N -> last (digits_le b fuel n) 0%N <> 0%N.
Proof.
  intros b Hb. induction fuel as [|f IH]; intros n Hn Nz; cbn [digits_le].
  - exact Nz.
  - destruct (N.ltb_spec n b) as [L|L]; [exact Nz|].
    assert (X : last (digits_le b f (n / b)) 0%N <> 0%N).
    { apply IH.
      - rewrite Nat2N.inj_succ, N.pow_succ_r' in Hn. apply N.div_lt_upper_bound; [lia|]. eapply N.lt_le_trans; [exact Hn|]. apply N.mul_le_mono_r. exact Hb.
      - intro E. apply N.div_small_iff in E; lia. }
    destruct (digits_le b f (n / b)); [cbn in X; congruence|exact X].
Qed.
Lemma digit_char_zero : forall d, (d < 16)%N -> digit_char d = "0"%char -> d = 0%N.
Proof.
  intros d L E. apply small_cases in L. cbn in L. repeat (destruct L as [<-|L]; [first [reflexivity|discriminate E]|]). destruct L.
Qed.
Lemma str_N_integer : forall n, integer_text (str_N 10 n).
Proof.
  intro n. split.
  - split; [apply str_N_nonempty|]. intros c I.
    pose proof (str_N_chars 10 n ltac:(lia) ltac:(lia)) as Fo. rewrite Forall_forall in Fo. destruct (Fo c I) as (d & L & ->).
    assert (In d [0;1;2;3;4;5;6;7;8;9]%N) as Id by (cbn; lia). cbn in Id.
    repeat (destruct Id as [<-|Id]; [cbv; split; discriminate|]). destruct Id.
  - destruct (N.eq_dec n 0) as [->|Nz]; [left; reflexivity|right]. intros r E.
    unfold str_N, digits in E. rewrite <- map_rev in E || idtac.
    assert (Ls : last (digits_le 10 (N.size_nat n) n) 0%N <> 0%N).
    { apply digits_le_last; [lia| |exact Nz]. destruct (size_bound n) as [X|X]; [exact X|congruence]. }
    assert (Rg : Forall (fun d => (d < 10)%N) (digits_le 10 (N.size_nat n) n)) by (apply digits_le_range; [lia|apply size_bound]).
    destruct (digits_le 10 (N.size_nat n) n) as [|d ds] eqn:Ed using rev_ind; [discriminate E|].
    rewrite last_last in Ls. rewrite map_rev, map_app, rev_app_distr in E. cbn in E. injection E as E _.
    apply Forall_app in Rg. destruct Rg as [_ Rg]. inversion Rg; subst. apply Ls. apply digit_char_zero; [lia|exact E].
Qed.
Lemma py_str_text : forall z, exists sign i, py_str z = sign ++ i /\ (sign = [] \/ sign = $"-") /\ integer_text i.
Proof.
  intros [|p|p].
  - exists [], (str_N 10 0). split; [reflexivity|]. split; [left; reflexivity|apply str_N_integer].
  - exists [], (str_N 10 (Npos p)). split; [reflexivity|]. split; [left; reflexivity|apply str_N_integer].
  - exists $"-", (str_N 10 (Npos p)). split; [reflexivity|]. split; [right; reflexivity|apply str_N_integer].
Qed.
Lemma scan_int : forall fl z r, ends_number r -> scan_number (fl := fl) (py_str z ++ r) = Some (VInt z, r).
Proof.
  intros fl z r R. destruct (py_str_text z) as (sign & i & E & Sg & I). unfold scan_number.
  rewrite E, <- app_assoc, sign_of by assumption.
  rewrite scan_integer_ok; [|exact I|destruct r; [exact Logic.I|apply R]].
  rewrite scan_no_fraction by (destruct r; [exact Logic.I|apply R]).
  rewrite scan_no_exponent by (destruct r; [exact Logic.I|split; apply R]).
  rewrite <- E, int_str. reflexivity.
Qed.

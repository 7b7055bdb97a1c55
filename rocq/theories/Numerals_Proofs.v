(** Round trips of Python's textual integers. *)
From Coq Require Import ZArith NArith List Ascii String Bool Lia.
From Verif Require Import Base Str Numerals_Model.
Import ListNotations.
Open Scope N_scope.

Definition value_le (b : N) (ds : list N) : N := fold_right (fun d acc => d + b * acc) 0 ds.

Lemma digits_le_value : forall b, 2 <= b -> forall fuel n, n < 2 ^ (N.of_nat fuel) \/ n = 0 ->
  value_le b (digits_le b fuel n) = n.
Proof.
  intros b Hb. induction fuel as [|f IH]; intros n Hn; cbn [digits_le].
  - cbn. lia.
  - destruct (N.ltb_spec n b) as [L|L].
    + cbn. lia.
    + cbn [value_le fold_right]. fold (value_le b (digits_le b f (n / b))).
      rewrite IH.
      * rewrite N.add_comm. rewrite <- (N.div_mod n b) by lia. reflexivity.
      * destruct Hn as [Hn|Hn]; [|lia]. left.
        rewrite Nat2N.inj_succ, N.pow_succ_r' in Hn.
        apply N.div_lt_upper_bound; [lia|].
        eapply N.lt_le_trans; [exact Hn|]. apply N.mul_le_mono_r. exact Hb.
Qed.

Lemma digits_le_range : forall b, 2 <= b -> forall fuel n, n < 2 ^ (N.of_nat fuel) \/ n = 0 ->
  Forall (fun d => d < b) (digits_le b fuel n).
Proof.
  intros b Hb. induction fuel as [|f IH]; intros n Hn; cbn [digits_le].
  - constructor; [|constructor]. cbn in Hn. lia.
  - destruct (N.ltb_spec n b) as [L|L]; [constructor; [exact L|constructor]|].
    constructor; [apply N.mod_lt; lia|]. apply IH.
    destruct Hn as [Hn|Hn]; [|lia]. left.
    rewrite Nat2N.inj_succ, N.pow_succ_r' in Hn.
    apply N.div_lt_upper_bound; [lia|].
    eapply N.lt_le_trans; [exact Hn|]. apply N.mul_le_mono_r. exact Hb.
Qed.

Lemma size_bound : forall n, n < 2 ^ N.of_nat (N.size_nat n) \/ n = 0.
Proof.
  intros [|p]; [right; reflexivity|left].
  change (N.size_nat (Npos p)) with (Pos.size_nat p).
  induction p as [p IH|p IH|]; cbn [Pos.size_nat]; try (rewrite Nat2N.inj_succ, N.pow_succ_r'); lia.
Qed.

Lemma digits_nonempty : forall b n, digits b n <> [].
Proof.
  intros b n E. unfold digits in E. apply (f_equal (@rev N)) in E. rewrite rev_involutive in E.
  destruct (N.size_nat n); cbn in E; [discriminate|]. destruct (n <? b); discriminate.
Qed.

Lemma digits_value : forall b n, 2 <= b ->
  fold_left (fun acc d => acc * b + d) (digits b n) 0 = n.
Proof.
  intros b n Hb. unfold digits. rewrite <- fold_left_rev_right, rev_involutive.
  transitivity (value_le b (digits_le b (N.size_nat n) n)).
  - unfold value_le. generalize (digits_le b (N.size_nat n) n).
    induction l as [|d l IH]; cbn; [reflexivity|]. rewrite IH. lia.
  - apply digits_le_value; [exact Hb|apply size_bound].
Qed.

Lemma digits_range : forall b n, 2 <= b -> Forall (fun d => d < b) (digits b n).
Proof.
  intros b n Hb. unfold digits. apply Forall_rev.
  apply digits_le_range; [exact Hb|apply size_bound].
Qed.

(** ** Characters *)

Lemma small_cases : forall d, d < 16 ->
  In d [0;1;2;3;4;5;6;7;8;9;10;11;12;13;14;15].
Proof. intros d H. cbn. lia. Qed.

Lemma char_digit_char : forall b d, d < b -> b <= 16 ->
  char_digit b (digit_char d) = Some d.
Proof.
  intros b d H1 H2. assert (H : d < 16) by lia. apply small_cases in H.
  unfold char_digit.
  repeat (destruct H as [<-|H];
    [ vm_compute (digit_char _); vm_compute (N_of_ascii _);
      match goal with |- context [if ?x && ?y then Some ?z else ?w] =>
        let t := eval vm_compute in (if x && y then Some z else w) in
        change (if x && y then Some z else w) with t end;
      cbv beta iota; rewrite (proj2 (N.ltb_lt _ _) H1); reflexivity | ]).
  destruct H.
Qed.

Lemma digit_char_facts : forall d, d < 16 ->
  let c := digit_char d in
  Ascii.eqb c "_"%char = false /\ Ascii.eqb c "-"%char = false /\
  Ascii.eqb c "+"%char = false /\ is_space c = false /\ Ascii.eqb c "x"%char = false /\
  Ascii.eqb c "X"%char = false.
Proof.
  intros d H. apply small_cases in H.
  repeat (destruct H as [<-|H]; [vm_compute; auto 10|]). destruct H.
Qed.

Lemma parse_digits_chars : forall b, 2 <= b -> b <= 16 -> forall ds acc prev,
  Forall (fun d => d < b) ds -> ds <> [] \/ prev = true ->
  parse_digits b acc prev (map digit_char ds) = Some (fold_left (fun a d => a * b + d) ds acc).
Proof.
  intros b Hb Hb'. induction ds as [|d ds IH]; intros acc prev F NE; cbn [map parse_digits].
  - destruct NE as [NE|NE]; [congruence|subst; reflexivity].
  - inversion F as [|? ? Hd F']; subst.
    destruct (digit_char_facts d ltac:(lia)) as (E1 & _). rewrite E1.
    rewrite char_digit_char by lia. cbn [fold_left]. apply IH; auto.
Qed.

Lemma parse_zeros : forall b k s acc prev, 2 <= b -> b <= 16 ->
  (k <> 0)%nat -> acc = 0 ->
  parse_digits b acc prev (repeat "0"%char k ++ s) = parse_digits b 0 true s.
Proof.
  intros b k s acc prev Hb Hb' Hk ->. revert prev.
  assert (Z : char_digit b "0"%char = Some 0).
  { change "0"%char with (digit_char 0). apply char_digit_char; lia. }
  induction k as [|k IH]; intro prev; [congruence|].
  cbn [repeat app parse_digits]. change (Ascii.eqb "0" "_") with false. cbv iota.
  rewrite Z. replace (0 * b + 0) with 0 by lia.
  destruct k as [|k]; [reflexivity|]. apply IH. discriminate.
Qed.

Lemma parse_padded : forall b k n, 2 <= b -> b <= 16 ->
  parse_digits b 0 false (repeat "0"%char k ++ str_N b n) = Some n.
Proof.
  intros b k n Hb Hb'.
  assert (D : forall prev, parse_digits b 0 prev (str_N b n) = Some n).
  { intro prev. unfold str_N. rewrite parse_digits_chars; auto.
    - f_equal. apply digits_value; assumption.
    - apply digits_range; assumption.
    - left. apply digits_nonempty. }
  destruct k as [|k]; [apply D|]. rewrite parse_zeros by (try lia; discriminate). apply D.
Qed.

(** ** Stripping *)

Lemma lstrip_nospace : forall s, match s with c :: _ => is_space c = false | [] => True end ->
  lstrip_space s = s.
Proof. intros [|c s] H; cbn; [reflexivity|now rewrite H]. Qed.

Lemma strip_nospace : forall s, Forall (fun c => is_space c = false) s -> strip_space s = s.
Proof.
  intros s F. unfold strip_space. rewrite (lstrip_nospace s).
  - rewrite lstrip_nospace; [apply rev_involutive|].
    destruct (rev s) eqn:E; [exact I|].
    rewrite Forall_forall in F. apply F. apply in_rev. rewrite E. left; reflexivity.
  - destruct F; [exact I|assumption].
Qed.

Lemma str_N_chars : forall b n, 2 <= b -> b <= 16 ->
  Forall (fun c => exists d, d < b /\ c = digit_char d) (str_N b n).
Proof.
  intros b n Hb Hb'. unfold str_N. apply Forall_map.
  eapply Forall_impl; [|apply digits_range; eassumption].
  intros d Hd. exists d. auto.
Qed.

Lemma str_N_nonempty : forall b n, str_N b n <> [].
Proof.
  intros b n E. unfold str_N in E. apply map_eq_nil in E. exact (digits_nonempty b n E).
Qed.

(** A string of digit characters, as a body of an integer literal. *)
Definition digit_body (b : N) (s : str) : Prop :=
  s <> [] /\ Forall (fun c => exists d, d < b /\ c = digit_char d) s.

Lemma padded_body : forall b k n, 2 <= b -> b <= 16 ->
  digit_body b (repeat "0"%char k ++ str_N b n).
Proof.
  intros b k n Hb Hb'. split.
  - intro E. apply app_eq_nil in E. exact (str_N_nonempty b n (proj2 E)).
  - apply Forall_app. split; [|apply str_N_chars; assumption].
    apply Forall_forall. intros c Hc. apply repeat_spec in Hc. subst.
    exists 0. split; [lia|reflexivity].
Qed.

Lemma body_nospace : forall b s, b <= 16 -> digit_body b s ->
  Forall (fun c => is_space c = false) s.
Proof.
  intros b s Hb [_ F]. eapply Forall_impl; [|exact F].
  intros c (d & Hd & ->). apply digit_char_facts. lia.
Qed.

Lemma body_nosign : forall b s, b <= 16 -> digit_body b s ->
  exists c t, s = c :: t /\ Ascii.eqb c "-"%char = false /\ Ascii.eqb c "+"%char = false.
Proof.
  intros b s Hb [N F]. destruct s as [|c t]; [congruence|].
  exists c, t. split; [reflexivity|]. inversion F as [|? ? (d & Hd & ->) F']; subst.
  split; apply digit_char_facts; lia.
Qed.

Lemma body_no_prefix : forall b s, b <= 16 -> digit_body b s -> drop_hex_prefix s = s.
Proof.
  intros b s Hb [N F]. destruct s as [|z [|x s]]; [congruence|reflexivity|].
  cbn. inversion F as [|? ? _ F1]; subst. inversion F1 as [|? ? (d & Hd & ->) F2]; subst.
  destruct (digit_char_facts d ltac:(lia)) as (_ & _ & _ & _ & E1 & E2).
  rewrite E1, E2, andb_false_r. reflexivity.
Qed.

Lemma py_int_unsigned : forall b s n, b <= 16 -> digit_body b s ->
  parse_digits b 0 false s = Some n -> py_int b s = Ok (Z.of_N n).
Proof.
  intros b s n Hb D P. unfold py_int.
  rewrite (strip_nospace s) by (eapply body_nospace; eassumption).
  destruct (body_nosign b s Hb D) as (c & t & -> & E1 & E2). rewrite E1, E2.
  rewrite (body_no_prefix b _ Hb D). destruct (b =? 16); rewrite P; reflexivity.
Qed.

Lemma py_int_negative : forall b s n, b <= 16 -> digit_body b s ->
  parse_digits b 0 false s = Some n -> py_int b ("-"%char :: s) = Ok (- Z.of_N n)%Z.
Proof.
  intros b s n Hb D P. unfold py_int.
  rewrite (strip_nospace ("-"%char :: s))
    by (constructor; [reflexivity|eapply body_nospace; eassumption]).
  change (Ascii.eqb "-" "-") with true. cbv iota.
  rewrite (body_no_prefix b _ Hb D). destruct (b =? 16); rewrite P; reflexivity.
Qed.

Lemma int_str : forall z, py_int 10 (py_str z) = Ok z.
Proof.
  intro z. destruct z as [|p|p]; cbn [py_str].
  - reflexivity.
  - rewrite (py_int_unsigned 10 _ (Npos p)); [reflexivity|lia| |].
    + apply (padded_body 10 0); lia.
    + apply (parse_padded 10 0); lia.
  - rewrite (py_int_negative 10 _ (Npos p)); [reflexivity|lia| |].
    + apply (padded_body 10 0); lia.
    + apply (parse_padded 10 0); lia.
Qed.

Lemma int_pad : forall w z, py_int 10 (py_pad w z) = Ok z.
Proof.
  intros w z. destruct z as [|p|p]; cbn [py_pad].
  - apply (py_int_unsigned 10 _ 0); [lia|apply padded_body; lia|apply parse_padded; lia].
  - apply (py_int_unsigned 10 _ (Npos p)); [lia|apply padded_body; lia|apply parse_padded; lia].
  - apply (py_int_negative 10 _ (Npos p)); [lia|apply padded_body; lia|apply parse_padded; lia].
Qed.

Lemma drop_prefix_body : forall s, digit_body 16 s -> drop_hex_prefix ($"0x" ++ s) = s.
Proof.
  intros s [N F]. cbn. destruct s as [|c t]; [congruence|].
  inversion F as [|? ? (d & Hd & ->) F']; subst.
  destruct (digit_char_facts d Hd) as (E1 & _). rewrite E1. reflexivity.
Qed.

Lemma int_hex : forall z, py_int 16 (py_hex z) = Ok z.
Proof.
  intro z.
  assert (B : forall n, digit_body 16 (str_N 16 n)) by (intro n; apply (padded_body 16 0); lia).
  assert (P : forall n, parse_digits 16 0 false (str_N 16 n) = Some n)
    by (intro n; apply (parse_padded 16 0); lia).
  assert (U : forall n, py_int 16 ($"0x" ++ str_N 16 n) = Ok (Z.of_N n)).
  { intro n. unfold py_int. rewrite strip_nospace.
    - change ($"0x" ++ str_N 16 n) with ("0"%char :: "x"%char :: str_N 16 n).
      change (Ascii.eqb "0" "-") with false. change (Ascii.eqb "0" "+") with false.
      change (16 =? 16) with true. cbv iota beta zeta.
      change ("0"%char :: "x"%char :: str_N 16 n) with ($"0x" ++ str_N 16 n).
      rewrite drop_prefix_body by apply B. rewrite P. reflexivity.
    - repeat (constructor; [reflexivity|]). eapply body_nospace; [|apply B]; lia. }
  destruct z as [|p|p]; cbn [py_hex].
  - apply (U 0).
  - apply (U (Npos p)).
  - unfold py_int. rewrite strip_nospace.
    + change ($"-0x" ++ str_N 16 (N.pos p)) with ("-"%char :: ($"0x" ++ str_N 16 (N.pos p))).
      change (Ascii.eqb "-" "-") with true. change (16 =? 16) with true. cbv iota beta zeta.
      rewrite drop_prefix_body by apply B. rewrite P. reflexivity.
    + repeat (constructor; [reflexivity|]). eapply body_nospace; [|apply B]; lia.
Qed.

(** ** Alphabet of integer literals *)

Definition int_char (c : ascii) : Prop :=
  c = "-"%char \/ exists d, d < 10 /\ c = digit_char d.
Definition hex_char (c : ascii) : Prop :=
  c = "-"%char \/ c = "x"%char \/ exists d, d < 16 /\ c = digit_char d.

Lemma py_pad_chars : forall w z, Forall int_char (py_pad w z) /\ py_pad w z <> [].
Proof.
  intros w z.
  assert (A : forall k n, Forall int_char (repeat "0"%char k ++ str_N 10 n) /\
                          repeat "0"%char k ++ str_N 10 n <> []).
  { intros k n. destruct (padded_body 10 k n ltac:(lia) ltac:(lia)) as [N F]. split; [|exact N].
    eapply Forall_impl; [|exact F]. intros c Hc. right. exact Hc. }
  destruct z; cbn [py_pad]; try apply A.
  split; [|discriminate]. constructor; [left; reflexivity|apply A].
Qed.

Lemma py_str_pad : forall z, py_str z = py_pad 0 z.
Proof. intros []; reflexivity. Qed.

Lemma py_str_chars : forall z, Forall int_char (py_str z) /\ py_str z <> [].
Proof. intro z. rewrite py_str_pad. apply py_pad_chars. Qed.

Lemma py_hex_chars : forall z, Forall hex_char (py_hex z) /\ py_hex z <> [].
Proof.
  intro z.
  assert (A : forall n, Forall hex_char (str_N 16 n)).
  { intro n. eapply Forall_impl; [|apply (str_N_chars 16 n); lia].
    intros c Hc. right. right. exact Hc. }
  assert (Z0 : hex_char "0"%char) by (right; right; exists 0; split; [lia|reflexivity]).
  assert (X : hex_char "x"%char) by (right; left; reflexivity).
  assert (M : hex_char "-"%char) by (left; reflexivity).
  destruct z; cbn [py_hex]; (split; [|discriminate]); repeat (constructor; [assumption|]); first [apply A | constructor].
Qed.

Lemma py_str_inj : forall x y, py_str x = py_str y -> x = y.
Proof. intros x y E. apply (f_equal (py_int 10)) in E. rewrite !int_str in E. congruence. Qed.
Lemma py_pad_inj : forall w x y, py_pad w x = py_pad w y -> x = y.
Proof. intros w x y E. apply (f_equal (py_int 10)) in E. rewrite !int_pad in E. congruence. Qed.
Lemma py_hex_inj : forall x y, py_hex x = py_hex y -> x = y.
Proof. intros x y E. apply (f_equal (py_int 16)) in E. rewrite !int_hex in E. congruence. Qed.

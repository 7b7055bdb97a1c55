From Coq Require Import ZArith NArith List Ascii String Bool Lia Permutation.
From Verif Require Import Base Base_Proofs Str Str_Proofs Numerals_Model Numerals_Proofs
  Partitions_Model Partitions_Spec Partitions_Proofs Fields_Spec.
Import ListNotations.
Open Scope list_scope.

(** ** Digits *)

Definition plain_value (c : ascii) : option N :=
  let n := N_of_ascii c in
  if (48 <=? n)%N && (n <=? 57)%N then Some (n - 48)%N
  else if (97 <=? n)%N && (n <=? 122)%N then Some (n - 87)%N
  else if (65 <=? n)%N && (n <=? 90)%N then Some (n - 55)%N
  else None.

Definition listed (c : ascii) (d : N) : Prop :=
  nth_error lower (N.to_nat d) = Some c \/ nth_error upper (N.to_nat d) = Some c.

Lemma plain_value_listed : forall c d, plain_value c = Some d -> listed c d.
Proof.
  intros [b0 b1 b2 b3 b4 b5 b6 b7] d.
  destruct b0, b1, b2, b3, b4, b5, b6, b7; intro E; vm_compute in E;
    try discriminate; injection E as <-; unfold listed;
    first [left; vm_compute; reflexivity | right; vm_compute; reflexivity].
Qed.

Lemma listed_small : forall c d, listed c d -> (N.to_nat d < 36)%nat.
Proof.
  intros c d [H|H];
    [change 36%nat with (List.length lower) | change 36%nat with (List.length upper)];
    apply nth_error_Some; congruence.
Qed.

Lemma listed_plain_value : forall c d, listed c d -> plain_value c = Some d.
Proof.
  intros c d H. assert (L := listed_small c d H).
  rewrite <- (N2Nat.id d) in *. rewrite Nat2N.id in L. revert H.
  generalize dependent (N.to_nat d). intros n L H. unfold listed in H. rewrite Nat2N.id in H.
  do 36 (destruct n as [|n];
    [destruct H as [H|H]; vm_compute in H; injection H as <-; vm_compute; reflexivity|]).
  lia.
Qed.

Lemma char_digit_reads : forall b c d, char_digit b c = Some d <-> reads_digit b c d.
Proof.
  intros b c d. unfold reads_digit.
  change (char_digit b c) with
    (match plain_value c with Some d => if (d <? b)%N then Some d else None | None => None end).
  split.
  - destruct (plain_value c) as [d'|] eqn:E; [|discriminate].
    destruct (N.ltb_spec d' b); [|discriminate]. intros [= <-]. split; [assumption|].
    apply plain_value_listed. exact E.
  - intros [L H]. rewrite (listed_plain_value c d H). apply N.ltb_lt in L. now rewrite L.
Qed.

Lemma under_plain : plain_value "_"%char = None.
Proof. reflexivity. Qed.

Lemma digit_not_under : forall b c d, reads_digit b c d -> Ascii.eqb c "_"%char = false.
Proof.
  intros b c d [_ H]. apply listed_plain_value in H. apply Ascii.eqb_neq. intros ->. discriminate H.
Qed.

(** ** Parsing digits *)

Lemma parse_numeral : forall b s acc n,
  (parse_digits b acc false s = Some n <->
     exists ds, numeral b s ds /\ n = fold_left (fun n d => n * b + d)%N ds acc) /\
  (parse_digits b acc true s = Some n <->
     (s = [] /\ n = acc) \/
     (exists ds, numeral b s ds /\ n = fold_left (fun n d => n * b + d)%N ds acc) \/
     (exists s' ds, s = "_"%char :: s' /\ numeral b s' ds /\
        n = fold_left (fun n d => n * b + d)%N ds acc)).
Proof.
  intros b. induction s as [|c s IH]; intros acc n.
  - cbn [parse_digits]. split.
    + split; [discriminate|]. intros (ds & H & _). inversion H.
    + split; [intros [= <-]; auto|].
      intros [[_ ->]|[(ds & H & _)|(s' & ds & H & _)]]; [reflexivity|inversion H|discriminate].
  - cbn [parse_digits]. destruct (Ascii.eqb c "_"%char) eqn:U.
    + apply Ascii.eqb_eq in U. subst c.
      assert (ND : forall ds, ~ numeral b ("_"%char :: s) ds).
      { intros ds H. inversion H; subst;
          match goal with R : reads_digit b "_"%char _ |- _ =>
            apply digit_not_under in R; discriminate R end. }
      split.
      * split; [discriminate|]. intros (ds & H & _). now apply ND in H.
      * destruct s as [|c' s'].
        -- split; [discriminate|].
           intros [[E _]|[(ds & H & _)|(t & ds & E & H & _)]]; [discriminate|now apply ND in H|].
           injection E as <-. inversion H.
        -- destruct (Ascii.eqb c' "_"%char) eqn:U'.
           ++ apply Ascii.eqb_eq in U'. subst c'. split; [discriminate|].
              intros [[E _]|[(ds & H & _)|(t & ds & E & H & _)]]; [discriminate|now apply ND in H|].
              injection E as <-. inversion H; subst;
                match goal with R : reads_digit b "_"%char _ |- _ =>
                  apply digit_not_under in R; discriminate R end.
           ++ destruct (IH acc n) as [I _]. rewrite I. split.
              ** intros (ds & H & E). right. right. exists (c' :: s'), ds. auto.
              ** intros [[E _]|[(ds & H & _)|(t & ds & E & H & E')]]; [discriminate|now apply ND in H|].
                 injection E as <-. eauto.
    + destruct (char_digit b c) as [d|] eqn:D.
      * apply char_digit_reads in D. destruct (IH (acc * b + d)%N n) as [_ I].
        assert (G : parse_digits b (acc * b + d) true s = Some n <->
          exists ds, numeral b (c :: s) ds /\ n = fold_left (fun n d => n * b + d)%N ds acc).
        { rewrite I. split.
          - intros [[-> ->]|[(ds & H & ->)|(t & ds & -> & H & ->)]].
            + exists [d]. split; [now constructor|reflexivity].
            + exists (d :: ds). split; [now constructor|reflexivity].
            + exists (d :: ds). split; [now apply num_under|reflexivity].
          - assert (same : forall d', reads_digit b c d' -> d' = d).
            { intros d' R. apply char_digit_reads in R. apply char_digit_reads in D. congruence. }
            intros (ds & H & ->). inversion H as [? d' R|? d' ? ds' R H'|? d' s0 ds' R H']; subst;
              rewrite (same _ R).
            + left. auto.
            + right. left. eauto.
            + right. right. eauto. }
        rewrite G. split; [tauto|]. split; [auto|].
        intros [[E _]|[H|(t & ds & E & _)]]; [discriminate|exact H|].
        injection E as -> _. discriminate U.
      * assert (ND : forall ds, ~ numeral b (c :: s) ds).
        { intros ds H. inversion H; subst;
            match goal with R : reads_digit b c _ |- _ =>
              apply char_digit_reads in R; congruence end. }
        split.
        -- split; [discriminate|]. intros (ds & H & _). now apply ND in H.
        -- split; [discriminate|].
           intros [[E _]|[(ds & H & _)|(t & ds & E & _)]]; [discriminate|now apply ND in H|].
           injection E as -> _. discriminate U.
Qed.

Lemma parse_exact : forall b s n,
  parse_digits b 0 false s = Some n <-> exists ds, numeral b s ds /\ n = value b ds.
Proof. intros b s n. apply (parse_numeral b s 0%N n). Qed.

(** ** Blanks *)

Lemma is_space_blank : forall c, is_space c = true <-> blank c.
Proof.
  intros [b0 b1 b2 b3 b4 b5 b6 b7]. unfold blank.
  destruct b0, b1, b2, b3, b4, b5, b6, b7; vm_compute;
    (split; [first [discriminate | tauto] | intuition discriminate || reflexivity]).
Qed.

Lemma lstrip_split : forall s, exists before,
  s = before ++ lstrip_space s /\ Forall blank before /\
  match lstrip_space s with c :: _ => is_space c = false | [] => True end.
Proof.
  induction s as [|c s (before & E & F & H)].
  - exists []. repeat split; constructor.
  - cbn [lstrip_space]. destruct (is_space c) eqn:S.
    + exists (c :: before). cbn [app]. rewrite E at 1. repeat split; [|exact H].
      constructor; [now apply is_space_blank|exact F].
    + exists []. repeat split; [constructor|exact S].
Qed.

Lemma lstrip_app : forall before s, Forall blank before ->
  lstrip_space (before ++ s) = lstrip_space s.
Proof.
  induction 1 as [|c before B F IH]; [reflexivity|]. cbn. apply is_space_blank in B. now rewrite B.
Qed.

Lemma strip_split : forall s, exists before after,
  s = before ++ strip_space s ++ after /\ Forall blank before /\ Forall blank after.
Proof.
  intro s. destruct (lstrip_split s) as (before & E & F & _).
  destruct (lstrip_split (rev (lstrip_space s))) as (after & E' & F' & _).
  exists before, (rev after). unfold strip_space. rewrite <- rev_app_distr, <- E', rev_involutive.
  repeat split; [exact E|exact F|now apply Forall_rev].
Qed.

Lemma strip_core : forall before s after, Forall blank before -> Forall blank after ->
  Forall (fun c => is_space c = false) s -> strip_space (before ++ s ++ after) = s.
Proof.
  intros before s after B A N. unfold strip_space. rewrite lstrip_app by exact B.
  destruct s as [|c s].
  - cbn [app]. rewrite <- (app_nil_r after), lstrip_app by exact A. reflexivity.
  - rewrite (lstrip_nospace ((c :: s) ++ after)) by (inversion N; assumption).
    rewrite rev_app_distr, lstrip_app by now apply Forall_rev.
    rewrite lstrip_nospace; [apply rev_involutive|].
    destruct (rev (c :: s)) eqn:E; [exact I|]. rewrite Forall_forall in N. apply N.
    apply in_rev. rewrite E. now left.
Qed.

(** ** [int] *)

Lemma digit_facts : forall b c d, reads_digit b c d -> is_space c = false /\
  Ascii.eqb c "-"%char = false /\ Ascii.eqb c "+"%char = false.
Proof.
  intros b c d [_ H]. apply listed_plain_value in H. repeat split.
  - destruct (is_space c) eqn:S; [|reflexivity]. apply is_space_blank in S.
    rewrite <- (ascii_nat_embedding c) in H. unfold blank in S.
    repeat (destruct S as [S|S]; [rewrite <- S in H; discriminate H|]). destruct S.
  - apply Ascii.eqb_neq. intros ->. discriminate H.
  - apply Ascii.eqb_neq. intros ->. discriminate H.
Qed.

Lemma numeral_nospace : forall b s ds, numeral b s ds ->
  Forall (fun c => is_space c = false) s.
Proof.
  induction 1 as [c d R|c d s ds R H IH|c d s ds R H IH].
  - constructor; [apply (digit_facts b c d R)|constructor].
  - constructor; [apply (digit_facts b c d R)|exact IH].
  - constructor; [apply (digit_facts b c d R)|constructor; [reflexivity|exact IH]].
Qed.

Lemma numeral_head : forall b s ds, numeral b s ds ->
  exists c t d, s = c :: t /\ reads_digit b c d.
Proof. intros b s ds H. inversion H; subst; eauto 10. Qed.

(** Of base 16 neither x nor X is a digit. *)
Lemma numeral_no_prefix : forall s ds, numeral 16 s ds -> drop_hex_prefix s = s.
Proof.
  assert (X : forall c d, reads_digit 16 c d ->
    (Ascii.eqb c "x"%char || Ascii.eqb c "X"%char)%bool = false).
  { intros c d R. apply char_digit_reads in R. apply orb_false_iff.
    split; apply Ascii.eqb_neq; intros ->; discriminate R. }
  intros s ds H. destruct H as [c d R|c d s ds R H|c d s ds R H]; [reflexivity| |].
  - destruct (numeral_head _ _ _ H) as (c' & t & d' & -> & R').
    cbn [drop_hex_prefix]. rewrite (X c' d' R'), andb_false_r. reflexivity.
  - cbn [drop_hex_prefix]. change (Ascii.eqb "_" "x" || Ascii.eqb "_" "X")%bool with false.
    now rewrite andb_false_r.
Qed.

(** What follows the sign. *)
Definition unsigned (b : N) (t : str) : option N :=
  parse_digits b 0 false (if (b =? 16)%N then drop_hex_prefix t else t).

Lemma drop_split : forall t, exists pre, t = pre ++ drop_hex_prefix t /\ prefix 16 pre.
Proof.
  intros [|z [|x t]]; [exists []; split; [reflexivity|constructor]
                      |exists []; split; [reflexivity|constructor]|].
  cbn [drop_hex_prefix]. destruct (Ascii.eqb z "0"%char && _)%bool eqn:E;
    [|exists []; split; [reflexivity|constructor]].
  apply andb_true_iff in E. destruct E as [E1 E2]. apply Ascii.eqb_eq in E1. subst z.
  assert (X : In x ["x"; "X"]%char).
  { apply orb_true_iff in E2. destruct E2 as [E2|E2]; apply Ascii.eqb_eq in E2; subst; cbn; auto. }
  destruct t as [|u t].
  - exists ["0"%char; x]. split; [reflexivity|]. apply (pre_hex x []); [exact X|now left].
  - destruct (Ascii.eqb u "_"%char) eqn:U.
    + apply Ascii.eqb_eq in U. subst u. exists ["0"%char; x; "_"%char]. split; [reflexivity|].
      apply (pre_hex x $"_"); [exact X|right; now left].
    + exists ["0"%char; x]. split; [reflexivity|]. apply (pre_hex x []); [exact X|now left].
Qed.

Lemma unsigned_exact : forall b t n, (b = 10 \/ b = 16)%N ->
  unsigned b t = Some n <->
  exists pre body ds, t = pre ++ body /\ prefix b pre /\ numeral b body ds /\ n = value b ds.
Proof.
  intros b t n B. unfold unsigned. rewrite parse_exact. split.
  - intros (ds & H & ->). destruct B as [->| ->].
    + exists [], t, ds. repeat split; [constructor|exact H].
    + destruct (drop_split t) as (pre & E & P). exists pre, (drop_hex_prefix t), ds.
      repeat split; assumption.
  - intros (pre & body & ds & -> & P & H & ->). exists ds. split; [|reflexivity].
    destruct P as [b|x u X U].
    + cbn [app]. destruct B as [->| ->]; [exact H|]. change (16 =? 16)%N with true. cbv iota.
      now rewrite (numeral_no_prefix _ _ H).
    + change (16 =? 16)%N with true. cbv iota. cbn [app drop_hex_prefix].
      replace (Ascii.eqb "0" "0" && (Ascii.eqb x "x" || Ascii.eqb x "X"))%bool with true
        by (destruct X as [<-|[<-|[]]]; reflexivity).
      destruct U as [<-|[<-|[]]].
      * cbn [app]. destruct (numeral_head _ _ _ H) as (c & t & d & -> & R).
        rewrite (digit_not_under _ _ _ R). exact H.
      * cbn [app S_ list_ascii_of_string]. exact H.
Qed.

Lemma unsigned_head : forall b t n, (b = 10 \/ b = 16)%N -> unsigned b t = Some n ->
  Forall (fun c => is_space c = false) t /\
  exists c t', t = c :: t' /\ Ascii.eqb c "-"%char = false /\ Ascii.eqb c "+"%char = false.
Proof.
  intros b t n B H. apply unsigned_exact in H; [|exact B].
  destruct H as (pre & body & ds & -> & P & H & _). split.
  - apply Forall_app. split; [|eapply numeral_nospace; exact H].
    destruct P as [|x u X U]; [constructor|].
    destruct X as [<-|[<-|[]]], U as [<-|[<-|[]]]; repeat constructor.
  - destruct P as [|x u X U].
    + destruct (numeral_head _ _ _ H) as (c & t & d & -> & R).
      destruct (digit_facts _ _ _ R) as (_ & ? & ?). exists c, t. auto.
    + cbn [app]. eexists _, _. split; [reflexivity|split; reflexivity].
Qed.

Lemma py_int_unsigned_eq : forall b s, py_int b s =
  match strip_space s with
  | c :: t =>
      let answer neg n := match n with Some n => Ok (neg (Z.of_N n)) | None => Err ValueError end in
      if Ascii.eqb c "-"%char then answer Z.opp (unsigned b t)
      else if Ascii.eqb c "+"%char then answer (fun z => z) (unsigned b t)
      else answer (fun z => z) (unsigned b (c :: t))
  | [] => Err ValueError
  end.
Proof. reflexivity. Qed.

Theorem int_exact : forall b s z, (b = 10 \/ b = 16)%N ->
  (py_int b s = Ok z <-> int_text b s z).
Proof.
  intros b s z B. rewrite py_int_unsigned_eq. split.
  - destruct (strip_split s) as (before & after & E & F & F').
    destruct (strip_space s) as [|c t] eqn:Es; [discriminate|]. cbv zeta.
    assert (G : forall sg neg n t', sign sg neg -> c :: t = sg ++ t' -> unsigned b t' = Some n ->
      int_text b s (neg (Z.of_N n))).
    { intros sg neg n t' Sg Et U. apply unsigned_exact in U; [|exact B].
      destruct U as (pre & body & ds & -> & P & N & ->).
      exists before, sg, neg, pre, body, ds, after. rewrite E, Et, <- !app_assoc.
      repeat (split; [first [reflexivity|assumption]|]). reflexivity. }
    destruct (Ascii.eqb c "-"%char) eqn:C.
    { apply Ascii.eqb_eq in C. subst c. destruct (unsigned b t) eqn:U; [|discriminate].
      intros [= <-]. apply (G $"-" Z.opp _ t); [constructor|reflexivity|exact U]. }
    destruct (Ascii.eqb c "+"%char) eqn:C'.
    { apply Ascii.eqb_eq in C'. subst c. destruct (unsigned b t) eqn:U; [|discriminate].
      intros [= <-]. apply (G $"+" (fun z => z) _ t); [constructor|reflexivity|exact U]. }
    destruct (unsigned b (c :: t)) eqn:U; [|discriminate].
    intros [= <-]. apply (G [] (fun z => z) _ (c :: t)); [constructor|reflexivity|exact U].
  - intros (before & sg & neg & pre & body & ds & after & -> & F & F' & Sg & P & N & ->).
    assert (U : unsigned b (pre ++ body) = Some (value b ds)).
    { apply unsigned_exact; [exact B|]. eauto 10. }
    destruct (unsigned_head b _ _ B U) as (NS & c & t & Ec & C1 & C2).
    replace (before ++ sg ++ pre ++ body ++ after) with (before ++ (sg ++ pre ++ body) ++ after)
      by now rewrite <- !app_assoc.
    rewrite strip_core; [|exact F|exact F'|].
    + destruct Sg.
      * cbn [app]. rewrite Ec. cbv zeta. rewrite C1, C2, <- Ec, U. reflexivity.
      * cbn [app S_ list_ascii_of_string]. cbv zeta. change (Ascii.eqb "+" "-") with false.
        change (Ascii.eqb "+" "+") with true. cbv iota. now rewrite U.
      * cbn [app S_ list_ascii_of_string]. cbv zeta. change (Ascii.eqb "-" "-") with true.
        cbv iota. now rewrite U.
    + apply Forall_app. split; [|exact NS]. destruct Sg; repeat constructor.
Qed.

Lemma int_error : forall b s e, py_int b s = Err e -> e = ValueError.
Proof.
  intros b s e. rewrite py_int_unsigned_eq. destruct (strip_space s); [congruence|]. cbv zeta.
  destruct (Ascii.eqb _ _); [destruct (unsigned _ _); congruence|].
  destruct (Ascii.eqb _ _); destruct (unsigned _ _); congruence.
Qed.

(** ** Printing integers *)

Lemma writes_digit : forall b d, (d < b)%N -> (b <= 16)%N -> writes b (digit_char d) d.
Proof.
  intros b d L B. split; [exact L|]. assert (H : (d < 16)%N) by lia. apply small_cases in H.
  repeat (destruct H as [<-|H]; [reflexivity|]). destruct H.
Qed.

Lemma last_digit : forall b, (2 <= b)%N -> forall fuel n,
  (n < 2 ^ N.of_nat fuel)%N \/ n = 0%N -> n <> 0%N -> last (digits_le b fuel n) 0%N <> 0%N.
Proof.
  intros b Hb. induction fuel as [|f IH]; intros n Hn NZ; cbn [digits_le]; [exact NZ|].
  destruct (N.ltb_spec n b) as [L|L]; [exact NZ|].
  assert (Q : (n / b <> 0)%N).
  { intro E. apply N.div_small_iff in E; lia. }
  assert (S : (n / b < 2 ^ N.of_nat f)%N \/ (n / b = 0)%N).
  { destruct Hn as [Hn|Hn]; [|lia]. left. rewrite Nat2N.inj_succ, N.pow_succ_r' in Hn.
    apply N.div_lt_upper_bound; [lia|].
    eapply N.lt_le_trans; [exact Hn|]. apply N.mul_le_mono_r. exact Hb. }
  specialize (IH _ S Q). cbn [last]. destruct (digits_le b f (n / b)) eqn:E; [|exact IH].
  destruct f; cbn in E; [discriminate|]. destruct (_ <? _)%N; discriminate.
Qed.

Lemma hd_rev : forall l, hd 0%N (rev l) = last l 0%N.
Proof.
  induction l as [|a l IH]; [reflexivity|]. cbn [rev last]. destruct l as [|b l]; [reflexivity|].
  rewrite <- IH. cbn [rev]. destruct (rev l); reflexivity.
Qed.

Lemma str_N_shortest : forall b n, (2 <= b)%N -> (b <= 16)%N -> shortest b (str_N b n) n.
Proof.
  intros b n Hb Hb'. exists (digits b n). repeat split.
  - unfold str_N. assert (F := digits_range b n Hb). induction F as [|d ds L F IH]; [constructor|].
    cbn [map]. constructor; [now apply writes_digit|exact IH].
  - apply digits_nonempty.
  - apply Numerals_Proofs.digits_value. exact Hb.
  - destruct (N.eq_dec n 0) as [->|NZ]; [left; reflexivity|]. right. unfold digits.
    rewrite hd_rev. apply last_digit; [exact Hb|apply size_bound|exact NZ].
Qed.

Lemma str_shown : forall z, exists s, py_str z = minus z ++ s /\ shortest 10 s (Z.to_N (Z.abs z)).
Proof.
  intros [|p|p].
  - exists (str_N 10 0). split; [reflexivity|]. apply str_N_shortest; lia.
  - exists (str_N 10 (Npos p)). split; [reflexivity|]. apply str_N_shortest; lia.
  - exists (str_N 10 (Npos p)). split; [reflexivity|]. apply str_N_shortest; lia.
Qed.

Lemma hex_shown : forall z, exists s,
  py_hex z = minus z ++ $"0x" ++ s /\ shortest 16 s (Z.to_N (Z.abs z)).
Proof.
  intros [|p|p].
  - exists (str_N 16 0). split; [reflexivity|]. apply str_N_shortest; lia.
  - exists (str_N 16 (Npos p)). split; [reflexivity|]. apply str_N_shortest; lia.
  - exists (str_N 16 (Npos p)). split; [reflexivity|]. apply str_N_shortest; lia.
Qed.

Lemma pad_shown : forall w z, exists k s,
  py_str z = minus z ++ s /\ py_pad w z = minus z ++ repeat "0"%char k ++ s /\
  List.length (py_pad w z) = Nat.max w (List.length (py_str z)).
Proof.
  intros w [|p|p]; cbn [py_pad py_str].
  - exists (w - List.length (str_N 10 0))%nat, (str_N 10 0). repeat split.
    rewrite app_length, repeat_length. cbn [Z.to_N]. lia.
  - exists (w - List.length (str_N 10 (Npos p)))%nat, (str_N 10 (Npos p)). repeat split.
    rewrite app_length, repeat_length. cbn [Z.to_N]. lia.
  - exists (w - 1 - List.length (str_N 10 (Npos p)))%nat, (str_N 10 (Npos p)). repeat split.
    cbn [List.length]. rewrite app_length, repeat_length. lia.
Qed.

(** Digits determine their number, so the text of a number is unique. *)
Lemma writes_reads : forall b c d, writes b c d -> reads_digit b c d.
Proof. intros b c d [L H]. split; auto. Qed.

Lemma writes_char : forall b c d, (b <= 16)%N -> writes b c d -> c = digit_char d.
Proof.
  intros b c d B [L H]. assert (S : (d < 16)%N) by lia. apply small_cases in S.
  repeat (destruct S as [<-|S]; [vm_compute in H; injection H as <-; reflexivity|]). destruct S.
Qed.

Lemma value_app : forall b ds d, value b (ds ++ [d]) = (value b ds * b + d)%N.
Proof. intros b ds d. unfold value. rewrite fold_left_app. reflexivity. Qed.

Lemma value_positive : forall b ds, (2 <= b)%N -> hd 0%N ds <> 0%N -> value b ds <> 0%N.
Proof.
  intros b ds B. induction ds as [|d ds IH] using rev_ind; [cbn; congruence|].
  rewrite value_app. intro H. destruct ds as [|e ds].
  - cbn in *. lia.
  - cbn [app hd] in *. specialize (IH H). nia.
Qed.

Lemma digits_unique : forall b ds ds', (2 <= b)%N ->
  Forall (fun d => (d < b)%N) ds -> Forall (fun d => (d < b)%N) ds' ->
  ds <> [] -> ds' <> [] -> ds = [0%N] \/ hd 0%N ds <> 0%N -> ds' = [0%N] \/ hd 0%N ds' <> 0%N ->
  value b ds = value b ds' -> ds = ds'.
Proof.
  intros b ds. induction ds as [|d ds IH] using rev_ind; intros ds' B F F' N N' Z Z' E; [congruence|].
  destruct (@exists_last _ ds' N') as (es & e & ->). rewrite !value_app in E.
  apply Forall_app in F. destruct F as [F Fd]. inversion Fd as [|? ? Ld _]; subst.
  apply Forall_app in F'. destruct F' as [F' Fe]. inversion Fe as [|? ? Le _]; subst.
  assert (D : d = e /\ value b ds = value b es).
  { rewrite (N.mul_comm (value b ds)), (N.mul_comm (value b es)) in E.
    destruct (N.div_mod_unique b (value b ds) (value b es) d e Ld Le E). auto. }
  destruct D as [-> V]. f_equal.
  destruct ds as [|a ds], es as [|a' es]; [reflexivity| | |].
  - cbn [app] in Z'. destruct Z' as [Z'|Z']; [destruct es; discriminate|]. cbn [hd] in Z'.
    exfalso. apply (value_positive b (a' :: es) B Z'). symmetry. exact V.
  - cbn [app] in Z. destruct Z as [Z|Z]; [destruct ds; discriminate|]. cbn [hd] in Z.
    exfalso. apply (value_positive b (a :: ds) B Z). exact V.
  - cbn [app] in Z, Z'. destruct Z as [Z|Z]; [destruct ds; discriminate|].
    destruct Z' as [Z'|Z']; [destruct es; discriminate|].
    apply IH; try assumption; try discriminate; right; assumption.
Qed.

Lemma shortest_unique : forall b s s' n, (2 <= b)%N -> (b <= 16)%N ->
  shortest b s n -> shortest b s' n -> s = s'.
Proof.
  intros b s s' n B B' (ds & F & N & V & Z) (ds' & F' & N' & V' & Z').
  assert (R : forall t es, Forall2 (writes b) t es ->
    Forall (fun d => (d < b)%N) es /\ t = map digit_char es).
  { intros t es G. induction G as [|c d t es Wr G (L & ->)]; [split; constructor|].
    split; [constructor; [apply Wr|exact L]|]. cbn [map]. f_equal. now apply (writes_char b). }
  destruct (R _ _ F) as [L ->], (R _ _ F') as [L' ->]. f_equal.
  apply (digits_unique b); try assumption. congruence.
Qed.

(** ** Dates *)

Lemma div_leap : forall y, is_leap y = true <-> leap y.
Proof.
  intro y. unfold is_leap, leap. rewrite andb_true_iff, orb_true_iff, negb_true_iff.
  rewrite Z.eqb_eq, Z.eqb_eq, Z.eqb_neq.
  rewrite <- !Z.mod_divide by lia. destruct (Z.eq_dec (y mod 100) 0); intuition congruence.
Qed.

Lemma calendar : forall y m d, field_ok (FDate y m d) <-> civil y m d.
Proof.
  intros y m d. cbn [field_ok]. unfold valid_date, civil, days_in_month.
  rewrite !andb_true_iff, !Z.leb_le. cbn [In].
  destruct (Z.eqb_spec m 2) as [->|M2].
  - destruct (is_leap y) eqn:L.
    + apply div_leap in L. split; [|lia]. intros H. repeat split; try lia. right. right.
      split; [lia|]. destruct (Z.le_gt_cases d 28); [lia|]. right. split; [lia|exact L].
    + assert (NL : ~ leap y) by (rewrite <- div_leap; congruence).
      split; [intro; repeat split; lia|]. intros (H1 & H2 & [H|[H|(_ & [H|(-> & H)])]]); try lia.
      now apply NL in H.
  - destruct (_ || _)%bool eqn:E; rewrite ?orb_true_iff, ?orb_false_iff, ?Z.eqb_eq, ?Z.eqb_neq in E; lia.
Qed.

Lemma mk_date_exact : forall y m d f, mk_date y m d = Ok f <-> f = FDate y m d /\ civil y m d.
Proof.
  intros y m d f. rewrite <- calendar. cbn [field_ok]. unfold mk_date.
  destruct (valid_date y m d); intuition congruence.
Qed.

Lemma dig_digit : forall z, (0 <= z < 10)%Z -> char_digit 10 (dig z) = Some (Z.to_N z).
Proof.
  intros z H. apply char_digit_reads. split; [lia|]. left. unfold dig.
  replace (N.to_nat (Z.to_N z)) with (Z.to_nat z) by lia.
  apply nth_error_nth'. change (List.length lower) with 36%nat. lia.
Qed.

Lemma digit_dig : forall c d, char_digit 10 c = Some d -> c = dig (Z.of_N d) /\ (0 <= Z.of_N d < 10)%Z.
Proof.
  intros c d H. apply char_digit_reads in H. destruct H as [L H]. split; [|lia].
  assert (H' : nth_error lower (N.to_nat d) = Some c).
  { destruct H as [H|H]; [exact H|]. assert (S : (d < 16)%N) by lia. apply small_cases in S.
    repeat (destruct S as [<-|S]; [first [lia | exact H]|]). destruct S. }
  unfold dig. replace (Z.to_nat (Z.of_N d)) with (N.to_nat d) by lia.
  symmetry. now apply nth_error_nth.
Qed.

Lemma two_digits : forall a b, (0 <= a < 10)%Z -> (0 <= b < 10)%Z ->
  all_digits [dig a; dig b] = true /\ digits_value [dig a; dig b] = (a * 10 + b)%Z.
Proof.
  intros a b A B. unfold all_digits, digits_value. cbn [forallb parse_digits].
  assert (U : forall z, (0 <= z < 10)%Z -> Ascii.eqb (dig z) "_"%char = false).
  { intros z H. apply (digit_not_under 10 _ (Z.to_N z)). apply char_digit_reads. now apply dig_digit. }
  rewrite !U, !dig_digit by assumption. split; [reflexivity|]. lia.
Qed.

Lemma four_digits : forall a b c d, (0 <= a < 10)%Z -> (0 <= b < 10)%Z -> (0 <= c < 10)%Z ->
  (0 <= d < 10)%Z ->
  all_digits [dig a; dig b; dig c; dig d] = true /\
  digits_value [dig a; dig b; dig c; dig d] = (((a * 10 + b) * 10 + c) * 10 + d)%Z.
Proof.
  intros a b c d A B C D. unfold all_digits, digits_value. cbn [forallb parse_digits].
  assert (U : forall z, (0 <= z < 10)%Z -> Ascii.eqb (dig z) "_"%char = false).
  { intros z H. apply (digit_not_under 10 _ (Z.to_N z)). apply char_digit_reads. now apply dig_digit. }
  rewrite !U, !dig_digit by assumption. split; [reflexivity|]. lia.
Qed.

Lemma all_digits_dig : forall s, all_digits s = true ->
  exists zs, s = map dig zs /\ Forall (fun z => (0 <= z < 10)%Z) zs.
Proof.
  induction s as [|c s IH]; [exists []; split; [reflexivity|constructor]|].
  cbn [all_digits forallb]. intro H. apply andb_true_iff in H. destruct H as [H1 H2].
  destruct (char_digit 10 c) as [d|] eqn:D; [|discriminate].
  apply digit_dig in D. destruct D as [-> L]. destruct (IH H2) as (zs & -> & F).
  exists (Z.of_N d :: zs). split; [reflexivity|constructor; assumption].
Qed.

Lemma two_eq : forall a b, (0 <= a < 10)%Z -> (0 <= b < 10)%Z -> two (a * 10 + b) = [dig a; dig b].
Proof.
  intros a b A B. unfold two. f_equal; [f_equal|f_equal; f_equal];
    [rewrite Z.div_add_l by lia; rewrite Z.div_small by lia; lia|].
  rewrite Z.add_comm, Z.mod_add by lia. apply Z.mod_small. exact B.
Qed.

Lemma four_eq : forall a b c d, (0 <= a < 10)%Z -> (0 <= b < 10)%Z -> (0 <= c < 10)%Z ->
  (0 <= d < 10)%Z -> four (((a * 10 + b) * 10 + c) * 10 + d) = [dig a; dig b; dig c; dig d].
Proof.
  intros a b c d A B C D. unfold four.
  replace (((a * 10 + b) * 10 + c) * 10 + d)%Z with ((a * 10 + b) * 100 + (c * 10 + d))%Z by lia.
  rewrite Z.div_add_l by lia. rewrite (Z.div_small (c * 10 + d)) by lia.
  rewrite (Z.add_comm _ (c * 10 + d)), Z.mod_add by lia. rewrite Z.mod_small by lia.
  rewrite Z.add_0_r, !two_eq by assumption. reflexivity.
Qed.

Lemma two_parts : forall z, (0 <= z < 100)%Z -> exists a b,
  (0 <= a < 10)%Z /\ (0 <= b < 10)%Z /\ z = (a * 10 + b)%Z.
Proof.
  intros z H. exists (z / 10)%Z, (z mod 10)%Z.
  assert (E := Z.div_mod z 10 ltac:(lia)). assert (M := Z.mod_pos_bound z 10 ltac:(lia)). lia.
Qed.

Lemma four_parts : forall z, (0 <= z < 10000)%Z -> exists a b c d,
  (0 <= a < 10)%Z /\ (0 <= b < 10)%Z /\ (0 <= c < 10)%Z /\ (0 <= d < 10)%Z /\
  z = (((a * 10 + b) * 10 + c) * 10 + d)%Z.
Proof.
  intros z H.
  assert (E := Z.div_mod z 100 ltac:(lia)). assert (M := Z.mod_pos_bound z 100 ltac:(lia)).
  destruct (two_parts (z / 100)) as (a & b & A & B & E1); [lia|].
  destruct (two_parts (z mod 100)) as (c & d & C & D & E2); [lia|].
  exists a, b, c, d. repeat split; lia.
Qed.

Lemma ymd_exact : forall y1 y2 y3 y4 m1 m2 d1 d2 f,
  ymd [y1; y2; y3; y4] [m1; m2] [d1; d2] = Ok f <->
  exists y m d, f = FDate y m d /\ civil y m d /\
    [y1; y2; y3; y4] = four y /\ [m1; m2] = two m /\ [d1; d2] = two d.
Proof.
  intros. unfold ymd. split.
  - destruct (all_digits [y1; y2; y3; y4]) eqn:Y; [|discriminate].
    destruct (all_digits [m1; m2]) eqn:M; [|discriminate].
    destruct (all_digits [d1; d2]) eqn:D; [|discriminate]. cbn [andb].
    rewrite mk_date_exact. intros [-> V]. do 3 eexists. split; [reflexivity|]. split; [exact V|].
    apply all_digits_dig in Y, M, D.
    destruct Y as (ys & Ey & Fy), M as (ms & Em & Fm), D as (ds & Ed & Fd).
    destruct ys as [|a [|b [|c [|e [|]]]]]; try discriminate.
    destruct ms as [|a' [|b' [|]]]; try discriminate.
    destruct ds as [|a'' [|b'' [|]]]; try discriminate. cbn [map] in *. rewrite Ey, Em, Ed.
    repeat match goal with F : Forall _ (_ :: _) |- _ => inversion F; clear F; subst end.
    rewrite (proj2 (four_digits a b c e ltac:(assumption) ltac:(assumption) ltac:(assumption) ltac:(assumption))).
    rewrite (proj2 (two_digits a' b' ltac:(assumption) ltac:(assumption))).
    rewrite (proj2 (two_digits a'' b'' ltac:(assumption) ltac:(assumption))).
    rewrite four_eq, !two_eq by assumption. auto.
  - intros (y & m & d & -> & V & Ey & Em & Ed).
    assert (V' := proj2 (calendar y m d) V). destruct (valid_bounds _ _ _ V') as (By & Bm & Bd).
    destruct (four_parts y) as (a & b & c & e & A & B & C & E & ->); [lia|].
    destruct (two_parts m) as (a' & b' & A' & B' & ->); [lia|].
    destruct (two_parts d) as (a'' & b'' & A'' & B'' & ->); [lia|].
    rewrite four_eq in Ey by assumption. rewrite two_eq in Em, Ed by assumption.
    rewrite Ey, Em, Ed.
    rewrite (proj1 (four_digits a b c e A B C E)), (proj2 (four_digits a b c e A B C E)).
    rewrite (proj1 (two_digits a' b' A' B')), (proj2 (two_digits a' b' A' B')).
    rewrite (proj1 (two_digits a'' b'' A'' B'')), (proj2 (two_digits a'' b'' A'' B'')).
    cbn [andb]. rewrite mk_date_exact. auto.
Qed.

Lemma iso_exact : forall s f, fromisoformat s = Ok f <->
  exists y m d, f = FDate y m d /\ civil y m d /\ iso_text s y m d.
Proof.
  intros s f. split.
  - unfold fromisoformat.
    do 8 (destruct s as [|? s]; [discriminate|]).
    destruct s as [|? [|? [|]]]; try discriminate.
    + rewrite ymd_exact. intros (y & m & d & -> & V & Ey & Em & Ed). exists y, m, d.
      split; [reflexivity|split; [exact V|right]]. unfold basic. rewrite <- Ey, <- Em, <- Ed. reflexivity.
    + destruct (_ && _)%bool eqn:E; [|discriminate]. apply andb_true_iff in E. destruct E as [E1 E2].
      apply Ascii.eqb_eq in E1, E2. subst.
      rewrite ymd_exact. intros (y & m & d & -> & V & Ey & Em & Ed). exists y, m, d.
      split; [reflexivity|split; [exact V|left]]. unfold extended. rewrite <- Ey, <- Em, <- Ed. reflexivity.
  - intros (y & m & d & -> & V & [->| ->]);
      [unfold extended | unfold basic]; unfold four, two;
      cbn [app S_ list_ascii_of_string fromisoformat].
    + change (Ascii.eqb "-" "-") with true. cbn [andb]. apply ymd_exact. exists y, m, d. auto.
    + apply ymd_exact. exists y, m, d. auto.
Qed.

Lemma iso_error : forall s e, fromisoformat s = Err e -> e = ValueError.
Proof.
  intros s e. assert (M : forall y m d, mk_date y m d = Err e -> e = ValueError).
  { intros y m d. unfold mk_date. destruct (valid_date _ _ _); congruence. }
  assert (Y : forall y m d, ymd y m d = Err e -> e = ValueError).
  { intros y m d. unfold ymd. destruct (_ && _)%bool; [apply M|congruence]. }
  unfold fromisoformat.
  repeat (destruct s as [|? s]; try (congruence || apply Y)).
  destruct (_ && _)%bool; [apply Y|congruence].
Qed.

Lemma isoformat_extended : forall y m d, civil y m d -> isoformat y m d = extended y m d.
Proof.
  intros y m d V. assert (V' := proj2 (calendar y m d) V).
  destruct (valid_bounds _ _ _ V') as (By & Bm & Bd).
  assert (P2 : forall z, (0 <= z < 100)%Z -> py_pad 2 z = two z).
  { intros z H.
    assert (G : (fun z => str_eqb (py_pad 2 z) (two z)) z = true).
    { apply (range_forall (fun z => str_eqb (py_pad 2 z) (two z)) 100 0); [vm_compute; reflexivity|lia]. }
    cbv beta in G. now apply str_eqb_spec in G. }
  assert (P4 : forall z, (0 <= z < 10000)%Z -> py_pad 4 z = four z).
  { intros z H. assert (K := pad4 z H). unfold pad_ok in K.
    rewrite !andb_true_iff, Nat.eqb_eq, Z.eqb_eq in K. destruct K as [[L A] E].
    apply all_digits_dig in A. destruct A as (zs & Es & F). rewrite Es in L, E |- *.
    destruct zs as [|a [|b [|c [|e [|]]]]]; try discriminate. cbn [map] in *.
    repeat match goal with F : Forall _ (_ :: _) |- _ => inversion F; clear F; subst end.
    rewrite (proj2 (four_digits a b c e ltac:(assumption) ltac:(assumption) ltac:(assumption) ltac:(assumption))).
    now rewrite four_eq by assumption. }
  unfold isoformat, extended. rewrite P4, !P2 by lia. reflexivity.
Qed.

(** ** Fields *)

Lemma names_are_perm : forall names comps, NoDup names -> NoDup (map fst comps) ->
  (names_are names comps = true <-> Permutation names (map fst comps)).
Proof.
  intros names comps N N'. unfold names_are. rewrite andb_true_iff, !forallb_forall. split.
  - intros [H1 H2]. apply NoDup_Permutation; [exact N|exact N'|]. intro n. split; intro I.
    + apply H1 in I. apply existsb_exists in I. destruct I as (kv & I & E).
      apply str_eqb_spec in E. subst. apply in_map. exact I.
    + apply in_map_iff in I. destruct I as (kv & <- & I). apply H2 in I.
      apply existsb_exists in I. destruct I as (n & I & E). apply str_eqb_spec in E. now subst.
  - intro P. split.
    + intros n I. apply existsb_exists. apply (Permutation_in _ P) in I. apply in_map_iff in I.
      destruct I as (kv & <- & I). exists kv. split; [exact I|apply str_eqb_refl].
    + intros kv I. apply existsb_exists. exists (fst kv). split; [|apply str_eqb_refl].
      apply (Permutation_in _ (Permutation_sym P)). now apply in_map.
Qed.

Lemma names_one : forall n comps, NoDup (map fst comps) ->
  (names_are [n] comps = true <-> exists s, comps = [(n, s)]).
Proof.
  intros n comps N. rewrite names_are_perm; [|repeat constructor; intros []|exact N]. split.
  - intro P. apply Permutation_length_1_inv in P. destruct comps as [|[k s] [|]]; try discriminate.
    injection P as ->. eauto.
  - intros (s & ->). apply Permutation_refl.
Qed.

Lemma ymd_nodup : NoDup [$"Y"; $"m"; $"d"].
Proof. repeat constructor; cbn; intuition discriminate. Qed.

Lemma names_three : forall comps, NoDup (map fst comps) ->
  (names_are [$"Y"; $"m"; $"d"] comps = true <->
   exists a b c, Permutation [($"Y", a); ($"m", b); ($"d", c)] comps).
Proof.
  intros comps N. rewrite names_are_perm; [|exact ymd_nodup|exact N]. split.
  - intro P. apply Permutation_map_inv in P. destruct P as (l & E & P).
    destruct l as [|[k1 a] [|[k2 b] [|[k3 c] [|]]]]; try discriminate. injection E as <- <- <-.
    exists a, b, c. now apply Permutation_sym.
  - intros (a & b & c & P). apply (Permutation_map fst) in P. exact P.
Qed.

Lemma comp_perm : forall a b c comps, Permutation [($"Y", a); ($"m", b); ($"d", c)] comps ->
  comp comps $"Y" = a /\ comp comps $"m" = b /\ comp comps $"d" = c.
Proof.
  intros a b c comps P. unfold comp.
  assert (G := dget_perm str_eqb str_eqb_spec [($"Y", a); ($"m", b); ($"d", c)] comps ymd_nodup P).
  rewrite <- !G. repeat split.
Qed.

Lemma comp_one : forall n s, comp [(n, s)] n = s.
Proof. intros n s. unfold comp. cbn [dget]. now rewrite str_eqb_refl. Qed.

Lemma three_not_one : forall a b c n (s : str), Permutation [($"Y", a); ($"m", b); ($"d", c)] [(n, s)] -> False.
Proof. intros a b c n s P. apply Permutation_length in P. discriminate. Qed.

Lemma supported_inv : forall c l, supported c l ->
  match c with
  | DateField => l = [$"value"] \/ l = [$"iso"] \/ Permutation [$"Y"; $"m"; $"d"] l
  | IntField _ => l = [$"value"] \/ l = [$"hex"]
  | NullField => l = [$"value"]
  end.
Proof. intros c l H. destruct H; auto. Qed.

Lemma names_same : forall n comps, map fst comps = [n] -> NoDup (map fst comps) ->
  names_are [n] comps = true.
Proof.
  intros n comps E N. apply names_are_perm; [repeat constructor; intros []|exact N|].
  rewrite E. apply Permutation_refl.
Qed.

(** What [from_components] does, by cases. *)
Lemma from_date : forall comps, NoDup (map fst comps) ->
  (exists n s, In n [$"value"; $"iso"] /\ comps = [(n, s)] /\
     from_components DateField comps = fromisoformat s) \/
  (exists a b c, Permutation [($"Y", a); ($"m", b); ($"d", c)] comps /\
     from_components DateField comps =
       bind (py_int 10 a) (fun y => bind (py_int 10 b) (fun m => bind (py_int 10 c) (fun d =>
         mk_date y m d)))) \/
  (~ supported DateField (map fst comps) /\
     from_components DateField comps = Err NotImplementedError).
Proof.
  intros comps N. cbn [from_components].
  destruct (names_are [$"value"] comps) eqn:E1.
  { left. apply (names_one _ _ N) in E1. destruct E1 as (s & ->).
    exists $"value", s. split; [now left|split; [reflexivity|]]. now rewrite comp_one. }
  destruct (names_are [$"iso"] comps) eqn:E2.
  { left. apply (names_one _ _ N) in E2. destruct E2 as (s & ->).
    exists $"iso", s. split; [right; now left|split; [reflexivity|]]. now rewrite comp_one. }
  destruct (names_are [$"Y"; $"m"; $"d"] comps) eqn:E3.
  { right. left. apply (names_three _ N) in E3. destruct E3 as (a & b & c & P).
    exists a, b, c. split; [exact P|]. destruct (comp_perm _ _ _ _ P) as (-> & -> & ->). reflexivity. }
  right. right. split; [|reflexivity]. intro H. apply supported_inv in H.
  destruct H as [H|[H|H]].
  - apply names_same in H; [congruence|exact N].
  - apply names_same in H; [congruence|exact N].
  - apply (names_are_perm _ _ ymd_nodup N) in H. congruence.
Qed.

Lemma from_int : forall w comps, NoDup (map fst comps) ->
  (exists s, comps = [($"value", s)] /\
     from_components (IntField w) comps = rmap (FInt w) (py_int 10 s)) \/
  (exists s, comps = [($"hex", s)] /\
     from_components (IntField w) comps = rmap (FInt w) (py_int 16 s)) \/
  (~ supported (IntField w) (map fst comps) /\
     from_components (IntField w) comps = Err NotImplementedError).
Proof.
  intros w comps N. cbn [from_components].
  destruct (names_are [$"value"] comps) eqn:E1.
  { left. apply (names_one _ _ N) in E1. destruct E1 as (s & ->).
    exists s. split; [reflexivity|]. now rewrite comp_one. }
  destruct (names_are [$"hex"] comps) eqn:E2.
  { right. left. apply (names_one _ _ N) in E2. destruct E2 as (s & ->).
    exists s. split; [reflexivity|]. now rewrite comp_one. }
  right. right. split; [|reflexivity]. intro H. apply supported_inv in H.
  destruct H as [H|H]; (apply names_same in H; [congruence|exact N]).
Qed.

Lemma from_null : forall comps, NoDup (map fst comps) ->
  (exists s, comps = [($"value", s)] /\
     from_components NullField comps = if str_eqb s $"None" then Ok FNull else Err ValueError) \/
  (~ supported NullField (map fst comps) /\
     from_components NullField comps = Err NotImplementedError).
Proof.
  intros comps N. cbn [from_components].
  destruct (names_are [$"value"] comps) eqn:E1.
  { left. apply (names_one _ _ N) in E1. destruct E1 as (s & ->).
    exists s. split; [reflexivity|]. now rewrite comp_one. }
  right. split; [|reflexivity]. intro H. apply supported_inv in H.
  apply names_same in H; [congruence|exact N].
Qed.

Lemma read_supported : forall c comps f, read_as c comps f -> supported c (map fst comps).
Proof.
  intros c comps f H. destruct H as [n s y m d I _ _|a b e comps y m d P _ _ _ _|w s z _|w s z _|].
  - destruct I as [<-|[<-|[]]]; constructor.
  - apply sup_date_ymd. apply (Permutation_map fst) in P. exact P.
  - constructor.
  - constructor.
  - constructor.
Qed.

Lemma ten : (10 = 10 \/ 10 = 16)%N. Proof. now left. Qed.
Lemma sixteen : (16 = 10 \/ 16 = 16)%N. Proof. now right. Qed.

Theorem parsing_exact : forall c comps f, NoDup (map fst comps) ->
  (from_components c comps = Ok f <-> read_as c comps f).
Proof.
  intros [|w|] comps f N.
  - destruct (from_date comps N) as [(n & s & I & -> & ->)|[(a & b & c & P & ->)|(NS & ->)]].
    + rewrite iso_exact. split.
      * intros (y & m & d & -> & V & T). now apply read_date.
      * intro H. inversion H as [n' s' y m d I' T V|a b c comps' y m d P| | |]; subst.
        -- eauto 10.
        -- exfalso. eapply three_not_one. exact P.
    + split.
      * destruct (py_int 10 a) as [y|] eqn:Y; [|discriminate].
        destruct (py_int 10 b) as [m|] eqn:M; [|discriminate].
        destruct (py_int 10 c) as [d|] eqn:D; [|discriminate]. cbn [bind].
        rewrite mk_date_exact. intros [-> V].
        apply (int_exact 10 _ _ ten) in Y, M, D. eapply read_parts; eassumption.
      * intro H. inversion H as [n s y m d I T V|a' b' c' comps' y m d P' Y M D V| | |]; subst.
        -- exfalso. eapply three_not_one. exact P.
        -- destruct (comp_perm _ _ _ _ P) as (E1 & E2 & E3).
           destruct (comp_perm _ _ _ _ P') as (E1' & E2' & E3').
           rewrite E1 in E1'. rewrite E2 in E2'. rewrite E3 in E3'. subst a' b' c'.
           apply (int_exact 10 _ _ ten) in Y, M, D. rewrite Y, M, D. cbn [bind].
           apply mk_date_exact. auto.
    + split; [discriminate|]. intro H. exfalso. apply NS. eapply read_supported. exact H.
  - destruct (from_int w comps N) as [(s & -> & ->)|[(s & -> & ->)|(NS & ->)]].
    + split.
      * destruct (py_int 10 s) as [z|] eqn:E; [|discriminate]. cbn [rmap]. intros [= <-].
        constructor. now apply (int_exact 10 _ _ ten).
      * intro H. inversion H as [| |w' s' z T|w' s' z T|]; subst.
        apply (int_exact 10 _ _ ten) in T. now rewrite T.
    + split.
      * destruct (py_int 16 s) as [z|] eqn:E; [|discriminate]. cbn [rmap]. intros [= <-].
        constructor. now apply (int_exact 16 _ _ sixteen).
      * intro H. inversion H as [| |w' s' z T|w' s' z T|]; subst.
        apply (int_exact 16 _ _ sixteen) in T. now rewrite T.
    + split; [discriminate|]. intro H. exfalso. apply NS. eapply read_supported. exact H.
  - destruct (from_null comps N) as [(s & -> & ->)|(NS & ->)].
    + split.
      * destruct (str_eqb s $"None") eqn:E; [|discriminate]. apply str_eqb_spec in E. subst.
        intros [= <-]. constructor.
      * intro H. inversion H; subst. reflexivity.
    + split; [discriminate|]. intro H. exfalso. apply NS. eapply read_supported. exact H.
Qed.

Theorem parsing_errors : forall c comps e, NoDup (map fst comps) ->
  from_components c comps = Err e ->
  (e = NotImplementedError /\ ~ supported c (map fst comps)) \/
  (e = ValueError /\ supported c (map fst comps)).
Proof.
  intros [|w|] comps e N.
  - destruct (from_date comps N) as [(n & s & I & -> & ->)|[(a & b & c & P & ->)|(NS & ->)]].
    + intro E. apply iso_error in E. right. split; [exact E|].
      destruct I as [<-|[<-|[]]]; constructor.
    + intro E. right. split.
      * destruct (py_int 10 a) eqn:A; [|cbn in E; injection E as <-; eapply int_error; exact A].
        destruct (py_int 10 b) eqn:B; [|cbn in E; injection E as <-; eapply int_error; exact B].
        destruct (py_int 10 c) eqn:C; [|cbn in E; injection E as <-; eapply int_error; exact C].
        cbn [bind] in E. unfold mk_date in E. destruct (valid_date _ _ _); congruence.
      * apply sup_date_ymd. apply (Permutation_map fst) in P. exact P.
    + intros [= <-]. auto.
  - destruct (from_int w comps N) as [(s & -> & ->)|[(s & -> & ->)|(NS & ->)]].
    + destruct (py_int 10 s) eqn:E; cbn [rmap bind]; [discriminate|]. intros [= <-].
      right. split; [eapply int_error; exact E|constructor].
    + destruct (py_int 16 s) eqn:E; cbn [rmap bind]; [discriminate|]. intros [= <-].
      right. split; [eapply int_error; exact E|constructor].
    + intros [= <-]. auto.
  - destruct (from_null comps N) as [(s & -> & ->)|(NS & ->)].
    + destruct (str_eqb _ _); intro E; [discriminate|]. right. split; [congruence|constructor].
    + intros [= <-]. auto.
Qed.

Theorem components_exact : forall f n v, field_ok f -> (component f n = Ok v <-> has f n v).
Proof.
  intros f n v F. split.
  - destruct f as [y m d|w z|]; cbn [component].
    + destruct (str_eqb n $"value") eqn:E; [apply str_eqb_spec in E; subst; intros [= <-]; constructor|].
      clear E. destruct (str_eqb n $"Y") eqn:E; [apply str_eqb_spec in E; subst; intros [= <-]; constructor|].
      clear E. destruct (str_eqb n $"m") eqn:E; [apply str_eqb_spec in E; subst; intros [= <-]; constructor|].
      clear E. destruct (str_eqb n $"d") eqn:E; [apply str_eqb_spec in E; subst; intros [= <-]; constructor|].
      clear E. destruct (str_eqb n $"iso") eqn:E; [|discriminate].
      apply str_eqb_spec in E. subst. intros [= <-].
      rewrite isoformat_extended by now apply calendar. constructor.
    + destruct (str_eqb n $"value") eqn:E; [apply str_eqb_spec in E; subst; intros [= <-]; constructor|].
      clear E. destruct (str_eqb n $"hex") eqn:E; [|discriminate].
      apply str_eqb_spec in E. subst. intros [= <-].
      destruct (hex_shown z) as (h & -> & H). now constructor.
    + destruct (str_eqb n $"value") eqn:E; [|discriminate].
      apply str_eqb_spec in E. subst. intros [= <-]. constructor.
  - intro H. destruct H as [y m d|y m d|y m d|y m d|y m d|w z|w z h H|]; try reflexivity.
    + cbn [component]. change (Ok (CStr (isoformat y m d)) = Ok (CStr (extended y m d))).
      rewrite isoformat_extended; [reflexivity|]. now apply calendar.
    + change (component (FInt w z) $"hex") with (@Ok cvalue (CStr (py_hex z))).
      destruct (hex_shown z) as (h' & -> & H').
      now rewrite (shortest_unique 16 h h' (Z.to_N (Z.abs z)) ltac:(lia) ltac:(lia) H H').
Qed.

Theorem components_listed : forall f n,
  In n (components (class_of f)) <-> exists v, has f n v.
Proof.
  intros f n. split.
  - destruct f as [y m d|w z|]; cbn [class_of components In]; intro H.
    + repeat (destruct H as [<-|H]; [eexists; constructor|]). destruct H.
    + destruct H as [<-|[<-|[]]]; [eexists; constructor|].
      destruct (hex_shown z) as (h & _ & H). eexists. constructor. exact H.
    + destruct H as [<-|[]]. eexists; constructor.
  - intros (v & H). destruct H; cbn [class_of components In]; tauto.
Qed.

(** ** Format specs *)

Lemma zero_width_exact : forall spec w,
  zero_width spec = Some w <-> zero_padded spec (N.of_nat w).
Proof.
  assert (X : forall s ds, Forall2 (writes 10) s ds -> forall acc prev, s <> [] \/ prev = true ->
    parse_digits 10 acc prev s = Some (fold_left (fun n d => n * 10 + d)%N ds acc)).
  { induction 1 as [|c d s ds W F IH]; intros acc prev H; cbn [parse_digits fold_left].
    - destruct H as [H|H]; [congruence|now rewrite H].
    - apply writes_reads in W. rewrite (digit_not_under _ _ _ W).
      apply char_digit_reads in W. rewrite W. apply IH. now right. }
  assert (V : forall s ds, Forall2 (writes 10) s ds ->
    all_digits s = true /\ digits_value s = Z.of_N (value 10 ds)).
  { intros s ds F. split.
    - induction F as [|c d s ds W F IH]; [reflexivity|]. unfold all_digits in *. cbn [forallb].
      apply writes_reads in W. apply char_digit_reads in W. now rewrite W.
    - unfold digits_value. destruct F as [|c d s ds W F]; [reflexivity|].
      assert (F' : Forall2 (writes 10) (c :: s) (d :: ds)) by now constructor.
      rewrite (X _ _ F' 0%N false); [reflexivity|]. left. discriminate. }
  intros spec w. unfold zero_width. split.
  - destruct spec as [|z s]; [discriminate|]. destruct (Ascii.eqb z "0"%char) eqn:E; [|discriminate].
    apply Ascii.eqb_eq in E. subst z. cbn [andb].
    destruct (all_digits s) eqn:A; [|discriminate]. intros [= <-].
    assert (G : exists ds, Forall2 (writes 10) s ds).
    { clear V. induction s as [|c s IH]; [exists []; constructor|].
      cbn [all_digits forallb] in A. apply andb_true_iff in A. destruct A as [A1 A2].
      destruct (IH A2) as (ds & F). destruct (char_digit 10 c) as [d|] eqn:D; [|discriminate].
      exists (d :: ds). constructor; [|exact F]. apply digit_dig in D. destruct D as [-> L].
      split; [lia|]. unfold dig. replace (Z.to_nat (Z.of_N d)) with (N.to_nat d) by lia.
      apply nth_error_nth'. change (List.length lower) with 36%nat. lia. }
    destruct G as (ds & F). destruct (V s ds F) as [_ E]. exists s, ds.
    split; [reflexivity|split; [exact F|]]. rewrite E. lia.
  - intros (s & ds & -> & F & E). destruct (V s ds F) as [A D]. change (Ascii.eqb "0" "0") with true.
    cbn [andb]. rewrite A, D, E. f_equal. lia.
Qed.

Theorem format_padded : forall other z spec w, zero_padded spec (N.of_nat w) ->
  format_value other (CInt z) spec = Ok (py_pad w z).
Proof.
  intros other z spec w P. apply zero_width_exact in P. destruct spec as [|c spec]; [discriminate|].
  cbn [format_value]. now rewrite P.
Qed.

Theorem format_other : forall other v spec, spec <> [] ->
  (forall z w, v = CInt z -> ~ zero_padded spec w) -> format_value other v spec = other v spec.
Proof.
  intros other v spec N H. destruct spec as [|c spec]; [congruence|]. cbn [format_value].
  destruct v; try reflexivity. destruct (zero_width (c :: spec)) as [w|] eqn:E; [|reflexivity].
  apply zero_width_exact in E. now apply (H z (N.of_nat w) eq_refl) in E.
Qed.

Theorem format_plain : forall other z, format_value other (CInt z) [] = Ok (py_str z).
Proof. reflexivity. Qed.

(** ** Key types *)

Lemma class_exact : forall t c, get_class_for t = Ok c <-> field_for t c.
Proof.
  intros t c. split.
  - destruct t as [|[]| |]; cbn; intros [= <-]; constructor.
  - destruct 1; reflexivity.
Qed.

Lemma dict_of_fresh : forall (V : Type) (l : list (str * V)), NoDup (map fst l) ->
  dict_of str_eqb l = l.
Proof.
  intros V l. unfold dict_of.
  enough (G : forall acc, NoDup (map fst (acc ++ l)) -> dupdate str_eqb acc l = acc ++ l).
  { intro N. apply (G []). exact N. }
  induction l as [|[k v] l IH]; intros acc N; [cbn; now rewrite app_nil_r|].
  cbn [dupdate fold_left]. unfold dupdate in IH. cbn [fst snd].
  assert (E : dset str_eqb acc k v = acc ++ [(k, v)]).
  { assert (Nk : ~ In k (map fst acc)).
    { rewrite map_app in N. cbn [map fst] in N. apply NoDup_remove_2 in N. intro I. apply N.
      apply in_or_app. now left. }
    clear -Nk. induction acc as [|[k' v'] acc IH]; [reflexivity|]. cbn [dset app].
    cbn [map fst] in Nk.
    destruct (str_eqb k' k) eqn:Ek; [apply str_eqb_spec in Ek; exfalso; apply Nk; now left|].
    f_equal. apply IH. intro I. apply Nk. now right. }
  rewrite E. rewrite IH; [now rewrite <- app_assoc|]. now rewrite <- app_assoc.
Qed.

Lemma mapped_keys : forall (fs : list (str * ptype)) l,
  Forall2 (fun a b => rmap (fun c => (fst a, c)) (get_class_for (snd a)) = Ok b) fs l <->
  Forall2 (fun a b => fst a = fst b /\ field_for (snd a) (snd b)) fs l.
Proof.
  intros fs l. split; intro F; induction F as [|[n t] [n' c] fs l H F IH]; constructor; try exact IH;
    cbn [fst snd] in *.
  - destruct (get_class_for t) eqn:E; [|discriminate]. cbn [rmap bind] in H. injection H as <- <-.
    split; [reflexivity|]. now apply class_exact.
  - destruct H as [<- H]. apply class_exact in H. now rewrite H.
Qed.

Theorem types_exact : forall fs l, NoDup (map fst fs) ->
  (types_from (Some fs) = Ok l <->
   Forall2 (fun a b => fst a = fst b /\ field_for (snd a) (snd b)) fs l).
Proof.
  intros fs l N. cbn [types_from]. rewrite <- mapped_keys, <- mapM_Forall2.
  assert (K : forall r, mapM (fun nt => rmap (fun c => (fst nt, c)) (get_class_for (snd nt))) fs = Ok r ->
    dict_of str_eqb r = r).
  { intros r H. apply dict_of_fresh. apply mapM_Forall2 in H. rewrite mapped_keys in H.
    replace (map fst r) with (map fst fs); [exact N|].
    clear N. induction H as [|a b fs r [E _] H IH]; [reflexivity|]. cbn [map]. now rewrite E, IH. }
  destruct (mapM _ fs) as [r|e]; cbn [rmap bind].
  - rewrite (K r eq_refl). reflexivity.
  - split; discriminate.
Qed.

Theorem types_error : forall fs e, types_from (Some fs) = Err e ->
  e = KeyError /\ exists n t, In (n, t) fs /\ forall c, ~ field_for t c.
Proof.
  intros fs e. cbn [types_from].
  assert (G : forall e, mapM (fun nt => rmap (fun c => (fst nt, c)) (get_class_for (snd nt))) fs = Err e ->
    e = KeyError /\ exists n t, In (n, t) fs /\ forall c, ~ field_for t c).
  { clear e. induction fs as [|[n t] fs IH]; intro e; cbn [mapM]; [discriminate|]. cbn [fst snd].
    destruct (get_class_for t) as [c|e'] eqn:E; cbn [rmap bind].
    - destruct (mapM _ fs) as [r|e'] eqn:E'; cbn [rmap bind]; [discriminate|]. intros [= <-].
      destruct (IH e' eq_refl) as (-> & n' & t' & I & H). split; [reflexivity|].
      exists n', t'. split; [now right|exact H].
    - intros [= <-]. split; [destruct t; cbn in E; congruence|]. exists n, t.
      split; [now left|]. intros c H. apply class_exact in H. congruence. }
  destruct (mapM _ fs) as [r|e'] eqn:E; cbn [rmap bind]; [discriminate|]. intros [= <-]. now apply G.
Qed.

Theorem types_none : types_from None = Ok [].
Proof. reflexivity. Qed.

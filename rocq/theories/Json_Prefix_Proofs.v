(** What is cut short is not read. *)
From Coq Require Import ZArith NArith List Ascii String Bool Lia.
From Verif Require Import Base Str Base_Proofs Numerals_Model IO_Model Json_Model Json_Spec Json_Text_Proofs Json_Codec_Proofs.
Import ListNotations.
Open Scope list_scope.

Lemma skip_ws_app : forall r t c r', skip_ws r = c :: r' -> skip_ws (r ++ t) = c :: r' ++ t.
Proof. induction r as [|d r IH]; intros t c r' E; [discriminate E|]. cbn in *. destruct (is_ws d); [auto|]. injection E as -> ->. reflexivity. Qed.
Lemma skip_ws_ends : forall r c r', skip_ws r = c :: r' -> (c = "]" \/ c = "," \/ c = "}")%char -> r <> [] /\ ends_number r.
Proof.
  intros [|d r] c r' E C; [discriminate E|]. split; [discriminate|]. cbn in *. destruct (is_ws d) eqn:W.
  - unfold is_ws in W. rewrite !orb_true_iff, !N.eqb_eq in W. unfold is_digit.
    split.
    + destruct W as [[[W|W]|W]|W]; rewrite W; reflexivity.
    + repeat split; intros ->; cbn in W; lia.
  - injection E as -> ->. destruct C as [->|[->| ->]]; repeat split; discriminate.
Qed.

(** * More text after what was read, and more fuel *)

Lemma add_some : forall A B (x : A) (o : option (list A * B)) y r, add x o = Some (y, r) -> exists l, o = Some (l, r) /\ y = x :: l.
Proof. intros A B x [[l s]|] y r E; [|discriminate E]. injection E as <- <-. eauto. Qed.

Lemma scan_u_step : forall a b c d s3, scan_string ("\"%char :: "u"%char :: a :: b :: c :: d :: s3) =
  match hex4 a b c d with
  | Some h =>
      match s3 with
      | c1 :: c2 :: a :: b :: c :: d :: s4 =>
          if is_high h && Ascii.eqb c1 "\" && Ascii.eqb c2 "u" then
            match hex4 a b c d with
            | Some l => if is_low l then add (pair_up h l) (scan_string s4) else add h (scan_string s3)
            | None => None
            end
          else add h (scan_string s3)
      | _ => add h (scan_string s3)
      end
  | None => None
  end.
Proof. reflexivity. Qed.

Lemma scan_string_app : forall n s x r t, (List.length s <= n)%nat -> scan_string s = Some (x, r) -> scan_string (s ++ t) = Some (x, r ++ t).
Proof.
  induction n as [|n IH]; intros s x r t L E; (destruct s as [|c s]; [discriminate E|]); [cbn in L; lia|]. cbn [List.length] in L.
  assert (Keep : forall y s', (List.length s' <= n)%nat -> add y (scan_string s') = Some (x, r) -> add y (scan_string (s' ++ t)) = Some (x, r ++ t)).
  { intros y s' Ls A. destruct (add_some _ _ _ _ _ _ A) as (l & El & ->). rewrite (IH _ _ _ t Ls El). reflexivity. }
  destruct (Ascii.eqb_spec c """") as [->|Nq].
  - cbn in E |- *. injection E as <- <-. reflexivity.
  - destruct (Ascii.eqb_spec c "\") as [->|Nb].
    + destruct s as [|e s]; [discriminate E|]. destruct (Ascii.eqb_spec e "u") as [->|Nu].
      * destruct s as [|a [|b [|c' [|d s3]]]]; try discriminate E. cbn [app]. rewrite scan_u_step in E |- *.
        destruct (hex4 a b c' d) as [h|]; [|discriminate E]. cbn [List.length] in L.
        assert (K3 : add h (scan_string s3) = Some (x, r) -> add h (scan_string (s3 ++ t)) = Some (x, r ++ t)) by (apply Keep; lia).
        assert (Short : (forall a b c d s, s3 <> "\"%char :: "u"%char :: a :: b :: c :: d :: s) -> is_high h = true ->
          forall c1 c2 s, s3 ++ t = c1 :: c2 :: s -> add h (scan_string s3) = Some (x, r) -> Ascii.eqb c1 "\" && Ascii.eqb c2 "u" = false).
        { intros Sh _ c1 c2 s Es As. destruct (Ascii.eqb_spec c1 "\") as [->|]; [|reflexivity]. destruct (Ascii.eqb_spec c2 "u") as [->|]; [|reflexivity]. exfalso.
          destruct (add_some _ _ _ _ _ _ As) as (l & El & _).
          destruct s3 as [|c1 s3]; [discriminate El|]. injection Es as -> Es. destruct s3 as [|c2 s3]; [discriminate El|]. injection Es as -> Es.
          destruct s3 as [|a' [|b' [|c1' [|d' s4]]]]; try discriminate El. eapply Sh. reflexivity. }
        destruct (is_high h) eqn:Hh.
        -- cbn [andb] in E |- *.
           destruct s3 as [|c1 [|c2 [|a' [|b' [|c1' [|d' s4]]]]]] eqn:E3;
             try (pose proof (K3 E) as K; clear K3; rewrite <- E3 in *;
                  assert (Sh : forall a b c d s, s3 <> "\"%char :: "u"%char :: a :: b :: c :: d :: s) by (rewrite E3; intros; discriminate);
                  specialize (Short Sh eq_refl);
                  destruct (s3 ++ t) as [|e1 [|e2 [|e3 [|e4 [|e5 [|e6 s5]]]]]]; try exact K; rewrite (Short e1 e2 _ eq_refl E); exact K).
           cbn [app]. destruct (Ascii.eqb c1 "\" && Ascii.eqb c2 "u") eqn:Ec.
           ++ destruct (hex4 a' b' c1' d') as [l|]; [|discriminate E]. destruct (is_low l).
              ** apply Keep; [cbn [List.length] in L; lia|exact E].
              ** exact (K3 E).
           ++ exact (K3 E).
        -- cbn [andb] in E |- *.
           assert (E' : add h (scan_string s3) = Some (x, r)) by (destruct s3 as [|c1 [|c2 [|a' [|b' [|c1' [|d' s4]]]]]]; exact E).
           pose proof (K3 E') as K. destruct (s3 ++ t) as [|c1 [|c2 [|a' [|b' [|c1' [|d' s4]]]]]]; exact K.
      * cbn [scan_string app] in E |- *. change (Ascii.eqb "\" """") with false in *. change (Ascii.eqb "\" "\") with true in *. cbv iota in E |- *.
        destruct (Ascii.eqb_spec e "u") as [|_]; [contradiction|]. destruct (unescape e); [|discriminate E]. cbn [List.length] in L. apply Keep; [lia|exact E].
    + cbn [scan_string app] in E |- *.
      destruct (Ascii.eqb_spec c """") as [|_]; [contradiction|]. destruct (Ascii.eqb_spec c "\") as [|_]; [contradiction|].
      destruct (N_of_ascii c <? 32)%N; [discriminate E|]. apply Keep; [lia|exact E].
Qed.

Lemma span_app : forall p s a r t, span p s = (a, r) -> r <> [] -> span p (s ++ t) = (a, r ++ t).
Proof.
  intros p. induction s as [|c s IH]; intros a r t E N; cbn in *.
  - injection E as <- <-. congruence.
  - destruct (p c).
    + destruct (span p s) as [a' r'] eqn:Es. injection E as <- <-. rewrite (IH a' r' t eq_refl N). reflexivity.
    + injection E as <- <-. reflexivity.
Qed.
Lemma scan_fraction_app : forall s f r t, scan_fraction s = (f, r) -> r <> [] -> (forall x, r <> "."%char :: x) -> scan_fraction (s ++ t) = (f, r ++ t).
Proof.
  intros [|c s] f r t E N D; cbn in *; [injection E as <- <-; congruence|].
  destruct (Ascii.eqb_spec c ".") as [->|]; [|injection E as <- <-; reflexivity].
  destruct (span is_digit s) as [[|a0 a] r'] eqn:Es; [injection E as <- <-; exfalso; eapply D; reflexivity|].
  injection E as <- <-. rewrite (span_app _ _ _ _ t Es N). reflexivity.
Qed.
Lemma scan_exponent_app : forall s f r t, scan_exponent s = (f, r) -> r <> [] -> (forall x, r <> "e"%char :: x /\ r <> "E"%char :: x) -> scan_exponent (s ++ t) = (f, r ++ t).
Proof.
  intros [|c s] f r t E N D; cbn in *; [injection E as <- <-; congruence|].
  destruct (Ascii.eqb c "e" || Ascii.eqb c "E") eqn:Ce; [|injection E as <- <-; reflexivity].
  assert (Bad : r <> c :: s).
  { intro X. apply orb_true_iff in Ce. destruct Ce as [Ce|Ce]; apply Ascii.eqb_eq in Ce; subst c; destruct (D s); congruence. }
  destruct s as [|d s]; cbn in *.
  - injection E as _ E. exfalso. apply Bad. symmetry. exact E.
  - destruct (Ascii.eqb d "+" || Ascii.eqb d "-").
    + destruct (span is_digit s) as [[|a0 a] r'] eqn:Es; [injection E as _ E; exfalso; apply Bad; symmetry; exact E|]. injection E as <- <-.
      rewrite (span_app _ _ _ _ t Es N). reflexivity.
    + cbn [span] in E |- *. destruct (is_digit d); [|injection E as _ E; exfalso; apply Bad; symmetry; exact E].
      destruct (span is_digit s) as [a r'] eqn:Es. injection E as <- <-. rewrite (span_app _ _ _ _ t Es N). reflexivity.
Qed.
Lemma scan_integer_app : forall s i r t, scan_integer s = Some (i, r) -> r <> [] -> scan_integer (s ++ t) = Some (i, r ++ t).
Proof.
  intros [|c s] i r t E N; [discriminate E|]. cbn in *. destruct (Ascii.eqb c "0"); [injection E as <- <-; reflexivity|].
  destruct (is_digit c); [|discriminate E]. destruct (span is_digit s) as [a r'] eqn:Es. injection E as <- <-. rewrite (span_app _ _ _ _ t Es N). reflexivity.
Qed.
Lemma scan_number_app : forall fl s (v : value fl) r t, scan_number s = Some (v, r) -> r <> [] -> ends_number r -> scan_number (s ++ t) = Some (v, r ++ t).
Proof.
  intros fl s v r t E N En. unfold scan_number in *.
  destruct (scan_sign s) as [g s1] eqn:E1. destruct (scan_integer s1) as [[i s2]|] eqn:E2; [|discriminate E].
  destruct (scan_fraction s2) as [f s3] eqn:E3. destruct (scan_exponent s3) as [e s4] eqn:E4.
  assert (Er : s4 = r).
  { destruct f, e; try (injection E as _ <-; reflexivity). destruct (py_int 10 (g ++ i)); [injection E as _ <-; reflexivity|discriminate E]. }
  subst s4.
  assert (N3 : s3 <> []) by (intros ->; injection E4 as _ <-; congruence).
  assert (Ne : forall x, r <> "e"%char :: x /\ r <> "E"%char :: x) by (intro x; split; intros ->; destruct En as (_ & _ & A & B); congruence).
  assert (Nd : forall x, s3 <> "."%char :: x).
  { intros x ->. cbn in E4. injection E4 as _ <-. destruct En as (_ & A & _). congruence. }
  assert (N2 : s2 <> []) by (intros ->; injection E3 as _ <-; congruence).
  assert (N1 : s1 <> []) by (intros ->; discriminate E2).
  assert (E1' : scan_sign (s ++ t) = (g, s1 ++ t)).
  { destruct s as [|c s]; [injection E1 as _ <-; congruence|]. cbn in *. destruct (Ascii.eqb c "-"); injection E1 as <- <-; reflexivity. }
  rewrite E1', (scan_integer_app _ _ _ t E2 N2), (scan_fraction_app _ _ _ t E3 N3 Nd), (scan_exponent_app _ _ _ t E4 N Ne).
  destruct f, e; try (injection E as <-; reflexivity). destruct (py_int 10 (g ++ i)); [injection E as <-; reflexivity|discriminate E].
Qed.

Lemma starts_with_split : forall w s, starts_with w s = true -> s = w ++ skipn (List.length w) s.
Proof. induction w as [|a w IH]; intros [|c s] E; try discriminate E; try reflexivity. cbn in *. destruct (Ascii.eqb_spec a c) as [->|]; [|discriminate E]. f_equal. auto. Qed.
Lemma scan_word_cases : forall fl (s : str) (v : value fl) r, scan_word words s = Some (v, r) -> exists w, In (w, v) words /\ s = w ++ r.
Proof.
  intros fl s v r. generalize (@words fl). induction l as [|[w x] l IH]; intro E; [discriminate E|]. cbn in E.
  destruct (starts_with w s) eqn:St.
  - injection E as <- <-. exists w. split; [left; reflexivity|apply starts_with_split; exact St].
  - destruct (IH E) as (w' & I & Es). exists w'. split; [right; exact I|exact Es].
Qed.
Lemma scan_word_ok : forall fl n w (v : value fl) r, In (w, v) words -> scan_value (S n) (w ++ r) = Some (v, r).
Proof.
  intros fl n w v r I. cbn in I. repeat (destruct I as [E|I]; [injection E as <- <-; reflexivity|]). destruct I.
Qed.

Definition number {fl} (v : value fl) : Prop := match v with VInt _ | VFloat _ => True | _ => False end.

Section Grow.
  Context {fl : floats}.
  Notation value := (value fl).
  Definition grows_value n := forall s (v : value) r t m, scan_value n s = Some (v, r) -> (t = [] \/ (number v -> r <> [] /\ ends_number r)) -> (n <= m)%nat ->
    scan_value m (s ++ t) = Some (v, r ++ t).
  Definition grows_items n := forall s (l : list value) r t m, scan_items n s = Some (l, r) -> (n <= m)%nat -> scan_items m (s ++ t) = Some (l, r ++ t).
  Definition grows_members n := forall s (l : list (text * value)) r t m, scan_members n s = Some (l, r) -> (n <= m)%nat -> scan_members m (s ++ t) = Some (l, r ++ t).

  Lemma scan_items_step : forall n s, scan_items (S n) s =
    match scan_value (fl := fl) n s with
    | Some (v, r) =>
        match skip_ws r with
        | c :: r' => if Ascii.eqb c "]" then Some ([v], r')
                     else if Ascii.eqb c "," then add v (scan_items n (skip_ws r'))
                     else None
        | [] => None
        end
    | None => None
    end.
  Proof. reflexivity. Qed.
  Lemma scan_members_step : forall n q s', scan_members (S n) (q :: s') =
    if Ascii.eqb q """" then
      match scan_string s' with
      | Some (k, r) =>
          match skip_ws r with
          | c :: r1 =>
              if Ascii.eqb c ":" then
                match scan_value (fl := fl) n (skip_ws r1) with
                | Some (v, r2) =>
                    match skip_ws r2 with
                    | d :: r3 => if Ascii.eqb d "}" then Some ([(k, v)], r3)
                                 else if Ascii.eqb d "," then add (k, v) (scan_members n (skip_ws r3))
                                 else None
                    | [] => None
                    end
                | None => None
                end
              else None
          | [] => None
          end
      | None => None
      end
    else None.
  Proof. reflexivity. Qed.
  Lemma scan_value_step : forall n c s', scan_value (S n) (c :: s') =
    if Ascii.eqb c """" then option_map (fun x => (VText (fst x), snd x)) (scan_string s')
    else if Ascii.eqb c "[" then
      match skip_ws s' with
      | [] => None
      | d :: r => if Ascii.eqb d "]" then Some (VList [], r)
                  else option_map (fun x => (VList (fst x), snd x)) (scan_items (fl := fl) n (d :: r))
      end
    else if Ascii.eqb c "{" then
      match skip_ws s' with
      | [] => None
      | d :: r => if Ascii.eqb d "}" then Some (VDict [], r)
                  else option_map (fun x => (dict_value (fst x), snd x)) (scan_members n (d :: r))
      end
    else match scan_number (c :: s') with Some x => Some x | None => scan_word words (c :: s') end.
  Proof. reflexivity. Qed.

  (** Reading never needs the rest of the whitespace it has not seen. *)
  Lemma skip_ws_rest : forall r, skip_ws r = [] \/ exists c r', skip_ws r = c :: r'.
  Proof. intro r. destruct (skip_ws r) as [|c r']; eauto. Qed.
  Lemma skip_scan_value : forall n r t m (x : value * str), scan_value n (skip_ws r) = Some x ->
    scan_value (fl := fl) m (skip_ws (r ++ t)) = scan_value m (skip_ws r ++ t).
  Proof.
    intros n r t m x E. destruct (skip_ws r) as [|c r'] eqn:Er; [destruct n; discriminate E|]. rewrite (skip_ws_app _ t _ _ Er). reflexivity.
  Qed.

  Lemma grow : forall n, grows_value n /\ grows_items n /\ grows_members n.
  Proof.
    induction n as [|n (IHv & IHi & IHm)].
    - repeat split; intros s v r t m E; discriminate E.
    - split; [|split].
      + intros [|c s] v r t [|m] E T L; try discriminate E; [lia|]. cbn [app]. rewrite scan_value_step in E |- *.
        destruct (Ascii.eqb_spec c """") as [_|N1].
        { destruct (scan_string s) as [[x r']|] eqn:Es; [|discriminate E]. injection E as <- <-. rewrite (scan_string_app _ _ _ _ t (le_n _) Es). reflexivity. }
        destruct (Ascii.eqb_spec c "[") as [_|N2].
        { destruct (skip_ws s) as [|d r'] eqn:Es; [discriminate E|]. rewrite (skip_ws_app _ t _ _ Es). destruct (Ascii.eqb d "]"); [injection E as <- <-; reflexivity|].
          destruct (scan_items n (d :: r')) as [[l q]|] eqn:Ei; [|discriminate E]. injection E as <- <-.
          pose proof (IHi _ _ _ t m Ei ltac:(lia)) as X. cbn [app] in X. rewrite X. reflexivity. }
        destruct (Ascii.eqb_spec c "{") as [_|N3].
        { destruct (skip_ws s) as [|d r'] eqn:Es; [discriminate E|]. rewrite (skip_ws_app _ t _ _ Es). destruct (Ascii.eqb d "}"); [injection E as <- <-; reflexivity|].
          destruct (scan_members n (d :: r')) as [[l q]|] eqn:Ei; [|discriminate E]. injection E as <- <-.
          pose proof (IHm _ _ _ t m Ei ltac:(lia)) as X. cbn [app] in X. rewrite X. reflexivity. }
        destruct (scan_number (fl := fl) (c :: s)) as [[x q]|] eqn:En.
        * injection E as -> ->. assert (Nv : number v).
          { unfold scan_number in En. destruct (scan_sign (c :: s)) as [g s1]. destruct (scan_integer s1) as [[i s2]|]; [|discriminate En].
            destruct (scan_fraction s2) as [f s3]. destruct (scan_exponent s3) as [e s4].
            destruct f, e; try (injection En as <- _; exact I). destruct (py_int 10 (g ++ i)); [injection En as <- _; exact I|discriminate En]. }
          destruct T as [->|T]; [rewrite !app_nil_r, En; reflexivity|]. destruct (T Nv) as [T1 T2].
          pose proof (scan_number_app _ _ _ _ t En T1 T2) as X. cbn [app] in X. rewrite X. reflexivity.
        * destruct (scan_word_cases _ _ _ _ E) as (w & I & Es).
          pose proof (scan_word_ok fl m w v (r ++ t) I) as X. rewrite app_assoc, <- Es in X. cbn [app] in X. rewrite scan_value_step in X.
          destruct (Ascii.eqb_spec c """"); [contradiction|]. destruct (Ascii.eqb_spec c "["); [contradiction|]. destruct (Ascii.eqb_spec c "{"); [contradiction|]. exact X.
      + intros s l r t [|m] E L; [lia|]. rewrite scan_items_step in E |- *.
        destruct (scan_value n s) as [[v q]|] eqn:Ev; [|discriminate E].
        destruct (skip_ws q) as [|c q'] eqn:Eq; [discriminate E|].
        assert (C : (c = "]" \/ c = "," \/ c = "}")%char).
        { destruct (Ascii.eqb_spec c "]"); [auto|]. destruct (Ascii.eqb_spec c ","); [auto|discriminate E]. }
        rewrite (IHv _ _ _ t m Ev (or_intror (fun _ => skip_ws_ends _ _ _ Eq C)) ltac:(lia)). rewrite (skip_ws_app _ t _ _ Eq).
        destruct (Ascii.eqb c "]"); [injection E as <- <-; reflexivity|]. destruct (Ascii.eqb c ","); [|discriminate E].
        destruct (add_some _ _ _ _ _ _ E) as (l' & El & ->).
        assert (Nq : skip_ws q' <> []) by (intro X; rewrite X in El; destruct n as [|[|n]]; discriminate El).
        destruct (skip_ws_rest q') as [X|(d & q2 & X)]; [contradiction|]. rewrite (skip_ws_app _ t _ _ X). rewrite X in El.
        pose proof (IHi _ _ _ t m El ltac:(lia)) as Y. cbn [app] in Y. rewrite Y. reflexivity.
      + intros [|q s] l r t [|m] E L; try discriminate E; [lia|]. cbn [app]. rewrite scan_members_step in E |- *.
        destruct (Ascii.eqb q """"); [|discriminate E].
        destruct (scan_string s) as [[k s1]|] eqn:Es; [|discriminate E]. rewrite (scan_string_app _ _ _ _ t (le_n _) Es).
        destruct (skip_ws s1) as [|c s2] eqn:E1; [discriminate E|]. rewrite (skip_ws_app _ t _ _ E1).
        destruct (Ascii.eqb c ":"); [|discriminate E].
        destruct (scan_value n (skip_ws s2)) as [[v s3]|] eqn:Ev; [|discriminate E].
        destruct (skip_ws s3) as [|d s4] eqn:E3; [discriminate E|].
        assert (C : (d = "]" \/ d = "," \/ d = "}")%char).
        { destruct (Ascii.eqb_spec d "}"); [auto|]. destruct (Ascii.eqb_spec d ","); [auto|discriminate E]. }
        rewrite (skip_scan_value _ _ t m _ Ev).
        rewrite (IHv _ _ _ t m Ev (or_intror (fun _ => skip_ws_ends _ _ _ E3 C)) ltac:(lia)). rewrite (skip_ws_app _ t _ _ E3).
        destruct (Ascii.eqb d "}"); [injection E as <- <-; reflexivity|]. destruct (Ascii.eqb d ","); [|discriminate E].
        destruct (add_some _ _ _ _ _ _ E) as (l' & El & ->).
        assert (Nq : skip_ws s4 <> []) by (intro X; rewrite X in El; destruct n; discriminate El).
        destruct (skip_ws_rest s4) as [X|(d' & q2 & X)]; [contradiction|]. rewrite (skip_ws_app _ t _ _ X). rewrite X in El.
        pose proof (IHm _ _ _ t m El ltac:(lia)) as Y. cbn [app] in Y. rewrite Y. reflexivity.
  Qed.
End Grow.

(** * Proper prefixes of what was written *)

Section Prefix.
  Context {fl : floats} (Laws : float_laws fl).
  Notation value := (value fl).

  Definition number_head (h : ascii) : Prop := is_digit h = true \/ h = "-"%char \/ h = "N"%char \/ h = "I"%char.
  Lemma number_heads : forall n h s (v : value) r, scan_value n (h :: s) = Some (v, r) -> number v -> number_head h.
  Proof.
    intros [|n] h s v r E N; [discriminate E|]. rewrite scan_value_step in E.
    destruct (Ascii.eqb h """"). { destruct (scan_string s) as [[x q]|]; [|discriminate E]. injection E as <- _. destruct N. }
    destruct (Ascii.eqb h "["). { destruct (skip_ws s) as [|d q]; [discriminate E|]. destruct (Ascii.eqb d "]"); [injection E as <- _; destruct N|]. destruct (scan_items n (d :: q)) as [[x q']|]; [|discriminate E]. injection E as <- _. destruct N. }
    destruct (Ascii.eqb h "{"). { destruct (skip_ws s) as [|d q]; [discriminate E|]. destruct (Ascii.eqb d "}"); [injection E as <- _; destruct N|]. destruct (scan_members n (d :: q)) as [[x q']|]; [|discriminate E]. injection E as <- _. destruct N. }
    destruct (scan_number (fl := fl) (h :: s)) as [[x q]|] eqn:En.
    - clear E. unfold scan_number, scan_sign in En. destruct (Ascii.eqb_spec h "-") as [->|_]; [right; left; reflexivity|].
      unfold scan_integer in En. destruct (Ascii.eqb_spec h "0") as [->|_]; [left; reflexivity|]. destruct (is_digit h) eqn:D; [left; exact D|discriminate En].
    - destruct (scan_word_cases _ _ _ _ E) as (w & I & Es). cbn in I. unfold number_head.
      repeat (destruct I as [W|I]; [injection W as <- <-; first [destruct N; fail|injection Es as -> _; tauto]|]). destruct I.
  Qed.
  Lemma other_heads : forall (v : value) h s, emit v = (h :: s, true) -> ~ number v -> ~ number_head h.
  Proof.
    intros v h s E N [D|[->|[->| ->]]].
    - destruct v; try (exfalso; apply N; exact I); try discriminate E.
      + injection E as <- _. discriminate D.
      + destruct b; injection E as <- _; discriminate D.
      + injection E as <- _. discriminate D.
      + rewrite emit_list in E. injection E as <- _ _. discriminate D.
      + rewrite emit_tuple in E. injection E as <- _ _. discriminate D.
      + rewrite emit_dict in E. injection E as <- _ _. discriminate D.
    - destruct v; try (exfalso; apply N; exact I); try discriminate E. destruct b; discriminate E.
    - destruct v; try (exfalso; apply N; exact I); try discriminate E. destruct b; discriminate E.
    - destruct v; try (exfalso; apply N; exact I); try discriminate E. destruct b; discriminate E.
  Qed.

  Lemma loads_error : forall s, (forall v : value, loads s <> Ok v) -> loads (fl := fl) s = Err ValueError.
  Proof.
    intros s N. unfold loads in *. destruct (scan_value (2 * List.length s + 1) (skip_ws s)) as [[v r]|]; [|reflexivity].
    destruct (skip_ws r); [exfalso; eapply N; reflexivity|reflexivity].
  Qed.

  Lemma cut_short_unread : forall (v : value) c p t, all_texts unicode v -> dumps v = Ok c -> ~ number v -> c = p ++ t -> t <> [] ->
    loads (fl := fl) p = Err ValueError.
  Proof.
    intros v c p t U D Nn Ec Nt. apply loads_error. intros v' L.
    assert (En : encodable v) by (apply dumps_encodable; eauto).
    destruct (encodable_scanned Laws v En U) as (c' & w & E & B & _ & W). unfold dumps in D. rewrite E in D. injection D as ->.
    unfold loads in L. destruct (scan_value (2 * List.length p + 1) (skip_ws p)) as [[v2 r]|] eqn:Ep; [|discriminate L].
    destruct p as [|h p]; [discriminate Ep|].
    destruct B as (h' & t' & Eh & Ws & _). rewrite Ec in Eh. injection Eh as <- Et'.
    assert (Sk : skip_ws (h :: p) = h :: p) by (cbn; rewrite Ws; reflexivity). rewrite Sk in Ep.
    assert (Nv : ~ number v2).
    { intro X. apply (number_heads _ _ _ _ _ Ep) in X. refine (other_heads v h (p ++ t) _ Nn X). rewrite E, Ec. reflexivity. }
    destruct (grow (fl := fl) (2 * List.length (h :: p) + 1)) as (G & _).
    assert (Le : (2 * List.length (h :: p) + 1 <= 2 * List.length c + 1)%nat) by (rewrite Ec, app_length; lia).
    pose proof (G _ _ _ t (2 * List.length c + 1)%nat Ep (or_intror (fun X => False_ind _ (Nv X))) Le) as X.
    pose proof (W (2 * List.length c + 1)%nat [] ltac:(lia) I) as Y. rewrite app_nil_r in Y. rewrite <- Ec in X.
    rewrite X in Y. injection Y as _ Y. apply app_eq_nil in Y. destruct Y as [_ Y]. contradiction.
  Qed.

  (** Text behind the data. *)
  Lemma skip_ws_all : forall t, skip_ws t = [] <-> forall c, In c t -> In (N_of_ascii c) [32; 9; 10; 13]%N.
  Proof.
    induction t as [|c t IH]; cbn [skip_ws]; [split; [intros _ c []|reflexivity]|].
    assert (Wc : is_ws c = true <-> In (N_of_ascii c) [32; 9; 10; 13]%N).
    { unfold is_ws. rewrite !orb_true_iff, !N.eqb_eq. cbn. intuition. }
    destruct (is_ws c) eqn:E.
    - rewrite IH. split; [intros H d [<-|I]; [apply Wc; reflexivity|auto]|intros H d I; apply H; right; exact I].
    - split; [discriminate|]. intro H. destruct Wc as [_ Wc]. specialize (Wc (H c (or_introl eq_refl))). discriminate Wc.
  Qed.
  Lemma followed : forall (v : value) c t, all_texts unicode v -> dumps v = Ok c -> ~ number v ->
    (exists v' : value, loads (c ++ t) = Ok v') <-> forall ch, In ch t -> In (N_of_ascii ch) [32; 9; 10; 13]%N.
  Proof.
    intros v c t U D Nn. rewrite <- skip_ws_all.
    assert (En : encodable v) by (apply dumps_encodable; eauto).
    destruct (encodable_scanned Laws v En U) as (c' & w & E & B & R & W). unfold dumps in D. rewrite E in D. injection D as ->.
    assert (Nw : ~ number w) by (destruct R; try exact Nn; intros []).
    pose proof (W (2 * List.length c + 1)%nat [] ltac:(lia) I) as Y. rewrite app_nil_r in Y.
    destruct (grow (fl := fl) (2 * List.length c + 1)) as (G & _).
    assert (Le : (2 * List.length c + 1 <= 2 * List.length (c ++ t) + 1)%nat) by (rewrite app_length; lia).
    pose proof (G _ _ _ t _ Y (or_intror (fun X => False_ind _ (Nw X))) Le) as X. cbn [app] in X.
    unfold loads. rewrite (skip_begins c t B), X. destruct (skip_ws t).
    - split; [reflexivity|]. intros _. exists w. reflexivity.
    - split; [intros (v' & H); discriminate H|discriminate].
  Qed.

  (** * What is left by a write that fails *)
  Definition extends (a b : written) : Prop :=
    exists t, b = (fst a ++ t, true) /\ (snd a = true -> t = []) /\ (snd a = false -> t <> []).
  Lemma extends_same : forall s, extends (say s) (say s).
  Proof. intro s. exists []. cbn. rewrite app_nil_r. split; [reflexivity|]. split; [reflexivity|discriminate]. Qed.
  Lemma extends_then : forall a a' b b', extends a a' -> extends b b' -> extends (then_ a b) (then_ a' b').
  Proof.
    intros [a oa] a' [b ob] b' (t & -> & T1 & T2) (u & -> & U1 & U2). unfold then_. cbn [fst snd] in *. destruct oa.
    - rewrite (T1 eq_refl), app_nil_r. exists u. cbn. rewrite app_assoc. split; [reflexivity|]. split; assumption.
    - exists (t ++ b ++ u). cbn. split; [rewrite <- !app_assoc; reflexivity|]. split; [discriminate|]. intros _ X. apply app_eq_nil in X. apply T2; [reflexivity|apply X].
  Qed.
  Lemma extends_give_up : forall s, s <> [] -> extends give_up (say s).
  Proof. intros s N. exists s. cbn. split; [reflexivity|]. split; [discriminate|auto]. Qed.

  Fixpoint patched (v : value) : value :=
    match v with
    | VList l => VList (map patched l)
    | VTuple l => VTuple (map patched l)
    | VDict kvs => VDict (map (fun kx => (match key_text (fst kx) with Some _ => fst kx | None => VText [] end, patched (snd kx))) kvs)
    | VSet _ _ | VBytes _ | VDate _ _ _ | VDatetime _ => VNone
    | _ => v
    end.
  Lemma items_patched : forall l, (forall x, In x l -> extends (emit x) (emit (patched x))) -> forall sep, extends (emit_items sep l) (emit_items sep (map patched l)).
  Proof.
    induction l as [|x l IH]; intros A sep; cbn [emit_items map]; [apply extends_same|].
    apply extends_then; [apply extends_same|]. apply extends_then; [apply A; left; reflexivity|]. apply IH. intros y I. apply A. right. exact I.
  Qed.
  Lemma members_patched : forall kvs, (forall k x, In (k, x) kvs -> extends (emit x) (emit (patched x))) ->
    forall sep, extends (emit_members sep kvs)
      (emit_members sep (map (fun kx => (match key_text (fst kx) with Some _ => fst kx | None => VText [] end, patched (snd kx))) kvs)).
  Proof.
    induction kvs as [|[k x] kvs IH]; intros A sep; cbn [emit_members map fst snd]; [apply extends_same|].
    assert (Rest := IH (fun k x I => A k x (or_intror I)) $", "). pose proof (A k x (or_introl eq_refl)) as Hx.
    destruct (key_text k) as [s|] eqn:K.
    - rewrite K. apply extends_then; [apply extends_same|]. apply extends_then; assumption.
    - cbn [key_text]. destruct Hx as (u & Eu & _). destruct Rest as (w & Ew & _). rewrite Eu, Ew. unfold then_, say. cbn [fst snd].
      eexists. split; [reflexivity|]. split; [discriminate|]. intros _ X. apply app_eq_nil in X. destruct X as [X _]. apply app_eq_nil in X. destruct X as [_ X]. discriminate X.
  Qed.
  Lemma emit_patched : forall v : value, extends (emit v) (emit (patched v)).
  Proof.
    apply value_nested_ind; try (intros; cbn [emit patched]; apply extends_same); try (intros; cbn [emit patched]; apply extends_give_up; discriminate).
    - intros l IH. cbn [patched]. rewrite !emit_list. apply extends_then; [apply extends_same|]. apply items_patched. exact IH.
    - intros l IH. cbn [patched]. rewrite !emit_tuple. apply extends_then; [apply extends_same|]. apply items_patched. exact IH.
    - intros kvs IH. cbn [patched]. rewrite !emit_dict. apply extends_then; [apply extends_same|]. apply members_patched. intros k x I. apply (IH k x I).
  Qed.
  Lemma patched_unicode : forall v : value, all_texts unicode v -> all_texts unicode (patched v).
  Proof.
    apply (value_nested_ind (fun v => all_texts unicode v -> all_texts unicode (patched v))); try (intros; cbn [patched]; first [assumption|constructor; fail]).
    - intros l IH U. inversion U; subst. cbn [patched]. constructor. intros x I. apply in_map_iff in I. destruct I as (y & <- & I). auto.
    - intros l IH U. inversion U; subst. cbn [patched]. constructor. intros x I. apply in_map_iff in I. destruct I as (y & <- & I). auto.
    - intros kvs IH U. inversion U as [| | | | | | |? A| | | |]; subst. cbn [patched]. constructor. intros k x I. apply in_map_iff in I.
      destruct I as ([k0 y] & E & I). cbn [fst snd] in E. injection E as <- <-. destruct (A _ _ I) as [A1 A2]. split; [|apply (IH _ _ I); exact A2].
      destruct (key_text k0); [exact A1|]. constructor. intros c [].
  Qed.
  Lemma left_behind_unread : forall v : value, all_texts unicode v -> ~ encodable v -> loads (fl := fl) (left_behind v) = Err ValueError.
  Proof.
    intros v U N. rewrite <- emit_complete in N. destruct (emit_patched v) as (t & E & _ & T). unfold left_behind.
    assert (Em : snd (emit v) = false) by (destruct (snd (emit v)); congruence).
    apply (cut_short_unread (patched v) (fst (emit v) ++ t) (fst (emit v)) t).
    - apply patched_unicode. exact U.
    - unfold dumps. rewrite E. reflexivity.
    - destruct v; cbn in Em |- *; try discriminate Em; tauto.
    - reflexivity.
    - apply T. exact Em.
  Qed.
End Prefix.

(** Proofs about placeholders that occur any number of times. *)
From Coq Require Import ZArith List Ascii String Bool Arith Lia.
From Verif Require Import Base Base_Proofs Str Str_Proofs Partitions_Model Format_Model Template_Spec Template_Proofs Storage_Model
  Storage_Spec Format_Proofs Resolve_Proofs Cut_Spec.
Import ListNotations.
Open Scope list_scope.

Section Cut.
  Context (p : str) (Np : ~ In "{"%char p).
  Notation ph := (ph p).

  Lemma contains_iff : forall sub s, contains_sub sub s = true <-> exists a b, s = a ++ sub ++ b.
  Proof.
    intros sub. induction s as [|c s IH]; cbn [contains_sub]; rewrite orb_true_iff, starts_with_iff.
    - split; [intros [[r E]|E]; [exists [], r; exact E|discriminate]|]. intros (a & b & E). left. exists b.
      destruct a; [exact E|discriminate].
    - rewrite IH. split.
      + intros [[r E]|(a & b & E)]; [exists [], r; exact E|]. exists (c :: a), b. now rewrite E.
      + intros ([|d a] & b & E); [left; now exists b|]. inversion E; subst. right. now exists a, b.
  Qed.

  Lemma contains_suffix : forall sub a s, contains_sub sub (a ++ s) = false -> contains_sub sub s = false.
  Proof.
    intros sub a s H. rewrite <- not_true_iff_false in *. intro C. apply H. apply contains_iff in C.
    destruct C as (x & y & ->). apply contains_iff. exists (a ++ x), y. now rewrite <- app_assoc.
  Qed.

  (** An occurrence cannot begin in a piece and end after it. *)
  Lemma no_start : forall tail x r, x <> [] -> contains_sub ph x = false ->
    match r with c :: _ => c = "{"%char | [] => True end -> starts_with (ph ++ tail) (x ++ r) = false.
  Proof.
    intros tail x r Nx C Hr. apply not_true_iff_false. intro S. apply starts_with_iff in S. destruct S as [r' E].
    rewrite <- app_assoc in E. apply app_eq_app in E. destruct E as (l & [[E1 E2]|[E1 E2]]).
    - rewrite <- not_true_iff_false in C. apply C. apply contains_iff. exists [], l. exact E1.
    - destruct l as [|c l].
      + rewrite app_nil_r in E1. rewrite <- not_true_iff_false in C. apply C. apply contains_iff.
        exists [], []. cbn. now rewrite app_nil_r.
      + destruct r as [|d r]; [discriminate|]. subst d. inversion E2; subst c. rewrite ph_eq in E1.
        destruct x as [|d x]; [congruence|]. inversion E1 as [[E3 E4]].
        assert (I : In "{"%char (p ++ ["}"%char])) by (rewrite E4; apply in_or_app; right; now left).
        apply in_app_or in I. destruct I as [I|[I|[]]]; [auto|discriminate].
  Qed.

  Lemma replace_piece : forall tail new x r, contains_sub ph x = false ->
    match r with c :: _ => c = "{"%char | [] => True end ->
    replace_aux (ph ++ tail) new (x ++ r) 0 = x ++ replace_aux (ph ++ tail) new r 0.
  Proof.
    intros tail new. induction x as [|c x IH]; intros r C Hr; [reflexivity|].
    cbn [app replace_aux]. change (c :: x ++ r) with ((c :: x) ++ r).
    rewrite no_start by (auto; discriminate). f_equal. apply IH; [|exact Hr].
    apply (contains_suffix ph [c] x C).
  Qed.

  Lemma contains_piece : forall tail x r, contains_sub ph x = false ->
    match r with c :: _ => c = "{"%char | [] => True end ->
    contains_sub (ph ++ tail) (x ++ r) = contains_sub (ph ++ tail) r.
  Proof.
    intros tail. induction x as [|c x IH]; intros r C Hr; [reflexivity|].
    cbn [app contains_sub]. change (c :: x ++ r) with ((c :: x) ++ r).
    rewrite no_start by (auto; discriminate). cbn [orb]. apply IH; [|exact Hr].
    apply (contains_suffix ph [c] x C).
  Qed.

  Definition rest_of (rest : list str) : str := flat_map (fun x => ph ++ x) rest.
  Lemma join_rest : forall s rest, join ph (s :: rest) = s ++ rest_of rest.
  Proof.
    intros s rest. revert s. induction rest as [|x rest IH]; intro s; [cbn; now rewrite app_nil_r|].
    change (join ph (s :: x :: rest)) with (s ++ ph ++ join ph (x :: rest)). rewrite IH. cbn [rest_of flat_map].
    now rewrite <- app_assoc.
  Qed.
  Lemma rest_head : forall rest, match rest_of rest with c :: _ => c = "{"%char | [] => True end.
  Proof. intros [|x rest]; [exact I|]. reflexivity. Qed.

  Lemma ph_nonempty : ph <> [].
  Proof. discriminate. Qed.

  Lemma after_ph : ~ In "{"%char (p ++ ["}"%char]).
  Proof. intro I. apply in_app_or in I. destruct I as [I|[I|[]]]; [auto|discriminate]. Qed.

  (** A placeholder that is not followed by [tail] is passed over. *)
  Lemma pass_ph : forall tail new r, starts_with tail r = false ->
    replace_aux (ph ++ tail) new (ph ++ r) 0 = ph ++ replace_aux (ph ++ tail) new r 0.
  Proof.
    intros tail new r S.
    assert (M : starts_with (ph ++ tail) (ph ++ r) = false).
    { apply not_true_iff_false. intro C. apply starts_with_iff in C. destruct C as [r' E].
      rewrite <- app_assoc in E. apply app_inv_head in E. rewrite <- not_true_iff_false in S. apply S.
      apply starts_with_iff. now exists r'. }
    remember (ph ++ tail) as old. rewrite ph_eq in *. cbn [app replace_aux] in *. rewrite M. subst old. f_equal.
    apply replace_plain, after_ph.
  Qed.

  Lemma starts_slash : forall x r, match r with c :: _ => c = "{"%char | [] => True end ->
    starts_with $"/" (x ++ r) = slash_first x.
  Proof.
    intros [|c x] r Hr; cbn [app].
    - destruct r as [|d r]; [reflexivity|]. subst d. reflexivity.
    - cbn [S_ list_ascii_of_string starts_with slash_first]. rewrite andb_true_r. apply Ascii.eqb_sym.
  Qed.

  Lemma cut_all : forall rest, Forall (fun x => contains_sub ph x = false) rest ->
    replace_aux (ph ++ []) [] (rest_of rest) 0 = List.concat rest.
  Proof.
    intros rest F. induction F as [|x rest C F IH]; [reflexivity|]. unfold rest_of. cbn [flat_map List.concat].
    fold (rest_of rest). rewrite <- app_assoc. rewrite app_nil_r at 1. rewrite replace_hit by apply ph_nonempty.
    cbn [app]. rewrite <- (app_nil_r ph). rewrite replace_piece by (auto; apply rest_head). now rewrite IH.
  Qed.

  Lemma cut_slashes : forall rest, Forall (fun x => contains_sub ph x = false) rest ->
    replace_aux (ph ++ $"/") [] (rest_of rest) 0 =
    flat_map (fun x => if slash_first x then tl x else ph ++ x) rest.
  Proof.
    intros rest F. induction F as [|x rest C F IH]; [reflexivity|]. unfold rest_of. cbn [flat_map].
    fold (rest_of rest). rewrite <- (app_assoc ph x). destruct (slash_first x) eqn:S.
    - destruct x as [|c x]; [discriminate|]. cbn [slash_first] in S. apply Ascii.eqb_eq in S. subst c. cbn [tl].
      change (ph ++ ("/"%char :: x) ++ rest_of rest) with (ph ++ $"/" ++ x ++ rest_of rest).
      rewrite (app_assoc ph $"/"). rewrite replace_hit by discriminate. cbn [app].
      rewrite replace_piece; [now rewrite IH|apply (contains_suffix ph ["/"%char] x C)|apply rest_head].
    - rewrite pass_ph by (rewrite starts_slash; [exact S|apply rest_head]).
      rewrite replace_piece by (auto; apply rest_head). rewrite IH. apply app_assoc.
  Qed.

  Lemma any_slash : forall rest, Forall (fun x => contains_sub ph x = false) rest ->
    contains_sub (ph ++ $"/") (rest_of rest) = existsb slash_first rest.
  Proof.
    intros rest F. induction F as [|x rest C F IH]; [reflexivity|]. unfold rest_of. cbn [flat_map existsb].
    fold (rest_of rest). rewrite <- (app_assoc ph x).
    assert (E : starts_with (ph ++ $"/") (ph ++ x ++ rest_of rest) = slash_first x).
    { rewrite <- (starts_slash x (rest_of rest) (rest_head rest)). apply eq_true_iff_eq. rewrite !starts_with_iff. split.
      - intros [r' E]. rewrite <- app_assoc in E. apply app_inv_head in E. now exists r'.
      - intros [r' E]. exists r'. rewrite E. now rewrite <- app_assoc. }
    rewrite <- E. rewrite <- IH, <- (contains_piece $"/" x (rest_of rest) C (rest_head rest)).
    remember (starts_with (ph ++ $"/") (ph ++ x ++ rest_of rest)) as b eqn:Eb.
    assert (G : forall old s, contains_sub old ("{"%char :: s) = starts_with old ("{"%char :: s) || contains_sub old s) by reflexivity.
    remember (ph ++ $"/") as old eqn:Eo. rewrite ph_eq in *. cbn [app] in *. rewrite G, <- Eb. f_equal. subst old.
    apply (contains_plain p $"/"), after_ph.
  Qed.

  Theorem trim_pieces : forall s ss, pieces p s ss ->
    trim_empty s p = match rstrip_char "/"%char (remaining p ss) with [] => Err ValueError | r => Ok r end.
  Proof.
    intros s ss (NE & -> & F). destruct ss as [|s0 rest]; [congruence|]. inversion F as [|? ? C F']; subst.
    unfold trim_empty. fold (Resolve_Proofs.ph p). rewrite join_rest. cbn [remaining].
    rewrite contains_piece by (auto; apply rest_head). rewrite any_slash by exact F'.
    destruct (existsb slash_first rest).
    - unfold replace. rewrite replace_piece by (auto; apply rest_head). now rewrite cut_slashes.
    - unfold replace. rewrite <- (app_nil_r ph). rewrite replace_piece by (auto; apply rest_head). now rewrite cut_all.
  Qed.

  (** Every text can be cut in exactly one way. *)
  Lemma cut_exists : forall s, exists ss, pieces p s ss.
  Proof.
    intro s. remember (List.length s) as n eqn:L. revert s L. induction n as [n IH] using (well_founded_induction lt_wf).
    intros s L. destruct (contains_sub ph s) eqn:C.
    - (* the first occurrence *)
      assert (X : exists a b, s = a ++ ph ++ b /\ contains_sub ph a = false).
      { clear -C Np. induction s as [|c s IH].
        - cbn [contains_sub] in C. rewrite orb_false_r in C. apply starts_with_iff in C. destruct C as [r E]. destruct ph eqn:P; [destruct (ph_nonempty P)|discriminate].
        - destruct (starts_with ph (c :: s)) eqn:S.
          + apply starts_with_iff in S. destruct S as [r E]. exists [], r. split; [exact E|]. reflexivity.
          + cbn [contains_sub] in C. rewrite S in C. cbn [orb] in C. destruct (IH C) as (a & b & E & Ca).
            exists (c :: a), b. split; [now rewrite E|]. cbn [contains_sub]. rewrite Ca, orb_false_r.
            apply not_true_iff_false. intro S'. apply starts_with_iff in S'. destruct S' as [r E'].
            rewrite <- not_true_iff_false in S. apply S. apply starts_with_iff. exists (r ++ ph ++ b).
            rewrite E. change (c :: a ++ ph ++ b) with ((c :: a) ++ ph ++ b). rewrite E'. now rewrite <- app_assoc. }
      destruct X as (a & b & E & Ca).
      destruct (IH (List.length b)) with (s := b) as (ss & NE & Eb & F); [|reflexivity|].
      { subst s n. rewrite !app_length. unfold Resolve_Proofs.ph. rewrite !app_length. cbn. lia. }
      exists (a :: ss). split; [discriminate|]. split; [|now constructor].
      destruct ss as [|x ss]; [congruence|]. rewrite E, Eb. reflexivity.
    - exists [s]. split; [discriminate|]. split; [reflexivity|]. now constructor.
  Qed.

  Lemma cut_unique : forall s ss ss', pieces p s ss -> pieces p s ss' -> ss = ss'.
  Proof.
    assert (G : forall ss ss', ss <> [] -> ss' <> [] -> join ph ss = join ph ss' ->
      Forall (fun x => contains_sub ph x = false) ss -> Forall (fun x => contains_sub ph x = false) ss' -> ss = ss').
    { induction ss as [|s0 rest IH]; intros [|s1 rest'] N N' E F F'; try congruence.
      inversion F as [|? ? C F1]; subst. inversion F' as [|? ? C' F1']; subst. rewrite !join_rest in E.
      assert (Z : forall x y r r', x ++ r = y ++ r' -> contains_sub ph y = false ->
        (exists b, r = ph ++ b) \/ r = [] -> match r' with c :: _ => c = "{"%char | [] => True end ->
        exists l, x = y ++ l).
      { intros x y r r' E1 Cy Hr Hr'. apply app_eq_app in E1. destruct E1 as (l & [[E1 E2]|[E1 E2]]); [now exists l|].
        destruct l as [|c l]; [exists []; now rewrite app_nil_r in *|]. exfalso.
        destruct Hr as [[b ->]| ->]; [|discriminate].
        assert (Cl : contains_sub ph (c :: l) = false) by (apply (contains_suffix ph x); now rewrite <- E1).
        assert (S := no_start [] (c :: l) r' ltac:(discriminate) Cl Hr'). rewrite app_nil_r in S.
        rewrite <- E2, starts_with_app in S. discriminate. }
      assert (HR : forall rest, (exists b, rest_of rest = ph ++ b) \/ rest_of rest = []).
      { intros [|x l]; [now right|]. left. exists (x ++ rest_of l). unfold rest_of. cbn [flat_map]. now rewrite <- app_assoc. }
      destruct (Z s0 s1 _ _ E C' (HR rest) (rest_head rest')) as [l El].
      destruct (Z s1 s0 _ _ (eq_sym E) C (HR rest') (rest_head rest)) as [l' El'].
      assert (Q : l' = []).
      { rewrite El' in El. rewrite <- app_assoc in El. rewrite <- (app_nil_r s0) in El at 1. apply app_inv_head in El.
        destruct l'; [reflexivity|discriminate]. }
      rewrite Q, app_nil_r in El'. clear Q El. subst s1. apply app_inv_head in E. f_equal.
      destruct rest as [|x rest]; destruct rest' as [|y rest']; [reflexivity|discriminate|discriminate|].
      unfold rest_of in E. cbn [flat_map] in E. rewrite <- !app_assoc in E. apply app_inv_head in E.
      apply IH; auto; try discriminate. now rewrite !join_rest. }
    intros s ss ss' (N & E & F) (N' & E' & F'). apply G; auto. unfold Resolve_Proofs.ph. congruence.
  Qed.
End Cut.

Lemma sans_unique : forall s r r', sans_trailing s r -> sans_trailing s r' -> r = r'.
Proof.
  assert (G : forall r r' n m, r ++ repeat "/"%char n = r' ++ repeat "/"%char m ->
    (forall q, r <> q ++ $"/") -> (forall q, r' <> q ++ $"/") -> r = r').
  { intros r r' n. revert r r'. induction n as [|n IH]; intros r r' m E A B.
    - destruct m as [|m]; [cbn in E; now rewrite !app_nil_r in E|]. exfalso. rewrite app_nil_r in E.
      replace (S m) with (m + 1) in E by lia. rewrite repeat_app, app_assoc in E. exact (A _ E).
    - destruct m as [|m].
      + exfalso. rewrite app_nil_r in E. replace (S n) with (n + 1) in E by lia. rewrite repeat_app, app_assoc in E.
        exact (B _ (eq_sym E)).
      + replace (S n) with (n + 1) in E by lia. replace (S m) with (m + 1) in E by lia.
        rewrite !repeat_app, !app_assoc in E. cbn [repeat] in E. apply app_inj_tail in E. destruct E as [E _].
        exact (IH _ _ _ E A B). }
  intros s r r' ([n E] & A) ([m E'] & B). apply (G r r' n m); auto. congruence.
Qed.

Lemma fold_nonempty : forall values (r : result str), Forall (fun nv : str * str => snd nv <> []) values ->
  fold_left (fun acc pv => match snd pv with [] => bind acc (fun s => trim_empty s (fst pv)) | _ => acc end) values r = r.
Proof.
  intros values r F. induction F as [|[n v] l Hv F IH]; [reflexivity|]. cbn [fold_left snd] in *.
  destruct v; [congruence|exact IH].
Qed.

Theorem resolve_every : forall other p s ss before after, ~ In "{"%char p -> pieces p s ss ->
  Forall (fun nv => snd nv <> []) (before ++ after) ->
  exists r, sans_trailing (remaining p ss) r /\
    resolve_field other s (before ++ (p, []) :: after) =
    match r with [] => Err ValueError | _ => partial_format other r (before ++ (p, []) :: after) end.
Proof.
  intros other p s ss before after Np P F. exists (rstrip_char "/"%char (remaining p ss)). split; [apply rstrip_sans|].
  apply Forall_app in F. destruct F as [F1 F2].
  unfold resolve_field. rewrite fold_left_app, (fold_nonempty before _ F1). cbn [fold_left snd fst bind].
  rewrite (trim_pieces p Np s ss P), (fold_nonempty after _ F2).
  destruct (rstrip_char "/"%char (remaining p ss)); reflexivity.
Qed.

Lemma name_brace : forall p, name_ok p -> ~ In "{"%char p.
Proof. intros p (_ & _ & A). eapply avoids_not_in; [exact A|cbn; tauto]. Qed.

Lemma fill_empty : forall p t, fillable [(p, [])] t ->
  print (fill [(p, [])] t) = print (filter (fun x => negb (is_ph p x)) t).
Proof.
  intros p t F. induction t as [|x t IH]; [reflexivity|]. cbn [fill map filter].
  assert (IH' : print (fill [(p, [])] t) = print (filter (fun x => negb (is_ph p x)) t)).
  { apply IH. intros h H. apply F. now right. }
  unfold fill in IH'. destruct (is_ph p x) eqn:I; cbn [negb].
  - apply is_ph_iff in I. subst x. cbn [fill_tok h_name dget]. rewrite str_eqb_refl. exact IH'.
  - cbn [print flat_map]. unfold print in IH'. rewrite IH'. f_equal. destruct x as [s|h]; [reflexivity|].
    cbn [fill_tok dget]. destruct (str_eqb p (h_name h)) eqn:Q; [|reflexivity]. exfalso.
    apply (proj1 (str_eqb_spec _ _)) in Q. destruct (F h (or_introl eq_refl)) as [A B].
    { unfold dmem. cbn [dget]. now rewrite <- Q, str_eqb_refl. }
    destruct h as [n a sp]. cbn [h_name h_accs h_spec] in *. subst. rewrite (proj2 (is_ph_iff n _) eq_refl) in I. discriminate.
Qed.

Lemma replace_pieces : forall p s ss, ~ In "{"%char p -> pieces p s ss -> replace (ph p) [] s = List.concat ss.
Proof.
  intros p s ss Np (NE & -> & F). destruct ss as [|s0 rest]; [congruence|]. inversion F as [|? ? C F']; subst.
  fold (ph p). rewrite join_rest. unfold replace. rewrite <- (app_nil_r (ph p)) at 1.
  rewrite replace_piece; [|exact Np|exact C|apply rest_head]. now rewrite (cut_all p Np).
Qed.

Theorem resolve_templates : forall other p t ss, name_ok p -> template_ok t -> fillable [(p, [])] t ->
  pieces p (print t) ss ->
  exists r rs, sans_trailing (remaining p ss) r /\ pieces p r rs /\
    resolve_field other (print t) [(p, [])] = match r with [] => Err ValueError | _ => Ok (List.concat rs) end.
Proof.
  intros other p t ss Nm OK F P. assert (Np := name_brace p Nm).
  set (r := rstrip_char "/"%char (remaining p ss)). destruct (cut_exists p r) as (rs & Prs).
  exists r, rs. split; [apply rstrip_sans|]. split; [exact Prs|].
  unfold resolve_field. cbn [fold_left snd fst bind].
  assert (T := trim_pieces p Np _ ss P). fold r in T. destruct (trim_empty (print t) p) as [s|e] eqn:E.
  - assert (r = s /\ r <> []) as [Es Ne]. { destruct r; inversion T. split; [reflexivity|discriminate]. }
    destruct (trim_empty_ok p t s Nm OK E) as (t' & O' & Pt & _ & I'). cbn [bind].
    destruct r as [|c r'] eqn:R; [congruence|]. rewrite <- Pt.
    assert (F' : fillable [(p, [])] t') by (intros h H; apply F, I', H).
    rewrite (partial_format_fill other) by assumption. f_equal. rewrite fill_empty by exact F'.
    rewrite <- replace_all by assumption. rewrite Pt, <- Es. now apply replace_pieces.
  - destruct r; inversion T. reflexivity.
Qed.

Definition no_bare (p : str) (t : template) : Prop := ~ In (THole (Hole p [] [])) t.

Lemma no_bare_contains : forall p t, name_ok p -> template_ok t -> no_bare p t -> contains_sub (ph p) (print t) = false.
Proof.
  intros p t Nm OK NB. apply not_true_iff_false. rewrite <- (app_nil_r (ph p)). rewrite contains_print by assumption.
  intros (a & b & -> & _). apply NB. apply in_or_app. right. now left.
Qed.

Lemma template_pieces : forall p t, name_ok p -> template_ok t -> exists xs,
  pieces p (print t) (map print xs) /\ Forall template_ok xs /\ Forall (no_bare p) xs.
Proof.
  intros p t Nm OK. assert (X : exists xs, xs <> [] /\ print t = join (ph p) (map print xs) /\ Forall template_ok xs /\ Forall (no_bare p) xs).
  { induction OK as [|x t Hx OK (xs & NE & E & T & B)].
    - exists [[]]. repeat split; try discriminate; repeat constructor. intros [].
    - destruct xs as [|y ys]; [congruence|]. inversion T as [|? ? Ty T']; subst. inversion B as [|? ? By B']; subst.
      destruct (is_ph p x) eqn:I.
      + apply is_ph_iff in I. subst x. exists ([] :: y :: ys). split; [discriminate|]. split; [|split].
        * change (print (THole (Hole p [] []) :: t)) with (ph p ++ print t). rewrite E. reflexivity.
        * constructor; [constructor|exact T].
        * constructor; [intros []|exact B].
      + exists ((x :: y) :: ys). split; [discriminate|]. split; [|split].
        * change (print (x :: t)) with (print_tok x ++ print t). rewrite E. cbn [map]. rewrite !join_rest.
          change (print (x :: y)) with (print_tok x ++ print y). now rewrite <- app_assoc.
        * constructor; [now constructor|exact T'].
        * constructor; [|exact B']. intros [Q|Q]; [|exact (By Q)]. apply is_ph_iff in Q. congruence. }
  destruct X as (xs & NE & E & T & B). exists xs. split; [|auto]. split; [|split].
  - destruct xs; [congruence|discriminate].
  - exact E.
  - rewrite Forall_map. rewrite Forall_forall in *. intros x I. apply no_bare_contains; auto.
Qed.

Lemma drop_template : forall p x, template_ok x -> no_bare p x -> exists y, template_ok y /\ no_bare p y /\ print y = drop_sep (print x).
Proof.
  intros p x OK. induction OK as [|a x Ha OK IH]; intro NB.
  - exists []. split; [constructor|]. split; [intros []|reflexivity].
  - destruct a as [[|c s]|h].
    + destruct IH as (y & A & B & C); [intro I; apply NB; now right|]. exists y. auto.
    + change (print (TLit (c :: s) :: x)) with (c :: s ++ print x). cbn [drop_sep].
      destruct (Ascii.eqb c "/") eqn:E.
      * exists (TLit s :: x). split; [|split; [|reflexivity]].
        -- constructor; [|exact OK]. cbn [tok_ok] in *. now apply avoids_cons in Ha.
        -- intros [Q|Q]; [discriminate|]. apply NB. now right.
      * exists (TLit (c :: s) :: x). split; [now constructor|]. split; [exact NB|reflexivity].
    + exists (THole h :: x). split; [now constructor|]. split; [exact NB|].
      change (print (THole h :: x)) with (print_hole h ++ print x). rewrite print_hole_body. reflexivity.
Qed.

Lemma drop_slash : forall x, drop_sep x = if slash_first x then tl x else x.
Proof. intros [|c x]; [reflexivity|]. cbn. destruct (Ascii.eqb c "/"); reflexivity. Qed.

Lemma remaining_uniform : forall p s0 rest, Forall (fun x => slash_first x = true) rest \/ Forall (fun x => slash_first x = false) rest ->
  remaining p (s0 :: rest) = s0 ++ flat_map drop_sep rest.
Proof.
  intros p s0 rest U. cbn [remaining]. f_equal. destruct U as [U|U].
  - assert (G : flat_map (fun x => if slash_first x then tl x else ($"{" ++ p ++ $"}") ++ x) rest = flat_map drop_sep rest).
    { induction U as [|y l Uy U IH]; [reflexivity|]. cbn [flat_map]. now rewrite drop_slash, Uy, IH. }
    rewrite G. destruct U as [|x l Ux U]; [reflexivity|]. cbn [existsb]. now rewrite Ux.
  - assert (G : existsb slash_first rest = false /\ List.concat rest = flat_map drop_sep rest).
    { induction U as [|x l Ux U [I1 I2]]; [auto|]. cbn [existsb List.concat flat_map]. now rewrite drop_slash, Ux, I1, I2. }
    destruct G as [-> G]. exact G.
Qed.

Theorem resolve_uniform : forall other p t s0 rest, name_ok p -> template_ok t -> fillable [(p, [])] t ->
  pieces p (print t) (s0 :: rest) ->
  Forall (fun x => slash_first x = true) rest \/ Forall (fun x => slash_first x = false) rest ->
  exists r, sans_trailing (s0 ++ flat_map drop_sep rest) r /\
    resolve_field other (print t) [(p, [])] = match r with [] => Err ValueError | _ => Ok r end.
Proof.
  intros other p t s0 rest Nm OK F P U. assert (Np := name_brace p Nm).
  destruct (resolve_templates other p t _ Nm OK F P) as (r & rs & S & Pr & E).
  rewrite remaining_uniform in S by exact U. exists r. split; [exact S|]. rewrite E.
  assert (C : contains_sub (ph p) (s0 ++ flat_map drop_sep rest) = false).
  { destruct (template_pieces p t Nm OK) as (xs & Px & T & B). assert (Q := cut_unique p Np _ _ _ P Px).
    destruct xs as [|x xs]; [discriminate|]. inversion Q; subst. inversion T as [|? ? Tx T']; subst. inversion B as [|? ? Bx B']; subst.
    assert (X : exists y, template_ok y /\ no_bare p y /\ print y = flat_map drop_sep (map print xs)).
    { clear -T' B' Nm. induction T' as [|x xs Tx T IH]; [exists []; split; [constructor|split; [intros []|reflexivity]]|].
      inversion B' as [|? ? Bx B]; subst. destruct (IH B) as (y & A1 & A2 & A3).
      destruct (drop_template p x Tx Bx) as (z & Z1 & Z2 & Z3). exists (z ++ y). split; [|split].
      - apply Forall_app. auto.
      - intro I. apply in_app_or in I. destruct I; auto.
      - cbn [map flat_map]. rewrite <- A3, <- Z3. apply flat_map_app. }
    destruct X as (y & Y1 & Y2 & Y3). rewrite <- Y3.
    assert (Z : print x ++ print y = print (x ++ y)) by (symmetry; apply flat_map_app). rewrite Z.
    apply no_bare_contains; [exact Nm|apply Forall_app; auto|]. intro I. apply in_app_or in I. destruct I; auto. }
  assert (Q : rs = [r]).
  { apply (cut_unique p Np r); [exact Pr|]. split; [discriminate|]. split; [reflexivity|]. constructor; [|constructor].
    destruct S as ([n En] & _). apply not_true_iff_false. intro I. apply contains_iff in I. destruct I as (a & b & ->).
    rewrite <- not_true_iff_false in C. apply C. apply contains_iff. exists a, (b ++ repeat "/"%char n). rewrite En.
    rewrite <- (app_assoc a). f_equal. apply (eq_sym (app_assoc _ _ _)). }
  subst rs. cbn [List.concat]. rewrite app_nil_r. reflexivity.
Qed.

Theorem cut_once : forall p s, ~ In "{"%char p -> exists ss, pieces p s ss /\ forall ss', pieces p s ss' -> ss = ss'.
Proof.
  intros p s Np. destruct (cut_exists p s) as (ss & P). exists ss. split; [exact P|]. intros ss' P'.
  now apply (cut_unique p Np s).
Qed.

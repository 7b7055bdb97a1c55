From Coq Require Import ZArith NArith List Ascii String Bool Lia.
From Verif Require Import Base Base_Proofs Str Str_Proofs Numerals_Model Numerals_Proofs Partitions_Model
  Format_Model Template_Spec Template_Proofs Parts_Spec.
Import ListNotations.
Open Scope list_scope.

(** * Reading *)
Lemma rmap_rmap : forall {A B C} (f : A -> B) (g : B -> C) r, rmap g (rmap f r) = rmap (fun a => g (f a)) r.
Proof. intros A B C f g [a|e]; reflexivity. Qed.
Lemma rmap_ext : forall {A B} (f g : A -> B) r, (forall a, f a = g a) -> rmap f r = rmap g r.
Proof. intros A B f g [a|e] E; cbn; [now rewrite E|reflexivity]. Qed.

(** Running a parse. *)
Section Run.
  Context (ev : item -> result str) (ev_lit : forall t, ev (ILit t) = Ok t) (ev_err : exists e, ev IErr = Err e).
  Definition run (items : list item) : result str := rmap (@List.concat ascii) (mapM ev items).

  Lemma run_cons : forall it items, run (it :: items) = bind (ev it) (fun a => rmap (app a) (run items)).
  Proof.
    intros it items. unfold run. cbn [mapM]. destruct (ev it) as [a|e]; [|reflexivity]. cbn [bind].
    destruct (mapM ev items); reflexivity.
  Qed.
  Lemma run_lit : forall t items, run (ILit t :: items) = rmap (app t) (run items).
  Proof. intros t items. rewrite run_cons, ev_lit. reflexivity. Qed.
  Lemma run_err : forall items r, run (IErr :: items) <> Ok r.
  Proof. intros items r. rewrite run_cons. destruct ev_err as (e & ->). discriminate. Qed.

  Lemma run_acc : forall s acc, run (parse_from (SLit acc) s) = rmap (app (rev acc)) (run (parse_from (SLit []) s)).
  Proof.
    induction s as [|c s IH]; intro acc.
    - cbn [parse_from]. rewrite !run_lit. cbn. now rewrite app_nil_r.
    - cbn [parse_from]. destruct (c =c "{") eqn:O.
      + destruct s as [|d s']; cbn [parse_from].
        * rewrite !run_cons. destruct ev_err as (e & ->). reflexivity.
        * destruct (d =c "{"); rewrite !run_lit, rmap_rmap; apply rmap_ext; intro a; cbn [rev]; now rewrite ?app_nil_r, <- ?app_assoc.
      + destruct (c =c "}") eqn:Cl.
        * destruct s as [|d s']; cbn [parse_from].
          -- rewrite !run_cons. destruct ev_err as (e & ->). reflexivity.
          -- destruct (d =c "}").
             ++ rewrite !run_lit, rmap_rmap; apply rmap_ext; intro a; cbn [rev]; now rewrite <- ?app_assoc.
             ++ rewrite !run_cons. destruct ev_err as (e & ->). reflexivity.
        * rewrite (IH (c :: acc)), (IH [c]), rmap_rmap. apply rmap_ext. intro a. cbn [rev]. now rewrite <- app_assoc.
  Qed.

  Lemma run_text : forall c s, ~ In c $"{}" -> run (parse_format (c :: s)) = rmap (cons c) (run (parse_format s)).
  Proof.
    intros c s N. unfold parse_format. cbn [parse_from]. nc N. rewrite run_acc. apply rmap_ext. reflexivity.
  Qed.
  Lemma run_escape : forall c s, In c $"{}" -> run (parse_format (c :: c :: s)) = rmap (cons c) (run (parse_format s)).
  Proof.
    intros c s [ <- |[ <- |[]]]; unfold parse_format; cbn [parse_from Ascii.eqb Bool.eqb]; now rewrite run_lit.
  Qed.

  Lemma parse_spec_balanced : forall sp name conv acc d r, balanced d sp = true ->
    parse_from (SSpec name conv acc d) (sp ++ "}"%char :: r) = IField name (rev acc ++ sp) conv :: parse_from (SLit []) r.
  Proof.
    induction sp as [|c sp IH]; intros name conv acc d r B; cbn [balanced] in B.
    - destruct d; [|discriminate]. cbn. now rewrite app_nil_r.
    - cbn [app parse_from]. destruct (c =c "{"); [rewrite (IH name conv (c :: acc) (S d) r B); cbn [rev]; now rewrite <- app_assoc|].
      destruct (c =c "}"); [destruct d; [discriminate|]|]; rewrite IH by exact B; cbn [rev]; now rewrite <- app_assoc.
  Qed.

  Lemma parse_acc_fine : forall a acc r, acc_fine a ->
    parse_from (SName acc) (print_acc a ++ r) = parse_from (SName (rev (print_acc a) ++ acc)) r.
  Proof.
    intros [n|k] acc r (N & A).
    - apply parse_name. cbn [print_acc]. apply avoids_app. split.
      + repeat constructor; cbn; intuition discriminate.
      + eapply avoids_weak; [|exact A]. cbn. tauto.
    - cbn [print_acc]. rewrite <- !app_assoc. cbn [S_ list_ascii_of_string app parse_from Ascii.eqb Bool.eqb].
      rewrite parse_brack by exact A. f_equal. f_equal. cbn. rewrite !rev_app_distr. cbn. now rewrite <- app_assoc.
  Qed.
  Lemma parse_accs_fine : forall accs acc r, Forall acc_fine accs ->
    parse_from (SName acc) (flat_map print_acc accs ++ r) = parse_from (SName (rev (flat_map print_acc accs) ++ acc)) r.
  Proof.
    induction accs as [|a accs IH]; intros acc r F; [reflexivity|]. inversion F; subst. cbn [flat_map].
    rewrite <- app_assoc, parse_acc_fine, IH by assumption. f_equal. f_equal. rewrite rev_app_distr. now rewrite <- app_assoc.
  Qed.

  (** The text of a spec, with its colon. *)
  Definition spec_text (sp text : str) : Prop := (sp = [] /\ text = []) \/ (exists x, sp = ":"%char :: x /\ text = x /\ balanced 0 x = true).
  Lemma parse_field : forall name accs sp text s, name_fine name -> Forall acc_fine accs -> spec_text sp text ->
    parse_format ($"{" ++ (name ++ flat_map print_acc accs) ++ sp ++ $"}" ++ s) =
    ILit [] :: IField (name ++ flat_map print_acc accs) text None :: parse_format s.
  Proof.
    intros name accs sp text s (N1 & N2 & N3) A S.
    destruct name as [|c n]; [congruence|]. apply avoids_cons in N3. destruct N3 as [N3 N4].
    unfold parse_format. cbn [S_ list_ascii_of_string app parse_from Ascii.eqb Bool.eqb].
    nc N3. cbn [rev]. f_equal.
    rewrite <- app_assoc. rewrite (parse_name n [c]) by (eapply avoids_weak; [|exact N4]; cbn; tauto).
    rewrite parse_accs_fine by exact A.
    assert (R : rev (rev (flat_map print_acc accs) ++ rev n ++ [c]) = c :: n ++ flat_map print_acc accs).
    { rewrite !rev_app_distr, !rev_involutive. cbn. reflexivity. }
    destruct S as [(-> & ->)|(x & -> & -> & B)].
    - cbn [app parse_from Ascii.eqb Bool.eqb]. now rewrite R.
    - cbn [app parse_from Ascii.eqb Bool.eqb]. rewrite R. rewrite parse_spec_balanced by exact B. reflexivity.
  Qed.
End Run.

Definition step (render : renderer) (n : nat) (it : item) : result str :=
  match it with
  | ILit t => Ok t
  | IErr => Err ValueError
  | IField name spec conv =>
      bind (field_name name) (fun fa =>
      bind (vformat_at n render spec) (fun spec' => render (fst fa) (snd fa) conv spec'))
  end.
Lemma vformat_run : forall render n s, vformat_at (S n) render s = run (step render n) (parse_format s).
Proof. reflexivity. Qed.
Lemma step_lit : forall render n t, step render n (ILit t) = Ok t.
Proof. reflexivity. Qed.
Lemma step_err : forall render n, exists e, step render n IErr = Err e.
Proof. intros. now exists ValueError. Qed.

Lemma accessors_attr_fine : forall n acc r, avoids $"{}[.:!" n -> n <> [] \/ acc <> [] ->
  match r with c :: _ => (c =c ".") || (c =c "[") = true | [] => True end ->
  accessors_from (AAttr acc) (n ++ r) = option_map (cons (Attr (rev acc ++ n))) (accessors_from AStart r).
Proof.
  induction n as [|c n IH]; intros acc r A NE H.
  - cbn [app]. rewrite app_nil_r. destruct r as [|c r]; cbn [accessors_from].
    + destruct acc as [|x acc]; [destruct NE; congruence|]. reflexivity.
    + destruct acc as [|x acc]; [destruct NE; congruence|]. rewrite H.
      destruct (c =c ".") eqn:D; [reflexivity|]. cbn in H. rewrite H. reflexivity.
  - apply avoids_cons in A. destruct A as [N A]. cbn [app accessors_from]. nc N. cbn [orb].
    rewrite IH; [|exact A|right; discriminate|exact H]. cbn [rev]. now rewrite <- app_assoc.
Qed.
Lemma accessors_print_fine : forall accs, Forall acc_fine accs -> accessors_from AStart (flat_map print_acc accs) = Some accs.
Proof.
  induction accs as [|a accs IH]; intro F; [reflexivity|]. inversion F as [|? ? OK F']; subst. specialize (IH F').
  cbn [flat_map]. destruct a as [n|k]; destruct OK as (N & A).
  - cbn [print_acc S_ list_ascii_of_string app accessors_from Ascii.eqb Bool.eqb].
    rewrite accessors_attr_fine; [|exact A|now left|apply print_acc_head]. now rewrite IH.
  - cbn [print_acc]. rewrite <- !app_assoc. cbn [S_ list_ascii_of_string app accessors_from Ascii.eqb Bool.eqb].
    rewrite accessors_idx; [|exact A|now left]. now rewrite IH.
Qed.
Lemma first_of_fine : forall n r, avoids $"{}[.:!" n ->
  match r with c :: _ => (c =c ".") || (c =c "[") = true | [] => True end -> first_of (n ++ r) = (n, r).
Proof.
  induction n as [|c n IH]; intros r A H.
  - destruct r as [|c r]; [reflexivity|]. cbn [app first_of]. now rewrite H.
  - apply avoids_cons in A. destruct A as [N A]. cbn [app first_of]. nc N. cbn [orb]. now rewrite IH.
Qed.
Lemma field_name_fine : forall name accs, name_fine name -> Forall acc_fine accs ->
  field_name (name ++ flat_map print_acc accs) = Ok (name, accs).
Proof.
  intros name accs (N1 & N2 & N3) A. unfold field_name. rewrite first_of_fine by (exact N3 || apply print_acc_head).
  destruct name; [congruence|]. rewrite N2. now rewrite accessors_print_fine.
Qed.

Fixpoint eval_part (render : renderer) (p : part) : result str :=
  match p with
  | Text c => Ok [c]
  | Field name accs spec =>
      bind ((fix eval (l : list part) : result str :=
               match l with [] => Ok [] | q :: l' => bind (eval_part render q) (fun a => rmap (app a) (eval l')) end) spec)
        (fun sp => render name accs None sp)
  end.
Fixpoint eval_parts (render : renderer) (l : list part) : result str :=
  match l with [] => Ok [] | q :: l' => bind (eval_part render q) (fun a => rmap (app a) (eval_parts render l')) end.
Lemma eval_field : forall render name accs spec,
  eval_part render (Field name accs spec) = bind (eval_parts render spec) (fun sp => render name accs None sp).
Proof.
  intros render name accs spec. cbn [eval_part]. f_equal. induction spec as [|q l IH]; [reflexivity|].
  cbn [eval_parts]. destruct (eval_part render q); [|reflexivity]. cbn [bind]. now rewrite IH.
Qed.

Scheme reads_both := Minimality for reads Sort Prop
  with reads_spec_both := Minimality for reads_spec Sort Prop.
Combined Scheme reads_mutual from reads_both, reads_spec_both.

Lemma vformat_both : forall render,
  (forall n s t, reads n s t -> vformat_at (S n) render s = eval_parts render t) /\
  (forall n sp spec, reads_spec n sp spec -> exists text, spec_text sp text /\ vformat_at (S n) render text = eval_parts render spec).
Proof.
  intro render. apply reads_mutual.
  - reflexivity.
  - intros n c s t N R IH. rewrite vformat_run, (run_text _ (step_lit render n) (step_err render n)) by exact N.
    rewrite <- vformat_run, IH. cbn [eval_parts eval_part bind]. apply rmap_ext. reflexivity.
  - intros n c s t N R IH. rewrite vformat_run, (run_escape _ (step_lit render n)) by exact N.
    rewrite <- vformat_run, IH. cbn [eval_parts eval_part bind]. apply rmap_ext. reflexivity.
  - intros n name accs sp spec s t N A RS (text & ST & E) R IH.
    rewrite vformat_run, (parse_field name accs sp text s N A ST), (run_lit _ (step_lit render (S n))), run_cons.
    cbn [step]. rewrite (field_name_fine name accs N A). cbn [bind fst snd]. rewrite E.
    cbn [eval_parts]. rewrite eval_field. rewrite <- vformat_run, IH.
    destruct (eval_parts render spec) as [sp'|e]; [|reflexivity]. cbn [bind].
    destruct (render name accs None sp') as [a|e]; [|reflexivity]. cbn [bind].
    destruct (eval_parts render t); reflexivity.
  - intro n. exists []. split; [left; auto|reflexivity].
  - intros n sp spec B R IH. exists sp. split; [right; exists sp; auto|exact IH].
Qed.
Theorem vformat_reads : forall render s t, template_of s t -> vformat render s = eval_parts render t.
Proof. intros render s t R. exact (proj1 (vformat_both render) 2%nat s t R). Qed.

(** * Nothing else can be read *)
Fixpoint clean (inside : bool) (s : str) : bool :=
  match s with
  | [] => negb inside
  | c :: s' => if inside then clean (negb (c =c "]")) s'
               else negb (existsb (Ascii.eqb c) $"{}:!") && clean (c =c "[") s'
  end.

Inductive tail : str -> option ascii -> str -> Prop :=
| tail_none : tail [] None []
| tail_conv : forall c, tail ["!"%char; c] (Some c) []
| tail_spec : forall sp, balanced 0 sp = true -> tail (":"%char :: sp) None sp
| tail_both : forall c sp, balanced 0 sp = true -> tail ("!"%char :: c :: ":"%char :: sp) (Some c) sp.

Lemma spec_inv : forall s name conv acc d, (exists items, parse_from (SSpec name conv acc d) s = IErr :: items) \/
  exists sp rest, s = sp ++ "}"%char :: rest /\ balanced d sp = true /\
    parse_from (SSpec name conv acc d) s = IField name (rev acc ++ sp) conv :: parse_from (SLit []) rest.
Proof.
  induction s as [|c s IH]; intros name conv acc d; [left; now exists []|]. cbn [parse_from].
  destruct (c =c "{") eqn:O.
  - destruct (IH name conv (c :: acc) (S d)) as [L|(sp & rest & -> & B & E)]; [now left|right].
    exists (c :: sp), rest. split; [reflexivity|]. cbn [balanced]. rewrite O. split; [exact B|]. rewrite E. cbn [rev]. now rewrite <- app_assoc.
  - destruct (c =c "}") eqn:Cl.
    + destruct d as [|d].
      * right. exists [], s. apply Ascii.eqb_eq in Cl. subst c. split; [reflexivity|]. split; [reflexivity|]. now rewrite app_nil_r.
      * destruct (IH name conv (c :: acc) d) as [L|(sp & rest & -> & B & E)]; [now left|right].
        exists (c :: sp), rest. split; [reflexivity|]. cbn [balanced]. rewrite O, Cl. split; [exact B|]. rewrite E. cbn [rev]. now rewrite <- app_assoc.
    + destruct (IH name conv (c :: acc) d) as [L|(sp & rest & -> & B & E)]; [now left|right].
      exists (c :: sp), rest. split; [reflexivity|]. cbn [balanced]. rewrite O, Cl. split; [exact B|]. rewrite E. cbn [rev]. now rewrite <- app_assoc.
Qed.

Lemma name_inv : forall s acc (inside : bool), (exists items, parse_from (if inside then SBrack acc else SName acc) s = IErr :: items) \/
  exists nm t conv sp rest, s = nm ++ t ++ "}"%char :: rest /\ clean inside nm = true /\ tail t conv sp /\
    parse_from (if inside then SBrack acc else SName acc) s = IField (rev acc ++ nm) sp conv :: parse_from (SLit []) rest.
Proof.
  induction s as [|c s IH]; intros acc inside; [left; exists []; now destruct inside|].
  assert (G : forall b : bool, parse_from (if inside then SBrack acc else SName acc) (c :: s) = parse_from (if b then SBrack (c :: acc) else SName (c :: acc)) s ->
    clean inside (c :: []) = negb b \/ True -> (forall nm, clean b nm = true -> clean inside (c :: nm) = true) ->
    (exists items, parse_from (if inside then SBrack acc else SName acc) (c :: s) = IErr :: items) \/
    exists nm t conv sp rest, c :: s = nm ++ t ++ "}"%char :: rest /\ clean inside nm = true /\ tail t conv sp /\
    parse_from (if inside then SBrack acc else SName acc) (c :: s) = IField (rev acc ++ nm) sp conv :: parse_from (SLit []) rest).
  { intros b E _ Cn. rewrite E. destruct (IH (c :: acc) b) as [L|(nm & t & conv & sp & rest & -> & Q & T & P)]; [now left|right].
    exists (c :: nm), t, conv, sp, rest. split; [reflexivity|]. split; [now apply Cn|]. split; [exact T|].
    rewrite P. cbn [rev]. now rewrite <- app_assoc. }
  destruct inside.
  - apply (G (negb (c =c "]"))); [|now right|intros nm; cbn [clean]; tauto].
    cbn [parse_from]. destruct (c =c "]"); reflexivity.
  - cbn [parse_from] in *. destruct (c =c "{") eqn:E1; [left; eexists; reflexivity|].
    destruct (c =c "[") eqn:E2.
    { apply (G true); [reflexivity|now right|]. intros nm Cn. apply Ascii.eqb_eq in E2. subst c. exact Cn. }
    destruct (c =c "}") eqn:E3.
    { right. exists [], [], None, [], s. apply Ascii.eqb_eq in E3. subst c. split; [reflexivity|]. split; [reflexivity|].
      split; [constructor|]. now rewrite app_nil_r. }
    destruct (c =c ":") eqn:E4.
    { apply Ascii.eqb_eq in E4. subst c. destruct (spec_inv s (rev acc) None [] 0) as [L|(sp & rest & -> & B & P)]; [now left|right].
      exists [], (":"%char :: sp), None, sp, rest. split; [reflexivity|]. split; [reflexivity|]. split; [now constructor|].
      rewrite P. now rewrite app_nil_r. }
    destruct (c =c "!") eqn:E5.
    { apply Ascii.eqb_eq in E5. subst c. destruct s as [|x s]; [left; eexists; reflexivity|]. cbn [parse_from].
      destruct s as [|y s]; [left; eexists; reflexivity|]. cbn [parse_from]. destruct (y =c "}") eqn:F1.
      - right. apply Ascii.eqb_eq in F1. subst y. exists [], ["!"%char; x], (Some x), [], s. repeat split; [constructor|now rewrite app_nil_r].
      - destruct (y =c ":") eqn:F2; [|left; eexists; reflexivity]. apply Ascii.eqb_eq in F2. subst y.
        destruct (spec_inv s (rev acc) (Some x) [] 0) as [L|(sp & rest & -> & B & P)]; [now left|right].
        exists [], ("!"%char :: x :: ":"%char :: sp), (Some x), sp, rest. split; [reflexivity|]. split; [reflexivity|]. split; [now constructor|].
        rewrite P. now rewrite app_nil_r. }
    apply (G false); [reflexivity|now right|]. intros nm Cn. cbn [clean S_ list_ascii_of_string existsb]. rewrite E1, E2, E3, E4, E5, Cn. reflexivity.
Qed.

Lemma clean_char : forall c s, clean false (c :: s) = true -> ~ In c $"{}:!" /\ clean (c =c "[") s = true.
Proof.
  intros c s H. cbn [clean] in H. apply andb_true_iff in H. destruct H as [E C]. split; [|exact C].
  intro I. apply negb_true_iff in E. assert (T : existsb (Ascii.eqb c) $"{}:!" = true).
  { apply existsb_exists. exists c. split; [exact I|apply Ascii.eqb_refl]. }
  congruence.
Qed.
Lemma accessors_inv : forall s,
  (forall accs, accessors_from AStart s = Some accs -> clean false s = true -> s = flat_map print_acc accs /\ Forall acc_fine accs) /\
  (forall acc accs, accessors_from (AAttr acc) s = Some accs -> clean false s = true -> exists n accs',
     accs = Attr (rev acc ++ n) :: accs' /\ s = n ++ flat_map print_acc accs' /\ avoids $"{}[.:!" n /\ rev acc ++ n <> [] /\ Forall acc_fine accs') /\
  (forall acc accs, accessors_from (AIdx acc) s = Some accs -> clean true s = true -> exists k accs',
     accs = Idx (rev acc ++ k) :: accs' /\ s = k ++ $"]" ++ flat_map print_acc accs' /\ avoids $"]" k /\ rev acc ++ k <> [] /\ Forall acc_fine accs').
Proof.
  induction s as [|c s (IH1 & IH2 & IH3)].
  - split; [|split].
    + intros accs E _. injection E as <-. split; [reflexivity|constructor].
    + intros acc accs E _. cbn [accessors_from] in E. destruct acc as [|x acc]; [discriminate|]. injection E as <-.
      exists [], []. rewrite app_nil_r. repeat split; try constructor. cbn [rev]. destruct (rev acc); discriminate.
    + intros acc accs E. discriminate.
  - split; [|split].
    + intros accs E C. cbn [accessors_from] in E. destruct (clean_char c s C) as [_ C'].
      destruct (c =c ".") eqn:E1.
      * apply Ascii.eqb_eq in E1. subst c. destruct (IH2 [] accs E C') as (n & accs' & -> & -> & A & N & F).
        split; [reflexivity|]. constructor; [split; [exact N|exact A]|exact F].
      * destruct (c =c "[") eqn:E2; [|discriminate]. apply Ascii.eqb_eq in E2. subst c.
        destruct (IH3 [] accs E C') as (k & accs' & -> & -> & A & N & F).
        split; [|constructor; [split; [exact N|exact A]|exact F]]. cbn [flat_map print_acc rev app]. rewrite <- !app_assoc. reflexivity.
    + intros acc accs E C. cbn [accessors_from] in E. destruct (clean_char c s C) as [Nc C'].
      assert (R : forall x (l : str), rev (x :: l) <> []). { intros x l. cbn [rev]. destruct (rev l); discriminate. }
      destruct (c =c ".") eqn:E1; [|destruct (c =c "[") eqn:E2]; cbn [orb] in E.
      * apply Ascii.eqb_eq in E1. subst c. destruct acc as [|x acc]; [discriminate|].
        destruct (accessors_from (AAttr []) s) as [l|] eqn:F; [|discriminate]. injection E as <-.
        destruct (IH2 [] l F C') as (n & accs' & -> & -> & A & N & Fo).
        exists [], (Attr n :: accs'). rewrite app_nil_r. split; [reflexivity|]. split; [reflexivity|]. split; [constructor|].
        split; [apply R|]. constructor; [split; assumption|assumption].
      * apply Ascii.eqb_eq in E2. subst c. destruct acc as [|x acc]; [discriminate|].
        destruct (accessors_from (AIdx []) s) as [l|] eqn:F; [|discriminate]. injection E as <-.
        destruct (IH3 [] l F C') as (k & accs' & -> & -> & A & N & Fo).
        exists [], (Idx k :: accs'). rewrite app_nil_r. split; [reflexivity|]. split; [cbn [flat_map print_acc app]; rewrite <- !app_assoc; reflexivity|].
        split; [constructor|]. split; [apply R|]. constructor; [split; assumption|assumption].
      * destruct (IH2 (c :: acc) accs E C') as (n & accs' & -> & -> & A & N & Fo).
        exists (c :: n), accs'. cbn [rev]. rewrite <- app_assoc. split; [reflexivity|]. split; [reflexivity|]. split.
        -- constructor; [|exact A]. intro I. apply Ascii.eqb_neq in E1, E2. cbn in I, Nc. intuition congruence.
        -- split; [|exact Fo]. destruct (rev acc); discriminate.
    + intros acc accs E C. cbn [accessors_from] in E. cbn [clean] in C. destruct (c =c "]") eqn:E1; cbn [negb] in C.
      * apply Ascii.eqb_eq in E1. subst c. destruct acc as [|x acc]; [discriminate|].
        destruct (accessors_from AStart s) as [l|] eqn:F; [|discriminate]. injection E as <-.
        destruct (IH1 l eq_refl C) as [-> Fo]. exists [], l. rewrite app_nil_r. split; [reflexivity|]. split; [reflexivity|].
        split; [constructor|]. split; [cbn [rev]; destruct (rev acc); discriminate|exact Fo].
      * destruct (IH3 (c :: acc) accs E C) as (k & accs' & -> & -> & A & N & Fo).
        exists (c :: k), accs'. cbn [rev]. rewrite <- app_assoc. split; [reflexivity|]. split; [reflexivity|]. split.
        -- constructor; [|exact A]. apply Ascii.eqb_neq in E1. intros [I|[]]. congruence.
        -- split; [|exact Fo]. destruct (rev acc); discriminate.
Qed.
Lemma first_inv : forall s f r, first_of s = (f, r) -> clean false s = true ->
  s = f ++ r /\ avoids $"{}[.:!" f /\ clean false r = true.
Proof.
  induction s as [|c s IH]; intros f r E C; cbn [first_of] in E.
  - injection E as <- <-. repeat split; constructor.
  - destruct ((c =c ".") || (c =c "[")) eqn:D.
    + injection E as <- <-. split; [reflexivity|]. split; [constructor|exact C].
    + destruct (first_of s) as [f' r'] eqn:F. injection E as <- <-. apply orb_false_iff in D. destruct D as [D1 D2].
      destruct (clean_char c s C) as [Nc C']. rewrite D2 in C'. destruct (IH f' r' eq_refl C') as (-> & A & Cr).
      split; [reflexivity|]. split; [|exact Cr]. constructor; [|exact A].
      intro I. apply Ascii.eqb_neq in D1, D2. cbn in I, Nc. intuition congruence.
Qed.
Lemma field_name_inv : forall s f accs, field_name s = Ok (f, accs) -> clean false s = true ->
  s = f ++ flat_map print_acc accs /\ name_fine f /\ Forall acc_fine accs.
Proof.
  intros s f accs E C. unfold field_name in E. destruct (first_of s) as [f' r] eqn:F.
  destruct (first_inv s f' r F C) as (-> & A & Cr).
  destruct (match f' with [] => true | _ => all_digits f' end) eqn:D; [discriminate|].
  destruct (accessors_from AStart r) as [l|] eqn:G; [|discriminate]. injection E as -> ->.
  destruct (proj1 (accessors_inv r) accs G Cr) as [-> Fo]. split; [reflexivity|]. split; [|exact Fo].
  split; [|split; [|exact A]]; destruct f; congruence.
Qed.

(** What is formatted has been read; [known] is what the renderer accepts. *)
Definition no_conversion (render : renderer) : Prop := forall f accs c sp r, render f accs (Some c) sp <> Ok r.
Lemma reads_total : forall render, no_conversion render -> forall n s r, vformat_at (S n) render s = Ok r -> exists t, reads n s t.
Proof.
  intros render NC. induction n as [n IHn] using (well_founded_induction lt_wf).
  intro s. remember (List.length s) as m eqn:L. revert s L. induction m as [m IHm] using (well_founded_induction lt_wf).
  intros s L r H. rewrite vformat_run in H.
  assert (Short : forall s' r', (List.length s' < m)%nat -> run (step render n) (parse_format s') = Ok r' -> exists t, reads n s' t).
  { intros s' r' Ls R. exact (IHm (List.length s') Ls s' eq_refl r' R). }
  destruct s as [|c s]; [exists []; constructor|]. cbn [List.length] in L.
  destruct (existsb (Ascii.eqb c) $"{}") eqn:Br.
  - assert (Ic : In c $"{}"). { apply existsb_exists in Br. destruct Br as (x & I & E). apply Ascii.eqb_eq in E. now subst. }
    destruct s as [|d s].
    { exfalso. unfold parse_format in H. destruct Ic as [ <- |[ <- |[]]]; cbn [parse_from Ascii.eqb Bool.eqb] in H; revert H; apply run_err; apply step_err. }
    destruct (Ascii.eqb c d) eqn:Cd.
    { apply Ascii.eqb_eq in Cd. subst d. rewrite (run_escape _ (step_lit render n)) in H by exact Ic.
      destruct (run (step render n) (parse_format s)) as [r'|e] eqn:R; [|discriminate].
      destruct (Short s r') as (t & T); [cbn [List.length] in L; lia|exact R|]. exists (Text c :: t). now constructor. }
    destruct Ic as [ <- |[ <- |[]]].
    + (* a placeholder *)
      unfold parse_format in H.
      assert (P : parse_from (SLit []) ("{"%char :: d :: s) = ILit [] :: parse_from (SName []) (d :: s)).
      { cbn [parse_from Ascii.eqb Bool.eqb]. assert (X : (d =c "{") = false) by (apply Ascii.eqb_neq in Cd; apply Ascii.eqb_neq; congruence).
        rewrite X. reflexivity. }
      rewrite P, (run_lit _ (step_lit render n)) in H. clear P.
      destruct (name_inv (d :: s) [] false) as [(items & E)|(nm & tl & conv & sp & rest & E & Cn & T & Q)]; cbn iota in *.
      { rewrite E in H. destruct (run (step render n) (IErr :: items)) as [x|] eqn:R; [|discriminate].
        exfalso. exact (run_err _ (step_err render n) items x R). }
      rewrite Q, run_cons in H. cbn [rev app step] in H.
      destruct (field_name nm) as [[f accs]|] eqn:Fn; [|discriminate]. cbn [bind fst snd] in H.
      destruct n as [|n]; [discriminate|].
      destruct (vformat_at (S n) render sp) as [sp'|] eqn:Vs; [|discriminate]. cbn [bind] in H.
      destruct (render f accs conv sp') as [x|] eqn:Rn; [|discriminate]. cbn [bind] in H.
      destruct conv as [k|]; [now apply NC in Rn|].
      destruct (run (step render (S n)) (parse_from (SLit []) rest)) as [y|] eqn:Rr; [|discriminate].
      destruct (field_name_inv nm f accs Fn Cn) as (-> & Nf & Fa).
      destruct (IHn n (le_n (S n)) sp sp' Vs) as (spec & Rs).
      assert (Lr : (List.length rest < m)%nat).
      { assert (X := f_equal (@List.length ascii) E). rewrite !app_length in X. cbn [List.length] in *. lia. }
      destruct (Short rest y Lr Rr) as (t & Rt).
      exists (Field f accs spec :: t). rewrite E.
      replace ("{"%char :: (f ++ flat_map print_acc accs) ++ tl ++ "}"%char :: rest)
        with ($"{" ++ (f ++ flat_map print_acc accs) ++ tl ++ $"}" ++ rest) by reflexivity.
      constructor; [exact Nf|exact Fa| |exact Rt]. inversion T; subst; [inversion Rs; subst; constructor|].
      change (reads_spec n ($":" ++ sp) spec). constructor; assumption.
    + exfalso. unfold parse_format in H. cbn [parse_from Ascii.eqb Bool.eqb] in H.
      assert (X : (d =c "}") = false) by (apply Ascii.eqb_neq in Cd; apply Ascii.eqb_neq; congruence).
      rewrite X in H. revert H. apply run_err. apply step_err.
  - assert (Ic : ~ In c $"{}").
    { intro I. assert (T : existsb (Ascii.eqb c) $"{}" = true) by (apply existsb_exists; exists c; split; [exact I|apply Ascii.eqb_refl]). congruence. }
    rewrite (run_text _ (step_lit render n) (step_err render n)) in H by exact Ic.
    destruct (run (step render n) (parse_format s)) as [r'|e] eqn:R; [|discriminate].
    destruct (Short s r') as (t & T); [lia|exact R|]. exists (Text c :: t). now constructor.
Qed.

(** * Numbers in indexes *)
Lemma value_le_cons : forall d ds, value_le 10 (d :: ds) = (d + 10 * value_le 10 ds)%N.
Proof. reflexivity. Qed.
Lemma digits_le_unique : forall ds fuel, Forall (fun d => (d < 10)%N) ds -> ds <> [] ->
  (List.length ds = 1%nat \/ last ds 0%N <> 0%N) ->
  ((value_le 10 ds < 2 ^ N.of_nat fuel)%N \/ value_le 10 ds = 0%N) -> digits_le 10 fuel (value_le 10 ds) = ds.
Proof.
  induction ds as [|d ds IH]; intros fuel F NE L B; [congruence|]. inversion F as [|? ? Fd Fs]; subst.
  destruct ds as [|e ds].
  - rewrite value_le_cons. change (value_le 10 []) with 0%N. replace (d + 10 * 0)%N with d by lia.
    destruct fuel as [|f]; cbn [digits_le]; [reflexivity|]. apply N.ltb_lt in Fd. now rewrite Fd.
  - assert (L' : last (e :: ds) 0%N <> 0%N) by (destruct L as [L|L]; [discriminate|exact L]).
    assert (V : (1 <= value_le 10 (e :: ds))%N).
    { clear - L'. revert e L'. induction ds as [|x ds IH]; intros e L; [rewrite value_le_cons; cbn in L; lia|].
      specialize (IH x L). rewrite value_le_cons. lia. }
    rewrite (value_le_cons d) in *. remember (value_le 10 (e :: ds)) as v eqn:Hv.
    destruct fuel as [|f].
    { exfalso. change (2 ^ N.of_nat 0)%N with 1%N in B. destruct B as [B|B]; lia. }
    cbn [digits_le]. assert (Q : ((d + 10 * v <? 10) = false)%N) by (apply N.ltb_ge; lia). rewrite Q.
    assert (M : ((d + 10 * v) mod 10 = d)%N). { rewrite N.mul_comm, N.mod_add, N.mod_small by lia. reflexivity. }
    assert (D : ((d + 10 * v) / 10 = v)%N). { rewrite N.mul_comm, N.div_add, N.div_small by lia. reflexivity. }
    rewrite M, D. f_equal. subst v. apply IH; [exact Fs|discriminate|now right|]. left.
    destruct B as [B|B]; [|lia]. rewrite Nnat.Nat2N.inj_succ, N.pow_succ_r' in B. lia.
Qed.
Lemma digits_unique : forall ds, Forall (fun d => (d < 10)%N) ds -> match ds with [] => False | [_] => True | d :: _ => d <> 0%N end ->
  digits 10 (fold_left (fun a d => (a * 10 + d)%N) ds 0%N) = ds.
Proof.
  intros ds F H. unfold digits. rewrite <- fold_left_rev_right.
  replace (fold_right _ 0%N (rev ds)) with (value_le 10 (rev ds)).
  2:{ generalize (rev ds). induction l as [|d l IH]; [reflexivity|]. rewrite value_le_cons, IH. cbn [fold_right]. lia. }
  transitivity (rev (rev ds)); [f_equal|apply rev_involutive]. apply digits_le_unique.
  - now apply Forall_rev.
  - destruct ds as [|d ds]; [destruct H|]. cbn [rev]. destruct (rev ds); discriminate.
  - destruct ds as [|d [|e ds]]; [destruct H|now left|right]. cbn [rev]. rewrite last_last. exact H.
  - apply size_bound.
Qed.
Lemma digit_inv : forall c d, char_digit 10 c = Some d -> c = digit_char d /\ (d < 10)%N.
Proof.
  intros c d E. unfold char_digit in E.
  destruct ((48 <=? N_of_ascii c) && (N_of_ascii c <=? 57))%N eqn:R.
  - destruct (N_of_ascii c - 48 <? 10)%N eqn:L; [|discriminate]. injection E as <-. apply N.ltb_lt in L. split; [|exact L].
    apply andb_true_iff in R. destruct R as [R _]. apply N.leb_le in R. unfold digit_char.
    apply N.ltb_lt in L. rewrite L. replace (48 + (N_of_ascii c - 48))%N with (N_of_ascii c) by lia. now rewrite ascii_N_embedding.
  - destruct ((97 <=? N_of_ascii c) && (N_of_ascii c <=? 122))%N eqn:R2.
    + apply andb_true_iff in R2. destruct R2 as [R2 _]. apply N.leb_le in R2.
      destruct (N_of_ascii c - 87 <? 10)%N eqn:L; [|discriminate]. apply N.ltb_lt in L. lia.
    + destruct ((65 <=? N_of_ascii c) && (N_of_ascii c <=? 90))%N eqn:R3; [|discriminate].
      apply andb_true_iff in R3. destruct R3 as [R3 _]. apply N.leb_le in R3.
      destruct (N_of_ascii c - 55 <? 10)%N eqn:L; [|discriminate]. apply N.ltb_lt in L. lia.
Qed.
Lemma digits_inv : forall s, all_digits s = true -> exists ds, s = map digit_char ds /\ Forall (fun d => (d < 10)%N) ds.
Proof.
  induction s as [|c s IH]; intro A; [exists []; split; [reflexivity|constructor]|]. unfold all_digits in *. cbn [forallb] in A.
  apply andb_true_iff in A. destruct A as [A As]. destruct (IH As) as (ds & -> & F).
  destruct (char_digit 10 c) as [d|] eqn:D; [|discriminate]. destruct (digit_inv c d D) as [-> L]. exists (d :: ds). split; [reflexivity|now constructor].
Qed.
Lemma all_digits_map : forall ds, Forall (fun d => (d < 10)%N) ds -> all_digits (map digit_char ds) = true.
Proof.
  intros ds F. unfold all_digits. apply forallb_forall. intros c I. apply in_map_iff in I. destruct I as (d & <- & I).
  rewrite Forall_forall in F. rewrite char_digit_char; [reflexivity|now apply F|lia].
Qed.
(** A number is its normal form after some zeros. *)
Theorem number_normal : forall s, all_digits s = true -> s <> [] -> exists k, s = repeat "0"%char k ++ py_str (digits_value s).
Proof.
  intros s A NE. destruct (digits_inv s A) as (ds & E & F).
  assert (NE' : ds <> []) by (intros ->; now apply NE).
  assert (V : digits_value s = Z.of_N (fold_left (fun a d => (a * 10 + d)%N) ds 0%N)).
  { unfold Partitions_Model.digits_value. rewrite E, (parse_digits_chars 10) by (lia || assumption || now left). reflexivity. }
  rewrite V. clear V A NE. subst s.
  assert (P : forall n, py_str (Z.of_N n) = map digit_char (digits 10 n)).
  { intro n. unfold py_str. destruct n; reflexivity. }
  rewrite P. clear P. induction ds as [|d ds IH]; [congruence|]. inversion F as [|? ? Fd Fs]; subst.
  destruct ds as [|e ds].
  - exists 0%nat. cbn [repeat app]. now rewrite digits_unique.
  - destruct (N.eq_dec d 0) as [-> |D].
    + destruct (IH Fs ltac:(discriminate)) as (k & K). exists (S k). exact (f_equal (cons "0"%char) K).
    + exists 0%nat. cbn [repeat app]. rewrite digits_unique; [reflexivity|exact F|exact D].
Qed.
Lemma normal_digits : forall s, all_digits s = true -> s <> [] -> all_digits (py_str (digits_value s)) = true /\
  py_str (digits_value s) <> [] /\ py_str (digits_value (py_str (digits_value s))) = py_str (digits_value s).
Proof.
  intros s A NE. unfold Partitions_Model.digits_value at 1 2 4 5. destruct (parse_digits 10 0 false s) as [n|] eqn:P.
  - assert (Q : py_str (Z.of_N n) = map digit_char (digits 10 n)) by (unfold py_str; destruct n; reflexivity).
    assert (R := digits_range 10 n ltac:(lia)). assert (NE' := digits_nonempty 10 n).
    rewrite Q. split; [now apply all_digits_map|]. split; [destruct (digits 10 n); [congruence|discriminate]|].
    unfold Partitions_Model.digits_value. rewrite (parse_digits_chars 10) by (lia || assumption || now left).
    rewrite (Numerals_Proofs.digits_value 10 n) by lia. exact Q.
  - repeat split; discriminate.
Qed.

(** * Filling *)
Section PartInd.
  Context (P : part -> Prop) (HT : forall c, P (Text c)) (HF : forall name accs spec, Forall P spec -> P (Field name accs spec)).
  Fixpoint part_ind' (p : part) : P p :=
    match p with
    | Text c => HT c
    | Field name accs spec =>
        HF name accs spec ((fix go l : Forall P l := match l with [] => Forall_nil P | q :: l' => Forall_cons q (part_ind' q) (go l') end) spec)
    end.
End PartInd.

Lemma print_parts_app : forall a b, print_parts (a ++ b) = print_parts a ++ print_parts b.
Proof. intros. apply flat_map_app. Qed.
Lemma print_texts : forall v, print_parts (map Text v) = v.
Proof. induction v as [|c v IH]; [reflexivity|]. cbn. now f_equal. Qed.
Lemma print_part_nonempty : forall p, print_part p <> [].
Proof. intros [c|name accs spec]; discriminate. Qed.
Lemma print_parts_nil : forall l, print_parts l = [] -> l = [].
Proof.
  intros [|p l] E; [reflexivity|]. cbn in E. apply app_eq_nil in E. destruct E as [E _]. now apply print_part_nonempty in E.
Qed.
Lemma print_field : forall name accs spec, print_part (Field name accs spec) =
  $"{" ++ (name ++ flat_map print_acc accs) ++ match print_parts spec with [] => [] | s => $":" ++ s end ++ $"}".
Proof. reflexivity. Qed.

Lemma print_one : forall p, print_parts [p] = print_part p.
Proof. intro p. unfold print_parts. cbn [flat_map]. apply app_nil_r. Qed.

Section Filling.
  Context (other : cvalue -> str -> result str).
  Notation partial_format := (partial_format other).
  Definition filler (values : list (str * str)) : renderer := fun first =>
    match dget str_eqb values first with Some v => format_str other v | None => format_placeholder other true first end.
  Lemma partial_filler : forall s values, partial_format s values = vformat (filler values) s.
  Proof. reflexivity. Qed.

  Lemma key_text_normal : forall accs, flat_map (key_text other true) accs = flat_map print_acc (map normal_acc accs).
  Proof.
    induction accs as [|[n|k] accs IH]; [reflexivity| |]; cbn [flat_map map]; rewrite IH; f_equal.
    cbn [key_text normal_acc print_acc]. unfold index_value. destruct (all_digits k); reflexivity.
  Qed.
  Lemma own_none : forall accs, existsb (fun a => match a with Attr n => own_attribute n | Idx _ => false end) accs = false <->
    Forall (fun a => match a with Attr n => own_attribute n = false | Idx _ => True end) accs.
  Proof.
    induction accs as [|a accs IH]; cbn [existsb]; [split; [constructor|reflexivity]|].
    rewrite orb_false_iff, IH. split.
    - intros [A B]. constructor; [destruct a; auto|exact B].
    - intro F. inversion F; subst. split; [destruct a; auto|assumption].
  Qed.

  Lemma eval_parts_ok : forall render t f, Forall (fun p => eval_part render p = Ok (f p)) t ->
    eval_parts render t = Ok (flat_map f t).
  Proof. intros render t f F. induction F as [|p t E F IH]; [reflexivity|]. cbn [eval_parts flat_map]. rewrite E, IH. reflexivity. Qed.
  Lemma print_fill : forall values t,
    flat_map (fun p => print_parts (fill_part values (normal p))) t = print_parts (fill_parts values (map normal t)).
  Proof.
    intros values t. unfold fill_parts. induction t as [|p t IH]; [reflexivity|]. cbn [flat_map map].
    rewrite print_parts_app, IH. reflexivity.
  Qed.

  Lemma eval_filled : forall values p, ordinary p -> fillable_part values p ->
    eval_part (filler values) p = Ok (print_parts (fill_part values (normal p))).
  Proof.
    intros values. induction p as [c|name accs spec IH] using part_ind'; intros O F; [reflexivity|].
    rewrite eval_field. inversion O as [|? ? ? Oa Os]; subst.
    assert (Left : dget str_eqb values name = None -> Forall (fillable_part values) spec ->
      (let* sp := eval_parts (filler values) spec in filler values name accs None sp)%result =
      Ok (print_parts (fill_part values (normal (Field name accs spec))))).
    { intros G Fs.
      assert (E : eval_parts (filler values) spec = Ok (print_parts (fill_parts values (map normal spec)))).
      { rewrite <- print_fill. apply eval_parts_ok. rewrite Forall_forall in *. auto. }
      rewrite E. cbn [bind]. unfold filler. rewrite G. unfold format_placeholder. rewrite (proj2 (own_none accs) Oa).
      cbn [normal fill_part]. rewrite G. rewrite key_text_normal. rewrite print_one, print_field.
      fold (fill_parts values (map normal spec)). cbn [S_ list_ascii_of_string app]. rewrite <- !app_assoc. now destruct (print_parts (fill_parts values (map normal spec))). }
    destruct (dget str_eqb values name) as [v|] eqn:G.
    - inversion F; subst.
      + cbn [eval_parts bind normal fill_part map]. unfold filler. rewrite G. cbn. now rewrite print_texts.
      + unfold dmem in *. rewrite G in *. discriminate.
    - apply Left; [reflexivity|]. inversion F; subst; [constructor|assumption].
  Qed.
  Theorem filled : forall s t values, template_of s t -> Forall ordinary t -> Forall (fillable_part values) t ->
    partial_format s values = Ok (print_parts (fill_parts values (map normal t))).
  Proof.
    intros s t values R O F. rewrite partial_filler, (vformat_reads _ s t R), <- print_fill. apply eval_parts_ok.
    rewrite Forall_forall in *. intros p I. apply eval_filled; auto.
  Qed.

  Lemma eval_ordinary : forall values p r, eval_part (filler values) p = Ok r -> ordinary p.
  Proof.
    intro values. induction p as [c|name accs spec IH] using part_ind'; intros r E; [constructor|].
    rewrite eval_field in E. destruct (eval_parts (filler values) spec) as [sp|] eqn:Es; [|discriminate]. cbn [bind] in E.
    constructor.
    - unfold filler in E. destruct (dget str_eqb values name) as [v|].
      + unfold format_str in E. destruct accs as [|[n|k] [|b accs]]; try discriminate; try (constructor; [exact I|]); try constructor;
          destruct (str_attribute n); discriminate.
      + unfold format_placeholder in E. destruct (existsb _ accs) eqn:X; [discriminate|]. now apply own_none.
    - clear E. revert sp Es. induction IH as [|p l Hp IH IHl]; intros sp Es; [constructor|]. cbn [eval_parts] in Es.
      destruct (eval_part (filler values) p) as [a|] eqn:Ep; [|discriminate]. cbn [bind] in Es.
      destruct (eval_parts (filler values) l) as [b|] eqn:El; [|discriminate]. constructor; [now apply (Hp a)|now apply (IHl b)].
  Qed.
  Lemma eval_all_ordinary : forall values l r, eval_parts (filler values) l = Ok r -> Forall ordinary l.
  Proof.
    induction l as [|p l IH]; intros r E; [constructor|]. cbn [eval_parts] in E.
    destruct (eval_part (filler values) p) as [a|] eqn:Ep; [|discriminate]. cbn [bind] in E.
    destruct (eval_parts (filler values) l) as [b|] eqn:El; [|discriminate]. constructor; [now apply (eval_ordinary values p a)|now apply (IH b)].
  Qed.
  Theorem only_templates : forall s values r, partial_format s values = Ok r -> exists t, template_of s t /\ Forall ordinary t.
  Proof.
    intros s values r E. rewrite partial_filler in E. destruct (reads_total (filler values)) with (n := 2%nat) (s := s) (r := r) as (t & R).
    - intros f accs c sp x. unfold filler. destruct (dget str_eqb values f); discriminate.
    - exact E.
    - exists t. split; [exact R|]. rewrite (vformat_reads _ s t R) in E. exact (eval_all_ordinary values t r E).
  Qed.
End Filling.

(** * When nothing changes *)
Lemma normal_acc_fine : forall a, acc_fine a -> acc_fine (normal_acc a) /\ normal_acc (normal_acc a) = normal_acc a /\
  (List.length (print_acc (normal_acc a)) <= List.length (print_acc a))%nat /\
  (List.length (print_acc (normal_acc a)) = List.length (print_acc a) -> normal_acc a = a).
Proof.
  intros [n|k] (NE & A); [repeat split; auto|]. cbn [normal_acc]. destruct (all_digits k) eqn:D; [|rewrite D; repeat split; auto].
  destruct (normal_digits k D NE) as (D' & NE' & E). rewrite D', E. cbn [print_acc].
  destruct (number_normal k D NE) as (z & Z). assert (L := f_equal (@List.length ascii) Z). rewrite app_length, repeat_length in L.
  split; [split; [exact NE'|]|].
  - rewrite Z in A. apply avoids_app in A. tauto.
  - split; [reflexivity|]. rewrite !app_length. split; [lia|]. intro Q. assert (z = 0%nat) by lia. subst z. cbn [repeat app] in Z. now rewrite <- Z.
Qed.
Lemma normal_accs_fine : forall l, Forall acc_fine l -> Forall acc_fine (map normal_acc l) /\ map normal_acc (map normal_acc l) = map normal_acc l /\
  (List.length (flat_map print_acc (map normal_acc l)) <= List.length (flat_map print_acc l))%nat /\
  (List.length (flat_map print_acc (map normal_acc l)) = List.length (flat_map print_acc l) -> map normal_acc l = l).
Proof.
  intros l F. induction F as [|a l Fa F (I1 & I2 & I3 & I4)]; [repeat split; auto; constructor|].
  destruct (normal_acc_fine a Fa) as (A1 & A2 & A3 & A4). cbn [map flat_map]. rewrite !app_length.
  split; [now constructor|]. split; [now rewrite A2, I2|]. split; [lia|]. intro E. rewrite A4, I4 by lia. reflexivity.
Qed.

Definition colon (s : str) : str := match s with [] => [] | _ => $":" ++ s end.
Lemma print_field_colon : forall name accs spec, print_part (Field name accs spec) =
  $"{" ++ (name ++ flat_map print_acc accs) ++ colon (print_parts spec) ++ $"}".
Proof. intros. rewrite print_field. unfold colon. destruct (print_parts spec); reflexivity. Qed.

Lemma shorter : (forall n s t, reads n s t -> (List.length (print_parts (map normal t)) <= List.length s)%nat /\
    (List.length (print_parts (map normal t)) = List.length s -> Forall unescaped t /\ map normal t = t /\ print_parts t = s)) /\
  (forall n sp spec, reads_spec n sp spec -> (List.length (colon (print_parts (map normal spec))) <= List.length sp)%nat /\
    (List.length (colon (print_parts (map normal spec))) = List.length sp -> Forall unescaped spec /\ map normal spec = spec /\ colon (print_parts spec) = sp)).
Proof.
  apply reads_mutual.
  - intros _. split; [auto|]. intros _. repeat split; constructor.
  - intros n c s t N R (L & E). cbn [map normal print_parts flat_map print_part app List.length] in *. split; [unfold print_parts in L; lia|].
    intro Q. destruct E as (U & M & P); [unfold print_parts; lia|]. split; [constructor; [now constructor|exact U]|].
    split; [now rewrite M|]. unfold print_parts in P. now rewrite P.
  - intros n c s t N R (L & E). cbn [map normal print_parts flat_map print_part app List.length] in *. unfold print_parts in *. split; [lia|].
    intro Q. lia.
  - intros n name accs sp spec s t N A RS (Ls & Es) R (L & E).
    destruct (normal_accs_fine accs A) as (_ & _ & L3 & L4). cbn [map normal]. cbn [print_parts flat_map]. rewrite print_field_colon.
    fold (print_parts (map normal t)). rewrite !app_length. cbn [List.length S_ list_ascii_of_string]. split; [lia|].
    intro Q. destruct Es as (U1 & M1 & P1); [lia|]. destruct E as (U2 & M2 & P2); [lia|].
    rewrite L4 by lia. rewrite M1, M2. split; [constructor; [now constructor|exact U2]|]. split; [reflexivity|].
    rewrite print_field_colon, P1. fold (print_parts t). rewrite P2. rewrite <- !app_assoc. reflexivity.
  - intros _. split; [auto|]. intros _. repeat split; constructor.
  - intros n sp spec B R (L & E). remember (print_parts (map normal spec)) as q eqn:P. destruct q as [|x l].
    + split; [cbn; lia|]. cbn [List.length S_ list_ascii_of_string app colon]. discriminate.
    + cbn [colon List.length S_ list_ascii_of_string app] in *. split; [lia|]. intro Q. destruct E as (U & M & P'); [lia|].
      split; [exact U|]. split; [exact M|]. unfold colon. rewrite M in P. rewrite <- P', <- P. reflexivity.
Qed.

Lemma fill_nothing : forall t, fill_parts [] t = t.
Proof.
  intro t. unfold fill_parts. assert (P : forall p, fill_part [] p = [p]).
  { induction p as [c|name accs spec IH] using part_ind'; [reflexivity|]. cbn [fill_part dget].
    do 2 f_equal. induction IH as [|p l E IH IHl]; [reflexivity|]. cbn [flat_map]. now rewrite E, IHl. }
  induction t as [|p t IH]; [reflexivity|]. cbn [flat_map]. now rewrite P, IH.
Qed.
Lemma nothing_fillable : forall p, fillable_part [] p.
Proof. induction p as [c|name accs spec IH] using part_ind'; [constructor|]. now apply fillable_left. Qed.

Theorem unchanged : forall other s, partial_format other s [] = Ok s <->
  exists t, template_of s t /\ Forall ordinary t /\ Forall unescaped t /\ map normal t = t /\ print_parts t = s.
Proof.
  intros other s. split.
  - intro E. destruct (only_templates other s [] s E) as (t & R & O). exists t. split; [exact R|]. split; [exact O|].
    rewrite (filled other s t [] R O) in E by (apply Forall_forall; intros; apply nothing_fillable). rewrite fill_nothing in E.
    injection E as E. apply (proj1 shorter _ _ _ R). now rewrite E.
  - intros (t & R & O & U & M & P).
    rewrite (filled other s t [] R O) by (apply Forall_forall; intros; apply nothing_fillable). rewrite fill_nothing, M, P. reflexivity.
Qed.

(** * Filling in steps *)
Lemma balanced_plain : forall v d r, avoids $"{}" v -> balanced d (v ++ r) = balanced d r.
Proof.
  induction v as [|c v IH]; intros d r A; [reflexivity|]. apply avoids_cons in A. destruct A as [N A].
  cbn [app balanced]. nc N. now apply IH.
Qed.
Lemma name_plain : forall n, avoids $"{}[.:!" n -> avoids $"{}" n.
Proof. intros n A. eapply avoids_weak; [|exact A]. cbn. tauto. Qed.
Lemma number_plain : forall k, all_digits k = true -> avoids $"{}]" k.
Proof.
  intros k D. apply Forall_forall. intros c I. unfold all_digits in D. rewrite forallb_forall in D. specialize (D c I).
  intros [<-|[<-|[<-|[]]]]; discriminate D.
Qed.
Lemma balanced_accs : forall l d r, Forall acc_fine l ->
  balanced d (flat_map print_acc (map normal_acc l) ++ r) = balanced d (flat_map print_acc l ++ r).
Proof.
  intros l d r F. revert d. induction F as [|a l Fa F IH]; intro d; [reflexivity|]. cbn [map flat_map]. rewrite <- !app_assoc.
  assert (G : forall x d, balanced d (x ++ flat_map print_acc (map normal_acc l) ++ r) = balanced d (x ++ flat_map print_acc l ++ r)).
  { induction x as [|c x IHx]; intro d'; [apply IH|]. cbn [app balanced]. destruct (c =c "{"); [apply IHx|].
    destruct (c =c "}"); [destruct d'; [reflexivity|apply IHx]|apply IHx]. }
  rewrite G. destruct a as [n|k]; [reflexivity|]. cbn [normal_acc]. destruct (all_digits k) eqn:D; [|reflexivity].
  destruct Fa as (NE & _). destruct (normal_digits k D NE) as (D' & _).
  assert (W : forall k', all_digits k' = true -> avoids $"{}" (print_acc (Idx k'))).
  { intros k' D0. cbn [print_acc]. apply number_plain in D0. apply avoids_app. split; [repeat constructor; cbn; intuition discriminate|].
    apply avoids_app. split; [eapply avoids_weak; [|exact D0]; cbn; tauto|]. repeat constructor; cbn; intuition discriminate. }
  rewrite (balanced_plain _ _ _ (W _ D)), (balanced_plain _ _ _ (W _ D')). reflexivity.
Qed.
Lemma balanced_ext : forall x a b, (forall d, balanced d a = balanced d b) -> forall d, balanced d (x ++ a) = balanced d (x ++ b).
Proof.
  induction x as [|c x IHx]; intros a b H d; [apply H|]. cbn [app balanced]. destruct (c =c "{"); [now apply IHx|].
  destruct (c =c "}"); [destruct d; [reflexivity|now apply IHx]|now apply IHx].
Qed.

Section Steps.
  Context (values : list (str * str)) (V : Forall (fun nv => avoids $"{}" (snd nv)) values).
  Notation done t := (fill_parts values (map normal t)).

  Lemma reads_texts : forall n v s t, avoids $"{}" v -> reads n s t -> reads n (v ++ s) (map Text v ++ t).
  Proof.
    intros n v s t A R. induction v as [|c v IH]; [exact R|]. apply avoids_cons in A. destruct A as [N A].
    cbn [app map]. constructor; [exact N|now apply IH].
  Qed.
  Lemma given_plain : forall name v, dget str_eqb values name = Some v -> avoids $"{}" v.
  Proof.
    intros name v G. apply (dget_In str_eqb str_eqb_spec) in G. rewrite Forall_forall in V. exact (V _ G).
  Qed.

  Lemma balanced_done :
    (forall n s t, reads n s t -> Forall unescaped t -> Forall (fillable_part values) t ->
       forall r d, balanced d (print_parts (done t) ++ r) = balanced d (s ++ r)) /\
    (forall n sp spec, reads_spec n sp spec -> Forall unescaped spec -> Forall (fillable_part values) spec ->
       forall r d, balanced d (colon (print_parts (done spec)) ++ r) = balanced d (sp ++ r)).
  Proof.
    apply reads_mutual.
    - reflexivity.
    - intros n c s t N R IH U F r d. inversion U; subst. inversion F; subst. cbn [map normal]. unfold fill_parts. cbn [flat_map fill_part].
      rewrite print_parts_app. cbn [app]. change (print_parts [Text c]) with [c]. cbn [app balanced]. nc N. now apply IH.
    - intros n c s t N R IH U. inversion U; subst. inversion H1; subst. contradiction.
    - intros n name accs sp spec s t N A RS IHs R IH U F r d.
      inversion U as [|? ? U1 U2]; subst. inversion U1 as [|? ? ? Us]; subst. inversion F as [|? ? F1 F2]; subst.
      cbn [map normal]. unfold fill_parts. cbn [flat_map fill_part]. rewrite print_parts_app, <- !app_assoc.
      fold (fill_parts values (map normal t)).
      destruct (dget str_eqb values name) as [v|] eqn:G.
      + rewrite print_texts, balanced_plain by now apply (given_plain name).
        inversion F1; subst; [|unfold dmem in *; rewrite G in *; discriminate]. cbn [flat_map app] in *.
        cbn [S_ list_ascii_of_string app balanced Ascii.eqb Bool.eqb].
        assert (Nn := name_plain _ (proj2 (proj2 N))). rewrite (balanced_plain name (S d)) by exact Nn.
        assert (Sp : sp = [] \/ sp = [":"%char]).
        { inversion RS; subst; [now left|right]. match goal with H : reads _ _ [] |- _ => inversion H; subst end. reflexivity. }
        rewrite IH by assumption. destruct Sp as [-> | ->]; reflexivity.
      + rewrite print_one, print_field_colon. fold (fill_parts values (map normal spec)).
        rewrite <- !app_assoc. apply balanced_ext. intro d1. apply balanced_ext. intro d2.
        rewrite balanced_accs by exact A. apply balanced_ext. intro d3.
        assert (Fs : Forall (fillable_part values) spec) by (inversion F1; subst; [constructor|assumption]).
        rewrite (IHs Us Fs). apply balanced_ext. intro d4. apply balanced_ext. intro d5. now apply IH.
    - reflexivity.
    - intros n sp spec B R IH U F r d. specialize (IH U F r).
      assert (C : forall x, balanced d (colon x ++ r) = balanced d (x ++ r)) by (intros [|c x]; reflexivity).
      rewrite C, IH. reflexivity.
  Qed.

  Lemma done_both :
    (forall n s t, reads n s t -> Forall unescaped t -> Forall (fillable_part values) t -> reads n (print_parts (done t)) (done t)) /\
    (forall n sp spec, reads_spec n sp spec -> Forall unescaped spec -> Forall (fillable_part values) spec ->
       reads_spec n (colon (print_parts (done spec))) (done spec)).
  Proof.
    apply reads_mutual.
    - intros. constructor.
    - intros n c s t N R IH U F. inversion U; subst. inversion F; subst. cbn. constructor; [exact N|]. now apply IH.
    - intros n c s t N R IH U. inversion U; subst. inversion H1; subst. contradiction.
    - intros n name accs sp spec s t N A RS IHs R IH U F.
      inversion U as [|? ? U1 U2]; subst. inversion U1 as [|? ? ? Us]; subst. inversion F as [|? ? F1 F2]; subst.
      cbn [map normal]. unfold fill_parts. cbn [flat_map fill_part]. rewrite print_parts_app.
      fold (fill_parts values (map normal t)). destruct (dget str_eqb values name) as [v|] eqn:G.
      + rewrite print_texts. apply reads_texts; [now apply (given_plain name)|now apply IH].
      + rewrite print_one, print_field_colon. fold (fill_parts values (map normal spec)). rewrite <- !app_assoc.
        rewrite (app_assoc name). cbn [app]. apply reads_field; [exact N|now apply normal_accs_fine| |now apply IH].
        apply IHs; [exact Us|]. inversion F1; subst; [constructor|assumption].
    - intros. constructor.
    - intros n sp spec B R IH U F. specialize (IH U F). unfold colon. destruct (print_parts (done spec)) as [|c l] eqn:P.
      + apply print_parts_nil in P. rewrite P. constructor.
      + rewrite <- P in *. apply some_spec; [|exact IH].
        pose proof (proj1 balanced_done n sp spec R U F [] 0%nat) as Q. rewrite !app_nil_r in Q. now rewrite Q.
  Qed.
End Steps.

Lemma ordinary_normal : forall p, ordinary p -> ordinary (normal p).
Proof.
  induction p as [c|name accs spec IH] using part_ind'; intro O; [constructor|]. inversion O as [|? ? ? Oa Os]; subst. cbn [normal]. constructor.
  - apply Forall_map. eapply Forall_impl; [|exact Oa]. intros [n|k] H; exact H.
  - apply Forall_map. rewrite Forall_forall in *. auto.
Qed.
Lemma ordinary_fill : forall values p, ordinary p -> Forall ordinary (fill_part values p).
Proof.
  intro values. induction p as [c|name accs spec IH] using part_ind'; intro O; [repeat constructor|]. inversion O as [|? ? ? Oa Os]; subst.
  cbn [fill_part]. destruct (dget str_eqb values name) as [v|].
  - apply Forall_map. apply Forall_forall. constructor.
  - constructor; [|constructor]. constructor; [exact Oa|]. apply Forall_flat_map. rewrite Forall_forall in *. auto.
Qed.
Lemma fillable_normal : forall values p, fillable_part values p -> fillable_part values (normal p).
Proof.
  intro values. induction p as [c|name accs spec IH] using part_ind'; intro O; [constructor|]. cbn [normal]. inversion O; subst; [constructor|].
  apply fillable_left; [assumption|]. apply Forall_map. rewrite Forall_forall in *. auto.
Qed.
Lemma fillable_fill_part : forall a b p, fillable_part b p -> Forall (fillable_part b) (fill_part a p).
Proof.
  intros a b. induction p as [c|name accs spec IH] using part_ind'; intro O; [repeat constructor|]. cbn [fill_part].
  destruct (dget str_eqb a name) as [v|].
  - apply Forall_map. apply Forall_forall. constructor.
  - constructor; [|constructor]. inversion O; subst; [constructor|]. apply fillable_left; [assumption|].
    apply Forall_flat_map. rewrite Forall_forall in *. auto.
Qed.

Lemma normal_normal : forall n s t, reads n s t -> map normal (map normal t) = map normal t.
Proof.
  assert (H : (forall n s t, reads n s t -> map normal (map normal t) = map normal t) /\
              (forall n sp spec, reads_spec n sp spec -> map normal (map normal spec) = map normal spec)); [|exact (proj1 H)].
  apply reads_mutual; try (intros; reflexivity).
  - intros n c s t N R IH. cbn [map normal]. now rewrite IH.
  - intros n c s t N R IH. cbn [map normal]. now rewrite IH.
  - intros n name accs sp spec s t N A RS IHs R IH. cbn [map normal]. rewrite IHs, IH.
    now rewrite (proj1 (proj2 (normal_accs_fine accs A))).
  - auto.
Qed.
Lemma normal_fill : forall values t, map normal (fill_parts values t) = fill_parts values (map normal t).
Proof.
  intro values. unfold fill_parts. assert (P : forall p, map normal (fill_part values p) = fill_part values (normal p)).
  { induction p as [c|name accs spec IH] using part_ind'; [reflexivity|]. cbn [fill_part normal].
    destruct (dget str_eqb values name) as [v|]; [now rewrite map_map|]. cbn [map normal]. do 2 f_equal.
    induction IH as [|p l E IH IHl]; [reflexivity|]. cbn [flat_map map]. now rewrite map_app, E, IHl. }
  induction t as [|p t IH]; [reflexivity|]. cbn [flat_map map]. now rewrite map_app, P, IH.
Qed.
Lemma fill_texts : forall values v, fill_parts values (map Text v) = map Text v.
Proof. intros values v. unfold fill_parts. induction v as [|c v IH]; [reflexivity|]. cbn [map flat_map fill_part app]. now rewrite IH. Qed.
Lemma dget_app : forall (a b : list (str * str)) n, dget str_eqb (a ++ b) n =
  match dget str_eqb a n with Some v => Some v | None => dget str_eqb b n end.
Proof. induction a as [|[k v] a IH]; intros b n; [reflexivity|]. cbn [app dget]. destruct (str_eqb k n); [reflexivity|apply IH]. Qed.
Lemma fill_fill : forall a b t, fill_parts b (fill_parts a t) = fill_parts (a ++ b) t.
Proof.
  intros a b t. assert (P : forall p, fill_parts b (fill_part a p) = fill_part (a ++ b) p).
  { induction p as [c|name accs spec IH] using part_ind'; [reflexivity|]. cbn [fill_part]. rewrite dget_app.
    destruct (dget str_eqb a name) as [v|]; [apply fill_texts|]. unfold fill_parts. cbn [flat_map fill_part].
    rewrite app_nil_r. destruct (dget str_eqb b name) as [v|]; [reflexivity|]. do 2 f_equal.
    induction IH as [|p l E IH IHl]; [reflexivity|]. cbn [flat_map]. rewrite flat_map_app, IHl. f_equal. exact E. }
  unfold fill_parts in *. induction t as [|p t IH]; [reflexivity|]. cbn [flat_map]. now rewrite flat_map_app, P, IH.
Qed.
Lemma dmem_app : forall (a b : list (str * str)) n, dmem str_eqb (a ++ b) n = dmem str_eqb a n || dmem str_eqb b n.
Proof. intros a b n. unfold dmem. rewrite dget_app. destruct (dget str_eqb a n); [reflexivity|]. reflexivity. Qed.
Lemma fillable_app : forall a b p, fillable_part a p -> fillable_part b p -> fillable_part (a ++ b) p.
Proof.
  intros a b. induction p as [c|name accs spec IH] using part_ind'; intros A B; [constructor|].
  inversion A as [|?|? ? ? Na Fa]; subst; [constructor|]. inversion B as [|?|? ? ? Nb Fb]; subst; [constructor|].
  apply fillable_left; [now rewrite dmem_app, Na, Nb|]. rewrite Forall_forall in *. auto.
Qed.
Lemma fill_ext : forall a b t, (forall n, dget str_eqb a n = dget str_eqb b n) -> fill_parts a t = fill_parts b t.
Proof.
  intros a b t E. assert (P : forall p, fill_part a p = fill_part b p).
  { induction p as [c|name accs spec IH] using part_ind'; [reflexivity|]. cbn [fill_part]. rewrite E.
    destruct (dget str_eqb b name) as [v|]; [reflexivity|]. do 2 f_equal.
    induction IH as [|p l Ep IH IHl]; [reflexivity|]. cbn [flat_map]. now rewrite Ep, IHl. }
  unfold fill_parts. induction t as [|p t IH]; [reflexivity|]. cbn [flat_map]. now rewrite P, IH.
Qed.

Theorem in_steps : forall other s t a b, template_of s t -> Forall ordinary t -> Forall unescaped t ->
  Forall (fillable_part a) t -> Forall (fillable_part b) t -> Forall (fun nv => avoids $"{}" (snd nv)) a ->
  bind (partial_format other s a) (fun s' => partial_format other s' b) = partial_format other s (a ++ b).
Proof.
  intros other s t a b R O U Fa Fb V. rewrite (filled other s t a R O Fa). cbn [bind].
  assert (R' : template_of (print_parts (fill_parts a (map normal t))) (fill_parts a (map normal t)))
    by (apply (proj1 (done_both a V) 2%nat s t); assumption).
  rewrite (filled other _ _ b R').
  - rewrite normal_fill, (normal_normal _ _ _ R), fill_fill. symmetry. apply (filled other s t (a ++ b) R O).
    rewrite Forall_forall in *. intros p I. apply fillable_app; auto.
  - unfold fill_parts. apply Forall_flat_map. apply Forall_map. rewrite Forall_forall in *. intros p I.
    apply ordinary_fill, ordinary_normal. auto.
  - unfold fill_parts. apply Forall_flat_map. apply Forall_map. rewrite Forall_forall in *. intros p I.
    apply fillable_fill_part, fillable_normal. auto.
Qed.
Theorem any_order : forall other s t a b, template_of s t -> Forall ordinary t -> Forall unescaped t ->
  Forall (fillable_part a) t -> Forall (fillable_part b) t ->
  Forall (fun nv => avoids $"{}" (snd nv)) a -> Forall (fun nv => avoids $"{}" (snd nv)) b ->
  (forall n, In n (map fst a) -> ~ In n (map fst b)) ->
  bind (partial_format other s a) (fun s' => partial_format other s' b) =
  bind (partial_format other s b) (fun s' => partial_format other s' a).
Proof.
  intros other s t a b R O U Fa Fb Va Vb D. rewrite (in_steps other s t a b), (in_steps other s t b a) by assumption.
  assert (Fab : Forall (fillable_part (a ++ b)) t) by (rewrite Forall_forall in *; intros p I; apply fillable_app; auto).
  assert (Fba : Forall (fillable_part (b ++ a)) t) by (rewrite Forall_forall in *; intros p I; apply fillable_app; auto).
  rewrite (filled other s t _ R O Fab), (filled other s t _ R O Fba). do 2 f_equal. apply fill_ext. intro n.
  rewrite !dget_app. destruct (dget str_eqb a n) as [v|] eqn:A, (dget str_eqb b n) as [w|] eqn:B; try reflexivity.
  exfalso. apply (D n).
  - apply (dget_In str_eqb str_eqb_spec) in A. exact (in_map fst _ _ A).
  - apply (dget_In str_eqb str_eqb_spec) in B. exact (in_map fst _ _ B).
Qed.

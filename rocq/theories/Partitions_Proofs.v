From Coq Require Import ZArith NArith List Ascii String Bool Lia Permutation.
From Verif Require Import Base Base_Proofs Str Str_Proofs Numerals_Model Numerals_Proofs
  Partitions_Model Partitions_Spec.
Import ListNotations.
Open Scope list_scope.

(** Small padded numbers, checked exhaustively: the length of the text of a date's parts. *)
Definition pad_ok (w : nat) (z : Z) : bool :=
  Nat.eqb (List.length (py_pad w z)) w && all_digits (py_pad w z) &&
  Z.eqb (digits_value (py_pad w z)) z.

Lemma range_forall : forall (P : Z -> bool) n k,
  forallb (fun i => P (Z.of_nat i + k)%Z) (seq 0 n) = true ->
  forall z, (k <= z < k + Z.of_nat n)%Z -> P z = true.
Proof.
  intros P n k F z Hz. rewrite forallb_forall in F.
  specialize (F (Z.to_nat (z - k))). rewrite Z2Nat.id in F by lia.
  replace (z - k + k)%Z with z in F by lia. apply F. apply in_seq. lia.
Qed.

Lemma pad2 : forall z, (0 <= z < 100)%Z -> pad_ok 2 z = true.
Proof. intros z Hz. apply (range_forall (pad_ok 2) 100 0); [vm_compute; reflexivity|lia]. Qed.

Lemma pad4_100 : forall h, (0 <= h < 100)%Z ->
  forallb (fun i => pad_ok 4 (Z.of_nat i + h * 100)%Z) (seq 0 100) = true.
Proof.
  intros h Hh.
  apply (range_forall (fun h => forallb (fun i => pad_ok 4 (Z.of_nat i + h * 100)%Z) (seq 0 100)) 100 0);
    [vm_compute; reflexivity|lia].
Qed.

Lemma pad4 : forall z, (0 <= z < 10000)%Z -> pad_ok 4 z = true.
Proof.
  intros z Hz. assert (H := Z.div_mod z 100 ltac:(lia)).
  assert (M := Z.mod_pos_bound z 100 ltac:(lia)).
  assert (D : (0 <= z / 100 < 100)%Z) by lia.
  apply (range_forall (pad_ok 4) 100 (z / 100 * 100)); [|lia].
  apply pad4_100. exact D.
Qed.

Lemma valid_bounds : forall y m d, valid_date y m d = true ->
  (1 <= y <= 9999)%Z /\ (1 <= m <= 12)%Z /\ (1 <= d <= 31)%Z.
Proof.
  intros y m d H. unfold valid_date in H. repeat rewrite andb_true_iff in H.
  assert (days_in_month y m <= 31)%Z.
  { unfold days_in_month. destruct (m =? 2)%Z; [destruct (is_leap y); lia|].
    destruct (_ || _)%bool; lia. }
  lia.
Qed.

Lemma iso_roundtrip : forall y m d, valid_date y m d = true ->
  fromisoformat (isoformat y m d) = Ok (FDate y m d).
Proof.
  intros y m d V. destruct (valid_bounds y m d V) as (Hy & Hm & Hd).
  assert (Py := pad4 y ltac:(lia)). assert (Pm := pad2 m ltac:(lia)). assert (Pd := pad2 d ltac:(lia)).
  unfold pad_ok in *. rewrite !andb_true_iff, !Nat.eqb_eq, !Z.eqb_eq in *.
  destruct Py as [[Ly Ay] Vy], Pm as [[Lm Am] Vm], Pd as [[Ld Ad] Vd]. unfold isoformat.
  destruct (py_pad 4 y) as [|y1 [|y2 [|y3 [|y4 [|]]]]]; try discriminate.
  destruct (py_pad 2 m) as [|m1 [|m2 [|]]]; try discriminate.
  destruct (py_pad 2 d) as [|d1 [|d2 [|]]]; try discriminate.
  cbn [app S_ list_ascii_of_string fromisoformat].
  change (Ascii.eqb "-" "-") with true. cbn [andb]. unfold ymd. rewrite Ay, Am, Ad, Vy, Vm, Vd.
  cbn [andb]. unfold mk_date. now rewrite V.
Qed.

Lemma format_int : forall other z spec t,
  format_value other (CInt z) spec = Ok t ->
  spec = [] \/ (exists w, zero_width spec = Some w) -> exists w, t = py_pad w z.
Proof.
  intros other z spec t E [->|[w Hw]].
  - cbn in E. inversion E. exists 0%nat. apply py_str_pad.
  - destruct spec as [|c spec]; [discriminate|]. cbn [format_value] in E. rewrite Hw in E.
    inversion E. eauto.
Qed.

(** The text of one component, by class and name. *)
Lemma render_all_inv : forall other f cs texts, render_all other f cs = Ok texts ->
  map fst texts = map fst cs /\
  Forall2 (fun cs kt => fst kt = fst cs /\ exists v, component f (fst cs) = Ok v /\
             format_value other v (snd cs) = Ok (snd kt)) cs texts.
Proof.
  intros other f. induction cs as [|[n s] cs IH]; intros texts E.
  - inversion E. split; [reflexivity|constructor].
  - unfold render_all in *. cbn [mapM fst snd] in E.
    destruct (component f n) as [v|e] eqn:C; [|discriminate]. cbn [bind rmap] in E.
    destruct (format_value other v s) as [t|e] eqn:F; [|discriminate]. cbn [bind rmap] in E.
    destruct (mapM _ cs) as [ts|e]; [|discriminate]. cbn [bind] in E. inversion E; subst.
    destruct (IH ts eq_refl) as [M F2]. split; [cbn; now rewrite M|].
    constructor; [|exact F2]. split; [reflexivity|]. exists v. auto.
Qed.

Lemma render_all_ok : forall other f cs,
  Forall (fun c => plain_spec f (fst c) (snd c) /\ In (fst c) (components (class_of f))) cs ->
  exists texts, render_all other f cs = Ok texts.
Proof.
  intros other f. induction cs as [|[n s] cs IH]; intro F; [eexists; reflexivity|].
  inversion F as [|? ? [P I] F']; subst. destruct (IH F') as [ts E].
  unfold render_all in *. cbn [mapM fst snd] in *. rewrite E.
  assert (C : exists v, component f n = Ok v).
  { destruct f; cbn [class_of components] in I; cbn in I;
      repeat (destruct I as [<-|I]; [eexists; reflexivity|]); destruct I. }
  destruct C as [v C]. rewrite C. cbn [bind].
  assert (T : exists t, format_value other v s = Ok t).
  { destruct P as [->|[[z Hz] [w Hw]]]; [eexists; reflexivity|].
    rewrite C in Hz. inversion Hz; subst. destruct s as [|c s]; [eexists; reflexivity|].
    cbn [format_value]. rewrite Hw. eauto. }
  destruct T as [t T]. rewrite T. cbn. eauto.
Qed.

Lemma single_name : forall n (texts : list (str * str)),
  map fst texts = [n] -> exists t, texts = [(n, t)].
Proof. intros n [|[k t] [|]] E; inversion E; subst. eauto. Qed.

Lemma names_single : forall n m t, names_are [n] [(m, t)] = str_eqb m n && str_eqb m n.
Proof. intros. unfold names_are. cbn. now rewrite !orb_false_r, !andb_true_r. Qed.

(** Permutations of three texts. *)
Lemma perm3 : forall (l : list str), Permutation [$"Y"; $"m"; $"d"] l ->
  l = [$"Y"; $"m"; $"d"] \/ l = [$"Y"; $"d"; $"m"] \/ l = [$"m"; $"Y"; $"d"] \/
  l = [$"m"; $"d"; $"Y"] \/ l = [$"d"; $"Y"; $"m"] \/ l = [$"d"; $"m"; $"Y"].
Proof.
  intros l P.
  assert (E := Permutation_length P). destruct l as [|a [|b [|c [|]]]]; try discriminate. clear E.
  assert (Ha : In a [$"Y"; $"m"; $"d"]) by (eapply Permutation_in; [symmetry; exact P|now left]).
  assert (Hb : In b [$"Y"; $"m"; $"d"]) by (eapply Permutation_in; [symmetry; exact P|right; now left]).
  assert (Hc : In c [$"Y"; $"m"; $"d"]) by (eapply Permutation_in; [symmetry; exact P|do 2 right; now left]).
  assert (N : NoDup [a; b; c]).
  { eapply Permutation_NoDup; [exact P|]. repeat constructor; cbn; intuition discriminate. }
  inversion N as [|? ? N1 N']; subst. inversion N' as [|? ? N2 _]; subst.
  cbn [In] in Ha, Hb, Hc, N1, N2.
  destruct Ha as [<-|[<-|[<-|[]]]]; destruct Hb as [<-|[<-|[<-|[]]]]; destruct Hc as [<-|[<-|[<-|[]]]];
    try (exfalso; tauto); tauto.
Qed.

Lemma int_component : forall other f cs texts,
  Forall (fun c => plain_spec f (fst c) (snd c)) cs ->
  render_all other f cs = Ok texts ->
  forall n t z, In (n, t) texts -> component f n = Ok (CInt z) -> py_int 10 t = Ok z.
Proof.
  intros other f cs texts P R. destruct (render_all_inv _ _ _ _ R) as [_ F2]. clear R.
  induction F2 as [|[n0 s0] [n1 t1] cs texts (En & v & C & F) F2 IH]; [intros n t z []|].
  inversion P as [|? ? Ps P']; subst. intros n t z [E|Hin] Hz; [|eapply IH; eauto].
  cbn [fst snd] in *. inversion E; subst. rewrite Hz in C. inversion C; subst.
  assert (Q : s0 = [] \/ exists w, zero_width s0 = Some w) by (destruct Ps as [?|[_ ?]]; auto).
  destruct (format_int _ _ _ _ F Q) as [w ->]. apply int_pad.
Qed.

Lemma str_component : forall other f cs texts,
  Forall (fun c => plain_spec f (fst c) (snd c)) cs ->
  render_all other f cs = Ok texts ->
  forall n t v, In (n, t) texts -> component f n = Ok v -> (forall z, v <> CInt z) ->
  format_value other v [] = Ok t.
Proof.
  intros other f cs texts P R. destruct (render_all_inv _ _ _ _ R) as [_ F2]. clear R.
  induction F2 as [|[n0 s0] [n1 t1] cs texts (En & v0 & C & F) F2 IH]; [intros n t v []|].
  inversion P as [|? ? Ps P']; subst. intros n t v [E|Hin] Hv NI; [|eapply IH; eauto].
  cbn [fst snd] in *. inversion E; subst. rewrite Hv in C. inversion C; subst.
  destruct Ps as [->|[[z Hz] _]]; [exact F|]. rewrite Hv in Hz. inversion Hz. now apply NI in H0.
Qed.

Lemma field_roundtrip : forall other f cs texts, field_ok f ->
  supported (class_of f) (map fst cs) ->
  Forall (fun c => plain_spec f (fst c) (snd c)) cs ->
  render_all other f cs = Ok texts -> from_components (class_of f) texts = Ok f.
Proof.
  intros other f cs texts OK S P R.
  assert (I := int_component _ _ _ _ P R). assert (T := str_component _ _ _ _ P R).
  destruct (render_all_inv _ _ _ _ R) as [M _]. rewrite <- M in S. clear M R P.
  assert (One : forall n, map fst texts = [n] -> exists t, texts = [(n, t)] /\ In (n, t) texts).
  { intros n E. destruct (single_name _ _ E) as [t ->]. exists t. split; [reflexivity|now left]. }
  destruct f as [y m d|w v|]; cbn [class_of] in *.
  - inversion S; subst.
    + destruct (One $"value" ltac:(symmetry; assumption)) as (t & -> & Hin).
      specialize (T _ _ (CDate y m d) Hin eq_refl ltac:(discriminate)). inversion T; subst.
      now apply iso_roundtrip.
    + destruct (One $"iso" ltac:(symmetry; assumption)) as (t & -> & Hin).
      specialize (T _ _ (CStr (isoformat y m d)) Hin eq_refl ltac:(discriminate)). inversion T; subst.
      now apply iso_roundtrip.
    + match goal with H : Permutation _ _ |- _ => rename H into Pm end.
      clear One T. assert (Q : forall ty tm td, py_int 10 ty = Ok y -> py_int 10 tm = Ok m ->
        py_int 10 td = Ok d ->
        bind (py_int 10 ty) (fun y => bind (py_int 10 tm) (fun m =>
        bind (py_int 10 td) (fun d => mk_date y m d))) = Ok (FDate y m d)).
      { intros ty tm td -> -> ->. cbn. unfold mk_date. cbn in OK. now rewrite OK. }
      destruct texts as [|[n1 t1] [|[n2 t2] [|[n3 t3] [|]]]];
        try (apply Permutation_length in Pm; discriminate).
      assert (I1 := I n1 t1). assert (I2 := I n2 t2). assert (I3 := I n3 t3).
      apply perm3 in Pm. cbn [map fst] in Pm.
      destruct Pm as [E|[E|[E|[E|[E|E]]]]]; inversion E; subst;
        cbn -[py_int mk_date]; apply Q;
        first [apply I1; [cbn; tauto|reflexivity]
              |apply I2; [cbn; tauto|reflexivity]
              |apply I3; [cbn; tauto|reflexivity]].
  - inversion S; subst.
    + destruct (One $"value" ltac:(symmetry; assumption)) as (t & -> & Hin).
      specialize (I _ _ v Hin eq_refl). cbn -[py_int]. unfold comp. cbn -[py_int]. now rewrite I.
    + destruct (One $"hex" ltac:(symmetry; assumption)) as (t & -> & Hin).
      specialize (T _ _ (CStr (py_hex v)) Hin eq_refl ltac:(discriminate)). inversion T; subst.
      cbn -[py_int py_hex]. unfold comp. cbn -[py_int py_hex]. now rewrite int_hex.
  - inversion S; subst. destruct (One $"value" ltac:(symmetry; assumption)) as (t & -> & Hin).
    specialize (T _ _ CNone Hin eq_refl ltac:(discriminate)). inversion T; subst. reflexivity.
Qed.

Lemma default_plain : forall f,
  Forall (fun c => plain_spec f (fst c) (snd c) /\ In (fst c) (components (class_of f)))
    (default_specs (class_of f)).
Proof.
  intros [y m d|w v|]; cbn [class_of default_specs];
    repeat (apply Forall_cons; [|]); try apply Forall_nil; cbn [fst snd].
  - split; [now left|cbn; tauto].
  - split; [|cbn; tauto]. right. split; [eexists; reflexivity|exists 2%nat; reflexivity].
  - split; [|cbn; tauto]. right. split; [eexists; reflexivity|exists 2%nat; reflexivity].
  - split; [now left|cbn; tauto].
  - split; [now left|cbn; tauto].
Qed.

Lemma default_roundtrip : forall other f, field_ok f ->
  exists texts, render_all other f (default_specs (class_of f)) = Ok texts /\
                from_components (class_of f) texts = Ok f.
Proof.
  intros other f OK. assert (P := default_plain f).
  destruct (render_all_ok other f _ P) as [texts R].
  exists texts. split; [exact R|]. apply (field_roundtrip other f (default_specs (class_of f)) texts OK); [| |exact R].
  - destruct f; cbn; try constructor. apply Permutation_refl.
  - eapply Forall_impl; [|exact P]. cbn. tauto.
Qed.

Lemma mk_date_inv : forall y m d f, mk_date y m d = Ok f -> f = FDate y m d /\ valid_date y m d = true.
Proof.
  intros y m d f E. unfold mk_date in E. destruct (valid_date y m d); inversion E. auto.
Qed.

Lemma iso_inv : forall s f, fromisoformat s = Ok f -> class_of f = DateField /\ field_ok f.
Proof.
  intros s f E.
  assert (Y : forall a b c, ymd a b c = Ok f -> class_of f = DateField /\ field_ok f).
  { intros a b c H. unfold ymd in H. destruct (_ && _ && _)%bool; [|discriminate].
    apply mk_date_inv in H. destruct H as [-> V]. split; [reflexivity|exact V]. }
  unfold fromisoformat in E.
  repeat (destruct s as [|? s]; try discriminate; try (eapply Y; exact E));
    try (destruct (_ && _)%bool; [|discriminate]; eapply Y; exact E).
Qed.

Lemma parsed_valid : forall c comps f, from_components c comps = Ok f -> class_of f = c /\ field_ok f.
Proof.
  intros [|w|] comps f E; cbn [from_components] in E.
  - destruct (names_are _ _); [now apply iso_inv in E|].
    destruct (names_are _ _); [now apply iso_inv in E|].
    destruct (names_are _ _); [|discriminate].
    destruct (py_int 10 (comp comps $"Y")); [|discriminate].
    destruct (py_int 10 (comp comps $"m")); [|discriminate].
    destruct (py_int 10 (comp comps $"d")); [|discriminate]. cbn [bind] in E.
    apply mk_date_inv in E. destruct E as [-> V]. split; [reflexivity|exact V].
  - destruct (names_are _ _).
    + destruct (py_int 10 _); inversion E. split; [reflexivity|exact I].
    + destruct (names_are _ _); [|discriminate].
      destruct (py_int 16 _); inversion E. split; [reflexivity|exact I].
  - destruct (names_are _ _); [|discriminate]. destruct (str_eqb _ _); inversion E.
    split; [reflexivity|exact I].
Qed.

Lemma texts_determine : forall other f g cs texts, field_ok f -> field_ok g ->
  class_of f = class_of g -> supported (class_of f) (map fst cs) ->
  Forall (fun c => plain_spec f (fst c) (snd c)) cs ->
  Forall (fun c => plain_spec g (fst c) (snd c)) cs ->
  render_all other f cs = Ok texts -> render_all other g cs = Ok texts -> f = g.
Proof.
  intros other f g cs texts Of Og C S Pf Pg Rf Rg.
  assert (Ef := field_roundtrip _ _ _ _ Of S Pf Rf). rewrite C in S, Ef.
  assert (Eg := field_roundtrip _ _ _ _ Og S Pg Rg). congruence.
Qed.

(** What is written as JSON is read. *)
From Coq Require Import ZArith NArith List Ascii String Bool Lia.
From Verif Require Import Base Str Base_Proofs Numerals_Model Numerals_Proofs IO_Model Json_Model Json_Spec Json_Text_Proofs.
Import ListNotations.
Open Scope list_scope.

Section ValueInd.
  Context {fl : floats} (P : value fl -> Prop)
    (Hnone : P VNone) (Hbool : forall b, P (VBool b)) (Hint : forall z, P (VInt z)) (Hfloat : forall x, P (VFloat x))
    (Htext : forall s, P (VText s))
    (Hlist : forall l, (forall x, In x l -> P x) -> P (VList l))
    (Htuple : forall l, (forall x, In x l -> P x) -> P (VTuple l))
    (Hdict : forall kvs, (forall k x, In (k, x) kvs -> P k /\ P x) -> P (VDict kvs))
    (Hset : forall b l, (forall x, In x l -> P x) -> P (VSet b l))
    (Hbytes : forall b, P (VBytes b)) (Hdate : forall y m d, P (VDate y m d)) (Hdatetime : forall s, P (VDatetime s)).
  Fixpoint value_nested_ind (v : value fl) : P v.
  Proof.
    assert (L : forall l, (forall x, In x l -> P x)) by
      (fix go 1; intros [|y l] x I; [destruct I|destruct I as [<-|I]; [apply value_nested_ind|exact (go l x I)]]).
    destruct v.
    - exact Hnone.
    - apply Hbool.
    - apply Hint.
    - apply Hfloat.
    - apply Htext.
    - apply Hlist. exact (fun x => (fix go l : In x l -> P x :=
        match l with [] => fun I => match I with end
                | y :: l' => fun I => match I with or_introl E => eq_ind y P (value_nested_ind y) x E | or_intror I' => go l' I' end end) l).
    - apply Htuple. exact (fun x => (fix go l : In x l -> P x :=
        match l with [] => fun I => match I with end
                | y :: l' => fun I => match I with or_introl E => eq_ind y P (value_nested_ind y) x E | or_intror I' => go l' I' end end) l).
    - apply Hdict. intros k x. exact ((fix go kvs : In (k, x) kvs -> P k /\ P x :=
        match kvs with [] => fun I => match I with end
                  | (k0, y) :: l' => fun I =>
                      match I with
                      | or_introl E => eq_ind (k0, y) (fun kx => P (fst kx) /\ P (snd kx)) (conj (value_nested_ind k0) (value_nested_ind y)) (k, x) E
                      | or_intror I' => go l' I' end end) kvs).
    - apply Hset. exact (fun x => (fix go l : In x l -> P x :=
        match l with [] => fun I => match I with end
                | y :: l' => fun I => match I with or_introl E => eq_ind y P (value_nested_ind y) x E | or_intror I' => go l' I' end end) l).
    - apply Hbytes.
    - apply Hdate.
    - apply Hdatetime.
  Defined.
End ValueInd.

(** * Writing *)

Section Emit.
  Context {fl : floats}.
  Notation value := (value fl).
  Fixpoint emit_items (sep : str) (l : list value) : written :=
    match l with [] => say $"]" | x :: l' => then_ (say sep) (then_ (emit x) (emit_items $", " l')) end.
  Fixpoint emit_members (sep : str) (kvs : list (value * value)) : written :=
    match kvs with
    | [] => say $"}"
    | kx :: kvs' => match key_text (fst kx) with
                    | Some k => then_ (say (sep ++ quoted k ++ $": ")) (then_ (emit (snd kx)) (emit_members $", " kvs'))
                    | None => give_up
                    end
    end.
  Lemma emit_list : forall l, emit (VList l) = then_ (say $"[") (emit_items [] l).
  Proof. reflexivity. Qed.
  Lemma emit_tuple : forall l, emit (VTuple l) = then_ (say $"[") (emit_items [] l).
  Proof. reflexivity. Qed.
  Lemma emit_dict : forall kvs, emit (VDict kvs) = then_ (say $"{") (emit_members [] kvs).
  Proof. reflexivity. Qed.

  Lemma then_say : forall s w, then_ (say s) w = (s ++ fst w, snd w).
  Proof. reflexivity. Qed.
  Lemma then_complete : forall a b, snd (then_ a b) = true <-> snd a = true /\ snd b = true.
  Proof. intros [a [|]] [b ob]; cbn; intuition discriminate. Qed.

  Lemma items_complete : forall l sep, snd (emit_items sep l) = true <-> forall x, In x l -> snd (emit x) = true.
  Proof.
    induction l as [|x l IH]; intro sep; cbn [emit_items].
    - split; [intros _ x []|reflexivity].
    - rewrite then_complete, then_complete, IH. split.
      + intros (_ & A & B) y [<-|I]; auto.
      + intro A. split; [reflexivity|]. split; [apply A; left; reflexivity|intros y I; apply A; right; exact I].
  Qed.
  Lemma key_as_text : forall (k : value) s, key_text k = Some s <-> key_as k s.
  Proof.
    intros k s. split.
    - destruct k as [|[|]| |x| | | | | | | |]; cbn [key_text bool_str]; intros [= <-]; try (constructor; fail). unfold float_str. destruct (kind fl x) eqn:K; [now apply ka_float|now apply ka_nan|now apply ka_inf|now apply ka_neg_inf].
    - destruct 1 as [| | | | |x r K|x K|x K|x K]; try reflexivity; cbn [key_text]; unfold float_str; now rewrite K.
  Qed.
  Lemma members_complete : forall kvs sep, snd (emit_members sep kvs) = true <->
    forall k x, In (k, x) kvs -> key_text k <> None /\ snd (emit x) = true.
  Proof.
    induction kvs as [|[k0 x0] kvs IH]; intro sep; cbn [emit_members fst snd].
    - split; [intros _ k x []|reflexivity].
    - destruct (key_text k0) as [s|] eqn:K.
      + rewrite then_complete, then_complete, IH. split.
        * intros (_ & A & B) k x [E|I]; [injection E as <- <-; split; [congruence|exact A]|apply B; exact I].
        * intro A. split; [reflexivity|]. split; [apply (A k0 x0); left; reflexivity|intros k x I; apply A; right; exact I].
      + split; [discriminate|]. intro A. destruct (A k0 x0 (or_introl eq_refl)) as [N _]. congruence.
  Qed.
  Lemma emit_complete : forall v : value, snd (emit v) = true <-> encodable v.
  Proof.
    apply value_nested_ind; try (intros; split; [constructor|reflexivity]); try (intros; split; [discriminate|intro En; inversion En]).
    - intros l IH. rewrite emit_list, then_complete, items_complete. split.
      + intros [_ A]. constructor. intros x I. apply IH; auto.
      + intro H. inversion H; subst. split; [reflexivity|]. intros x I. apply IH; auto.
    - intros l IH. rewrite emit_tuple, then_complete, items_complete. split.
      + intros [_ A]. constructor. intros x I. apply IH; auto.
      + intro H. inversion H; subst. split; [reflexivity|]. intros x I. apply IH; auto.
    - intros kvs IH. rewrite emit_dict, then_complete, members_complete. split.
      + intros [_ A]. constructor; intros k x I; destruct (A k x I) as [N C]; [destruct (key_text k) as [s|] eqn:Q; [exists s; now apply key_as_text|congruence]|]. apply (IH k x I). exact C.
      + intro H. inversion H as [| | | | | | |? A B]; subst. split; [reflexivity|]. intros k x I. split; [destruct (A k x I) as (s & Q); apply key_as_text in Q; congruence|]. apply (IH k x I). exact (B k x I).
  Qed.
  Lemma dumps_encodable : forall v : value, (exists c, dumps v = Ok c) <-> encodable v.
  Proof.
    intro v. rewrite <- emit_complete. unfold dumps. destruct (emit v) as [c [|]]; cbn.
    - split; [reflexivity|intros _; eauto].
    - split; [intros (x & E); discriminate E|discriminate].
  Qed.
  Lemma dumps_fails : forall v : value, ~ encodable v <-> dumps v = Err TypeError.
  Proof.
    intro v. rewrite <- emit_complete. unfold dumps. destruct (emit v) as [c [|]]; cbn; split; congruence.
  Qed.
End Emit.

(** * Reading what was written *)

Section Scan.
  Context {fl : floats} (Laws : float_laws fl).
  Notation value := (value fl).

  Lemma scan_value_number : forall n s (x : value * str), scan_number s = Some x -> scan_value (S n) s = Some x.
  Proof.
    intros n [|c s] x E; [discriminate E|]. cbn [scan_value].
    destruct (Ascii.eqb_spec c """") as [->|_]; [discriminate E|]. destruct (Ascii.eqb_spec c "[") as [->|_]; [discriminate E|].
    destruct (Ascii.eqb_spec c "{") as [->|_]; [discriminate E|]. rewrite E. reflexivity.
  Qed.

  Lemma scan_array : forall n s, scan_value (S n) ("["%char :: s) =
    match skip_ws s with
    | [] => None
    | d :: r => if Ascii.eqb d "]" then Some (VList [], r)
                else option_map (fun x => (VList (fst x), snd x)) (scan_items (fl := fl) n (d :: r))
    end.
  Proof. reflexivity. Qed.
  Lemma scan_object : forall n s, scan_value (S n) ("{"%char :: s) =
    match skip_ws s with
    | [] => None
    | d :: r => if Ascii.eqb d "}" then Some (VDict [], r)
                else option_map (fun x => (dict_value (fst x), snd x)) (scan_members (fl := fl) n (d :: r))
    end.
  Proof. reflexivity. Qed.

  Definition begins (c : str) : Prop := exists h t, c = h :: t /\ is_ws h = false /\ h <> "]"%char /\ h <> "}"%char.
  Definition scanned (v : value) : Prop :=
    exists c v', emit v = (c, true) /\ begins c /\ reads_as v v' /\
      forall n r, (2 * List.length c <= n)%nat -> ends_number r -> scan_value n (c ++ r) = Some (v', r).

  Lemma scanned_word : forall v v' c, emit v = (c, true) -> begins c -> reads_as v v' ->
    (forall n r, scan_value (S n) (c ++ r) = Some (v', r)) -> scanned v.
  Proof.
    intros v v' c E B R W. exists c, v'. split; [exact E|]. split; [exact B|]. split; [exact R|]. intros n r L _.
    destruct n as [|n]; [|apply W]. destruct B as (h & t & -> & _). cbn in L. lia.
  Qed.
  Lemma digit_begins : forall c, is_digit c = true -> is_ws c = false /\ c <> "]"%char /\ c <> "}"%char.
  Proof.
    intros c D. split; [|split; intros ->; discriminate D]. apply is_digit_spec in D. unfold is_ws.
    repeat (apply orb_false_iff; split); apply N.eqb_neq; lia.
  Qed.
  Lemma number_begins : forall sign i r, sign = [] \/ sign = $"-" -> integer_text i -> begins (sign ++ i ++ r).
  Proof.
    intros sign i r [->| ->] [D _].
    - destruct i as [|c i]; [destruct D; congruence|]. exists c, (i ++ r). split; [reflexivity|]. apply digit_begins. apply (decimal_digit _ D). left. reflexivity.
    - exists "-"%char, (i ++ r). split; [reflexivity|]. repeat split; discriminate.
  Qed.
  Lemma scanned_number : forall v c, emit v = (c, true) -> begins c -> reads_as v v ->
    (forall r, ends_number r -> scan_number (c ++ r) = Some (v, r)) -> scanned v.
  Proof.
    intros v c E B R W. exists c, v. split; [exact E|]. split; [exact B|]. split; [exact R|]. intros n r L En.
    destruct n as [|n]; [|apply scan_value_number; apply W; exact En]. destruct B as (h & t & -> & _). cbn in L. lia.
  Qed.
  Lemma scanned_none : scanned VNone.
  Proof. apply (scanned_word VNone VNone $"null"); [reflexivity|exists "n"%char, $"ull"; repeat split; discriminate|constructor|reflexivity]. Qed.
  Lemma scanned_bool : forall b, scanned (VBool b).
  Proof.
    intros [|].
    - apply (scanned_word _ (VBool true) $"true"); [reflexivity|exists "t"%char, $"rue"; repeat split; discriminate|constructor|reflexivity].
    - apply (scanned_word _ (VBool false) $"false"); [reflexivity|exists "f"%char, $"alse"; repeat split; discriminate|constructor|reflexivity].
  Qed.
  Lemma scanned_int : forall z, scanned (VInt z).
  Proof.
    intro z. apply (scanned_number (VInt z) (py_str z)); [reflexivity| |constructor|intros r En; apply scan_int; exact En].
    destruct (py_str_text z) as (sign & i & E & Sg & I). rewrite E, <- (app_nil_r i). apply number_begins; assumption.
  Qed.
  Lemma scanned_float : forall x, scanned (VFloat x).
  Proof.
    intro x. pose proof (Laws x) as Lx. assert (Ex : emit (VFloat x) = (float_str x, true)) by reflexivity. unfold float_str in Ex.
    destruct (kind fl x) as [t| | |] eqn:K.
    - destruct Lx as [T Ox]. apply (scanned_number (VFloat x) t); [exact Ex| |constructor|].
      + destruct T as (sign & i & f & e & -> & Sg & I & _). apply number_begins; assumption.
      + intros r En. rewrite scan_float by assumption. rewrite Ox. reflexivity.
    - subst x. apply (scanned_word _ (VFloat (nan fl)) $"NaN"); [exact Ex|exists "N"%char, $"aN"; repeat split; discriminate|constructor|reflexivity].
    - subst x. apply (scanned_word _ (VFloat (inf fl)) $"Infinity"); [exact Ex|exists "I"%char, $"nfinity"; repeat split; discriminate|constructor|reflexivity].
    - subst x. apply (scanned_word _ (VFloat (neg_inf fl)) $"-Infinity"); [exact Ex|exists "-"%char, $"Infinity"; repeat split; discriminate|constructor|reflexivity].
  Qed.
  Lemma scan_quoted_text : forall s r, unicode s -> exists t, quoted s ++ r = """"%char :: t /\ scan_string t = Some (joined s, r).
  Proof.
    intros s r U. unfold quoted. exists (flat_map escaped s ++ $"""" ++ r). split.
    - cbn [app S_ list_ascii_of_string]. rewrite <- app_assoc. reflexivity.
    - apply (scan_quoted (List.length s)); [apply le_n|exact U].
  Qed.
  Lemma scanned_text : forall s, unicode s -> scanned (VText s).
  Proof.
    intros s U. apply (scanned_word _ (VText (joined s)) (quoted s)); [reflexivity|exists """"%char, (flat_map escaped s ++ $""""); repeat split; discriminate|constructor|].
    intros n r. destruct (scan_quoted_text s r U) as (t & -> & E). cbn [scan_value]. change (Ascii.eqb """" """") with true. cbv iota. rewrite E. reflexivity.
  Qed.

  Lemma skip_begins : forall c r, begins c -> skip_ws (c ++ r) = c ++ r.
  Proof. intros c r (h & t & -> & W & _). cbn. rewrite W. reflexivity. Qed.

  (** The items of a list after the bracket or a comma. *)
  Lemma scanned_items : forall l x, (forall y, In y (x :: l) -> scanned y) ->
    exists c l', (forall sep, emit_items sep (x :: l) = (sep ++ c, true)) /\ begins c /\ Forall2 reads_as (x :: l) l' /\
      forall n r, (2 * List.length c + 1 <= n)%nat -> scan_items n (c ++ r) = Some (l', r).
  Proof.
    induction l as [|y l IH]; intros x Sc.
    - destruct (Sc x (or_introl eq_refl)) as (c & v' & E & B & R & W).
      exists (c ++ $"]"), [v']. split; [|split; [|split]].
      + intro sep. cbn [emit_items]. rewrite E. reflexivity.
      + destruct B as (h & t & -> & B). exists h, (t ++ $"]"). split; [reflexivity|exact B].
      + constructor; [exact R|constructor].
      + intros [|n] r L; [lia|]. rewrite app_length in L. cbn [scan_items]. rewrite <- app_assoc, W; [reflexivity|cbn in L; lia|].
        repeat split; discriminate.
    - destruct (Sc x (or_introl eq_refl)) as (c & v' & E & B & R & W).
      destruct (IH y) as (c2 & l' & E2 & B2 & R2 & W2); [intros z I; apply Sc; right; exact I|].
      exists (c ++ $", " ++ c2), (v' :: l'). split; [|split; [|split]].
      + intro sep. change (emit_items sep (x :: y :: l)) with (then_ (say sep) (then_ (emit x) (emit_items $", " (y :: l)))).
        rewrite E, E2. unfold then_, say. cbn [fst snd]. reflexivity.
      + destruct B as (h & t & -> & B). exists h, (t ++ $", " ++ c2). split; [reflexivity|exact B].
      + constructor; assumption.
      + intros [|n] r L; [lia|]. rewrite !app_length in L. cbn [List.length S_ list_ascii_of_string] in L. cbn [scan_items]. rewrite <- !app_assoc, W; [|lia|repeat split; discriminate].
        cbn [app S_ list_ascii_of_string]. change (skip_ws (","%char :: " "%char :: c2 ++ r)) with (","%char :: " "%char :: c2 ++ r). cbv iota beta.
        change (Ascii.eqb "," "]") with false. change (Ascii.eqb "," ",") with true. cbv iota.
        change (skip_ws (" "%char :: c2 ++ r)) with (skip_ws (c2 ++ r)). rewrite (skip_begins c2 r B2), W2 by lia. reflexivity.
  Qed.
  Lemma scanned_array : forall l, (forall y, In y l -> scanned y) ->
    exists c l', then_ (say $"[") (emit_items [] l) = (c, true) /\ begins c /\ Forall2 reads_as l l' /\
      forall n r, (2 * List.length c <= n)%nat -> scan_value n (c ++ r) = Some (VList l', r).
  Proof.
    intros [|x l] Sc.
    - exists $"[]", []. split; [reflexivity|]. split; [exists "["%char, $"]"; repeat split; discriminate|]. split; [constructor|].
      intros [|n] r L; [cbn in L; lia|]. reflexivity.
    - destruct (scanned_items l x Sc) as (c & l' & E & B & R & W).
      exists ($"[" ++ c), l'. split; [rewrite E; reflexivity|]. split; [exists "["%char, c; repeat split; discriminate|]. split; [exact R|].
      intros [|n] r L; [cbn in L; lia|]. cbn [List.length app S_ list_ascii_of_string] in *.
      rewrite scan_array, (skip_begins c r B).
      assert (Wn : scan_items n (c ++ r) = Some (l', r)) by (apply W; lia).
      destruct B as (h & t & -> & _ & N & _). cbn [app] in *. destruct (Ascii.eqb_spec h "]") as [->|_]; [contradiction|].
      rewrite Wn. reflexivity.
  Qed.

  (** The members of a dict after the brace or a comma. *)
  Lemma scanned_members : forall l kx, (forall k x, In (k, x) (kx :: l) -> scanned x /\ exists s, key_text k = Some s /\ unicode s) ->
    exists c l', (forall sep, emit_members sep (kx :: l) = (sep ++ c, true)) /\ (exists t, c = """"%char :: t) /\
      Forall2 (fun kx py => key_as (fst kx) (fst py) /\ reads_as (snd kx) (snd py)) (kx :: l) l' /\
      forall n r, (2 * List.length c + 1 <= n)%nat -> scan_members n (c ++ r) = Some (map (fun py => (joined (fst py), snd py)) l', r).
  Proof.
    induction l as [|kx2 l IH]; intros [k x] Sc.
    - destruct (Sc k x (or_introl eq_refl)) as ((c & v' & E & B & R & W) & s & K & U).
      exists (quoted s ++ $": " ++ c ++ $"}"), [(s, v')]. split; [|split; [|split]].
      + intro sep. cbn [emit_members fst snd]. rewrite K, E. unfold then_, say. cbn [fst snd]. rewrite <- !app_assoc. reflexivity.
      + eexists. reflexivity.
      + constructor; [split; [apply key_as_text; exact K|exact R]|constructor].
      + intros [|n] r L; [lia|]. rewrite !app_length in L. cbn [List.length S_ list_ascii_of_string] in L.
        rewrite <- !app_assoc. destruct (scan_quoted_text s ($": " ++ c ++ $"}" ++ r) U) as (t & Et & Es).
        rewrite Et. cbn [scan_members]. change (Ascii.eqb """" """") with true. cbv iota. rewrite Es.
        change (skip_ws ($": " ++ c ++ $"}" ++ r)) with (":"%char :: " "%char :: c ++ $"}" ++ r). cbv iota beta.
        change (Ascii.eqb ":" ":") with true. cbv iota.
        change (skip_ws (" "%char :: c ++ $"}" ++ r)) with (skip_ws (c ++ $"}" ++ r)). rewrite (skip_begins c _ B).
        rewrite W; [reflexivity|lia|repeat split; discriminate].
    - destruct (Sc k x (or_introl eq_refl)) as ((c & v' & E & B & R & W) & s & K & U).
      destruct (IH kx2) as (c2 & l' & E2 & (t2 & B2) & R2 & W2); [intros z z2 I; apply Sc; right; exact I|].
      exists (quoted s ++ $": " ++ c ++ $", " ++ c2), ((s, v') :: l'). split; [|split; [|split]].
      + intro sep. change (emit_members sep ((k, x) :: kx2 :: l)) with
          (match key_text k with
           | Some k => then_ (say (sep ++ quoted k ++ $": ")) (then_ (emit x) (emit_members $", " (kx2 :: l)))
           | None => give_up end).
        rewrite K, E, E2. unfold then_, say. cbn [fst snd]. rewrite <- !app_assoc. reflexivity.
      + eexists. reflexivity.
      + constructor; [split; [apply key_as_text; exact K|exact R]|exact R2].
      + intros [|n] r L; [lia|]. rewrite !app_length in L. cbn [List.length S_ list_ascii_of_string] in L.
        rewrite <- !app_assoc. destruct (scan_quoted_text s ($": " ++ c ++ $", " ++ c2 ++ r) U) as (t & Et & Es).
        rewrite Et. cbn [scan_members]. change (Ascii.eqb """" """") with true. cbv iota. rewrite Es.
        change (skip_ws ($": " ++ c ++ $", " ++ c2 ++ r)) with (":"%char :: " "%char :: c ++ $", " ++ c2 ++ r). cbv iota beta.
        change (Ascii.eqb ":" ":") with true. cbv iota.
        change (skip_ws (" "%char :: c ++ $", " ++ c2 ++ r)) with (skip_ws (c ++ $", " ++ c2 ++ r)). rewrite (skip_begins c _ B).
        rewrite W; [|lia|repeat split; discriminate].
        change (skip_ws ($", " ++ c2 ++ r)) with (","%char :: " "%char :: c2 ++ r). cbv iota beta.
        change (Ascii.eqb "," "}") with false. change (Ascii.eqb "," ",") with true. cbv iota.
        assert (Wn : skip_ws (" "%char :: c2 ++ r) = c2 ++ r) by (rewrite B2; reflexivity). rewrite Wn, W2 by lia. reflexivity.
  Qed.

  Lemma key_unicode : forall (k : value) s, all_texts unicode k -> key_text k = Some s -> unicode s.
  Proof.
    intros k s A K. inversion A; subst; cbn [key_text] in K; inversion K; subst; first [apply of_str_unicode|assumption|exact (of_str_unicode $"null")].
  Qed.

  Lemma scanned_dict : forall kvs, (forall k x, In (k, x) kvs -> scanned x /\ exists s, key_text k = Some s /\ unicode s) -> scanned (VDict kvs).
  Proof.
    intros [|kx kvs] Sc.
    - apply (scanned_word (VDict []) (VDict []) $"{}"); [reflexivity|exists "{"%char, $"}"; repeat split; discriminate|exact (ra_dict [] [] (Forall2_nil _))|reflexivity].
    - destruct (scanned_members kvs kx Sc) as (c & l' & E & (t & B) & R & W).
      exists ($"{" ++ c), (dict_value (map (fun py => (joined (fst py), snd py)) l')).
      split; [rewrite emit_dict, E; reflexivity|]. split; [exists "{"%char, c; repeat split; discriminate|]. split; [exact (ra_dict _ _ R)|].
      intros [|n] r L _; [cbn in L; lia|]. cbn [List.length app S_ list_ascii_of_string] in *. rewrite scan_object.
      assert (Wn : scan_members n (c ++ r) = Some (map (fun py => (joined (fst py), snd py)) l', r)) by (apply W; lia).
      rewrite B in *. cbn [app] in *. change (skip_ws (""""%char :: t ++ r)) with (""""%char :: t ++ r). cbv iota beta. change (Ascii.eqb """" "}") with false. cbv iota.
      rewrite Wn. reflexivity.
  Qed.

  Lemma encodable_scanned : forall v, encodable v -> all_texts unicode v -> scanned v.
  Proof.
    induction 1 as [|b|z|x|s|l _ IH|l _ IH|kvs En _ IH]; intro U.
    - exact scanned_none.
    - apply scanned_bool.
    - apply scanned_int.
    - apply scanned_float.
    - apply scanned_text. inversion U; assumption.
    - inversion U; subst. destruct (scanned_array l) as (c & l' & E & B & R & W); [intros y I; apply IH; auto|].
      exists c, (VList l'). rewrite emit_list. split; [exact E|]. split; [exact B|]. split; [constructor; exact R|]. intros n r L _. apply W. exact L.
    - inversion U; subst. destruct (scanned_array l) as (c & l' & E & B & R & W); [intros y I; apply IH; auto|].
      exists c, (VList l'). rewrite emit_tuple. split; [exact E|]. split; [exact B|]. split; [constructor; exact R|]. intros n r L _. apply W. exact L.
    - inversion U as [| | | | | | |? Uk| | | |]; subst. apply scanned_dict. intros k x I. destruct (Uk k x I) as [U1 U2].
      destruct (En k x I) as (s & K). apply key_as_text in K. split; [apply (IH k x I); exact U2|].
      exists s. split; [exact K|]. exact (key_unicode k s U1 K).
  Qed.

  Lemma loads_written : forall (v : value) c, all_texts unicode v -> dumps v = Ok c -> exists v', reads_as v v' /\ loads c = Ok v'.
  Proof.
    intros v c U D. assert (En : encodable v) by (apply dumps_encodable; eauto).
    destruct (encodable_scanned v En U) as (c' & v' & E & B & R & W). unfold dumps in D. rewrite E in D. injection D as <-.
    exists v'. split; [exact R|]. unfold loads. pose proof (skip_begins c' [] B) as Sk. pose proof (W (2 * List.length c' + 1)%nat [] ltac:(lia) Logic.I) as Wn.
    rewrite app_nil_r in Sk, Wn. rewrite Sk, Wn. reflexivity.
  Qed.
End Scan.

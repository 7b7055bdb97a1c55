(** Lemmas about generating, matching and parsing paths. *)
From Coq Require Import ZArith NArith List Ascii String Bool Lia Arith Permutation.
From Verif Require Import Base Base_Proofs Str Str_Proofs Numerals_Model Numerals_Proofs
  Partitions_Model Partitions_Spec Partitions_Proofs
  Format_Model Template_Spec Template_Proofs Format_Proofs Storage_Model Storage_Spec Resolve_Proofs
  Int64_Model Paths_Spec.
Import ListNotations.
Open Scope nat_scope.
Open Scope list_scope.

(** * Characters of the texts *)

Definition decs : str := $"0123456789".

Lemma digit_char_in : forall d, (d < 10)%N -> In (digit_char d) decs.
Proof.
  intros d H. assert (S : (d < 16)%N) by lia. apply small_cases in S. cbn [In] in S.
  repeat (destruct S as [<-|S]; [vm_compute; tauto || (exfalso; lia)|]). destruct S.
Qed.

Lemma hex_char_in : forall d, (d < 16)%N -> In (digit_char d) $"0123456789abcdefx".
Proof.
  intros d S. apply small_cases in S. cbn [In] in S.
  repeat (destruct S as [<-|S]; [vm_compute; tauto|]). destruct S.
Qed.

Lemma str_N_decs : forall n, Forall (fun c => In c decs) (str_N 10 n).
Proof.
  intro n. eapply Forall_impl; [|apply (str_N_chars 10 n); lia]. intros c (d & H & ->). now apply digit_char_in.
Qed.

Lemma str_N_hex : forall n, Forall (fun c => In c $"0123456789abcdefx") (str_N 16 n).
Proof.
  intro n. eapply Forall_impl; [|apply (str_N_chars 16 n); lia]. intros c (d & H & ->). now apply hex_char_in.
Qed.

Lemma zeros_decs : forall k, Forall (fun c => In c decs) (repeat "0"%char k).
Proof. intro k. apply Forall_forall. intros c H. apply repeat_spec in H. subst. vm_compute. tauto. Qed.

Lemma decs_first : forall c, In c decs -> In c $"-0123456789N".
Proof. intros c H. cbn in *. tauto. Qed.
Lemma decs_iso : forall c, In c decs -> In c $"0123456789-".
Proof. intros c H. cbn in *. tauto. Qed.

(** A text: a first character, then characters of an alphabet. *)
Definition text_of (chars : str) (s : str) : Prop :=
  exists c r, s = c :: r /\ In c $"-0123456789N" /\ Forall (fun c => In c chars) r.

Lemma decs_text : forall chars s, s <> [] -> (forall c, In c decs -> In c chars) ->
  Forall (fun c => In c decs) s -> text_of chars s.
Proof.
  intros chars [|c r] N I F; [congruence|]. inversion F as [|? ? Hc F']; subst. exists c, r.
  split; [reflexivity|]. split; [now apply decs_first|].
  eapply Forall_impl; [|exact F']. auto.
Qed.

Lemma app_nonempty : forall (a b : str), b <> [] -> a ++ b <> [].
Proof. intros a b N E. apply app_eq_nil in E. tauto. Qed.

Lemma pad_text : forall w z, text_of decs (py_pad w z) /\ w <= List.length (py_pad w z).
Proof.
  intros w z.
  assert (P : forall k n, text_of decs (repeat "0"%char k ++ str_N 10 n)).
  { intros k n. apply decs_text; [apply app_nonempty, str_N_nonempty|auto|].
    apply Forall_app. split; [apply zeros_decs|apply str_N_decs]. }
  destruct z as [|p|p]; cbn [py_pad]; (split; [|cbn [List.length]; rewrite app_length, repeat_length; lia]);
    try apply P.
  exists "-"%char. eexists. split; [reflexivity|]. split; [now left|].
  apply Forall_app. split; [apply zeros_decs|apply str_N_decs].
Qed.

Lemma py_str_pad : forall z, py_str z = py_pad 0 z.
Proof. intros [|p|p]; reflexivity. Qed.

Lemma pad_decs : forall w z, (0 <= z)%Z -> Forall (fun c => In c decs) (py_pad w z) /\ py_pad w z <> [].
Proof.
  intros w z H. destruct z as [|p|p]; [| |lia]; cbn [py_pad];
    (split; [apply Forall_app; split; [apply zeros_decs|apply str_N_decs]|apply app_nonempty, str_N_nonempty]).
Qed.

Lemma iso_text : forall y m d, valid_date y m d = true -> text_of $"0123456789-" (isoformat y m d).
Proof.
  intros y m d V. destruct (valid_bounds y m d V) as (Hy & Hm & Hd). unfold isoformat.
  destruct (pad_decs 4 y ltac:(lia)) as [Fy Ny]. destruct (pad_decs 2 m ltac:(lia)) as [Fm _].
  destruct (pad_decs 2 d ltac:(lia)) as [Fd _].
  destruct (py_pad 4 y) as [|c r]; [congruence|]. inversion Fy as [|? ? Hc Fr]; subst.
  exists c. eexists. split; [reflexivity|]. split; [now apply decs_first|].
  assert (W : forall s, Forall (fun c => In c decs) s -> Forall (fun c => In c $"0123456789-") s).
  { intros s F. eapply Forall_impl; [|exact F]. exact decs_iso. }
  apply Forall_app. split; [now apply W|]. constructor; [vm_compute; tauto|].
  apply Forall_app. split; [now apply W|]. constructor; [vm_compute; tauto|]. now apply W.
Qed.

Lemma hex_text : forall z, text_of $"0123456789abcdefx" (py_hex z).
Proof.
  intros [|p|p]; cbn [py_hex].
  - exists "0"%char. eexists. split; [reflexivity|]. split; [vm_compute; tauto|].
    constructor; [vm_compute; tauto|]. apply (str_N_hex 0).
  - exists "0"%char. eexists. split; [reflexivity|]. split; [vm_compute; tauto|].
    constructor; [vm_compute; tauto|]. apply (str_N_hex (Npos p)).
  - exists "-"%char. eexists. split; [reflexivity|]. split; [vm_compute; tauto|].
    constructor; [vm_compute; tauto|]. constructor; [vm_compute; tauto|]. apply (str_N_hex (Npos p)).
Qed.

Lemma text_nonempty : forall chars s, text_of chars s -> s <> [].
Proof. intros chars s (c & r & -> & _). discriminate. Qed.

(** * The text of a component *)

Lemma zero_width_inv : forall spec w, zero_width spec = Some w ->
  exists ws, spec = "0"%char :: ws /\ all_digits ws = true /\ w = Z.to_nat (digits_value ws).
Proof.
  intros [|z ws] w H; [discriminate|]. cbn in H. destruct (Ascii.eqb_spec z "0"%char) as [->|]; [|discriminate].
  cbn [andb] in H. destruct (all_digits ws) eqn:A; [|discriminate]. inversion H. eauto.
Qed.

Lemma min_length_nil : min_length [] = 1.
Proof. reflexivity. Qed.

Lemma min_length_zero : forall spec w, zero_width spec = Some w -> min_length spec = Nat.max 1 w.
Proof.
  intros spec w H. apply zero_width_inv in H. destruct H as (ws & -> & A & ->). unfold min_length.
  assert (E : all_digits ("0"%char :: ws) = true) by (cbn; exact A). rewrite E. f_equal. f_equal.
  unfold digits_value. cbn [parse_digits].
  change (Ascii.eqb "0" "_") with false. change (char_digit 10 "0") with (Some 0%N). cbn iota.
  destruct ws as [|c ws]; [reflexivity|]. cbn [parse_digits].
  destruct (Ascii.eqb_spec c "_"%char) as [->|N]; [discriminate|reflexivity].
Qed.

Section Paths.
  Context (other : cvalue -> str -> result str).
  Notation render fp key h := (format_final other fp key (h_name h) (h_accs h) None (h_spec h)).

  Lemma component_text : forall f c spec, field_ok f -> In c (components (class_of f)) ->
    spec_for (class_of f) c spec ->
    exists v s, component f c = Ok v /\ format_value other v spec = Ok s /\
      text_of (tail_chars (class_of f) c) s /\ min_length spec <= List.length s.
  Proof.
    intros f c spec OK I S.
    assert (L : forall chars s, text_of chars s -> spec = [] -> min_length spec <= List.length s).
    { intros chars s (x & r & -> & _) ->. rewrite min_length_nil. cbn. lia. }
    assert (Z : forall z, spec = [] \/ (exists w, zero_width spec = Some w) ->
      exists s, format_value other (CInt z) spec = Ok s /\ text_of decs s /\ min_length spec <= List.length s).
    { intros z [->|[w Hw]].
      - exists (py_pad 0 z). cbn [format_value]. rewrite py_str_pad. destruct (pad_text 0 z) as [T _].
        split; [reflexivity|]. split; [exact T|]. destruct T as (x & r & -> & _). rewrite min_length_nil. cbn. lia.
      - exists (py_pad w z). rewrite (min_length_zero spec w Hw). destruct (pad_text w z) as [T G].
        split.
        + unfold format_value. destruct spec; [discriminate|]. now rewrite Hw.
        + split; [exact T|]. destruct T as (x & r & E & _). rewrite E in *. cbn [List.length] in *. lia. }
    destruct f as [y m d|w v|]; cbn [class_of components In] in I; cbn [class_of spec_for int_component] in S.
    - destruct I as [<-|[<-|[<-|[<-|[<-|[]]]]]]; cbn [component].
      + destruct S as [->|[[S|[S|S]] _]]; try discriminate.
        exists (CDate y m d), (isoformat y m d). split; [reflexivity|]. split; [reflexivity|].
        assert (T := iso_text y m d OK). split; [exact T|]. eapply L; [exact T|reflexivity].
      + destruct (Z y) as (s & E & T & G); [destruct S as [S|[_ S]]; auto|].
        exists (CInt y), s. auto.
      + destruct (Z m) as (s & E & T & G); [destruct S as [S|[_ S]]; auto|].
        exists (CInt m), s. auto.
      + destruct (Z d) as (s & E & T & G); [destruct S as [S|[_ S]]; auto|].
        exists (CInt d), s. auto.
      + destruct S as [->|[[S|[S|S]] _]]; try discriminate.
        exists (CStr (isoformat y m d)), (isoformat y m d). split; [reflexivity|]. split; [reflexivity|].
        assert (T := iso_text y m d OK). split; [exact T|]. eapply L; [exact T|reflexivity].
    - destruct I as [<-|[<-|[]]]; cbn [component].
      + destruct (Z v) as (s & E & T & G); [destruct S as [S|[_ S]]; auto|].
        exists (CInt v), s. auto.
      + destruct S as [->|[S _]]; [|discriminate].
        exists (CStr (py_hex v)), (py_hex v). split; [reflexivity|]. split; [reflexivity|].
        assert (T := hex_text v). split; [exact T|]. eapply L; [exact T|reflexivity].
    - destruct I as [<-|[]]. destruct S as [->|[[] _]].
      exists CNone, $"None". split; [reflexivity|]. split; [reflexivity|]. split.
      + exists "N"%char, $"one". split; [reflexivity|]. split; [vm_compute; tauto|].
        repeat constructor; vm_compute; tauto.
      + vm_compute. lia.
  Qed.

  Lemma hole_text : forall kts fp key h, key_ok kts key -> path_hole kts h ->
    (h = fp_hole -> fp <> None) ->
    exists s, render fp key h = Ok s /\ text_of (hole_chars kts h) s /\ min_length (h_spec h) <= List.length s.
  Proof.
    intros kts fp key h [N K] [->|(cls & c & Ea & Ek & Ic & S & W & D & NE)] G.
    - specialize (G eq_refl). destruct fp as [z|]; [|congruence].
      exists (py_str z). split; [reflexivity|]. rewrite py_str_pad. destruct (pad_text 0 z) as [T _].
      split; [exact T|]. cbn [fp_hole h_spec]. rewrite min_length_nil.
      destruct T as (x & r & -> & _). cbn. lia.
    - unfold format_final. rewrite (eqb_neq _ str_eqb_spec) by exact NE.
      assert (M := N (h_name h)). unfold dmem in M. rewrite Ek in M.
      destruct (dget str_eqb key (h_name h)) as [f|] eqn:E; [|discriminate].
      destruct (K _ _ E) as [OK C]. rewrite Ek in C. inversion C; subst cls.
      destruct (component_text f c (h_spec h) OK Ic S) as (v & s & E1 & E2 & T & L).
      exists s. rewrite Ea, E1. cbn [bind]. rewrite E2. split; [reflexivity|].
      unfold hole_chars. rewrite Ea, Ek. auto.
  Qed.

  (** * Generating *)

  Definition path_of (tau : hole -> str) (t : template) : str :=
    flat_map (fun x => match x with TLit s => s | THole h => tau h end) t.

  Definition tau_of (fp : option Z) (key : pkey) (h : hole) : str :=
    match render fp key h with Ok s => s | Err _ => [] end.

  Lemma is_word_ok : forall c, is_word c = true -> ~ In c $"{}[].:!".
  Proof. intros c H I. cbn in I. repeat (destruct I as [<-|I]; [discriminate|]). destruct I. Qed.

  Lemma word_avoids : forall s, word s -> avoids $"{}[].:!" s.
  Proof. intros s [_ F]. eapply Forall_impl; [|exact F]. apply is_word_ok. Qed.

  Lemma component_words : forall cls c, In c (components cls) -> word c /\ attr_ok c.
  Proof.
    intros cls c I. assert (H : In c [$"value"; $"Y"; $"m"; $"d"; $"iso"; $"hex"]).
    { destruct cls; cbn [components In] in *; tauto. }
    clear I. cbn [In] in H.
    repeat (destruct H as [<-|H];
      [split; [split; [discriminate|repeat constructor]
              |split; [discriminate|split; [repeat constructor; cbn; intuition discriminate|reflexivity]]]|]).
    destruct H.
  Qed.

  Lemma zero_spec_avoids : forall spec w, zero_width spec = Some w -> avoids $"{}" spec.
  Proof.
    intros spec w H. apply zero_width_inv in H. destruct H as (ws & -> & A & _).
    constructor; [cbn; intuition discriminate|]. unfold all_digits in A. rewrite forallb_forall in A.
    apply Forall_forall. intros c Hc I. specialize (A c Hc). cbn in I.
    repeat (destruct I as [<-|I]; [discriminate|]). destruct I.
  Qed.

  Lemma path_hole_ok : forall kts h, path_hole kts h -> hole_ok h.
  Proof.
    intros kts h [->|(cls & c & Ea & Ek & Ic & S & W & D & NE)].
    - repeat constructor; cbn; try congruence; intuition discriminate.
    - split.
      + split; [apply W|]. split; [exact D|]. now apply word_avoids.
      + rewrite Ea. split.
        * constructor; [|constructor]. eapply component_words, Ic.
        * destruct S as [->|[_ [w Hw]]]; [constructor|]. eapply zero_spec_avoids, Hw.
  Qed.

  Lemma path_template_ok : forall kts t, path_template kts t -> template_ok t.
  Proof.
    intros kts t F. eapply Forall_impl; [|exact F]. intros [s|h] H; [exact H|]. eapply path_hole_ok, H.
  Qed.

  Lemma strip_unindex : forall t, template_ok t ->
    strip_partition_indexes other (print t) = Ok (print (unindex t)).
  Proof.
    intros t OK. unfold strip_partition_indexes. rewrite vformat_print by exact OK.
    erewrite mapM_all with
      (g := fun x => match x with TLit s => s | THole h => print_hole (unindex_hole h) end).
    - cbn [rmap]. f_equal. rewrite <- concat_print. unfold unindex. rewrite map_map. f_equal.
      apply map_ext. intros [s|h]; reflexivity.
    - eapply Forall_impl; [|exact OK]. intros [s|[n accs spec]] H; [reflexivity|].
      cbn [eval_tok h_name h_accs h_spec]. destruct H as (_ & A & _). cbn [h_accs] in A.
      unfold format_placeholder, print_hole, unindex_hole. cbn [h_name h_accs h_spec].
      assert (E : existsb (fun a => match a with Attr n => own_attribute n | Idx _ => false end) accs = false).
      { induction A as [|a accs Ha A IH]; [reflexivity|]. cbn. rewrite IH, orb_false_r.
        destruct a; [apply Ha|reflexivity]. }
      rewrite E. clear E A.
      assert (E : flat_map (key_text other false) accs =
        flat_map print_acc (filter (fun a => match a with Attr _ => true | Idx _ => false end) accs)).
      { induction accs as [|[m|k] accs IH]; [reflexivity| |exact IH].
        cbn [flat_map filter key_text print_acc]. rewrite IH. reflexivity. }
      rewrite E. destruct spec; reflexivity.
  Qed.

  Lemma path_unindex : forall kts t, path_template kts t -> unindex t = t.
  Proof.
    intros kts t F. induction F as [|x t Hx F IH]; [reflexivity|]. cbn [unindex map]. fold (unindex t).
    rewrite IH. f_equal. destruct x as [s|h]; [reflexivity|]. f_equal.
    destruct Hx as [->|(cls & c & Ea & _)]; [reflexivity|]. destruct h as [n a s]. cbn in Ea. now subst a.
  Qed.

  Lemma generate_path_eval : forall fp key t, template_ok t -> template_ok (unindex t) ->
    generate_path other fp key (print t) =
    rmap (@List.concat ascii) (mapM (eval_tok (format_final other fp key)) (unindex t)).
  Proof.
    intros fp key t O1 O2. unfold generate_path. rewrite strip_unindex by exact O1. cbn [bind].
    now apply vformat_print.
  Qed.

  Lemma eval_path : forall fp key t path,
    rmap (@List.concat ascii) (mapM (eval_tok (format_final other fp key)) t) = Ok path ->
    path = path_of (tau_of fp key) t /\ forall h, In (THole h) t -> render fp key h = Ok (tau_of fp key h).
  Proof.
    intros fp key t. induction t as [|x t IH]; intros path E; cbn [mapM] in E.
    - inversion E. split; [reflexivity|]. intros h [].
    - destruct (eval_tok _ x) as [s|e] eqn:Ex; [|discriminate]. cbn [bind] in E.
      destruct (mapM _ t) as [r|e]; [|discriminate]. cbn in E. inversion E; subst path.
      destruct (IH (List.concat r) eq_refl) as [E1 E2]. rewrite E1. split.
      + unfold path_of at 2. cbn [flat_map]. f_equal. destruct x as [l|h]; cbn [eval_tok] in Ex.
        * now inversion Ex.
        * unfold tau_of. now rewrite Ex.
      + intros h [->|H]; [|now apply E2]. cbn [eval_tok] in Ex. unfold tau_of. now rewrite Ex.
  Qed.

  Lemma generated : forall fp key t path, template_ok t -> template_ok (unindex t) ->
    generate_path other fp key (print t) = Ok path ->
    path = path_of (tau_of fp key) (unindex t) /\
    forall h, In (THole h) (unindex t) -> render fp key h = Ok (tau_of fp key h).
  Proof.
    intros fp key t path O1 O2 E. rewrite generate_path_eval in E by assumption. now apply eval_path.
  Qed.

  (** The texts of a path. *)
  Definition texts_for (kts : key_types) (t : template) (tau : hole -> str) : Prop :=
    forall h, In (THole h) t -> text_of (hole_chars kts h) (tau h) /\ min_length (h_spec h) <= List.length (tau h).

  Lemma fp_given : forall fp key s, render fp key fp_hole = Ok s -> dget str_eqb key $"input_fingerprint" = None ->
    fp <> None.
  Proof.
    intros fp key s E N ->. unfold format_final in E. cbn [fp_hole h_name h_accs h_spec] in E.
    rewrite N in E. destruct (str_eqb _ _); discriminate.
  Qed.

  Lemma tau_texts : forall kts fp key t, key_ok kts key -> path_template kts t ->
    (asks_fp t -> fp <> None) ->
    texts_for kts t (tau_of fp key) /\ forall h, In (THole h) t -> render fp key h = Ok (tau_of fp key h).
  Proof.
    intros kts fp key t K P F.
    assert (H : forall h, In (THole h) t -> exists s, render fp key h = Ok s /\
              text_of (hole_chars kts h) s /\ min_length (h_spec h) <= List.length s).
    { intros h I. apply hole_text; [exact K| |].
      - unfold path_template in P. rewrite Forall_forall in P. exact (P _ I).
      - intros ->. now apply F. }
    split; intros h I; destruct (H h I) as (s & E & T & L); unfold tau_of; rewrite E; auto.
  Qed.

  Lemma generates : forall kts fp key t, key_ok kts key -> template_ok t -> path_template kts (unindex t) ->
    (asks_fp (unindex t) -> fp <> None) ->
    generate_path other fp key (print t) = Ok (path_of (tau_of fp key) (unindex t)).
  Proof.
    intros kts fp key t K O P F. destruct (tau_texts kts fp key (unindex t) K P F) as [_ R].
    rewrite generate_path_eval; [|exact O|eapply path_template_ok; exact P].
    erewrite mapM_all with (g := fun x => match x with TLit s => s | THole h => tau_of fp key h end).
    - cbn [rmap]. f_equal. unfold path_of. symmetry. apply flat_map_concat_map.
    - apply Forall_forall. intros [s|h] I; [reflexivity|]. now apply R.
  Qed.

  (** * Different texts give different paths *)

  Lemma stops_path : forall chars tau t, stops chars t ->
    match path_of tau t with [] => True | c :: _ => ~ In c chars end.
  Proof.
    intros chars tau t. induction t as [|[[|c s]|h] t IH]; intro S.
    - exact I.
    - exact (IH S).
    - exact S.
    - destruct S.
  Qed.

  Lemma app_tail : forall chars (a b r r' : str), text_of chars a -> text_of chars b ->
    match r with [] => True | c :: _ => ~ In c chars end ->
    match r' with [] => True | c :: _ => ~ In c chars end ->
    a ++ r = b ++ r' -> a = b /\ r = r'.
  Proof.
    intros chars a b r r' (ca & ra & -> & _ & Fa) (cb & rb & -> & _ & Fb) Sr Sr' E.
    cbn [app] in E. inversion E as [[Ec E']]. clear E Ec.
    revert rb Fb E'. induction ra as [|x ra IH]; intros [|y rb] Fb E'; cbn [app] in E'.
    - auto.
    - exfalso. subst r. inversion Fb; subst. now apply Sr.
    - exfalso. subst r'. inversion Fa; subst. now apply Sr'.
    - inversion Fa; inversion Fb; inversion E'; subst. destruct (IH ltac:(assumption) rb) as [Q ->]; auto.
      inversion Q. auto.
  Qed.

  Lemma path_texts : forall kts t tau tau', separated kts t -> texts_for kts t tau -> texts_for kts t tau' ->
    path_of tau t = path_of tau' t -> forall h, In (THole h) t -> tau h = tau' h.
  Proof.
    intros kts t tau tau'. induction t as [|[s|h] t IH]; intros S T T' E h0 I; [destruct I| |].
    - destruct I as [I|I]; [discriminate|]. cbn [path_of flat_map] in E. apply app_inv_head in E.
      apply IH; [exact S| | |exact E|exact I]; intros h H; [apply T|apply T']; now right.
    - cbn [path_of flat_map] in E. cbn [separated] in S. destruct S as [S1 S2].
      destruct (T h (or_introl eq_refl)) as [Th _]. destruct (T' h (or_introl eq_refl)) as [Th' _].
      apply (app_tail (hole_chars kts h)) in E; [|exact Th|exact Th'| |].
      + destruct E as [E1 E2]. destruct I as [I|I]; [inversion I; now subst|].
        apply IH; [exact S2| | |exact E2|exact I]; intros h' H; [apply T|apply T']; now right.
      + now apply stops_path.
      + now apply stops_path.
  Qed.

  (** * Equal paths, equal keys *)

  Lemma int_component_value : forall f c, int_component (class_of f) c -> exists z, component f c = Ok (CInt z).
  Proof.
    intros [y m d|w v|] c H; cbn in H.
    - destruct H as [ -> | [ -> | -> ]]; eexists; reflexivity.
    - subst. eexists; reflexivity.
    - destruct H.
  Qed.

  Lemma plain_of : forall f c spec, spec_for (class_of f) c spec -> plain_spec f c spec.
  Proof.
    intros f c spec [->|[I W]]; [now left|]. right. split; [now apply int_component_value|exact W].
  Qed.

  Lemma comp_render : forall fp key n c spec f s, n <> $"input_fingerprint" ->
    dget str_eqb key n = Some f -> render fp key (Hole n [Attr c] spec) = Ok s ->
    bind (component f c) (fun v => format_value other v spec) = Ok s.
  Proof.
    intros fp key n c spec f s NE G R. unfold format_final in R. cbn [h_name h_accs h_spec] in R.
    rewrite (eqb_neq _ str_eqb_spec) in R by exact NE. now rewrite G in R.
  Qed.

  Lemma render_holes : forall fp key n f cs, n <> $"input_fingerprint" -> dget str_eqb key n = Some f ->
    Forall (fun x => render fp key (Hole n [Attr (fst x)] (snd x)) = Ok (tau_of fp key (Hole n [Attr (fst x)] (snd x)))) cs ->
    render_all other f cs = Ok (map (fun x => (fst x, tau_of fp key (Hole n [Attr (fst x)] (snd x)))) cs).
  Proof.
    intros fp key n f cs NE G F. unfold render_all. apply mapM_all.
    eapply Forall_impl; [|exact F]. intros [c spec] R. cbn [fst snd] in *.
    apply (comp_render _ _ _ _ _ f) in R; [|exact NE|exact G].
    destruct (component f c) as [v|e]; [|discriminate]. cbn [bind] in *. now rewrite R.
  Qed.

  (** The holes of a field, one per component. *)
  Lemma pick_specs : forall t n cs,
    (forall c, In c cs -> exists spec, In (THole (Hole n [Attr c] spec)) t) ->
    exists ps, map fst ps = cs /\ Forall (fun x => In (THole (Hole n [Attr (fst x)] (snd x))) t) ps.
  Proof.
    intros t n cs H. induction cs as [|c cs IH]; [exists []; auto|].
    destruct (H c (or_introl eq_refl)) as [spec Hs].
    destruct IH as (ps & E & F); [intros; apply H; now right|].
    exists ((c, spec) :: ps). cbn. split; [now rewrite E|]. constructor; assumption.
  Qed.

  Lemma path_component : forall kts t n c spec, path_template kts t -> In (THole (Hole n [Attr c] spec)) t ->
    exists cls, dget str_eqb kts n = Some cls /\ In c (components cls) /\ spec_for cls c spec /\ n <> $"input_fingerprint".
  Proof.
    intros kts t n c spec P I. unfold path_template in P. rewrite Forall_forall in P.
    destruct (P _ I) as [E|(cls & c' & Ea & Ek & Ic & S & _ & _ & NE)]; [discriminate|].
    cbn [h_name h_accs h_spec] in *. inversion Ea; subst. exists cls. auto.
  Qed.

  Lemma supported_nonempty : forall cls cs, supported cls cs -> cs <> [].
  Proof. intros cls cs S. destruct S; try discriminate. intros ->. apply Permutation_sym, Permutation_nil in H. discriminate. Qed.

  Lemma covered_not_fp : forall kts t n cls, path_template kts t -> covers kts t ->
    dget str_eqb kts n = Some cls -> n <> $"input_fingerprint".
  Proof.
    intros kts t n cls P C G. destruct (C n cls G) as (cs & S & I).
    assert (N := supported_nonempty cls cs S). destruct cs as [|c cs]; [congruence|].
    destruct (proj1 (I c) (or_introl eq_refl)) as [spec H].
    destruct (path_component kts t n c spec P H) as (_ & _ & _ & _ & NE). exact NE.
  Qed.

  Lemma texts_determine_key : forall kts t fp1 key1 fp2 key2, path_template kts t -> covers kts t ->
    key_ok kts key1 -> key_ok kts key2 ->
    (forall h, In (THole h) t -> render fp1 key1 h = Ok (tau_of fp1 key1 h)) ->
    (forall h, In (THole h) t -> render fp2 key2 h = Ok (tau_of fp2 key2 h)) ->
    (forall h, In (THole h) t -> tau_of fp1 key1 h = tau_of fp2 key2 h) ->
    same_key key1 key2.
  Proof.
    intros kts t fp1 key1 fp2 key2 P C [N1 K1] [N2 K2] R1 R2 E n.
    assert (M1 := N1 n). assert (M2 := N2 n). unfold dmem in M1, M2.
    destruct (dget str_eqb key1 n) as [f1|] eqn:G1; destruct (dget str_eqb key2 n) as [f2|] eqn:G2;
      destruct (dget str_eqb kts n) as [cls|] eqn:Gk; try discriminate; [|reflexivity].
    f_equal. destruct (K1 _ _ G1) as [O1 C1]. destruct (K2 _ _ G2) as [O2 C2].
    rewrite Gk in C1, C2. inversion C1; subst cls. inversion C2 as [Ec].
    destruct (C n _ Gk) as (cs & S & I).
    destruct (pick_specs t n cs) as (ps & Eps & Fps); [intros c H; now apply I|].
    assert (NE := covered_not_fp kts t n _ P C Gk).
    assert (PS : Forall (fun x => spec_for (class_of f1) (fst x) (snd x)) ps).
    { eapply Forall_impl; [|exact Fps]. intros [c spec] H. cbn [fst snd] in *.
      destruct (path_component kts t n c spec P H) as (cls & G & _ & Sp & _). rewrite Gk in G. inversion G; subst cls. exact Sp. }
    apply (texts_determine other f1 f2 ps
             (map (fun x => (fst x, tau_of fp1 key1 (Hole n [Attr (fst x)] (snd x)))) ps)); auto.
    - now rewrite Eps.
    - eapply Forall_impl; [|exact PS]. intros x. apply plain_of.
    - eapply Forall_impl; [|exact PS]. intros x. rewrite Ec. apply plain_of.
    - apply render_holes; [exact NE|exact G1|]. eapply Forall_impl; [|exact Fps]. intros x H. now apply R1.
    - erewrite map_ext_in.
      + apply render_holes; [exact NE|exact G2|]. eapply Forall_impl; [|exact Fps]. intros x H. now apply R2.
      + intros x Hx. cbn beta. f_equal. apply E. rewrite Forall_forall in Fps. now apply Fps.
  Qed.

  Lemma tau_fp : forall z key, tau_of (Some z) key fp_hole = py_str z.
  Proof. reflexivity. Qed.

  Lemma py_str_inj : forall a b, py_str a = py_str b -> a = b.
  Proof. intros a b E. assert (H := int_str a). rewrite E, int_str in H. now inversion H. Qed.

  Lemma path_injective : forall kts t fp1 key1 fp2 key2 path, template_ok t ->
    path_template kts (unindex t) -> separated kts (unindex t) -> covers kts (unindex t) ->
    key_ok kts key1 -> key_ok kts key2 ->
    (asks_fp (unindex t) <-> fp1 <> None) -> (asks_fp (unindex t) <-> fp2 <> None) ->
    generate_path other fp1 key1 (print t) = Ok path ->
    generate_path other fp2 key2 (print t) = Ok path ->
    fp1 = fp2 /\ same_key key1 key2.
  Proof.
    intros kts t fp1 key1 fp2 key2 path O P S C K1 K2 F1 F2 G1 G2.
    assert (O' := path_template_ok kts _ P).
    apply generated in G1; [|exact O|exact O']. apply generated in G2; [|exact O|exact O'].
    destruct G1 as [E1 R1], G2 as [E2 R2].
    destruct (tau_texts kts fp1 key1 (unindex t) K1 P (proj1 F1)) as [T1 _].
    destruct (tau_texts kts fp2 key2 (unindex t) K2 P (proj1 F2)) as [T2 _].
    assert (E := path_texts kts (unindex t) _ _ S T1 T2 (eq_trans (eq_sym E1) E2)).
    split; [|eapply texts_determine_key; eauto].
    destruct fp1 as [a|], fp2 as [b|].
    - assert (A : asks_fp (unindex t)) by (apply F1; discriminate).
      specialize (E fp_hole A). rewrite !tau_fp in E. apply py_str_inj in E. now subst.
    - exfalso. assert (A : asks_fp (unindex t)) by (apply F1; discriminate). apply F2 in A; congruence.
    - exfalso. assert (A : asks_fp (unindex t)) by (apply F2; discriminate). apply F1 in A; congruence.
    - reflexivity.
  Qed.
End Paths.

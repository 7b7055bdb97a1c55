(** Lemmas for Visits_Props. *)
From Coq Require Import ZArith NArith List Ascii String Bool Lia Arith.
From Verif Require Import Base Base_Proofs Str Str_Proofs Numerals_Model Partitions_Model Partitions_Spec
  Format_Model Template_Spec Template_Proofs Format_Proofs Storage_Model Storage_Spec Resolve_Proofs
  Paths_Spec Paths_Proofs Discovery_Proofs Layout_Proofs Fields_Spec Fields_Proofs Visits_Spec.
Import ListNotations.
Open Scope list_scope.

Section Visits.
  Context (other : cvalue -> str -> result str).

  (** * Resolving *)
  Lemma resolve_exact : forall st values st',
    resolve other st values = Ok st' <-> each_resolved other values st st'.
  Proof.
    intros [fs kts] values [fs' kts']. unfold resolve, each_resolved. cbn [s_fields s_key_types].
    set (f := fun nv : str * option str => match snd nv with Some t => _ | None => _ end).
    assert (P : forall a b, f a = Ok b <-> fst b = fst a /\
      match snd a with
      | Some t => exists t', resolve_field other t values = Ok t' /\ snd b = Some t'
      | None => snd b = None
      end).
    { intros [n [t|]] [m v]; unfold f; cbn [fst snd].
      - destruct (resolve_field other t values) as [t'|e]; cbn [rmap].
        + split; [intro E; injection E as <- <-; eauto|]. intros [-> (t'' & E & ->)]. congruence.
        + split; [discriminate|]. intros [_ (t' & E & _)]. discriminate.
      - split; [intro E; injection E as <- <-; auto|]. now intros [-> ->]. }
    destruct (mapM f fs) as [r|e] eqn:M; cbn [rmap].
    - apply mapM_Forall2 in M. split.
      + intro E. injection E as -> ->. split; [reflexivity|].
        clear - M P. induction M; constructor; [now apply P|assumption].
      + intros [-> F]. assert (Q : mapM f fs = Ok fs').
        { apply mapM_Forall2. clear - F P. induction F; constructor; [now apply P|assumption]. }
        apply mapM_Forall2 in M. congruence.
    - split; [discriminate|]. intros [-> F]. assert (Q : mapM f fs = Ok fs').
      { apply mapM_Forall2. clear - F P. induction F; constructor; [now apply P|assumption]. }
      congruence.
  Qed.

  Lemma slashed_join : forall l, join $"/" l = slashed l.
  Proof.
    induction l as [|x [|y l] IH]; [reflexivity|reflexivity|]. cbn [join slashed] in *. now rewrite IH.
  Qed.

  Lemma decimal_str : forall z s, decimal z s <-> py_str z = s.
  Proof.
    intros z s. destruct (str_shown z) as (ds & E & H). rewrite E. split.
    - intros (ds' & H' & ->). f_equal. eapply shortest_unique; eauto; lia.
    - intros <-. exists ds. auto.
  Qed.

  Lemma fill_storage : forall values fs kts, takes values fs -> Forall (fun nv => snd nv <> []) values ->
    resolve other (storage_of fs kts) values = Ok (storage_of (filled values fs) kts).
  Proof.
    intros values fs kts T N. apply resolve_exact. split; [reflexivity|].
    unfold storage_of, filled. cbn [s_fields]. induction T as [|[n [t|]] fs H T IH]; constructor; try exact IH.
    - split; [reflexivity|]. cbn [fst snd option_map] in *. exists (print (fill values t)).
      split; [|reflexivity]. rewrite resolve_field_nonempty by exact N. now apply partial_format_fill.
    - split; reflexivity.
  Qed.

  (** ** The visitors, for all arguments *)
  Lemma visit_format_exact : forall st ext st',
    visit_format other st ext = Ok st' <-> each_resolved other [($"extension", ext)] st st'.
  Proof. intros. apply resolve_exact. Qed.
  Lemma visit_graph_exact : forall st name tags st', visit_graph other st name tags = Ok st' <->
    each_resolved other [($"graph_name", name); ($"path_tags", slashed (map tag_text tags))] st st'.
  Proof. intros. unfold visit_graph. rewrite slashed_join. apply resolve_exact. Qed.
  Lemma visit_fp_exact : forall st fp s st',
    match fp with Some z => decimal z s | None => s = [] end ->
    (visit_input_fingerprint other st fp = Ok st' <-> each_resolved other [($"input_fingerprint", s)] st st').
  Proof.
    intros st fp s st' H. rewrite <- resolve_exact. unfold visit_input_fingerprint.
    destruct fp as [z|]; [apply decimal_str in H|]; now subst s.
  Qed.
  Lemma last_snoc : forall (l : list str) x d, last (l ++ [x]) d = x.
  Proof. induction l as [|a l IH]; intros x d; [reflexivity|]. cbn. rewrite IH. destruct l; reflexivity. Qed.
  Lemma visit_names_exact : forall st before name st', visit_names other st (before ++ [name]) = Ok st' <->
    each_resolved other [($"name", name); ($"names", slashed (before ++ [name]))] st st'.
  Proof. intros. unfold visit_names. rewrite slashed_join, last_snoc. apply resolve_exact. Qed.
  Lemma visit_type_exact : forall st kts st', NoDup (map fst kts) ->
    (visit_type other st kts = Ok st' <->
     each_resolved other [($"partition_key_spec", print (default_layout kts))]
       {| s_fields := s_fields st; s_key_types := Some kts |} st').
  Proof. intros st kts st' N. unfold visit_type. rewrite layout_text by exact N. apply resolve_exact. Qed.

  (** ** Filling *)
  Lemma fills_extension : forall fs kts ext, ext <> [] -> takes [($"extension", ext)] fs ->
    visit_format other (storage_of fs kts) ext = Ok (storage_of (filled [($"extension", ext)] fs) kts).
  Proof. intros fs kts ext N T. apply fill_storage; [exact T|]. repeat constructor. exact N. Qed.
  Lemma fills_graph : forall fs kts name tags, name <> [] -> tags <> [] ->
    let values := [($"graph_name", name); ($"path_tags", slashed (map tag_text tags))] in
    takes values fs ->
    visit_graph other (storage_of fs kts) name tags = Ok (storage_of (filled values fs) kts).
  Proof.
    intros fs kts name tags N M values T. unfold visit_graph. rewrite slashed_join.
    apply fill_storage; [exact T|]. repeat constructor; [exact N|]. cbn [snd].
    destruct tags as [|[k v] [|y r]]; [congruence| |]; cbn; intro E; apply app_eq_nil in E; destruct E; discriminate.
  Qed.
  Lemma fills_fp : forall fs kts z s, decimal z s -> takes [($"input_fingerprint", s)] fs ->
    visit_input_fingerprint other (storage_of fs kts) (Some z) =
    Ok (storage_of (filled [($"input_fingerprint", s)] fs) kts).
  Proof.
    intros fs kts z s D T. assert (E := proj1 (decimal_str z s) D). unfold visit_input_fingerprint. rewrite E.
    apply fill_storage; [exact T|]. repeat constructor. cbn [snd]. intro F. subst s.
    destruct (Paths_Proofs.pad_text 0 z) as [X _]. rewrite <- Paths_Proofs.py_str_pad, F in X.
    destruct X as (c & r & X & _). discriminate.
  Qed.
  Lemma fills_names : forall fs kts before name, name <> [] ->
    let values := [($"name", name); ($"names", slashed (before ++ [name]))] in takes values fs ->
    visit_names other (storage_of fs kts) (before ++ [name]) = Ok (storage_of (filled values fs) kts).
  Proof.
    intros fs kts before name N values T. unfold visit_names. rewrite slashed_join, last_snoc.
    apply fill_storage; [exact T|]. repeat constructor; [exact N|]. cbn [snd].
    destruct before as [|x [|y r]]; cbn; [exact N| |]; intro E; apply app_eq_nil in E; destruct E; discriminate.
  Qed.
  Lemma fills_type : forall fs old kts, NoDup (map fst kts) -> kts <> [] ->
    let values := [($"partition_key_spec", print (default_layout kts))] in takes values fs ->
    visit_type other (storage_of fs old) kts = Ok (storage_of (filled values fs) (Some kts)).
  Proof.
    intros fs old kts N M values T. unfold visit_type. rewrite <- layout_text by exact N.
    change {| s_fields := s_fields (storage_of fs old); s_key_types := Some kts |} with (storage_of fs (Some kts)).
    apply fill_storage; [exact T|]. repeat constructor. cbn [snd].
    destruct kts as [|[n c] kts]; [congruence|]. unfold default_layout. cbn [fold_right fst snd].
    destruct c; cbn [default_specs segments print flat_map print_tok app]; destruct n; discriminate.
  Qed.

  (** * Attributes and items of a filled text *)
  Lemma not_str_attribute : forall a, not_of_strings a -> str_attribute a = false.
  Proof.
    intros a [U H]. unfold str_attribute. rewrite U. cbn [orb].
    destruct (existsb _ _) eqn:E; [|reflexivity]. exfalso. apply existsb_exists in E. destruct E as (b & I & E).
    apply str_eqb_spec in E. subst b. destruct H as [H|(c & Hc & Hu)].
    - cbn [In] in I, H. repeat (destruct H as [<-|H]; [repeat (destruct I as [I|I]; [discriminate I|]); exact I|]).
      exact H.
    - assert (Q : forallb (fun s => forallb (fun c => negb (existsb (Ascii.eqb c) $"ABCDEFGHIJKLMNOPQRSTUVWXYZ0123456789")) s)
        [$"capitalize"; $"casefold"; $"center"; $"count"; $"encode"; $"endswith"; $"expandtabs";
         $"find"; $"format"; $"format_map"; $"index"; $"isalnum"; $"isalpha"; $"isascii";
         $"isdecimal"; $"isdigit"; $"isidentifier"; $"islower"; $"isnumeric"; $"isprintable";
         $"isspace"; $"istitle"; $"isupper"; $"join"; $"ljust"; $"lower"; $"lstrip"; $"maketrans";
         $"partition"; $"removeprefix"; $"removesuffix"; $"replace"; $"rfind"; $"rindex"; $"rjust";
         $"rpartition"; $"rsplit"; $"rstrip"; $"split"; $"splitlines"; $"startswith"; $"strip";
         $"swapcase"; $"title"; $"translate"; $"upper"; $"zfill"] = true) by (vm_compute; reflexivity).
      rewrite forallb_forall in Q. specialize (Q _ I). rewrite forallb_forall in Q. specialize (Q _ Hc).
      apply negb_true_iff in Q. rewrite <- not_true_iff_false in Q. apply Q. apply existsb_exists.
      exists c. split; [exact Hu|apply Ascii.eqb_refl].
  Qed.

  Lemma eval_fill : forall values t, template_ok t -> fillable values t ->
    mapM (eval_tok (fun first => match dget str_eqb values first with
      Some v => format_str other v | None => format_placeholder other true first end)) t =
    Ok (map (fun x => print_tok (fill_tok values x)) t).
  Proof.
    intros values t OK F. apply mapM_all. rewrite Forall_forall. intros x Hx.
    unfold template_ok in OK. rewrite Forall_forall in OK.
    specialize (OK x Hx). destruct x as [s|h]; [reflexivity|].
    cbn [eval_tok fill_tok]. specialize (F h Hx). unfold dmem in F.
    destruct (dget str_eqb values (h_name h)) as [v|] eqn:G.
    - destruct (F eq_refl) as [E1 E2]. rewrite E1, E2. reflexivity.
    - now apply placeholder_print.
  Qed.

  Lemma one_hole : forall values a h b v, template_ok (a ++ THole h :: b) -> fillable values a ->
    dget str_eqb values (h_name h) = Some v ->
    partial_format other (print (a ++ THole h :: b)) values =
    rmap (@List.concat ascii)
      (bind (format_str other v (h_accs h) None (h_spec h)) (fun x =>
       bind (mapM (eval_tok (fun first => match dget str_eqb values first with
         Some v => format_str other v | None => format_placeholder other true first end)) b) (fun r =>
       Ok (map (fun x => print_tok (fill_tok values x)) a ++ x :: r)))).
  Proof.
    intros values a h b v OK F G. unfold partial_format. rewrite vformat_print by exact OK. f_equal.
    unfold template_ok in OK. apply Forall_app in OK. destruct OK as [Oa Ob].
    rewrite mapM_app, eval_fill by assumption. cbn [bind mapM eval_tok]. rewrite G.
    destruct (format_str other v (h_accs h) None (h_spec h)) as [x|e]; [|reflexivity]. cbn [bind].
    destruct (mapM _ b); reflexivity.
  Qed.

  Lemma attribute_refused : forall values a b name n accs spec v,
    template_ok (a ++ THole (Hole name (Attr n :: accs) spec) :: b) -> fillable values a ->
    dget str_eqb values name = Some v -> not_of_strings n ->
    partial_format other (print (a ++ THole (Hole name (Attr n :: accs) spec) :: b)) values = Err AttributeError.
  Proof.
    intros values a b name n accs spec v OK F G N. erewrite one_hole by eassumption. cbn [h_accs h_spec format_str].
    now rewrite not_str_attribute.
  Qed.

  Lemma digits_written : forall n k, shortest 10 k (N.of_nat n) ->
    all_digits k = true /\ Z.to_nat (Partitions_Model.digits_value k) = n.
  Proof.
    intros n k S. assert (E : k = str_N 10 (N.of_nat n)).
    { eapply shortest_unique; [| |exact S|apply str_N_shortest]; lia. }
    subst k. assert (A : all_digits (str_N 10 (N.of_nat n)) = true).
    { destruct S as (ds & F & _). unfold all_digits. apply forallb_forall. intros c I.
      assert (W : exists d, char_digit 10 c = Some d); [|now destruct W as [d ->]].
      clear - F I. induction F as [|x d s ds W F IH]; [destruct I|]. destruct I as [->|I]; [|now apply IH].
      exists d. apply char_digit_reads. now apply writes_reads. }
    split; [exact A|]. unfold Partitions_Model.digits_value.
    assert (P : parse_digits 10 0 false (str_N 10 (N.of_nat n)) = Some (N.of_nat n)).
    { destruct S as (ds & F & NE & V & _). apply parse_exact. exists ds. split; [|now symmetry].
      clear - F NE. induction F as [|x d s ds W F IH]; [congruence|]. destruct F as [|y e s ds W' F].
      - apply num_last. now apply writes_reads.
      - apply num_next; [now apply writes_reads|]. apply IH. discriminate. }
    rewrite P. lia.
  Qed.

  Lemma index_exact : forall values a b name n k v,
    template_ok (a ++ THole (Hole name [Idx k] []) :: b) -> fillable values a -> fillable values b ->
    dget str_eqb values name = Some v -> shortest 10 k (N.of_nat n) ->
    partial_format other (print (a ++ THole (Hole name [Idx k] []) :: b)) values =
    match nth_error v n with
    | Some c => Ok (print (fill values a) ++ c :: print (fill values b))
    | None => Err IndexError
    end.
  Proof.
    intros values a b name n k v OK F F' G S. erewrite one_hole by eassumption. cbn [h_accs h_spec format_str].
    destruct (digits_written n k S) as [A E]. unfold index_value. rewrite A, E.
    destruct (nth_error v n) as [c|]; [|reflexivity]. cbn [format_value bind].
    unfold template_ok in OK. apply Forall_app in OK. destruct OK as [_ OK]. inversion OK as [|? ? _ Ob]; subst.
    rewrite eval_fill by assumption. cbn [bind rmap]. f_equal.
    rewrite concat_app. cbn [List.concat]. unfold fill. rewrite <- !concat_print, !map_map. reflexivity.
  Qed.

  Lemma text_index_refused : forall values a b name k v,
    template_ok (a ++ THole (Hole name [Idx k] []) :: b) -> fillable values a ->
    dget str_eqb values name = Some v -> (exists c, In c k /\ forall d, ~ reads_digit 10 c d) ->
    partial_format other (print (a ++ THole (Hole name [Idx k] []) :: b)) values = Err TypeError.
  Proof.
    intros values a b name k v OK F G (c & I & N). erewrite one_hole by eassumption. cbn [h_accs h_spec format_str].
    unfold index_value. assert (A : all_digits k = false).
    { destruct (all_digits k) eqn:A; [|reflexivity]. exfalso. unfold all_digits in A. rewrite forallb_forall in A.
      specialize (A c I). destruct (char_digit 10 c) as [d|] eqn:D; [|discriminate].
      apply char_digit_reads in D. now apply (N d). }
    now rewrite A.
  Qed.

  (** * Paths *)
  Lemma padded_exact : forall w z s, py_pad w z = s <-> padded (N.of_nat w) z s.
  Proof.
    intros w z s. destruct (pad_shown w z) as (k & ds & E1 & E2 & L).
    assert (S : shortest 10 ds (Z.to_N (Z.abs z))).
    { destruct (str_shown z) as (ds' & E & H). rewrite E in E1. apply app_inv_head in E1. now subst ds'. }
    rewrite E1 in L. split.
    - intros <-. exists k, ds. split; [exact S|]. split; [exact E2|]. rewrite L. lia.
    - intros (k' & ds' & S' & -> & L'). assert (ds' = ds) by (eapply shortest_unique; eauto; lia). subst ds'.
      rewrite E2 in *. do 2 f_equal.
      rewrite !app_length, repeat_length in L, L'. assert (k = k') by lia. now subst.
  Qed.

  Lemma shown_exact : forall f c v spec s, field_ok f -> has f c v -> spec_for (class_of f) c spec ->
    (format_value other v spec = Ok s <-> shown v spec s).
  Proof.
    intros f c v spec s OK H S.
    assert (I : forall z, spec = [] \/ (exists w, zero_width spec = Some w) ->
      (format_value other (CInt z) spec = Ok s <-> shown (CInt z) spec s)).
    { intros z [->|[w W]].
      - cbn [format_value]. split.
        + intro E. injection E as E. constructor. now apply decimal_str.
        + intro E. inversion E as [? ? D| | | |? ? w ? P]; subst; [|destruct P as (? & ? & P & _); discriminate].
          apply decimal_str in D. congruence.
      - assert (Z := proj1 (zero_width_exact spec w) W). rewrite (format_padded other z spec w Z). split.
        + intro E. injection E as E. econstructor; [exact Z|]. now apply padded_exact.
        + intro E. inversion E as [? ? D| | | |? ? w' ? P Q]; subst; [destruct Z as (? & ? & Z & _); discriminate|].
          assert (w' = N.of_nat w).
          { rewrite <- (N2Nat.id w') in P |- *. apply zero_width_exact in P. f_equal. congruence. }
          subst w'. apply padded_exact in Q. congruence. }
    destruct H; cbn [class_of spec_for int_component] in S.
    - destruct S as [->|[[S|[S|S]] _]]; try discriminate. cbn [format_value].
      rewrite isoformat_extended by now apply calendar. split; intro E; [injection E as <-; constructor|now inversion E].
    - apply I. destruct S as [S|[_ S]]; auto.
    - apply I. destruct S as [S|[_ S]]; auto.
    - apply I. destruct S as [S|[_ S]]; auto.
    - destruct S as [->|[[S|[S|S]] _]]; try discriminate. cbn [format_value].
      split; intro E; [injection E as <-; constructor|now inversion E].
    - apply I. destruct S as [S|[_ S]]; auto.
    - destruct S as [->|[S _]]; [|discriminate]. cbn [format_value].
      split; intro E; [injection E as <-; constructor|now inversion E].
    - destruct S as [->|[[] _]]. cbn [format_value].
      split; intro E; [injection E as <-; constructor|now inversion E].
  Qed.

  Notation render fp key h := (format_final other fp key (h_name h) (h_accs h) None (h_spec h)).

  Lemma hole_exact : forall kts fp key h s, typed_key kts key -> path_hole kts h ->
    (render fp key h = Ok s <-> hole_shown fp key h s).
  Proof.
    intros kts fp key h s K [->|(cls & c & Ea & Ek & Ic & S & W & D & NE)].
    - unfold format_final. cbn [fp_hole h_name h_accs h_spec]. rewrite str_eqb_refl.
      destruct fp as [z|].
      + cbn [format_str format_value]. split.
        * intro E. injection E as E. econstructor; [reflexivity|]. now apply decimal_str.
        * intro E. inversion E as [z' s' Ez De|]; subst. injection Ez as <-. apply decimal_str in De. congruence.
      + split.
        * destruct (dget str_eqb key $"input_fingerprint"); discriminate.
        * intro E. inversion E. discriminate.
    - destruct h as [n accs spec]. cbn [h_name h_accs h_spec] in *. subst accs. unfold format_final.
      rewrite (eqb_neq _ str_eqb_spec) by exact NE.
      destruct (dget str_eqb key n) as [f|] eqn:E.
      + destruct (K n f E) as [OK C]. rewrite Ek in C. injection C as ->.
        split.
        * destruct (component f c) as [v|e] eqn:Cv; [|discriminate]. cbn [bind]. intro Ev.
          apply components_exact in Cv; [|exact OK]. econstructor; try eassumption.
          eapply shown_exact; eassumption.
        * intro H. inversion H as [|? ? ? f' v ? _ Ef Hv Hs]; subst. rewrite E in Ef. injection Ef as <-.
          assert (Cv := proj2 (components_exact f c v OK) Hv). rewrite Cv. cbn [bind]. eapply shown_exact; eassumption.
      + split; [discriminate|]. intro H. inversion H; congruence.
  Qed.

  Lemma path_exact : forall kts fp key t path, typed_key kts key -> template_ok t ->
    path_template kts (unindex t) ->
    (generate_path other fp key (print t) = Ok path <-> path_shown fp key (unindex t) path).
  Proof.
    intros kts fp key t path K O P. rewrite generate_path_eval by (exact O || eapply path_template_ok, P).
    unfold path_shown. set (u := unindex t) in *. clearbody u.
    assert (Q : forall texts, mapM (eval_tok (format_final other fp key)) u = Ok texts <->
      Forall2 (fun x s => match x with TLit l => s = l | THole h => hole_shown fp key h s end) u texts).
    { intro texts. rewrite mapM_Forall2. revert texts. induction P as [|x u Hx P IH]; intro texts.
      - split; intro F; inversion F; constructor.
      - assert (X : forall s, eval_tok (format_final other fp key) x = Ok s <->
          match x with TLit l => s = l | THole h => hole_shown fp key h s end).
        { intro s. destruct x as [l|h]; [cbn; split; [intro E; now injection E|now intros ->]|]. cbn [eval_tok]. eapply hole_exact; eassumption. }
        split; intro F; inversion F as [|? s ? r Hs Hr]; subst; constructor; (now apply X) || (now apply IH). }
    destruct (mapM _ u) as [r|e] eqn:M; cbn [rmap].
    - split.
      + intro E. injection E as <-. exists r. split; [reflexivity|]. now apply Q.
      + intros (texts & -> & F). apply Q in F. injection F as <-. reflexivity.
    - split; [discriminate|]. intros (texts & -> & F). apply Q in F. discriminate F.
  Qed.

  Lemma component_there : forall kts fp key h, typed_key kts key -> path_hole kts h -> (h = fp_hole -> fp <> None) ->
    (exists s, render fp key h = Ok s) \/
    (render fp key h = Err KeyError /\ h <> fp_hole /\ dget str_eqb key (h_name h) = None).
  Proof.
    intros kts fp key h K [->|(cls & c & Ea & Ek & Ic & S & W & D & NE)] F.
    - left. destruct fp as [z|]; [|exfalso; now apply F]. eexists. reflexivity.
    - unfold format_final. rewrite (eqb_neq _ str_eqb_spec) by exact NE.
      destruct (dget str_eqb key (h_name h)) as [f|] eqn:E.
      + left. destruct (K _ f E) as [OK C]. rewrite Ek in C. injection C as ->. rewrite Ea.
        destruct (component_text other f c (h_spec h) OK Ic S) as (v & s & E1 & E2 & _).
        rewrite E1. cbn [bind]. eauto.
      + right. split; [reflexivity|]. split; [|reflexivity]. intros ->. now apply NE.
  Qed.

  Lemma path_or_missing : forall kts fp key t, typed_key kts key -> template_ok t ->
    path_template kts (unindex t) -> (asks_fp (unindex t) -> fp <> None) ->
    (exists path, generate_path other fp key (print t) = Ok path /\ ~ lacks key (unindex t)) \/
    (generate_path other fp key (print t) = Err KeyError /\ lacks key (unindex t)).
  Proof.
    intros kts fp key t K O P A. rewrite generate_path_eval by (exact O || eapply path_template_ok, P).
    set (u := unindex t) in *. clearbody u. unfold lacks.
    assert (Q : (exists r, mapM (eval_tok (format_final other fp key)) u = Ok r /\
        ~ exists h, In (THole h) u /\ h <> fp_hole /\ dget str_eqb key (h_name h) = None) \/
      (mapM (eval_tok (format_final other fp key)) u = Err KeyError /\
        exists h, In (THole h) u /\ h <> fp_hole /\ dget str_eqb key (h_name h) = None)).
    { induction P as [|x u Hx P IH].
      - left. exists []. split; [reflexivity|]. intros (h & [] & _).
      - assert (A' : asks_fp u -> fp <> None) by (intro H; apply A; now right). specialize (IH A').
        destruct x as [l|h]; cbn [mapM eval_tok].
        + cbn [bind]. destruct IH as [(r & E & N)|(E & h & I & H)]; rewrite E; cbn [bind].
          * left. eexists. split; [reflexivity|]. intros (h & [I|I] & H); [discriminate|]. apply N. eauto.
          * right. split; [reflexivity|]. exists h. split; [now right|exact H].
        + destruct (component_there kts fp key h K Hx) as [(s & E)|(E & N & M)].
          { intros ->. apply A. now left. }
          * assert (D : h <> fp_hole -> dget str_eqb key (h_name h) <> None).
            { intros NF X. destruct Hx as [->|(cls & c & _ & _ & _ & _ & _ & _ & NE)]; [now apply NF|].
              unfold format_final in E. rewrite (eqb_neq _ str_eqb_spec), X in E by exact NE. discriminate. }
            rewrite E. cbn [bind]. destruct IH as [(r & Er & Nr)|(Er & h' & I & H)]; rewrite Er; cbn [bind].
            -- left. eexists. split; [reflexivity|]. intros (h' & [I|I] & H1 & H2).
               ++ injection I as ->. now apply D.
               ++ apply Nr. eauto.
            -- right. split; [reflexivity|]. exists h'. split; [now right|exact H].
          * rewrite E. right. split; [reflexivity|]. exists h. split; [now left|auto]. }
    destruct Q as [(r & -> & N)|(-> & L)]; [left; eexists; split; [reflexivity|exact N]|right; auto].
  Qed.

  Lemma missing_refused : forall st kts fp key n t, path_storage st kts -> typed_key kts key -> key <> [] ->
    (storage_asks_fp st <-> fp <> None) ->
    In (n, Some (print t)) (s_fields st) -> template_ok t -> path_template kts (unindex t) ->
    fillable [($"input_fingerprint", [])] t -> lacks key (unindex t) ->
    generate_partition other st fp key = Err KeyError.
  Proof.
    intros st kts fp key n t [E T] K NE A I O P F L. unfold generate_partition, get_key_types. rewrite E. cbn [bind].
    assert (Ck : check_key kts key = Ok tt).
    { destruct key as [|[m f] key]; [congruence|]. destruct kts; [|reflexivity]. exfalso.
      destruct (K m f) as [_ X]; [cbn [dget]; now rewrite str_eqb_refl|]. discriminate. }
    rewrite Ck. cbn [bind].
    assert (Q : includes_fp st = true <-> storage_asks_fp st).
    { apply includes_fp_asks. intros m s Hi. destruct (T m s Hi) as (t' & E' & O' & _). eauto. }
    assert (B : Bool.eqb (match fp with None => false | Some _ => true end) (includes_fp st) = true).
    { destruct fp as [z|], (includes_fp st); try reflexivity.
      - exfalso. assert (false = true) by (apply Q, A; discriminate). discriminate.
      - exfalso. assert (@None Z <> None) by (apply A, Q; reflexivity). congruence. }
    rewrite B. clear B Q Ck E. unfold storage_asks_fp in A. destruct st as [fs kt]. cbn [s_fields] in *.
    assert (M : mapM (fun nv : str * option str => match snd nv with
                | Some t => rmap (fun t' => (fst nv, Some t')) (generate_path other fp key t)
                | None => Ok nv end) fs = Err KeyError); [|now rewrite M].
    assert (Af : forall m t', In (m, Some (print t')) fs -> template_ok t' ->
      fillable [($"input_fingerprint", [])] t' -> asks_fp (unindex t') -> fp <> None).
    { intros m t' Hi Ht Hf Ha. apply A. exists m, t'. split; [exact Hi|]. split; [exact Ht|]. now apply asks_unindex. }
    clear A. induction fs as [|[m v] fs IH]; [destruct I|]. cbn [mapM fst snd].
    assert (X : (exists x, match v with
              | Some t => rmap (fun t' => (m, Some t')) (generate_path other fp key t) | None => Ok (m, v) end = Ok x) /\
              (m, v) <> (n, Some (print t)) \/
              match v with
              | Some t => rmap (fun t' => (m, Some t')) (generate_path other fp key t) | None => Ok (m, v) end = Err KeyError).
    { destruct v as [s|]; [|left; split; [eauto|congruence]].
      destruct (T m s (or_introl eq_refl)) as (t' & -> & O' & P' & F').
      destruct (path_or_missing kts fp key t' K O' P') as [(path & G & N)|(G & _)].
      { intro Ha. eapply Af; [left; reflexivity|exact O'|exact F'|exact Ha]. }
      - left. rewrite G. split; [eexists; reflexivity|]. intro Y. injection Y as _ Y.
        destruct (path_or_missing kts fp key t K O P) as [(path' & G' & N')|(G' & _)].
        { intro Ha. eapply Af; [left; rewrite Y; reflexivity|exact O|exact F|exact Ha]. }
        + now apply N'.
        + rewrite Y in G. congruence.
      - right. now rewrite G. }
    destruct X as [[(x & Ex) NEq]|Ex]; rewrite Ex; [|reflexivity]. cbn [bind].
    rewrite IH; [reflexivity| | |].
    - intros m' s Hi. apply (T m' s). now right.
    - destruct I as [I|I]; [congruence|exact I].
    - intros m' t' Hi. apply (Af m' t'). now right.
  Qed.
End Visits.

(** Proofs about versions. *)
From Coq Require Import ZArith NArith List Ascii String Bool Lia.
From Verif Require Import Base Str Int64_Model Int64_Spec Models_Model Models_Spec Models_Proofs Dumped_Proofs.
From Verif Require Import Graph_Model Backend_Model Executor_Model Executor_Spec Missing_Proofs Versions_Model Versions_Spec.
Import ListNotations.
Open Scope list_scope.

(** * Serialized versions *)
Definition doc (d : said) (iso : datetime -> str) : json :=
  match d with
  | Commit s => JObj [($"_arti_type_", JStr $"GitCommit"); ($"sha", JStr s)]
  | Numbers a b c =>
      if (0 <? a)%Z then JObj [($"_arti_type_", JStr $"SemVer"); ($"major", JInt a)]
      else JObj [($"_arti_type_", JStr $"SemVer"); ($"major", JInt a); ($"minor", JInt b); ($"patch", JInt c)]
  | Text s => JObj [($"_arti_type_", JStr $"String"); ($"value", JStr s)]
  | Time w o => JObj [($"_arti_type_", JStr $"Timestamp"); ($"dt", JStr (iso {| wall := w; offset := Some o |}))]
  end.
Lemma says_doc : forall iso d v, says iso d v -> serialize v = doc d iso.
Proof.
  intros iso d v H. destruct d as [s|a b c|s|w o]; cbn [says] in H.
  - destruct H as (co & de & H). unfold git_commit, bind in H. vm_compute in H. injection H as <-. reflexivity.
  - unfold semver, instantiate in H. cbn [semver_class c_abstract] in H. unfold instance_fp_fields in H.
    replace (class_fp_fields semver_class) with (Ok [$"_arti_type_"; $"major"; $"minor"; $"patch"]) in H by (vm_compute; reflexivity).
    cbn [bind semver_class c_kind] in H.
    replace (dget str_eqb [($"major", VInt a); ($"minor", VInt b); ($"patch", VInt c)] $"major") with (Some (VInt a)) in H by reflexivity.
    unfold doc. destruct (0 <? a)%Z; vm_compute in H; injection H as <-; reflexivity.
  - vm_compute in H. injection H as <-. reflexivity.
  - destruct H as (now & H). unfold timestamp, requires_timezone, bind in H. cbn [offset] in H.
    vm_compute in H. injection H as <-. reflexivity.
Qed.
Theorem alike : forall iso d e u w, tells_apart iso -> says iso d u -> says iso e w ->
  (dump_json u = dump_json w <-> interchangeable d e).
Proof.
  intros iso d e u w T U W. rewrite dump_iff, (says_doc _ _ _ U), (says_doc _ _ _ W). clear u w U W. split.
  - intro H. destruct d as [s|a b c|s|x o], e as [s'|a' b' c'|s'|x' o']; cbn [doc] in H;
      try (destruct (0 <? a)%Z eqn:A); try (destruct (0 <? a')%Z eqn:A'); try discriminate H; injection H; intros; subst; try constructor.
    + now apply Z.ltb_lt.
    + match goal with H : iso _ = iso _ |- _ => apply T in H; injection H as <- <- end. constructor.
  - intros []; [reflexivity|]. cbn [doc]. apply Z.ltb_lt in H. now rewrite H.
Qed.
Theorem says_total : forall iso d, exists v, says iso d v.
Proof.
  intros iso [s|a b c|s|w o]; cbn [says].
  - eexists. exists (Err ValueError), (fun s => Ok s). reflexivity.
  - unfold semver, instantiate. cbn [semver_class c_abstract]. unfold instance_fp_fields.
    replace (class_fp_fields semver_class) with (Ok [$"_arti_type_"; $"major"; $"minor"; $"patch"]) by (vm_compute; reflexivity).
    eexists. reflexivity.
  - eexists. reflexivity.
  - eexists. exists 0%Z. reflexivity.
Qed.

(** * Fingerprints *)
Theorem shares : forall V (E : env V) farmhash iso d e u w x y p q, tells_apart iso -> says iso d u -> says iso e w ->
  let tu := string_of_list_ascii (dump_json u) in let tw := string_of_list_ascii (dump_json w) in
  (0 <= farmhash tu < 2 ^ 64)%Z -> (0 <= farmhash tw < 2 ^ 64)%Z -> distinguishes farmhash u w ->
  fingerprint farmhash u = Ok x -> fingerprint farmhash w = Ok y ->
  p_class p = p_class q -> p_version p = x -> p_version q = y ->
  ((forall deps, fingerprint_for E p deps = fingerprint_for E q deps) <-> interchangeable d e) /\
  (forall deps, fingerprint_for E p deps = fingerprint_for E q deps -> interchangeable d e).
Proof.
  intros V E fh iso d e u w x y p q T U W tu tw B1 B2 NC FU FW C PX PY.
  assert (K : x = y <-> interchangeable d e).
  { rewrite <- (alike iso d e u w T U W). split.
    - intros <-. apply (fingerprint_value fh u x B1) in FU. apply (fingerprint_value fh w x B2) in FW.
      destruct FU as (_ & _ & S1), FW as (_ & _ & S2). fold tu in S1. fold tw in S2. unfold same_bits in S1, S2.
      assert (fh tu = fh tw).
      { assert (D : ((fh tu - fh tw) mod 2 ^ 64 = 0)%Z).
        { replace (fh tu - fh tw)%Z with ((x - fh tw) - (x - fh tu))%Z by lia. rewrite Zminus_mod, S1, S2. reflexivity. }
        apply Z.mod_divide in D; [|discriminate]. destruct D as (k & D). nia. }
      apply NC in H. unfold tu, tw in H. rewrite <- (list_ascii_of_string_of_list_ascii (dump_json u)), H. apply list_ascii_of_string_of_list_ascii.
    - intro H. assert (fingerprint fh u = fingerprint fh w) by (unfold fingerprint; now rewrite H). congruence. }
  assert (O := fun deps => other_version E p q deps C). split; [split|].
  - intro H. apply K. rewrite <- PX, <- PY. now apply (O []).
  - intros H deps. apply O. apply K in H. congruence.
  - intros deps H. apply K. rewrite <- PX, <- PY. now apply (O deps).
Qed.

(** * Defaults *)
Lemma blank_spec : forall c, blank c = true <-> whitespace c.
Proof.
  intro c. unfold blank, whitespace. generalize (N_of_ascii c). intro n. cbn [In].
  rewrite orb_true_iff, !andb_true_iff, !N.leb_le. lia.
Qed.
Lemma blank_not : forall c, blank c = false <-> ~ whitespace c.
Proof. intro c. rewrite <- blank_spec. destruct (blank c); intuition congruence. Qed.
Lemma lstrip_parts : forall s, exists p, s = p ++ lstrip s /\ Forall whitespace p /\ forall c r, lstrip s = c :: r -> ~ whitespace c.
Proof.
  induction s as [|c s IH].
  - exists []. split; [reflexivity|]. split; [constructor|discriminate].
  - cbn [lstrip]. destruct (blank c) eqn:B.
    + destruct IH as (p & E & F & N). exists (c :: p). split; [cbn; now f_equal|]. split; [constructor; [now apply blank_spec|assumption]|assumption].
    + exists []. split; [reflexivity|]. split; [constructor|]. intros c' r [= <- <-]. now apply blank_not.
Qed.
Lemma lstrip_head : forall p c r, Forall whitespace p -> ~ whitespace c -> lstrip (p ++ c :: r) = c :: r.
Proof.
  induction p as [|a p IH]; intros c r F N; cbn [lstrip app].
  - apply blank_not in N. now rewrite N.
  - inversion F; subst. apply blank_spec in H1. rewrite H1. now apply IH.
Qed.
Lemma lstrip_all : forall p, Forall whitespace p -> lstrip p = [].
Proof. induction p as [|a p IH]; intro F; [reflexivity|]. inversion F; subst. cbn [lstrip]. apply blank_spec in H1. rewrite H1. now apply IH. Qed.
Theorem strip_trimmed : forall s t, strip s = t <-> trimmed s t.
Proof.
  intros s t. split.
  - intros <-. unfold strip. destruct (lstrip_parts s) as (p & E & F & N).
    destruct (lstrip_parts (rev (lstrip s))) as (q & E' & F' & N').
    assert (X : lstrip s = rev (lstrip (rev (lstrip s))) ++ rev q).
    { rewrite <- rev_app_distr. rewrite <- E'. now rewrite rev_involutive. }
    exists p, (rev q). split; [rewrite <- X; exact E|]. split; [exact F|]. split; [now apply Forall_rev|]. split.
    + intros c r H. rewrite H in X. cbn [app] in X. eapply N, X.
    + intros c r H. apply (N' c (rev r)). rewrite <- (rev_involutive (lstrip (rev (lstrip s)))), H, rev_app_distr. reflexivity.
  - intros (p & q & -> & F & F' & N & N'). unfold strip. destruct t as [|c t].
    + cbn [app]. rewrite (lstrip_all (p ++ q)); [reflexivity|]. now apply Forall_app.
    + cbn [app]. rewrite lstrip_head; [|assumption|eapply N; reflexivity].
      destruct (exists_last (l := c :: t)) as (l & z & L); [discriminate|].
      change (c :: t ++ q) with ((c :: t) ++ q). rewrite L. rewrite !rev_app_distr. cbn [rev app].
      rewrite lstrip_head; [|now apply Forall_rev|eapply N'; exact L].
      cbn [rev]. now rewrite rev_involutive.
Qed.
Theorem default_commit : forall iso check_output decode v,
  git_commit check_output decode None = Ok v <->
  exists out text sha, check_output = Ok out /\ decode out = Ok text /\ trimmed text sha /\ says iso (Commit sha) v.
Proof.
  intros iso co de v. unfold git_commit at 1. split.
  - destruct co as [out|]; [|discriminate]. cbn [bind]. destruct (de out) as [text|] eqn:D; [|discriminate]. cbn [rmap bind]. intro H.
    exists out, text, (strip text). split; [reflexivity|]. split; [assumption|]. split; [now apply strip_trimmed|].
    exists (Err ValueError), de. exact H.
  - intros (out & text & sha & -> & D & S & (co' & de' & H)). cbn [bind]. rewrite D. cbn [rmap bind]. apply strip_trimmed in S. subst sha. exact H.
Qed.
Theorem no_commit : forall check_output decode e,
  git_commit check_output decode None = Err e <-> check_output = Err e \/ exists out, check_output = Ok out /\ decode out = Err e.
Proof.
  intros co de e. unfold git_commit. destruct co as [out|x]; cbn [bind].
  - destruct (de out) as [t|x] eqn:D; cbn [rmap bind].
    + split; [vm_compute; discriminate|]. intros [H|(o & [= <-] & H)]; [discriminate|congruence].
    + split; [intros [= <-]; right; eauto|]. intros [H|(o & [= <-] & H)]; congruence.
  - split; [intros [= <-]; now left|]. intros [[= <-]|(o & H & _)]; [reflexivity|discriminate].
Qed.
Theorem source : forall T (getsource : T -> result str) iso c v,
  source_version getsource c = Ok v <-> exists text, getsource c = Ok text /\ says iso (Text text) v.
Proof.
  intros T gs iso c v. unfold source_version. destruct (gs c) as [t|]; cbn [bind says]; split.
  - intro H. exists t. auto.
  - intros (t' & [= <-] & H). exact H.
  - discriminate.
  - intros (t' & H & _). discriminate.
Qed.
Theorem times : forall now iso dt,
  (timestamp now iso (Some dt) = Err ValueError <-> offset dt = None) /\
  (forall v, timestamp now iso (Some dt) = Ok v <-> exists o, offset dt = Some o /\ says iso (Time (wall dt) o) v) /\
  (forall v, timestamp now iso None = Ok v <-> says iso (Time now 0) v).
Proof.
  intros now iso [w [o|]]; unfold timestamp at 1 2, requires_timezone; cbn [offset wall bind says]; (split; [|split]).
  - split; [vm_compute; discriminate|discriminate].
  - intro v. split; [intro H; exists o; split; [reflexivity|exists now; exact H]|]. intros (o' & [= <-] & n & H). exact H.
  - intro v. split; [intro H; exists now; exact H|]. intros (n & H). exact H.
  - split; reflexivity.
  - intro v. split; [discriminate|]. intros (o & H & _). discriminate.
  - intro v. split; [intro H; exists now; exact H|]. intros (n & H). exact H.
Qed.
Theorem equal_times : forall now iso d e, tells_apart iso -> same_moment d e -> offset d <> offset e ->
  exists u w, timestamp now iso (Some d) = Ok u /\ timestamp now iso (Some e) = Ok w /\ dump_json u <> dump_json w.
Proof.
  intros now iso [w [o|]] [w' [o'|]] T S N; try now destruct S. cbn [offset] in N.
  eexists. eexists. split; [reflexivity|]. split; [reflexivity|]. intro H.
  apply (alike iso (Time w o) (Time w' o')) in H; [|assumption|exists now; reflexivity|exists now; reflexivity].
  inversion H; subst. now apply N.
Qed.
Theorem bumped : forall V (E : env V), iterates E -> forall sn, in_order E (g_arts (s_graph sn)) -> distinct_paths (g_arts (s_graph sn)) ->
  forall farmhash iso, tells_apart iso -> (forall t, (0 <= farmhash t < 2 ^ 64)%Z) ->
  forall s s' u new, build E sn s = (s', Ok u) -> log s' = new ++ log s ->
  forall p i a k deps e w, produces (g_arts (s_graph sn)) p i a -> asks E s' sn p k deps ->
  says iso e w -> fingerprint farmhash w = Ok (p_version p) ->
  (forall j b f, produces (g_arts (s_graph sn)) p j b -> available s (a_storage b) k f ->
     exists q d v, p_class q = p_class p /\ says iso d v /\ fingerprint farmhash v = Ok (p_version q) /\
       ~ interchangeable d e /\ distinguishes farmhash v w /\ f = fingerprint_for E q deps) ->
  In (p, k) (Missing_Spec.calls new).
Proof.
  intros V E I sn O D fh iso T B s s' u new R L p i a k deps e w P A W FW H.
  apply (recomputed E I sn O D s s' u new R L p i a k deps P A). intros j b f PB AV.
  destruct (H j b f PB AV) as (q & d & v & C & S & F & N & DI & ->). exists q. split; [assumption|]. split; [|reflexivity]. intro X.
  destruct (shares V E fh iso d e v w _ _ q p T S W (B _) (B _) DI F FW C eq_refl eq_refl) as (_ & G).
  apply N, (G deps). apply other_version; assumption.
Qed.

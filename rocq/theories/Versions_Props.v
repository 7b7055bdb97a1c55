(** Versions, and which changes of them make a producer run again: C70. *)
From Coq Require Import ZArith NArith List Ascii String Bool Lia.
From Verif Require Import Base Str Int64_Model Models_Model Models_Spec Models_Proofs Graph_Model Backend_Model Executor_Model Executor_Spec.
From Verif Require Import Missing_Spec Executor_Cases Executor_Cases_Proofs Missing_Props Versions_Model Versions_Spec Versions_Proofs.
Import ListNotations.
Open Scope list_scope.

(** A way to write datetimes that tells them apart. *)
Definition pair_text (d : datetime) : str :=
  dump_json (VTuple [VInt (wall d); match offset d with None => VNone | Some o => VInt o end]).
Lemma pair_text_ok : tells_apart pair_text.
Proof.
  intros [w [o|]] [w' [o'|]] H; apply simple_content in H; try (repeat constructor); cbn [wall offset] in H; congruence.
Qed.

(** Two versions are written alike exactly when they are the same, or SemVers of the same major number
    above 0. Versions of different classes never are. *)
Theorem C70_alike : forall iso d e u w, tells_apart iso -> says iso d u -> says iso e w ->
  (dump_json u = dump_json w <-> interchangeable d e).
Proof. exact alike. Qed.
Print Assumptions C70_alike.
(** Every version can be written. *)
Theorem C70_every_version : forall iso d, exists v, says iso d v.
Proof. exact says_total. Qed.
Print Assumptions C70_every_version.
Example C70_alike_nonvacuous :
  tells_apart pair_text /\ interchangeable (Numbers 1 0 0) (Numbers 1 2 3) /\ ~ interchangeable (Numbers 0 0 1) (Numbers 0 0 2) /\
  ~ interchangeable (Text $"1") (Commit $"1").
Proof.
  split; [exact pair_text_ok|]. split; [constructor; lia|]. split; intro H; inversion H. lia.
Qed.

(** Of producers of one name, those with interchangeable versions share what they compute, whatever
    their inputs; those with other versions never do, whatever their inputs. This holds if the hash
    does not take the two texts for one. *)
Theorem C70_shares : forall V (E : env V) farmhash iso d e u w x y p q, tells_apart iso -> says iso d u -> says iso e w ->
  let tu := string_of_list_ascii (dump_json u) in let tw := string_of_list_ascii (dump_json w) in
  (0 <= farmhash tu < 2 ^ 64)%Z -> (0 <= farmhash tw < 2 ^ 64)%Z -> distinguishes farmhash u w ->
  fingerprint farmhash u = Ok x -> fingerprint farmhash w = Ok y ->
  p_class p = p_class q -> p_version p = x -> p_version q = y ->
  ((forall deps, fingerprint_for E p deps = fingerprint_for E q deps) <-> interchangeable d e) /\
  (forall deps, fingerprint_for E p deps = fingerprint_for E q deps -> interchangeable d e).
Proof. exact shares. Qed.
Print Assumptions C70_shares.

(** A producer whose version is not interchangeable with the versions that left data at its outputs
    is called. *)
Theorem C70_recomputed : forall V (E : env V), iterates E -> forall sn, in_order E (g_arts (s_graph sn)) -> distinct_paths (g_arts (s_graph sn)) ->
  forall farmhash iso, tells_apart iso -> (forall t, (0 <= farmhash t < 2 ^ 64)%Z) ->
  forall s s' u new, build E sn s = (s', Ok u) -> log s' = new ++ log s ->
  forall p i a k deps e w, produces (g_arts (s_graph sn)) p i a -> asks E s' sn p k deps ->
  says iso e w -> fingerprint farmhash w = Ok (p_version p) ->
  (forall j b f, produces (g_arts (s_graph sn)) p j b -> available s (a_storage b) k f ->
     exists q d v, p_class q = p_class p /\ says iso d v /\ fingerprint farmhash v = Ok (p_version q) /\
       ~ interchangeable d e /\ distinguishes farmhash v w /\ f = fingerprint_for E q deps) ->
  In (p, k) (calls new).
Proof. exact bumped. Qed.
Print Assumptions C70_recomputed.
(** Version 1.0.0 left b; version 2.0.0 computes it again. *)
Definition one_or_two (t : string) : Z := if String.eqb t "{""_arti_type_"":""SemVer"",""major"":1}" then 1 else 2.
Example C70_recomputed_nonvacuous : exists v w,
  says pair_text (Numbers 1 0 0) v /\ says pair_text (Numbers 2 0 0) w /\ ~ interchangeable (Numbers 1 0 0) (Numbers 2 0 0) /\
  (forall t, (0 <= one_or_two t < 2 ^ 64)%Z) /\ distinguishes one_or_two v w /\
  fingerprint one_or_two v = Ok (p_version double) /\ fingerprint one_or_two w = Ok (p_version double2) /\
  let s := run g1 ex1 in let s2 := fst (snap g1v s) in let sn := snd (snap g1v s) in
  snd (build demo sn s2) = Ok tt /\ calls (log s2) = [(double, [])] /\ calls (log (built s2 sn)) = [(double2, []); (double, [])].
Proof.
  eexists. eexists. split; [reflexivity|]. split; [reflexivity|]. split; [intro H; inversion H|].
  split; [intro t; unfold one_or_two; destruct (String.eqb t _); lia|]. split; [intro H; vm_compute in H; discriminate|].
  cbn zeta. repeat split; vm_compute; reflexivity.
Qed.

(** Without a sha, the commit is what git prints, decoded, without whitespace at its ends ... *)
Theorem C70_commit : forall iso check_output decode v,
  git_commit check_output decode None = Ok v <->
  exists out text sha, check_output = Ok out /\ decode out = Ok text /\ trimmed text sha /\ says iso (Commit sha) v.
Proof. exact default_commit. Qed.
Print Assumptions C70_commit.
(** ... and there is no version where git fails or prints something that is not text. *)
Theorem C70_no_commit : forall check_output decode e,
  git_commit check_output decode None = Err e <-> check_output = Err e \/ exists out, check_output = Ok out /\ decode out = Err e.
Proof. exact no_commit. Qed.
Print Assumptions C70_no_commit.
Definition newline : str := [ascii_of_N 10].
Example C70_commit_nonvacuous :
  git_commit (Ok ($"9a04b2e" ++ newline)) (fun s => Ok s) None = git_commit (Err ValueError) (fun s => Ok s) (Some $"9a04b2e") /\
  trimmed ($"9a04b2e" ++ newline) $"9a04b2e".
Proof. split; [reflexivity|]. now apply strip_trimmed. Qed.

(** The source of a class as its version: the text, every character of it. *)
Theorem C70_source : forall T (getsource : T -> result str) iso c v,
  source_version getsource c = Ok v <-> exists text, getsource c = Ok text /\ says iso (Text text) v.
Proof. exact source. Qed.
Print Assumptions C70_source.
Example C70_source_nonvacuous : exists v, source_version (fun _ : unit => Ok $"class A: ...") tt = Ok v.
Proof. eexists. reflexivity. Qed.

(** Times need a timezone; the default is the current time in UTC. *)
Theorem C70_times : forall now iso dt,
  (timestamp now iso (Some dt) = Err ValueError <-> offset dt = None) /\
  (forall v, timestamp now iso (Some dt) = Ok v <-> exists o, offset dt = Some o /\ says iso (Time (wall dt) o) v) /\
  (forall v, timestamp now iso None = Ok v <-> says iso (Time now 0) v).
Proof. exact times. Qed.
Print Assumptions C70_times.

(** Finding (C23). Timestamps of one moment in two timezones compare equal in Python but are different versions. *)
Theorem C70_equal_times_refuted : forall now iso d e, tells_apart iso -> same_moment d e -> offset d <> offset e ->
  exists u w, timestamp now iso (Some d) = Ok u /\ timestamp now iso (Some e) = Ok w /\ dump_json u <> dump_json w.
Proof. exact equal_times. Qed.
Print Assumptions C70_equal_times_refuted.
(** Noon in UTC and one o'clock an hour east. *)
Example C70_equal_times_nonvacuous :
  let at_ h o := {| wall := h * 3600000000; offset := Some (o * 3600000000)%Z |}%Z in
  same_moment (at_ 12 0)%Z (at_ 13 1)%Z /\ offset (at_ 12 0)%Z <> offset (at_ 13 1)%Z.
Proof. split; [reflexivity|discriminate]. Qed.

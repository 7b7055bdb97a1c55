(** C72: fingerprints of instances that are copied or changed. *)
From Coq Require Import ZArith List Ascii String Bool.
From Verif Require Import Base Str Models_Model Cached_Model Cached_Spec Cached_Proofs Cached_Cases.
Import ListNotations.
Open Scope list_scope.

(** C72, partly: in every history in which nothing that has been asked for its fingerprint is
    changed afterwards (in place or in a copy), every fingerprint is that of the present fields. *)
Theorem C72_fingerprint_partial : forall farmhash h i x, only_fields h -> changed_before_asked farmhash h ->
  nth_error (objects farmhash h) i = Some x ->
  snd (get_fingerprint farmhash x) = fingerprint farmhash (state_of x).
Proof. exact disciplined. Qed.
Print Assumptions C72_fingerprint_partial.
Example C72_fingerprint_partial_nonvacuous :
  let h := [made; placed; Read 1; Copy 1 [($"producer_output", named "ProducerOutput" [])]] in
  only_fields h /\ changed_before_asked braces h /\
  map (fun o => snd (get_fingerprint braces o)) (objects braces h) = [Ok 5; Ok 4; Ok 4]%Z.
Proof.
  cbv zeta. split; [split|split].
  - intros i u I. destruct I as [I|[I|[I|[I|[]]]]]; try discriminate I; injection I as <- <-; cbn; intros [E|[]]; discriminate E.
  - intros i n v I. destruct I as [I|[I|[I|[I|[]]]]]; discriminate I.
  - intros h1 h2 i x X A. split; [|intros n v E; repeat (destruct h1 as [|? h1]; [discriminate E|injection E as _ E]); destruct h1; discriminate E].
    intros u E. destruct h1 as [|o1 h1]; [discriminate E|]. injection E as <- E. destruct h1 as [|o2 h1].
    { injection E as <- _ _. exfalso. clear X.
      assert (forall l j, asked braces l j -> l <> [made]) as N.
      { intros l j Aj. induction Aj as [l j _|l j o Aj IH|l j w Aj IH].
        - intros Q. destruct l as [|? [|]]; discriminate Q.
        - intros Q. destruct l as [|? l]; [inversion Aj; destruct h; discriminate|]. destruct l; discriminate Q.
        - intros Q. destruct l as [|? [|]]; discriminate Q. }
      exact (N _ _ A eq_refl). }
    injection E as <- E. destruct h1 as [|o3 h1]; [discriminate E|]. injection E as <- E.
    destruct h1 as [|o4 h1]; [|injection E as _ E; destruct h1; discriminate E]. injection E as <- <- _.
    revert X. vm_compute. intros X. injection X as <-. reflexivity.
  - vm_compute. reflexivity.
Qed.

(** C72: asking for fingerprints changes no field of any instance. *)
Theorem C72_reads : forall farmhash h, only_fields h ->
  map state_of (objects farmhash h) = map state_of (objects farmhash (no_reads h)).
Proof. exact reads_change_no_field. Qed.
Print Assumptions C72_reads.
Example C72_reads_nonvacuous : no_reads curious = quiet /\ objects braces curious <> objects braces quiet.
Proof. split; [reflexivity|]. vm_compute. discriminate. Qed.

(** C72: a copy that only sets fields left out of the fingerprint has the same text, as the
    copies made by [Producer.out]. *)
Theorem C72_unseen : forall x u, (forall n, In n (map fst u) -> ~ In n (o_names x)) -> same_text (model_copy x u) x.
Proof. exact unseen_update. Qed.
Print Assumptions C72_unseen.
Example C72_unseen_nonvacuous : exists x, nth_error (objects braces quiet) 1 = Some x /\
  o_names x = [$"_arti_type_"; $"annotations"; $"format"; $"statistics"; $"storage"; $"type"].
Proof. eexists. split; vm_compute; reflexivity. Qed.

(** C72 refuted: the copy of an instance that has been asked keeps the old fingerprint,
    whatever fields are given to it ... *)
Theorem C72_copied_stale : forall farmhash h i x u z, nth_error (objects farmhash h) i = Some x ->
  snd (get_fingerprint farmhash x) = Ok z -> ~ In $"fingerprint" (map fst u) -> NoDup (map fst u) ->
  exists y, nth_error (objects farmhash (h ++ [Read i; Copy i u])) (List.length (objects farmhash h)) = Some y /\
    snd (get_fingerprint farmhash y) = Ok z /\ forall n v, In (n, v) u -> has y n v.
Proof. exact copied_stale. Qed.
Print Assumptions C72_copied_stale.
Example C72_copied_stale_nonvacuous : exists x, nth_error (objects braces [made]) 0 = Some x /\
  snd (get_fingerprint braces x) = Ok 5%Z /\ ~ In $"fingerprint" (map fst [($"storage", file "/data/g/a")]) /\
  NoDup (map fst [($"storage", file "/data/g/a")]).
Proof.
  eexists. split; [vm_compute; reflexivity|]. split; [vm_compute; reflexivity|]. cbn. split; [intros [E|[]]; discriminate E|].
  repeat constructor; intros [].
Qed.

(** ... and so does an instance that is changed in place, as a graph that was asked while open. *)
Theorem C72_refilled_stale : forall farmhash h i x n v z, nth_error (objects farmhash h) i = Some x ->
  snd (get_fingerprint farmhash x) = Ok z -> n <> $"fingerprint" ->
  exists y, nth_error (objects farmhash (h ++ [Read i; Refill i n v])) i = Some y /\
    snd (get_fingerprint farmhash y) = Ok z /\ has y n v.
Proof. exact refilled_stale. Qed.
Print Assumptions C72_refilled_stale.
Example C72_refilled_stale_nonvacuous :
  let box := VMap [($"a", named "Artifact" (artifact_fields "/data/g/a"))] in
  map (fun o => snd (get_fingerprint braces o)) (objects braces [New graph_class (graph_fields []); Read 0; Refill 0 $"artifacts" box]) = [Ok 3%Z] /\
  map (fun o => snd (get_fingerprint braces o)) (objects braces [New graph_class (graph_fields []); Refill 0 $"artifacts" box]) = [Ok 7%Z].
Proof. split; vm_compute; reflexivity. Qed.

Theorem C72_fingerprint_refuted : exists farmhash h i x, only_fields h /\ nth_error (objects farmhash h) i = Some x /\
  snd (get_fingerprint farmhash x) = Ok 5%Z /\ fingerprint farmhash (state_of x) = Ok 4%Z.
Proof.
  exists braces, curious, 1. eexists. split; [split|].
  - intros i u I. destruct I as [I|[I|[I|[]]]]; try discriminate I. injection I as <- <-. cbn. intros [E|[]]. discriminate E.
  - intros i n v I. destruct I as [I|[I|[I|[]]]]; discriminate I.
  - split; [vm_compute; reflexivity|]. split; vm_compute; reflexivity.
Qed.
Print Assumptions C72_fingerprint_refuted.

(** C72: snapshot ids follow what is read: one other fingerprint gives another id. *)
Theorem C72_ids : forall farmhash g before after key ps x y z1 z2 a b,
  snd (get_fingerprint farmhash x) = Ok z1 -> snd (get_fingerprint farmhash y) = Ok z2 -> z1 <> z2 ->
  snapshot_id farmhash g (before ++ AnArtifact x key ps :: after) = Ok a ->
  snapshot_id farmhash g (before ++ AnArtifact y key ps :: after) = Ok b -> a <> b.
Proof. exact ids_follow_reads. Qed.
Print Assumptions C72_ids.
Example C72_ids_nonvacuous : exists x y, nth_error (objects braces quiet) 1 = Some x /\ nth_error (objects braces curious) 1 = Some y /\
  snd (get_fingerprint braces x) = Ok 4%Z /\ snd (get_fingerprint braces y) = Ok 5%Z /\
  (exists a, snapshot_id braces found ([AProducer y] ++ AnArtifact x $"a" [found] :: [AnArtifact y $"b" []]) = Ok a) /\
  exists b, snapshot_id braces found ([AProducer y] ++ AnArtifact y $"a" [found] :: [AnArtifact y $"b" []]) = Ok b.
Proof.
  do 2 eexists. do 4 (split; [vm_compute; reflexivity|]). split; eexists; vm_compute; reflexivity.
Qed.

(** C72 refuted for snapshots: the same definitions give two ids, depending on whether someone
    looked at the fingerprint of the artifact before it was put into the graph. *)
Theorem C72_snapshot_refuted : exists farmhash x y g,
  nth_error (objects farmhash quiet) 1 = Some x /\ nth_error (objects farmhash curious) 1 = Some y /\
  no_reads curious = quiet /\ state_of x = state_of y /\
  create graph_class (graph_fields [($"a", state_of x)]) = Ok g /\
  exists a b, snapshot_id farmhash g [AnArtifact x $"a" [found]] = Ok a /\ snapshot_id farmhash g [AnArtifact y $"a" [found]] = Ok b /\ a <> b.
Proof.
  exists braces. do 3 eexists. split; [vm_compute; reflexivity|]. split; [vm_compute; reflexivity|]. split; [reflexivity|].
  split; [vm_compute; reflexivity|]. split; [vm_compute; reflexivity|]. do 2 eexists.
  split; [vm_compute; reflexivity|]. split; [vm_compute; reflexivity|]. vm_compute. discriminate.
Qed.
Print Assumptions C72_snapshot_refuted.

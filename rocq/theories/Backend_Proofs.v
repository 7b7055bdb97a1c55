From Coq Require Import ZArith List Ascii String Bool Arith Lia.
From Verif Require Import Base Base_Proofs Str Str_Proofs Graph_Model Graph_Proofs Backend_Model Backend_Spec.
Import ListNotations.
Open Scope list_scope.

(** * Equality *)
Lemma partition_eqb_spec : forall x y, partition_eqb x y = true <-> x = y.
Proof.
  intros [s k f v] [s' k' f' v']. unfold partition_eqb. cbn.
  rewrite !andb_true_iff, storage_eqb_spec, str_eqb_spec, (option_eqb_spec _ _ Z.eqb_eq), (option_eqb_spec _ _ str_eqb_spec).
  split; [intros [[[-> ->] ->] ->]; reflexivity|]. intro E; injection E; auto.
Qed.
Lemma psnapshot_eqb_spec : forall x y, psnapshot_eqb x y = true <-> x = y.
Proof.
  intros [p c] [p' c']. unfold psnapshot_eqb. cbn. rewrite andb_true_iff, partition_eqb_spec, Z.eqb_eq.
  split; [intros [-> ->]; reflexivity|]. intro E; injection E; auto.
Qed.
Lemma list_eqb_spec : forall A (eqb : A -> A -> bool), (forall a b, eqb a b = true <-> a = b) ->
  forall l m, list_eqb eqb l m = true <-> l = m.
Proof.
  intros A eqb H. induction l as [|x l IH]; intros [|y m]; cbn; try (split; congruence).
  rewrite andb_true_iff, H, IH. split; [intros [-> ->]; reflexivity|]. intro E; injection E; auto.
Qed.
Lemma graph_eqb_spec : forall x y, graph_eqb x y = true <-> x = y.
Proof.
  intros [n l] [n' l']. unfold graph_eqb. cbn. rewrite andb_true_iff, str_eqb_spec, list_eqb_spec.
  - split; [intros [-> ->]; reflexivity|]. intro E; injection E; auto.
  - intros [k a] [k' a']. cbn. rewrite andb_true_iff, str_eqb_spec, artifact_eqb_spec.
    split; [intros [-> ->]; reflexivity|]. intro E; injection E; auto.
Qed.
Lemma snapshot_eqb_spec : forall x y, snapshot_eqb x y = true <-> x = y.
Proof.
  intros [i g] [i' g']. unfold snapshot_eqb. cbn. rewrite andb_true_iff, graph_eqb_spec, Z.eqb_eq.
  split; [intros [-> ->]; reflexivity|]. intro E; injection E; auto.
Qed.

(** * Sets *)
Lemma adds_In : forall new s x, In x (adds s new) <-> In x s \/ In x new.
Proof.
  induction new as [|y new IH]; intros s x; cbn [adds fold_left]; [cbn; tauto|].
  change (In x (adds (if existsb (psnapshot_eqb y) s then s else s ++ [y]) new) <-> In x s \/ In x (y :: new)).
  rewrite IH. destruct (existsb (psnapshot_eqb y) s) eqn:E.
  - apply (existsb_In _ psnapshot_eqb_spec) in E. cbn. split; [tauto|]. intros [I|[->|I]]; tauto.
  - rewrite in_app_iff. cbn. tauto.
Qed.
Lemma adds_NoDup : forall new s, NoDup s -> NoDup (adds s new).
Proof.
  induction new as [|y new IH]; intros s N; cbn [adds fold_left]; [exact N|].
  change (NoDup (adds (if existsb (psnapshot_eqb y) s then s else s ++ [y]) new)). apply IH.
  destruct (existsb (psnapshot_eqb y) s) eqn:E; [exact N|]. apply NoDup_snoc; [exact N|].
  intro I. apply (existsb_In _ psnapshot_eqb_spec) in I. congruence.
Qed.
Lemma adds_present : forall new s, (forall x, In x new -> In x s) -> adds s new = s.
Proof.
  induction new as [|y new IH]; intros s H; cbn [adds fold_left]; [reflexivity|].
  assert (E : existsb (psnapshot_eqb y) s = true) by (apply (existsb_In _ psnapshot_eqb_spec), H; now left).
  change (adds (if existsb (psnapshot_eqb y) s then s else s ++ [y]) new = s). rewrite E. apply IH.
  intros x I. apply H. now right.
Qed.
Lemma adds_app : forall new s, exists t, adds s new = s ++ t.
Proof.
  induction new as [|y new IH]; intros s; [exists []; now rewrite app_nil_r|].
  change (exists t, adds (if existsb (psnapshot_eqb y) s then s else s ++ [y]) new = s ++ t).
  destruct (IH (if existsb (psnapshot_eqb y) s then s else s ++ [y])) as (t & E). rewrite E.
  destruct (existsb (psnapshot_eqb y) s); [now exists t|]. exists (y :: t). now rewrite <- app_assoc.
Qed.

(** * Dictionaries with defaults *)
Definition getd {K V} (eqb : K -> K -> bool) (d : list (K * V)) (k : K) (v : V) : V :=
  match dget eqb d k with Some x => x | None => v end.
Section Touch.
  Context {K V : Type} (eqb : K -> K -> bool) (eqb_spec : forall a b, eqb a b = true <-> a = b).
  Lemma touch_snd : forall (d : list (K * V)) k v, snd (touch eqb d k v) = getd eqb d k v.
  Proof. intros d k v. unfold touch, getd. now destruct (dget eqb d k). Qed.
  Lemma touch_get : forall (d : list (K * V)) k v k', getd eqb (fst (touch eqb d k v)) k' v = getd eqb d k' v.
  Proof.
    intros d k v k'. unfold touch. destruct (dget eqb d k) eqn:E; [reflexivity|]. cbn. unfold getd.
    rewrite (dget_dset _ eqb_spec). destruct (eqb k k') eqn:Q; [|reflexivity].
    apply eqb_spec in Q. subst. now rewrite E.
  Qed.
  Lemma touch_mem : forall (d : list (K * V)) k v, dget eqb (fst (touch eqb d k v)) k = Some (getd eqb d k v).
  Proof.
    intros d k v. unfold touch, getd. destruct (dget eqb d k) eqn:E; [exact E|]. cbn. now rewrite (dget_dset_same _ eqb_spec).
  Qed.
  Lemma touch_present : forall (d : list (K * V)) k v x, dget eqb d k = Some x -> touch eqb d k v = (d, x).
  Proof. intros d k v x E. unfold touch. now rewrite E. Qed.
  Lemma touch_dget : forall (d : list (K * V)) k v k' x, dget eqb d k' = Some x -> dget eqb (fst (touch eqb d k v)) k' = Some x.
  Proof.
    intros d k v k' x E. unfold touch. destruct (dget eqb d k) eqn:F; [exact E|]. cbn. rewrite (dget_dset _ eqb_spec).
    destruct (eqb k k') eqn:Q; [|exact E]. apply eqb_spec in Q. subst. congruence.
  Qed.
  Lemma getd_dset : forall (d : list (K * V)) k x k' v,
    getd eqb (dset eqb d k x) k' v = if eqb k k' then x else getd eqb d k' v.
  Proof. intros. unfold getd. rewrite (dget_dset _ eqb_spec). now destruct (eqb k k'). Qed.
  Lemma dset_same : forall (d : list (K * V)) k x, dget eqb d k = Some x -> dset eqb d k x = d.
  Proof.
    induction d as [|[k' y] d IH]; intros k x E; [discriminate|]. cbn in *. destruct (eqb k' k) eqn:Q.
    - apply eqb_spec in Q. now injection E as ->; subst.
    - now rewrite IH.
  Qed.
End Touch.

(** * What a backend holds *)
Definition links_of (b : backend) (s : snapshot) (k : str) : list psnapshot :=
  getd str_eqb (getd snapshot_eqb (links b) s []) k [].
Definition known_of (b : backend) (st : storage) : list psnapshot := getd storage_eqb (known b) st [].
Definition tag_of (b : backend) (n t : str) : option snapshot := dget str_eqb (getd str_eqb (tags b) n []) t.
Definition graph_of (b : backend) (n : str) (f : Z) : option graph_def := dget Z.eqb (getd str_eqb (graphs b) n []) f.
Definition snapshot_of (b : backend) (n : str) (f : Z) : option snapshot := dget Z.eqb (getd str_eqb (snapshots b) n []) f.

Ltac split_touch := repeat match goal with
  | |- context [touch ?e ?d ?k ?v] => let E := fresh "T" in destruct (touch e d k v) as [? ?] eqn:E
  | H : context [touch ?e ?d ?k ?v] |- _ => let E := fresh "T" in destruct (touch e d k v) as [? ?] eqn:E
  end.

Lemma wa_known : forall b st new st', known_of (write_artifact_partitions b st new) st' =
  if storage_eqb st st' then adds (known_of b st) new else known_of b st'.
Proof.
  intros b st new st'. unfold write_artifact_partitions, known_of.
  assert (S := touch_snd storage_eqb (known b) st []). assert (G := touch_get _ storage_eqb_spec (known b) st [] st').
  destruct (touch storage_eqb (known b) st []) as [d s]. cbn in S, G. cbn [known].
  rewrite (getd_dset _ storage_eqb_spec). now rewrite S, G.
Qed.
Lemma wa_mem : forall b st new st', dmem storage_eqb (known (write_artifact_partitions b st new)) st' =
  (storage_eqb st st' || dmem storage_eqb (known b) st')%bool.
Proof.
  intros b st new st'. unfold write_artifact_partitions, touch, dmem.
  destruct (dget storage_eqb (known b) st) eqn:E; cbn [known]; rewrite ?(dget_dset _ storage_eqb_spec);
    destruct (storage_eqb st st'); reflexivity.
Qed.
Lemma wa_other : forall b st new, let b' := write_artifact_partitions b st new in
  graphs b' = graphs b /\ snapshots b' = snapshots b /\ links b' = links b /\ tags b' = tags b.
Proof. intros b st new. unfold write_artifact_partitions. destruct (touch storage_eqb (known b) st []). cbn. auto. Qed.

Lemma wl_links : forall b s k new s' k', links_of (write_snapshot_partitions b s k new) s' k' =
  if (snapshot_eqb s s' && str_eqb k k')%bool then adds (links_of b s k) new else links_of b s' k'.
Proof.
  intros b s k new s' k'. unfold write_snapshot_partitions, links_of.
  assert (S := touch_snd snapshot_eqb (links b) s []). assert (G := touch_get _ snapshot_eqb_spec (links b) s [] s').
  destruct (touch snapshot_eqb (links b) s []) as [d byk]. cbn in S, G. subst byk.
  assert (S2 := touch_snd str_eqb (getd snapshot_eqb (links b) s []) k []).
  assert (G2 := touch_get _ str_eqb_spec (getd snapshot_eqb (links b) s []) k [] k').
  destruct (touch str_eqb (getd snapshot_eqb (links b) s []) k []) as [d2 l]. cbn in S2, G2. subst l. cbn [links].
  rewrite (getd_dset _ snapshot_eqb_spec). destruct (snapshot_eqb s s') eqn:Q; cbn [andb]; [|now rewrite G].
  apply snapshot_eqb_spec in Q. subst s'. rewrite (getd_dset _ str_eqb_spec). destruct (str_eqb k k'); [reflexivity|now rewrite G2].
Qed.
Lemma wl_other : forall b s k new, let b' := write_snapshot_partitions b s k new in
  graphs b' = graphs b /\ snapshots b' = snapshots b /\ tags b' = tags b /\ known b' = known b.
Proof.
  intros b s k new. unfold write_snapshot_partitions. destruct (touch snapshot_eqb (links b) s []) as [d byk].
  destruct (touch str_eqb byk k []). cbn. auto.
Qed.
Lemma rl_spec : forall b s k, let '(b', l) := read_snapshot_partitions b s k in
  l = links_of b s k /\ (forall s' k', links_of b' s' k' = links_of b s' k') /\
  graphs b' = graphs b /\ snapshots b' = snapshots b /\ tags b' = tags b /\ known b' = known b.
Proof.
  intros b s k. unfold read_snapshot_partitions, links_of.
  assert (S := touch_snd snapshot_eqb (links b) s []). assert (G := touch_get _ snapshot_eqb_spec (links b) s []).
  destruct (touch snapshot_eqb (links b) s []) as [d byk]. cbn in S, G. subst byk.
  assert (S2 := touch_snd str_eqb (getd snapshot_eqb (links b) s []) k []).
  assert (G2 := touch_get _ str_eqb_spec (getd snapshot_eqb (links b) s []) k []).
  destruct (touch str_eqb (getd snapshot_eqb (links b) s []) k []) as [d2 l]. cbn in S2, G2. subst l. cbn [links].
  split; [reflexivity|]. split; [|cbn; auto]. intros s' k'. rewrite (getd_dset _ snapshot_eqb_spec).
  destruct (snapshot_eqb s s') eqn:Q; [|now rewrite G]. apply snapshot_eqb_spec in Q. subst. apply G2.
Qed.
Lemma ra_spec : forall b st fps disc, let '(b', r) := read_artifact_partitions b st fps disc in
  graphs b' = graphs b /\ snapshots b' = snapshots b /\ tags b' = tags b /\ links b' = links b /\
  match r with
  | Ok l => l = select fps (known_of b' st) /\
      ((dmem storage_eqb (known b) st = true /\ b' = b) \/
       (exists found, disc = Ok found /\ dmem storage_eqb (known b) st = false /\ b' = write_artifact_partitions b st found))
  | Err e => b' = b /\ disc = Err e /\ dmem storage_eqb (known b) st = false
  end.
Proof.
  intros b st fps disc. unfold read_artifact_partitions. destruct (dmem storage_eqb (known b) st) eqn:M.
  - unfold dmem in M. destruct (dget storage_eqb (known b) st) eqn:E; [|discriminate].
    rewrite (touch_present _ _ _ _ _ E). cbn. repeat (split; [reflexivity|]).
    split; [unfold known_of, getd; cbn; now rewrite E|]. left. split; [reflexivity|]. now destruct b.
  - destruct disc as [found|e]; cbn [rmap]; [|cbn; auto 10].
    destruct (wa_other b st found) as (H1 & H2 & H3 & H4).
    assert (E : dget storage_eqb (known (write_artifact_partitions b st found)) st = Some (known_of (write_artifact_partitions b st found) st)).
    { unfold known_of, getd. assert (D := wa_mem b st found st). rewrite (proj2 (storage_eqb_spec st st) eq_refl) in D.
      unfold dmem in D. now destruct (dget _ _ st). }
    rewrite (touch_present _ _ _ _ _ E). cbn. repeat (split; [assumption|]). split; [|right; exists found; repeat split].
    + f_equal.
    + destruct (write_artifact_partitions b st found). reflexivity.
Qed.
Lemma wt_spec : forall b s t o, let '(b', r) := write_snapshot_tag b s t o in
  graphs b' = graphs b /\ snapshots b' = snapshots b /\ links b' = links b /\ known b' = known b /\
  match r with
  | Ok _ => (o = true \/ tag_of b (g_name (s_graph s)) t = None) /\
      forall n t', tag_of b' n t' = if (str_eqb (g_name (s_graph s)) n && str_eqb t t')%bool then Some s else tag_of b n t'
  | Err e => e = ValueError /\ o = false /\ tag_of b (g_name (s_graph s)) t <> None /\ b' = b
  end.
Proof.
  intros b s t o. unfold write_snapshot_tag, tag_of, touch.
  destruct (dget str_eqb (tags b) (g_name (s_graph s))) as [byt|] eqn:E.
  - assert (G : getd str_eqb (tags b) (g_name (s_graph s)) [] = byt) by (unfold getd; now rewrite E). rewrite G.
    assert (K : forall n t', dget str_eqb (getd str_eqb (dset str_eqb (tags b) (g_name (s_graph s)) (dset str_eqb byt t s)) n []) t' =
      (if (str_eqb (g_name (s_graph s)) n && str_eqb t t')%bool then Some s else dget str_eqb (getd str_eqb (tags b) n []) t')).
    { intros n t'. rewrite (getd_dset _ str_eqb_spec). destruct (str_eqb (g_name (s_graph s)) n) eqn:Q; cbn [andb]; [|reflexivity].
      apply str_eqb_spec in Q. subst n. rewrite (dget_dset _ str_eqb_spec), G. reflexivity. }
    destruct (dget str_eqb byt t) eqn:F; [destruct o|]; cbn; repeat (split; [reflexivity|]); auto.
    split; [discriminate|]. now destruct b.
  - assert (G : getd str_eqb (tags b) (g_name (s_graph s)) [] = []) by (unfold getd; now rewrite E). rewrite G. cbn [dget].
    cbn. repeat (split; [reflexivity|]). split; [now right|]. intros n t'. rewrite !(getd_dset _ str_eqb_spec).
    destruct (str_eqb (g_name (s_graph s)) n) eqn:Q; cbn [andb]; [|reflexivity].
    apply str_eqb_spec in Q. subst n. rewrite G. cbn. reflexivity.
Qed.
Lemma rt_spec : forall b n t, let '(b', r) := read_snapshot_tag b n t in
  r = match tag_of b n t with Some s => Ok s | None => Err ValueError end /\
  graphs b' = graphs b /\ snapshots b' = snapshots b /\ links b' = links b /\ known b' = known b /\
  forall n' t', tag_of b' n' t' = tag_of b n' t'.
Proof.
  intros b n t. unfold read_snapshot_tag, tag_of.
  assert (S := touch_snd str_eqb (tags b) n []). assert (G := touch_get _ str_eqb_spec (tags b) n []).
  destruct (touch str_eqb (tags b) n []) as [d byt]. cbn in S, G. subst. cbn. repeat (split; [reflexivity|]).
  intros n' t'. now rewrite G.
Qed.

Section Histories.
  Context (graph_fp : graph_def -> Z) (snapshot_fp : snapshot -> Z).
  Notation history := (history graph_fp snapshot_fp).
  Notation does := (does graph_fp snapshot_fp).
  Lemma wg_spec : forall b g, let b' := write_graph graph_fp b g in
    snapshots b' = snapshots b /\ links b' = links b /\ tags b' = tags b /\ known b' = known b /\
    forall n f, graph_of b' n f = if (str_eqb (g_name g) n && (graph_fp g =? f)%Z)%bool then Some g else graph_of b n f.
  Proof.
    intros b g. unfold write_graph, graph_of.
    assert (S := touch_snd str_eqb (graphs b) (g_name g) []). assert (G := touch_get _ str_eqb_spec (graphs b) (g_name g) []).
    destruct (touch str_eqb (graphs b) (g_name g) []) as [d byf]. cbn in S, G. subst. cbn. repeat (split; [reflexivity|]).
    intros n f. rewrite (getd_dset _ str_eqb_spec). destruct (str_eqb (g_name g) n) eqn:Q; cbn [andb]; [|now rewrite G].
    apply str_eqb_spec in Q. subst. rewrite (dget_dset _ Z.eqb_eq). reflexivity.
  Qed.
  Lemma rg_spec : forall b n f, let '(b', r) := read_graph b n f in
    r = match graph_of b n f with Some g => Ok g | None => Err KeyError end /\
    snapshots b' = snapshots b /\ links b' = links b /\ tags b' = tags b /\ known b' = known b /\
    forall n' f', graph_of b' n' f' = graph_of b n' f'.
  Proof.
    intros b n f. unfold read_graph, graph_of.
    assert (S := touch_snd str_eqb (graphs b) n []). assert (G := touch_get _ str_eqb_spec (graphs b) n []).
    destruct (touch str_eqb (graphs b) n []) as [d byf]. cbn in S, G. subst. cbn. repeat (split; [reflexivity|]).
    intros n' f'. now rewrite G.
  Qed.
  Lemma ws_spec : forall b s, let b' := write_snapshot snapshot_fp b s in
    graphs b' = graphs b /\ links b' = links b /\ tags b' = tags b /\ known b' = known b /\
    forall n f, snapshot_of b' n f = if (str_eqb (g_name (s_graph s)) n && (snapshot_fp s =? f)%Z)%bool then Some s else snapshot_of b n f.
  Proof.
    intros b s. unfold write_snapshot, snapshot_of. set (m := g_name (s_graph s)).
    assert (S := touch_snd str_eqb (snapshots b) m []). assert (G := touch_get _ str_eqb_spec (snapshots b) m []).
    destruct (touch str_eqb (snapshots b) m []) as [d byf]. cbn in S, G. subst byf. cbn. repeat (split; [reflexivity|]).
    intros n f. rewrite (getd_dset _ str_eqb_spec). destruct (str_eqb m n) eqn:Q; cbn [andb]; [|now rewrite G].
    apply str_eqb_spec in Q. subst n. rewrite (dget_dset _ Z.eqb_eq). reflexivity.
  Qed.
  Lemma rs_spec : forall b n f, let '(b', r) := read_snapshot b n f in
    r = match snapshot_of b n f with Some g => Ok g | None => Err KeyError end /\
    graphs b' = graphs b /\ links b' = links b /\ tags b' = tags b /\ known b' = known b /\
    forall n' f', snapshot_of b' n' f' = snapshot_of b n' f'.
  Proof.
    intros b n f. unfold read_snapshot, snapshot_of.
    assert (S := touch_snd str_eqb (snapshots b) n []). assert (G := touch_get _ str_eqb_spec (snapshots b) n []).
    destruct (touch str_eqb (snapshots b) n []) as [d byf]. cbn in S, G. subst. cbn. repeat (split; [reflexivity|]).
    intros n' f'. now rewrite G.
  Qed.

  Ltac use L := match type of L with let '(_, _) := ?x in _ => destruct x as [? ?] eqn:?E end.

  Lemma tag_of_same : forall b b', tags b' = tags b -> forall n t, tag_of b' n t = tag_of b n t.
  Proof. intros b b' E n t. unfold tag_of. now rewrite E. Qed.
  Lemma links_of_same : forall b b', links b' = links b -> forall s k, links_of b' s k = links_of b s k.
  Proof. intros b b' E s k. unfold links_of. now rewrite E. Qed.
  Lemma known_of_same : forall b b', known b' = known b -> forall st, known_of b' st = known_of b st.
  Proof. intros b b' E st. unfold known_of. now rewrite E. Qed.
  Lemma graph_of_same : forall b b', graphs b' = graphs b -> forall n t, graph_of b' n t = graph_of b n t.
  Proof. intros b b' E n t. unfold graph_of. now rewrite E. Qed.
  Lemma snapshot_of_same : forall b b', snapshots b' = snapshots b -> forall n t, snapshot_of b' n t = snapshot_of b n t.
  Proof. intros b b' E n t. unfold snapshot_of. now rewrite E. Qed.

  Lemma tag_history : forall h b, history h b -> forall n t, tag_of b n t = tagged h n t.
  Proof.
    induction 1 as [|h b e b' H IH D]; intros n t; [reflexivity|].
    destruct D as [b st new|b st fps disc b' r E|b s k new|b s k b' r E|b s t' o b' r E|b n' t' b' r E|b g|b n' f b' r E|b s|b n' f b' r E]; cbn [tagged]; rewrite <- IH.
    - apply tag_of_same, wa_other.
    - assert (L := ra_spec b st fps disc). rewrite E in L. apply tag_of_same. tauto.
    - apply tag_of_same, wl_other.
    - assert (L := rl_spec b s k). rewrite E in L. apply tag_of_same. tauto.
    - assert (L := wt_spec b s t' o). rewrite E in L. destruct r as [u|x].
      + destruct L as (_ & _ & _ & _ & _ & L). rewrite L. reflexivity.
      + destruct L as (_ & _ & _ & _ & _ & _ & _ & ->). reflexivity.
    - assert (L := rt_spec b n' t'). rewrite E in L. apply L.
    - apply tag_of_same, wg_spec.
    - assert (L := rg_spec b n' f). rewrite E in L. apply tag_of_same. tauto.
    - apply tag_of_same, ws_spec.
    - assert (L := rs_spec b n' f). rewrite E in L. apply tag_of_same. tauto.
  Qed.
  Theorem read_tag : forall h b n t b' r, history h b -> read_snapshot_tag b n t = (b', r) ->
    r = match tagged h n t with Some s => Ok s | None => Err ValueError end.
  Proof.
    intros h b n t b' r H E. assert (L := rt_spec b n t). rewrite E in L. destruct L as (-> & _). now rewrite (tag_history h b H).
  Qed.
  Theorem write_tag : forall h b s t o b' r, history h b -> write_snapshot_tag b s t o = (b', r) ->
    match tagged h (g_name (s_graph s)) t with
    | Some _ => if o then r = Ok tt else r = Err ValueError /\ b' = b
    | None => r = Ok tt
    end.
  Proof.
    intros h b s t o b' r H E. assert (L := wt_spec b s t o). rewrite E in L. rewrite <- (tag_history h b H).
    destruct r as [[]|x].
    - destruct L as (_ & _ & _ & _ & [-> |L] & _); [now destruct (tag_of b _ t)|]. now rewrite L.
    - destruct L as (_ & _ & _ & _ & -> & -> & N & ->). destruct (tag_of b _ t); [auto|contradiction].
  Qed.

  Lemma links_history : forall h b, history h b -> forall s k p, In p (links_of b s k) <-> linked_by h s k p.
  Proof.
    unfold linked_by. induction 1 as [|h b e b' H IH D]; intros s k p.
    - cbn. split; [intros []|]. intros (new & [] & _).
    - assert (Skip : forall A : Prop, (A <-> In p (links_of b s k)) -> (forall new, e <> WroteLinks s k new) ->
        (A <-> exists new, In (WroteLinks s k new) (e :: h) /\ In p new)).
      { intros A E N. rewrite E, IH. split; intros (new & I & J); exists new; (split; [|exact J]).
        - now right.
        - destruct I as [I|I]; [destruct (N new I)|exact I]. }
      destruct D as [b st new|b st fps disc b' r E|b s' k' new|b s' k' b' r E|b s' t' o b' r E|b n' t' b' r E|b g|b n' f b' r E|b s'|b n' f b' r E].
      + apply Skip; [|discriminate]. now rewrite (links_of_same b); [|apply wa_other].
      + apply Skip; [|discriminate]. assert (L := ra_spec b st fps disc). rewrite E in L. rewrite (links_of_same b); tauto.
      + clear Skip. rewrite wl_links. destruct (snapshot_eqb s' s && str_eqb k' k)%bool eqn:Q.
        * apply andb_true_iff in Q. destruct Q as [Q1 Q2]. apply snapshot_eqb_spec in Q1. apply str_eqb_spec in Q2. subst.
          rewrite adds_In, IH. split.
          -- intros [(n & I & J)|I]; [exists n; split; [now right|exact J]|exists new; split; [now left|exact I]].
          -- intros (n & [I|I] & J); [injection I as <-; now right|left; now exists n].
        * rewrite IH. split; intros (n & I & J); exists n; (split; [|exact J]); [now right|].
          destruct I as [I|I]; [|exact I]. injection I as -> -> _. rewrite (proj2 (snapshot_eqb_spec s s) eq_refl), (proj2 (str_eqb_spec k k) eq_refl) in Q. discriminate.
      + apply Skip; [|discriminate]. assert (L := rl_spec b s' k'). rewrite E in L. destruct L as (_ & L & _). now rewrite L.
      + apply Skip; [|discriminate]. assert (L := wt_spec b s' t' o). rewrite E in L. rewrite (links_of_same b); tauto.
      + apply Skip; [|discriminate]. assert (L := rt_spec b n' t'). rewrite E in L. rewrite (links_of_same b); tauto.
      + apply Skip; [|discriminate]. rewrite (links_of_same b); [tauto|apply wg_spec].
      + apply Skip; [|discriminate]. assert (L := rg_spec b n' f). rewrite E in L. rewrite (links_of_same b); tauto.
      + apply Skip; [|discriminate]. rewrite (links_of_same b); [tauto|apply ws_spec].
      + apply Skip; [|discriminate]. assert (L := rs_spec b n' f). rewrite E in L. rewrite (links_of_same b); tauto.
  Qed.
  Lemma links_NoDup : forall h b, history h b -> forall s k, NoDup (links_of b s k).
  Proof.
    induction 1 as [|h b e b' H IH D]; intros s k; [constructor|].
    destruct D as [b st new|b st fps disc b' r E|b s' k' new|b s' k' b' r E|b s' t' o b' r E|b n' t' b' r E|b g|b n' f b' r E|b s'|b n' f b' r E].
    - now rewrite (links_of_same b); [|apply wa_other].
    - assert (L := ra_spec b st fps disc). rewrite E in L. now rewrite (links_of_same b); [|tauto].
    - rewrite wl_links. destruct (snapshot_eqb s' s && str_eqb k' k)%bool; [apply adds_NoDup|]; apply IH.
    - assert (L := rl_spec b s' k'). rewrite E in L. destruct L as (_ & L & _). now rewrite L.
    - assert (L := wt_spec b s' t' o). rewrite E in L. now rewrite (links_of_same b); [|tauto].
    - assert (L := rt_spec b n' t'). rewrite E in L. now rewrite (links_of_same b); [|tauto].
    - now rewrite (links_of_same b); [|apply wg_spec].
    - assert (L := rg_spec b n' f). rewrite E in L. now rewrite (links_of_same b); [|tauto].
    - now rewrite (links_of_same b); [|apply ws_spec].
    - assert (L := rs_spec b n' f). rewrite E in L. now rewrite (links_of_same b); [|tauto].
  Qed.
  Theorem read_links : forall h b s k b' l, history h b -> read_snapshot_partitions b s k = (b', l) ->
    NoDup l /\ forall p, In p l <-> linked_by h s k p.
  Proof.
    intros h b s k b' l H E. assert (L := rl_spec b s k). rewrite E in L. destruct L as (-> & _).
    split; [now apply (links_NoDup h)|]. now apply links_history.
  Qed.

  Lemma known_history : forall h b, history h b -> forall st,
    (dmem storage_eqb (known b) st = true <-> seen h st) /\ (forall p, In p (known_of b st) <-> recorded h st p).
  Proof.
    induction 1 as [|h b e b' H IH D]; intros st.
    - split.
      + cbn. split; [discriminate|]. intros [(new & [])|(fps & disc & r & [])].
      + intro p. cbn. split; [intros []|]. intro R. inversion R.
    - assert (Skip : known b' = known b -> (forall new, e <> WroteArtifact st new) ->
        (forall fps disc r, e = ReadArtifact st fps disc (Ok r) -> seen h st) ->
        (dmem storage_eqb (known b') st = true <-> seen (e :: h) st) /\
        (forall p, In p (known_of b' st) <-> recorded (e :: h) st p)).
      { intros E N1 N2. split.
        - rewrite E, (proj1 (IH st)). unfold seen. split.
          + intros [(new & I)|(fps & disc & r & I)]; [left; exists new; now right|right; exists fps, disc, r; now right].
          + intros [(new & [I|I])|(fps & disc & r & [I|I])]; [destruct (N1 new I)|left; now exists new|exact (N2 _ _ _ I)|right; now exists fps, disc, r].
        - intro p. rewrite (known_of_same b b' E), (proj2 (IH st)). split; [apply rec_later|]. intro R. inversion R; subst.
          + destruct (N1 new). reflexivity.
          + exfalso. match goal with X : ~ seen h st |- _ => apply X end. eapply N2. reflexivity.
          + assumption. }
      destruct D as [b st' new|b st' fps disc b' r E|b s' k' new|b s' k' b' r E|b s' t' o b' r E|b n' t' b' r E|b g|b n' f b' r E|b s'|b n' f b' r E].
      + clear Skip. rewrite wa_mem, wa_known. destruct (storage_eqb st' st) eqn:Q; cbn [orb].
        * apply storage_eqb_spec in Q. subst st'. split.
          -- split; [intros _|reflexivity]. left. exists new. now left.
          -- intro p. rewrite adds_In, (proj2 (IH st)). split; [intros [R|I]; [now apply rec_later|now apply rec_wrote]|].
             intro R. inversion R; subst; auto.
        * assert (N : st' <> st) by (intros ->; rewrite (proj2 (storage_eqb_spec st st) eq_refl) in Q; discriminate). split.
          -- rewrite (proj1 (IH st)). unfold seen. split.
             ++ intros [(n & I)|(fps & disc & r & I)]; [left; exists n; now right|right; exists fps, disc, r; now right].
             ++ intros [(n & [I|I])|(fps & disc & r & [I|I])]; [congruence|left; now exists n|discriminate|right; now exists fps, disc, r].
          -- intro p. rewrite (proj2 (IH st)). split; [apply rec_later|]. intro R. inversion R; subst; [contradiction|assumption].
      + assert (L := ra_spec b st' fps disc). rewrite E in L. destruct L as (_ & _ & _ & _ & L). destruct r as [l|x].
        * destruct L as (_ & [(M & ->)|(found & -> & M & ->)]).
          -- apply Skip; [reflexivity|discriminate|]. intros fps' disc' r Q. injection Q as -> _ _ _. now apply (proj1 (IH st)).
          -- clear Skip. rewrite wa_mem, wa_known. assert (NS : ~ seen h st') by (rewrite <- (proj1 (IH st')), M; discriminate).
             destruct (storage_eqb st' st) eqn:Q; cbn [orb].
             ++ apply storage_eqb_spec in Q. subst st'. split.
                ** split; [intros _|reflexivity]. right. exists fps, (Ok found), l. now left.
                ** intro p. rewrite adds_In, (proj2 (IH st)). split.
                   --- intros [R|I]; [now apply rec_later|now apply rec_warmed].
                   --- intro R. inversion R; subst; auto.
             ++ assert (N : st' <> st) by (intros ->; rewrite (proj2 (storage_eqb_spec st st) eq_refl) in Q; discriminate). split.
                ** rewrite (proj1 (IH st)). unfold seen. split.
                   --- intros [(n & I)|(fps' & disc & r & I)]; [left; exists n; now right|right; exists fps', disc, r; now right].
                   --- intros [(n & [I|I])|(fps' & disc & r & [I|I])]; [discriminate|left; now exists n|congruence|right; now exists fps', disc, r].
                ** intro p. rewrite (proj2 (IH st)). split; [apply rec_later|]. intro R. inversion R; subst; [contradiction|assumption].
        * destruct L as (-> & _). apply Skip; [reflexivity|discriminate|discriminate].
      + apply Skip; [apply wl_other|discriminate|discriminate].
      + apply Skip; [|discriminate|discriminate]. assert (L := rl_spec b s' k'). rewrite E in L. tauto.
      + apply Skip; [|discriminate|discriminate]. assert (L := wt_spec b s' t' o). rewrite E in L. tauto.
      + apply Skip; [|discriminate|discriminate]. assert (L := rt_spec b n' t'). rewrite E in L. tauto.
      + apply Skip; [apply wg_spec|discriminate|discriminate].
      + apply Skip; [|discriminate|discriminate]. assert (L := rg_spec b n' f). rewrite E in L. tauto.
      + apply Skip; [apply ws_spec|discriminate|discriminate].
      + apply Skip; [|discriminate|discriminate]. assert (L := rs_spec b n' f). rewrite E in L. tauto.
  Qed.
  Lemma select_In : forall fps l p, In p (select fps l) <-> In p l /\ wanted fps p.
  Proof.
    intros fps l p. unfold select, wanted. destruct fps as [|x fps]; [tauto|]. rewrite filter_In. unfold matches.
    destruct (dget str_eqb (x :: fps) (ps_key p)) as [f|] eqn:E.
    - rewrite (option_eqb_spec _ _ Z.eqb_eq). split; intros [I W]; split; auto.
      + right; left. now rewrite W.
      + destruct W as [W|[W|[W _]]]; congruence.
    - rewrite (option_eqb_spec _ _ Z.eqb_eq). split; intros [I W]; split; auto.
      destruct W as [W|[W|[_ W]]]; congruence.
  Qed.
  Theorem read_known : forall h b st fps disc b' l, history h b -> read_artifact_partitions b st fps disc = (b', Ok l) ->
    forall p, In p l <-> recorded (ReadArtifact st fps disc (Ok l) :: h) st p /\ wanted fps p.
  Proof.
    intros h b st fps disc b' l H E p. assert (H' : history (ReadArtifact st fps disc (Ok l) :: h) b').
    { eapply h_event; [exact H|]. now constructor. }
    assert (L := ra_spec b st fps disc). rewrite E in L. destruct L as (_ & _ & _ & _ & -> & _).
    rewrite select_In. now rewrite (proj2 (known_history _ _ H' st)).
  Qed.
  Theorem read_graph_saved : forall h b n f b' r, history h b -> read_graph b n f = (b', r) ->
    r = match saved_graph graph_fp h n f with Some g => Ok g | None => Err KeyError end.
  Proof.
    assert (K : forall h b, history h b -> forall n f, graph_of b n f = saved_graph graph_fp h n f).
    { induction 1 as [|h b e b' H IH D]; intros n f; [reflexivity|].
      destruct D as [b st new|b st fps disc b' r E|b s k new|b s k b' r E|b s t' o b' r E|b n' t' b' r E|b g|b n' f' b' r E|b s|b n' f' b' r E]; cbn [saved_graph]; rewrite <- IH.
      - apply graph_of_same, wa_other.
      - assert (L := ra_spec b st fps disc). rewrite E in L. apply graph_of_same. tauto.
      - apply graph_of_same, wl_other.
      - assert (L := rl_spec b s k). rewrite E in L. apply graph_of_same. tauto.
      - assert (L := wt_spec b s t' o). rewrite E in L. apply graph_of_same. tauto.
      - assert (L := rt_spec b n' t'). rewrite E in L. apply graph_of_same. tauto.
      - apply wg_spec.
      - assert (L := rg_spec b n' f'). rewrite E in L. apply L.
      - apply graph_of_same, ws_spec.
      - assert (L := rs_spec b n' f'). rewrite E in L. apply graph_of_same. tauto. }
    intros h b n f b' r H E. assert (L := rg_spec b n f). rewrite E in L. destruct L as (-> & _). now rewrite (K h b H).
  Qed.
  Theorem read_snapshot_saved : forall h b n f b' r, history h b -> read_snapshot b n f = (b', r) ->
    r = match saved_snapshot snapshot_fp h n f with Some s => Ok s | None => Err KeyError end.
  Proof.
    assert (K : forall h b, history h b -> forall n f, snapshot_of b n f = saved_snapshot snapshot_fp h n f).
    { induction 1 as [|h b e b' H IH D]; intros n f; [reflexivity|].
      destruct D as [b st new|b st fps disc b' r E|b s k new|b s k b' r E|b s t' o b' r E|b n' t' b' r E|b g|b n' f' b' r E|b s|b n' f' b' r E]; cbn [saved_snapshot]; rewrite <- IH.
      - apply snapshot_of_same, wa_other.
      - assert (L := ra_spec b st fps disc). rewrite E in L. apply snapshot_of_same. tauto.
      - apply snapshot_of_same, wl_other.
      - assert (L := rl_spec b s k). rewrite E in L. apply snapshot_of_same. tauto.
      - assert (L := wt_spec b s t' o). rewrite E in L. apply snapshot_of_same. tauto.
      - assert (L := rt_spec b n' t'). rewrite E in L. apply snapshot_of_same. tauto.
      - apply snapshot_of_same, wg_spec.
      - assert (L := rg_spec b n' f'). rewrite E in L. apply snapshot_of_same. tauto.
      - apply ws_spec.
      - assert (L := rs_spec b n' f'). rewrite E in L. apply L. }
    intros h b n f b' r H E. assert (L := rs_spec b n f). rewrite E in L. destruct L as (-> & _). now rewrite (K h b H).
  Qed.
  Theorem nothing_lost : forall h b e b' st s k, history h b -> does b e b' ->
    (forall p, In p (known_of b st) -> In p (known_of b' st)) /\ (forall p, In p (links_of b s k) -> In p (links_of b' s k)).
  Proof.
    intros h b e b' st s k H D. assert (H' : history (e :: h) b') by (eapply h_event; eassumption). split; intros p I.
    - apply (proj2 (known_history _ _ H' st)), rec_later, (proj2 (known_history _ _ H st)), I.
    - apply (links_history _ _ H'). apply (links_history _ _ H) in I. destruct I as (new & I & J). exists new. split; [now right|exact J].
  Qed.
  Theorem both_written : forall h b s k st new, history h b ->
    let b' := write_artifact_and_graph_partitions b s k st new in
    (forall p, In p (links_of b' s k) <-> linked_by h s k p \/ In p new) /\
    (forall p, In p (known_of b' st) <-> recorded h st p \/ In p new) /\
    history (WroteLinks s k new :: WroteArtifact st new :: h) b'.
  Proof.
    intros h b s k st new H b'.
    assert (H' : history (WroteLinks s k new :: WroteArtifact st new :: h) b')
      by (apply (h_event _ _ _ _ _ _ (h_event _ _ _ _ _ _ H (do_wa _ _ b st new))), do_wl).
    split; [|split; [|exact H']]; intro p.
    - rewrite (links_history _ _ H'). split.
      + intros (n & [E|[E|I]] & J); [injection E as <-; auto|discriminate|left; exists n; auto].
      + intros [(n & I & J)|J]; [exists n; split; [right; right; exact I|exact J]|exists new; split; [now left|exact J]].
    - rewrite (proj2 (known_history _ _ H' st)). split.
      + intro R. inversion R as [|? ? ? ? ? ? N I E|? ? ? ? R' E]; subst. inversion R' as [? ? ? ? I E|? ? ? ? ? ? N I E|? ? ? ? R'' E]; subst; auto.
      + intros [R|I]; apply rec_later; [apply rec_later, R|apply rec_wrote, I].
  Qed.
End Histories.
Theorem failed_discovery : forall b st fps disc b' e, read_artifact_partitions b st fps disc = (b', Err e) -> b' = b /\ disc = Err e.
Proof. intros b st fps disc b' e E. assert (L := ra_spec b st fps disc). rewrite E in L. tauto. Qed.

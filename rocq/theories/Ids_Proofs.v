From Coq Require Import ZArith List Ascii String Bool Permutation.
From Verif Require Import Base Base_Proofs Str Str_Proofs Int64_Spec Graph_Model Graph_Spec Graph_Proofs Backend_Model.
From Verif Require Import Executor_Model Executor_Spec Executor_Proofs Executor_Build_Proofs Executor_Id_Proofs Ids_Spec.
Import ListNotations.
Open Scope list_scope.

Section Ids.
  Context {V : Type} (E : env V).
  Definition data_pieces (fs : list (location * str)) (a : artifact) : list (piece * Z) :=
    match a_output a with
    | Some _ => []
    | None => match discover E fs (a_storage a) [] with Ok parts => map (fun x => (PData a x, part_fp E x)) parts | Err _ => [] end
    end.
  Definition node_pieces (g : graph_def) (fs : list (location * str)) (n : node) : list (piece * Z) :=
    (PNode n, node_fp E n) :: match n with
      | NProducer _ => []
      | NArtifact a => match key_of g a with Ok key => [(PName a, from_string E key)] | Err _ => [] end ++ data_pieces fs a
      end.
  Definition all_pieces (g : graph_def) (fs : list (location * str)) : list (piece * Z) :=
    (PGraph, graph_fp E g) :: flat_map (node_pieces g fs) (map fst (dependencies (g_arts g))).
  Definition owner (p : piece) : option node :=
    match p with PGraph => None | PNode n => Some n | PName a | PData a _ => Some (NArtifact a) end.
  Lemma owned : forall g fs n p z, In (p, z) (node_pieces g fs n) -> owner p = Some n.
  Proof.
    intros g fs n p z [H|H]; [now injection H as <- <-|]. destruct n as [a|q]; [|destruct H]. apply in_app_iff in H. destruct H as [H|H].
    - destruct (key_of g a); [|destruct H]. destruct H as [H|[]]. now injection H as <- <-.
    - unfold data_pieces in H. destruct (a_output a); [destruct H|]. destruct (discover _ _ _ _); [|destruct H]. apply in_map_iff in H.
      destruct H as (x & H & _). now injection H as <- <-.
  Qed.
  Lemma NoDup_map_inj : forall A B (f : A -> B) l, (forall x y, f x = f y -> x = y) -> NoDup l -> NoDup (map f l).
  Proof.
    intros A B f l I. induction 1 as [|x l N _ IH]; [constructor|]. cbn. constructor; [|exact IH]. intro J. apply in_map_iff in J.
    destruct J as (y & Q & J). apply I in Q. now subst.
  Qed.
  Lemma node_once : forall g fs n, NoDup (map fst fs) -> NoDup (map fst (node_pieces g fs n)).
  Proof.
    intros g fs n N. cbn [node_pieces map fst]. destruct n as [a|q]; [|constructor; [intros []|constructor]].
    assert (D : NoDup (map fst (data_pieces fs a)) /\ forall p, In p (map fst (data_pieces fs a)) -> exists x, p = PData a x).
    { unfold data_pieces. destruct (a_output a); [split; [apply NoDup_nil|intros ? []]|]. destruct (discover E fs (a_storage a) []) as [parts|] eqn:Q; [|split; [apply NoDup_nil|intros ? []]].
      rewrite map_map. cbn [fst]. split; [apply NoDup_map_inj; [congruence|exact (discover_NoDup E _ _ _ N Q)]|].
      intros p I. apply in_map_iff in I. destruct I as (x & <- & _). now exists x. }
    destruct D as [D1 D2]. constructor.
    - rewrite map_app, in_app_iff. intros [I|I].
      + destruct (key_of g a); [|destruct I]. destruct I as [I|[]]. discriminate.
      + apply D2 in I. destruct I as (x & I). discriminate.
    - destruct (key_of g a); [|exact D1]. cbn. constructor; [|exact D1]. intro I. apply D2 in I. destruct I as (x & I). discriminate.
  Qed.
  Lemma all_once : forall g fs, NoDup (map fst fs) -> NoDup (map fst (all_pieces g fs)).
  Proof.
    intros g fs N. cbn [all_pieces map fst]. constructor.
    - intro I. apply in_map_iff in I. destruct I as ([p z] & Q & I). cbn in Q. subst p. apply in_flat_map in I. destruct I as (n & _ & I). apply owned in I. discriminate.
    - assert (ND := dependencies_NoDup (g_arts g)). induction (map fst (dependencies (g_arts g))) as [|n l IH]; [constructor|].
      inversion ND as [|? ? N1 N2]; subst. cbn [flat_map]. rewrite map_app.
      assert (APP : forall (x y : list piece), NoDup x -> NoDup y -> (forall p, In p x -> ~ In p y) -> NoDup (x ++ y)).
      { induction x as [|p x IHx]; intros y Nx Ny Ds; [exact Ny|]. inversion Nx; subst. cbn. constructor.
        - rewrite in_app_iff. intros [I|I]; [contradiction|]. apply (Ds p); [now left|exact I].
        - apply IHx; auto. intros q I. apply Ds. now right. }
      apply APP; [now apply node_once|now apply IH|]. intros p I J. apply in_map_iff in I, J. destruct I as ([p1 z1] & Q1 & I), J as ([p2 z2] & Q2 & J).
      cbn in Q1, Q2. subst p1 p2. apply owned in I. apply in_flat_map in J. destruct J as (m & M & J). apply owned in J. assert (n = m) by congruence. now subst.
  Qed.
  Lemma all_there : forall g (s : state V), (forall k a, In (k, a) (g_arts g) -> a_output a = None -> exists x, raw_found E s (a_storage a) x) ->
    forall p z, In (p, z) (all_pieces g (files s)) <-> has_piece E g s p z.
  Proof.
    intros g s R p z. unfold all_pieces. cbn [In]. rewrite in_flat_map. split.
    - intros [Q|(n & D & I)]; [injection Q as <- <-; constructor|]. apply dependencies_defines in D. destruct I as [Q|I].
      + injection Q as <- <-. destruct D as [k a J|k a q i J O]; econstructor; eauto.
      + destruct n as [a|q]; [|destruct I]. inversion D as [k b J Q|]; subst b. apply in_app_iff in I. destruct I as [I|I].
        * destruct (key_of g a) as [key|] eqn:K; [|destruct I]. destruct I as [Q|[]]. injection Q as <- <-. constructor. now apply key_of_last.
        * unfold data_pieces in I. destruct (a_output a) eqn:O; [destruct I|]. assert (DR := discover_raw E s (a_storage a)).
          destruct (discover E (files s) (a_storage a) []) as [parts|]; [|destruct I]. apply in_map_iff in I. destruct I as (x & Q & I). injection Q as <- <-.
          econstructor; eauto. now apply DR.
    - intro H. destruct H as [|k a I|k a q i I O|key a L|k a x I O F].
      + now left.
      + right. exists (NArtifact a). split; [apply dependencies_defines; econstructor; eauto|now left].
      + right. exists (NProducer q). split; [apply dependencies_defines; econstructor; eauto|now left].
      + right. exists (NArtifact a). destruct L as (l1 & l2 & Q & N). split; [apply dependencies_defines; econstructor; rewrite Q; apply in_elt|]. right.
        apply in_app_iff. left. assert (K : key_of g a = Ok key) by (apply key_of_last; now exists l1, l2). rewrite K. now left.
      + right. exists (NArtifact a). split; [apply dependencies_defines; econstructor; eauto|]. right. apply in_app_iff. right. unfold data_pieces. rewrite O.
        assert (DR := discover_raw E s (a_storage a)). destruct (discover E (files s) (a_storage a) []) as [parts|]; [|destruct DR as [_ DR]; now destruct (DR x)].
        apply in_map_iff. exists x. split; [reflexivity|now apply DR].
  Qed.
  Lemma all_values : forall g fs, map snd (all_pieces g fs) = graph_fp E g :: flat_map (node_parts E g fs) (map fst (dependencies (g_arts g))).
  Proof.
    intros g fs. cbn [all_pieces map snd]. f_equal. induction (map fst (dependencies (g_arts g))) as [|n l IH]; [reflexivity|].
    cbn [flat_map]. rewrite map_app, IH. f_equal. unfold node_pieces, node_parts, data_pieces. cbn [map snd]. f_equal. destruct n as [a|q]; [|reflexivity].
    rewrite map_app. f_equal; [destruct (key_of g a); reflexivity|]. destruct (a_output a); [reflexivity|].
    destruct (discover E fs (a_storage a) []); [|reflexivity]. rewrite map_map. reflexivity.
  Qed.
  Lemma NoDup_fst : forall A B (l : list (A * B)), NoDup (map fst l) -> NoDup l.
  Proof.
    intros A B l. induction l as [|[x y] l IH]; intro N; [constructor|]. inversion N as [|? ? N1 N2]; subst. constructor; [|now apply IH].
    intro I. apply N1. now apply (in_map fst) in I.
  Qed.
  Theorem id_exact : forall g (s s' : state V) sn, NoDup (map fst (files s)) -> from_graph E g s = (s', Ok sn) ->
    (exists l, lists_pieces E g s l) /\ forall l, lists_pieces E g s l -> s_id sn = xor_all (map snd l).
  Proof.
    intros g s s' sn N H. apply snapshot_records in H. destruct H as (_ & _ & ID & R & _).
    assert (A : lists_pieces E g s (all_pieces g (files s))) by (split; [now apply all_once|now apply all_there]).
    split; [now exists (all_pieces g (files s))|]. intros l L. rewrite ID, <- all_values. apply xor_all_perm, Permutation_map.
    destruct A as [A1 A2], L as [L1 L2]. apply NoDup_Permutation; [now apply NoDup_fst|now apply NoDup_fst|]. intros [p z]. rewrite A2, L2. tauto.
  Qed.
  Theorem id_differs : forall g g' (s s1 s' s1' : state V) sn sn' common d d', NoDup (map fst (files s)) -> NoDup (map fst (files s')) ->
    from_graph E g s = (s1, Ok sn) -> from_graph E g' s' = (s1', Ok sn') ->
    lists_pieces E g s (common ++ d) -> lists_pieces E g' s' (common ++ d') ->
    (s_id sn = s_id sn' <-> xor_all (map snd d) = xor_all (map snd d')).
  Proof.
    intros g g' s s1 s' s1' sn sn' common d d' N N' H H' L L'. apply id_exact in H, H'; try assumption. destruct H as [_ H], H' as [_ H'].
    rewrite (H _ L), (H' _ L'), !map_app, !xor_all_app. split; [apply lxor_cancel_l|congruence].
  Qed.
End Ids.

(** A program without others is the build of Executor_Model. *)
From Coq Require Import ZArith List Ascii String Bool Arith Lia.
From Verif Require Import Base Str Graph_Model Backend_Model Executor_Model Concurrent_Model.
Import ListNotations.
Open Scope list_scope.

Definition same {V A} (m : prog V A) (n : M V A) : Prop :=
  forall s, fuel s = None -> finish m s = n s /\ fuel (fst (n s)) = None.

Lemma same_done : forall V A (r : result A), @same V A (Done r) (ret r).
Proof. intros V A r s F. now split. Qed.
Lemma same_bind : forall V A B (m : prog V A) (n : M V A) (f : A -> prog V B) (h : A -> M V B),
  same m n -> (forall a, same (f a) (h a)) -> same (pbind m f) (andthen n h).
Proof.
  intros V A B m n f h Hm Hf s F.
  assert (K : forall s, finish (pbind m f) s = match finish m s with (s', Ok a) => finish (f a) s' | (s', Err e) => (s', Err e) end).
  { clear. induction m as [r|u k IH]; intro s; cbn; [destruct r; reflexivity|apply IH]. }
  rewrite K. destruct (Hm s F) as (E1 & F1). rewrite E1. unfold andthen. destruct (n s) as (s1, [a|e]); cbn [fst] in F1.
  - apply Hf, F1.
  - now split.
Qed.
Lemma same_act : forall V A (f : state V -> state V * result A), (forall s, fuel (fst (f s)) = fuel s) -> same (act f) (effect f).
Proof.
  intros V A f Ff s F. unfold effect, andthen, tick. rewrite F. cbn [finish act]. split; [now destruct (f s)|]. now rewrite Ff.
Qed.
Lemma same_pure : forall V A (f : state V -> result A), same (act (fun s => (s, f s))) (fun s => (s, f s)).
Proof. intros V A f s F. now split. Qed.
Lemma same_each : forall V A (f : A -> prog V unit) (h : A -> M V unit) l, (forall x, same (f x) (h x)) -> same (eachP f l) (eachM h l).
Proof. intros V A f h l H. induction l; cbn [eachP eachM]; [apply same_done|apply same_bind; [apply H|intros _; apply IHl]]. Qed.
Lemma same_collect : forall V A B (f : A -> prog V B) (h : A -> M V B) l, (forall x, same (f x) (h x)) -> same (collectP f l) (collectM h l).
Proof.
  intros V A B f h l H. induction l; cbn [collectP collectM]; [apply same_done|].
  apply same_bind; [apply H|intro y]. apply same_bind; [apply IHl|intro; apply same_done].
Qed.
(** Reading one file after the other is reading all of them. *)
Lemma finish_bind : forall V A B (m : prog V A) (f : A -> prog V B) s,
  finish (pbind m f) s = match finish m s with (s', Ok a) => finish (f a) s' | (s', Err e) => (s', Err e) end.
Proof. intros V A B m f. induction m as [r|u k IH]; intro s; cbn; [destruct r; reflexivity|apply IH]. Qed.
Lemma collect_pure : forall V A B (f : state V -> A -> result B) l s,
  finish (collectP (fun x => act (fun s => (s, f s x))) l) s = (s, mapM (f s) l).
Proof.
  intros V A B f l s. induction l as [|x l IH]; [reflexivity|]. cbn [collectP mapM]. rewrite finish_bind. cbn [finish act fst snd].
  destruct (f s x) as [y|e]; cbn [bind]; [|reflexivity]. rewrite finish_bind, IH. destruct (mapM (f s) l); reflexivity.
Qed.

Section Alone.
  Context {V : Type} (E : env V).

  Lemma discover_literal : forall st fs fps v, st_kind st = SLiteral v -> discover E fs st fps = discover E [] st fps.
  Proof.
    intros st fs fps v K. unfold discover. rewrite K. destruct (negb (is_nil fps) && is_some v); [reflexivity|].
    destruct (st_partitioned st && is_nil fps); [reflexivity|]. destruct v as [v|]; [|reflexivity].
    assert (M1 : forall l, mapM (fun kf => bind (generate_partition st (snd kf) (fst kf)) (take_snapshot E fs)) l =
                           mapM (fun kf => bind (generate_partition st (snd kf) (fst kf)) (take_snapshot E [])) l).
    { induction l as [|kf l IH]; [reflexivity|]. cbn [mapM]. rewrite IH.
      unfold generate_partition. destruct (st_partitioned st && is_nil (fst kf)); [reflexivity|].
      destruct (negb (is_nil (fst kf)) && negb (st_partitioned st)); [reflexivity|].
      destruct (Bool.eqb (st_templated st) (is_some (snd kf))); [|reflexivity]. cbn [bind].
      unfold take_snapshot, content. cbn [pt_storage pt_value]. rewrite K. reflexivity. }
    apply M1.
  Qed.
  Lemma discover_alone : forall st fps s, finish (discover_p E st fps) s = (s, discover E (files s) st fps).
  Proof.
    intros st fps s. unfold discover_p. destruct (st_kind st) as [|v] eqn:K.
    - rewrite finish_bind. cbn [finish act list_p fst snd]. unfold snapshot_p. rewrite (collect_pure V _ _ (fun s l => take_snapshot E (files s) (Partition st (snd (fst l)) (snd l) None))).
      unfold discover. rewrite K. reflexivity.
    - cbn [finish]. now rewrite <- (discover_literal st (files s) fps v K).
  Qed.
  Lemma read_known_alone : forall st fps, same (read_known_p E st fps) (read_known E st fps).
  Proof.
    intros st fps s F. unfold read_known_p, read_known. rewrite finish_bind. cbn [finish act fst snd].
    unfold effect, andthen, tick. rewrite F. unfold read_artifact_partitions.
    destruct (dmem storage_eqb (known (db s)) st) eqn:D.
    - cbn [pbind finish act fst snd]. rewrite D. unfold touch. cbn [rmap].
      destruct (dget storage_eqb (known (db s)) st); cbn [fst snd]; split; try reflexivity; exact F.
    - rewrite finish_bind, discover_alone. destruct (discover E (files s) st fps) as [l|e]; cbn [rmap].
      + cbn [finish act fst snd]. rewrite D. cbn [rmap]. destruct (touch storage_eqb _ st []) as [d l'].
        cbn [fst snd]. split; [reflexivity|exact F].
      + cbn [fst]. split; [|exact F]. destruct s as [? [? ? ? ? ?] ? ?]. reflexivity.
  Qed.
  Lemma io_read_alone : forall a parts, same (io_read_p E a parts) (io_read E a parts).
  Proof.
    intros a parts s F. unfold io_read_p, io_read. destruct parts as [|x parts]; [now split|].
    destruct ((1 <? List.length (x :: parts)) && negb (st_partitioned (a_storage a))); [now split|].
    rewrite finish_bind. unfold content_p. rewrite (collect_pure V _ _ (fun s x => match content (files s) (ps_part x) with
      Some d => Ok d | None => Err (match st_kind (pt_storage (ps_part x)) with SFile => FileNotFoundError | SLiteral _ => AssertionError end) end)).
    cbn [fst]. split; [|exact F]. destruct (mapM _ (x :: parts)); reflexivity.
  Qed.
  Lemma io_write_alone : forall a v p, same (io_write_p E a v p) (io_write E a v p).
  Proof.
    intros a v p. unfold io_write_p, io_write. destruct (st_kind (pt_storage p)) as [|w].
    - apply same_bind; [apply same_act; reflexivity|intros _]. apply same_bind; [apply same_done|intro d].
      apply same_bind; [apply same_act; reflexivity|intros _]. apply same_pure.
    - destruct (pt_value p); [apply same_done|]. apply same_bind; [apply same_done|intro d]. apply same_pure.
  Qed.
  Lemma links_fuel : forall sn key s, fuel (fst (let '(b, l) := read_snapshot_partitions (db s) sn key in (with_db s b, Ok (iter_set E l)))) = @fuel V s.
  Proof. intros. destruct (read_snapshot_partitions (db s) sn key). reflexivity. Qed.
  Lemma write_output_alone : forall sn p i a f k v, same (write_output_p E sn p i a f k v) (write_output E sn p i a f k v).
  Proof.
    intros. unfold write_output_p, write_output. repeat (apply same_bind; [apply same_done|intro]).
    apply same_bind; [apply io_write_alone|intro]. apply same_bind; apply same_act || intro; try reflexivity.
    now apply same_act.
  Qed.
  Lemma write_outputs_alone : forall sn p f k outs vs i, same (write_outputs_p E sn p f k i outs vs) (write_outputs E sn p f k i outs vs).
  Proof.
    intros sn p f k outs. induction vs as [|v vs IH]; intro i; cbn [write_outputs_p write_outputs]; [apply same_done|].
    repeat (apply same_bind; [apply same_done|intro]). apply same_bind; [apply write_output_alone|intros _]. apply IH.
  Qed.
  Lemma build_producer_partition_alone : forall sn p ex f d k,
    same (build_producer_partition_p E sn p ex f d k) (build_producer_partition E sn p ex f d k).
  Proof.
    intros. unfold build_producer_partition_p, build_producer_partition, read_arguments_p. destruct (existsb (str_eqb k) ex); [apply same_done|].
    apply same_bind; [apply same_collect; intro name; repeat (apply same_bind; [apply same_done|intro]);
      apply same_bind; [|intro; apply same_done]; unfold read_input_p, read_input; apply same_bind; [apply same_done|intros _; apply io_read_alone]|intro].
    apply same_bind; [apply same_act; reflexivity|intro]. apply same_bind; [apply same_act; reflexivity|intro ok].
    destruct ok; [|apply same_done]. apply same_bind; [apply same_done|intro]. apply write_outputs_alone.
  Qed.
  Lemma build_producer_alone : forall sn p, same (build_producer_p E sn p) (build_producer E sn p).
  Proof.
    intros. unfold build_producer_p, build_producer. apply same_bind.
    - apply same_collect. intro na. apply same_bind; [apply same_done|intro]. apply same_bind; [|intro; apply same_done].
      apply same_act, links_fuel.
    - intro inputs. apply same_bind; [apply same_done|intro df]. apply same_bind.
      + unfold discover_producer_partitions_p, discover_producer_partitions. apply same_bind; [apply same_done|intro].
        apply same_bind; [apply same_collect; intro; apply same_bind; [apply read_known_alone|intro; apply same_done]|intro].
        apply same_bind; [|intro; apply same_done]. apply same_each. intro. apply same_bind; [apply same_done|intro]. now apply same_act.
      + intro. apply same_each. intro. apply same_bind; [apply same_done|intro]. apply build_producer_partition_alone.
  Qed.
  Lemma build_alone : forall sn, same (build_p E sn) (build E sn).
  Proof.
    intros. unfold build_p, build, build_nodes. apply same_bind; [apply same_done|intro]. apply same_each.
    intros [?|?]; [apply same_done|apply build_producer_alone].
  Qed.
  Lemma visit_alone : forall g acc n s, finish (visit_p E g acc n) s = (s, visit E g (files s) acc n).
  Proof.
    intros g acc n s. unfold visit_p, visit. destruct n as [a|p]; [|reflexivity]. destruct (key_of g a) as [key|e]; [|reflexivity].
    cbn [pbind bind]. destruct (a_output a); [reflexivity|]. rewrite finish_bind, discover_alone.
    destruct (discover E (files s) (a_storage a) []) as [[|x l]|e]; reflexivity.
  Qed.
  Lemma visit_all_alone : forall g l acc s, finish (visit_all_p E g acc l) s = (s, visit_all E g (files s) acc l).
  Proof.
    intros g. induction l as [|n l IH]; intros acc s; [reflexivity|]. cbn [visit_all_p visit_all]. rewrite finish_bind, visit_alone.
    destruct (visit E g (files s) acc n); cbn [bind]; [apply IH|reflexivity].
  Qed.
  Lemma graph_build_alone : forall g, same (graph_build_p E g) (graph_build E g).
  Proof.
    intro g. unfold graph_build_p, graph_build. apply same_bind.
    - unfold from_graph_p, from_graph. apply same_bind; [intros s F; split; [apply visit_all_alone|exact F]|intro found].
      cbn zeta. apply same_bind; [now apply same_act|intros _]. apply same_bind; [now apply same_act|intros _].
      apply same_bind; [|intro; apply same_done]. apply same_each. intro. apply same_bind; [now apply same_act|intros _]. now apply same_act.
    - intro sn. apply same_bind; [apply build_alone|intro; apply same_done].
  Qed.
End Alone.

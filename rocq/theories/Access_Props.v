(** Reading and writing by hand: C62. *)
From Coq Require Import ZArith List Ascii String Bool Arith.
From Verif Require Import Base Str Graph_Model Backend_Model Executor_Model Executor_Spec Executor_Cases Executor_Cases_Proofs.
From Verif Require Import Access_Model Access_Spec Access_Proofs Access_Build_Proofs Access_Cases Access_Cases_Proofs.
Import ListNotations.
Open Scope list_scope.

(** * Reading *)
(** C62. Artifacts of other graphs are refused, and so is a call with neither an annotation nor a
    view or with both. An annotation stands for the view found for it, if that is suitable. None
    of the refused calls changes anything. *)
Theorem C62_read_arguments : forall V W N (E : env V) (X : views V W N) g a n w sn parts s,
  (~ In a (map snd (g_arts g)) -> read E X g a n w sn parts s = (s, Err KeyError)) /\
  (In a (map snd (g_arts g)) -> (n = None <-> w = None) -> read E X g a n w sn parts s = (s, Err ValueError)).
Proof. intros V W N E X g a n w sn parts s. exact (conj (read_unknown E X g a n w sn parts s) (read_choice E X g a n w sn parts s)). Qed.
Print Assumptions C62_read_arguments.
Theorem C62_read_annotated : forall V W N (E : env V) (X : views V W N) g a n sn parts s,
  (forall w, suits X false n a w -> read E X g a (Some n) None sn parts s = read E X g a None (Some w) sn parts s) /\
  ((forall w, ~ suits X false n a w) -> exists e, read E X g a (Some n) None sn parts s = (s, Err e)).
Proof. intros V W N E X g a n sn parts s. exact (conj (fun w => read_annotated E X g a n w sn parts s) (read_unsuited E X g a n sn parts s)). Qed.
Print Assumptions C62_read_annotated.
Example C62_read_annotated_nonvacuous : suits plain false $"str" (raw "a") 0 /\ (forall w, ~ suits plain false $"int" (raw "a") w) /\
  read demo plain g1 (raw "a") (Some $"str") None None None ex1 = (ex1, Ok $"1") /\
  read demo plain g1 (raw "a") (Some $"int") None None None ex1 = (ex1, Err ValueError) /\
  read demo plain g2 (raw "a") (Some $"str") None None None ex1 = (ex1, Err KeyError).
Proof. split; [now split|]. split; [intros w (H & _); discriminate|]. now split. Qed.

(** C62. Without a snapshot, reading a raw artifact gives the view the partitions that are in the
    storage now, each once, whatever other raw artifacts there are and whatever has been recorded;
    nothing is changed. Of an unpartitioned file that is the file. *)
Theorem C62_read_raw : forall V W N (E : env V) (X : views V W N) g a w s s' r, a_output a = None -> In a (map snd (g_arts g)) ->
  read E X g a None (Some w) None None s = (s', r) ->
  s' = s /\ forall v, r = Ok v -> exists parts, (forall x, In x parts <-> raw_found E s (a_storage a) x) /\
    (NoDup (map fst (files s)) -> NoDup parts) /\ gives X s w a parts v.
Proof. exact @read_raw. Qed.
Print Assumptions C62_read_raw.
Theorem C62_read_raw_file : forall V W N (E : env V) (X : views V W N) g a w s, In a (map snd (g_arts g)) -> a_output a = None ->
  st_kind (a_storage a) = SFile -> st_partitioned (a_storage a) = false -> st_templated (a_storage a) = false -> NoDup (map fst (files s)) ->
  read E X g a None (Some w) None None s = (s, match dget location_eqb (files s) (place a None []) with Some d => decode X w a [d] | None => Err FileNotFoundError end).
Proof. exact @read_raw_file. Qed.
Print Assumptions C62_read_raw_file.
(** Without y there is no snapshot of g4, but x can be read. *)
Example C62_read_raw_nonvacuous : let s := start [file "x" "" "ab"] in
  snd (from_graph demo g4 s) = Err ValueError /\ read demo plain g4 (raw "x") None (Some 1) None None s = (s, Ok $"ba") /\
  read demo plain g2 (raw_parts "a") None (Some 0) None None (start [file "a" "1" "x"; file "a" "2" "y"]) = (start [file "a" "1" "x"; file "a" "2" "y"], Ok $"xy").
Proof. cbv zeta. repeat split; vm_compute; reflexivity. Qed.

(** C62. With a snapshot, the view is given the partitions linked to it; if there are none, there
    is no data. *)
Theorem C62_read_snapshot : forall V W N (E : env V) (X : views V W N), iterates E -> forall g a w sn s s' r, fuel s = None -> In a (map snd (g_arts g)) ->
  read E X g a None (Some w) (Some sn) None s = (s', r) ->
  files s' = files s /\ (forall sn' k y, linked s' sn' k y <-> linked s sn' k y) /\ (forall t y, recorded s' t y <-> recorded s t y) /\
  exists key, last_key (g_arts g) a key /\ ((forall y, ~ linked s sn key y) -> r = Err FileNotFoundError) /\
    forall v, r = Ok v -> exists parts, (forall y, In y parts <-> linked s sn key y) /\ gives X s w a parts v.
Proof. exact @read_linked. Qed.
Print Assumptions C62_read_snapshot.
(** C62. A produced artifact is read without a snapshot as it is in the snapshot of the current
    raw data: what was built from other raw data is never returned. *)
Theorem C62_read_produced : forall V W N (E : env V) (X : views V W N), iterates E -> forall g a w s s' r, fuel s = None -> NoDup (map fst (g_arts g)) ->
  In a (map snd (g_arts g)) -> a_output a <> None -> read E X g a None (Some w) None None s = (s', r) ->
  files s' = files s /\
  ((exists e, from_graph E g s = (s', Err e) /\ r = Err e) \/
   exists s1 sn key, from_graph E g s = (s1, Ok sn) /\ last_key (g_arts g) a key /\
     (forall sn' k y, linked s' sn' k y <-> linked s1 sn' k y) /\ (forall t y, recorded s' t y <-> recorded s1 t y) /\
     ((forall y, ~ linked s sn key y) -> r = Err FileNotFoundError) /\
     forall v, r = Ok v -> exists parts, (forall y, In y parts <-> linked s sn key y) /\ gives X s w a parts v).
Proof. exact @read_produced. Qed.
Print Assumptions C62_read_produced.
(** C62. After a build a produced artifact is read without a snapshot as with the snapshot built. *)
Theorem C62_read_built : forall V W N (E : env V) (X : views V W N) g a w s s' sn, fuel s = None -> NoDup (map fst (files s)) -> NoDup (map fst (g_arts g)) ->
  In a (map snd (g_arts g)) -> a_output a <> None -> graph_build E g s = (s', Ok sn) ->
  snd (read E X g a None (Some w) None None s') = snd (read E X g a None (Some w) (Some sn) None s').
Proof. exact @read_built. Qed.
Print Assumptions C62_read_built.
(** Once the raw file has changed, b has to be built again; the old snapshot still has it. *)
Example C62_read_produced_nonvacuous : let s := run g1 ex1 in let s' := with_raw s [file "a" "" "2"] in
  graph_build demo g1 ex1 = (s, Ok sn1) /\
  snd (read demo plain g1 b1 None (Some 0) None None ex1) = Err FileNotFoundError /\ snd (read demo plain g1 b1 None (Some 0) None None s) = Ok $"11" /\
  snd (read demo plain g1 b1 None (Some 0) None None s') = Err FileNotFoundError /\ snd (snapshot_read demo plain sn1 b1 None (Some 0) None s') = Ok $"11".
Proof. cbv zeta. repeat split; vm_compute; reflexivity. Qed.

(** * Writing *)
(** C62. A write stores the data in one place, with a suitable view, and records that partition;
    with a snapshot it is linked to it, and to nothing else. *)
Theorem C62_write : forall V W N (E : env V) (X : views V W N) g v a f k view sn s s' x, fuel s = None -> write E X g v a f k view sn s = (s', Ok x) ->
  exists w d key, last_key (g_arts g) a key /\ writes_with X v a view w /\ encode X w a v = Ok d /\ well_addressed a f k /\ (sn <> None -> a_output a <> None) /\
    pt_storage (ps_part x) = a_storage a /\ ps_key x = k /\ ps_fp x = f /\ holds_data s' x d /\
    (forall l, l <> place a f k -> dget location_eqb (files s') l = dget location_eqb (files s) l) /\
    (forall t y, recorded s' t y <-> recorded s t y \/ (t = a_storage a /\ y = x)) /\
    (forall sn' key' y, linked s' sn' key' y <-> linked s sn' key' y \/ (sn = Some sn' /\ key' = key /\ y = x)).
Proof. exact @write_ok. Qed.
Print Assumptions C62_write.
(** C62. Nothing else is required of a write. *)
Theorem C62_write_succeeds : forall V W N (E : env V) (X : views V W N) g v a f k view sn w d s, fuel s = None -> In a (map snd (g_arts g)) -> (sn <> None -> a_output a <> None) ->
  writes_with X v a view w -> encode X w a v = Ok d -> well_addressed a f k -> (forall c, st_kind (a_storage a) <> SLiteral (Some c)) ->
  exists s' x, write E X g v a f k view sn s = (s', Ok x).
Proof. exact @write_total. Qed.
Print Assumptions C62_write_succeeds.
Example C62_write_nonvacuous : writes_with plain $"new" (raw "a") None 0 /\ encode plain 0 (raw "a") $"new" = Ok $"new" /\ well_addressed (raw "a") None [] /\
  well_addressed (out_parts "b" each 0) (Some 5%Z) $"1" /\ ~ well_addressed b1 None [] /\
  (let '(s', r) := write demo plain g1 $"new" (raw "a") None [] None None ex1 in files s' = [file "a" "" "new"] /\ r = Ok (PSnapshot (Partition (a_storage (raw "a")) [] None None) (hash $"new"))) /\
  (let '(s', r) := write demo plain g1 $"new" b1 (Some 5%Z) [] None (Some sn1) (run g1 ex1) in texts s' sn1 "b" = [Some $"11"; Some $"new"]) /\
  write demo plain g1 $"1" (raw "a") None [] None None ex1 = (ex1, Err ValueError) /\
  write demo plain g1 $"new" (raw "a") None [] (Some 1) None ex1 = (ex1, Err TypeError).
Proof.
  split; [now split|]. split; [reflexivity|]. split; [split; split; try discriminate; now intros []|]. split; [split; split; discriminate || reflexivity|].
  split; [intros [_ [H _]]; now apply H|]. repeat split; vm_compute; reflexivity.
Qed.

(** C62. A write that fails records nothing. It changes a file only if the view was suitable and
    could not write the data: then the file is empty. *)
Theorem C62_write_failed : forall V W N (E : env V) (X : views V W N) g v a f k view sn s s' e, fuel s = None -> write E X g v a f k view sn s = (s', Err e) ->
  db s' = db s /\ log s' = log s /\
  (files s' = files s \/
   (st_kind (a_storage a) = SFile /\ (exists w, writes_with X v a view w /\ encode X w a v = Err e) /\
    forall l, dget location_eqb (files s') l = if location_eqb (place a f k) l then Some [] else dget location_eqb (files s) l)).
Proof. exact @write_failed. Qed.
Print Assumptions C62_write_failed.
Theorem C62_write_refused : forall V W N (E : env V) (X : views V W N) g v a f k view sn s,
  (~ In a (map snd (g_arts g)) -> write E X g v a f k view sn s = (s, Err KeyError)) /\
  (In a (map snd (g_arts g)) -> a_output a = None -> forall sn', write E X g v a f k view (Some sn') s = (s, Err ValueError)).
Proof. intros V W N E X g v a f k view sn s. exact (conj (write_unknown E X g v a f k view sn s) (fun I O sn' => write_raw_snapshot E X g v a f k view sn' s I O)). Qed.
Print Assumptions C62_write_refused.
(** A finding: a write that fails does not leave the data that was there. *)
Theorem C62_emptied_refuted : exists s, read demo plain g1 (raw "a") None (Some 0) None None s = (s, Ok $"1") /\
  let '(s', r) := write demo plain g1 $"?" (raw "a") None [] None None s in
  r = Err TypeError /\ read demo plain g1 (raw "a") None (Some 0) None None s' = (s', Ok []).
Proof. exists ex1. vm_compute. auto. Qed.
Print Assumptions C62_emptied_refuted.

(** * What has been written is there *)
(** C62. Data written to a raw file is read back: any view is given what was written. Of a
    partitioned one the partition takes the place of the one with its key. *)
Theorem C62_written_read : forall V W N (E : env V) (X : views V W N) g v a view w' s s' x, fuel s = None -> NoDup (map fst (files s)) -> a_output a = None ->
  st_kind (a_storage a) = SFile -> write E X g v a None [] view None s = (s', Ok x) ->
  exists w d, writes_with X v a view w /\ encode X w a v = Ok d /\ read E X g a None (Some w') None None s' = (s', decode X w' a [d]).
Proof. exact @write_read_raw. Qed.
Print Assumptions C62_written_read.
Theorem C62_written_found : forall V W N (E : env V) (X : views V W N) g v a k view s s' x, fuel s = None -> write E X g v a None k view None s = (s', Ok x) ->
  st_kind (a_storage a) = SFile ->
  (forall y, raw_found E s' (a_storage a) y <-> y = x \/ (raw_found E s (a_storage a) y /\ ps_key y <> k)) /\
  forall t, st_id t <> st_id (a_storage a) -> forall y, raw_found E s' t y <-> raw_found E s t y.
Proof. exact @write_found. Qed.
Print Assumptions C62_written_found.
(** C62. Data written with a snapshot that has none of the artifact is read back from it. *)
Theorem C62_written_snapshot : forall V W N (E : env V) (X : views V W N), iterates E -> (forall l, NoDup l -> NoDup (iter_set E l)) ->
  forall g v a f k view w' sn s s' x, fuel s = None -> st_kind (a_storage a) = SFile -> (forall key y, last_key (g_arts g) a key -> ~ linked s sn key y) ->
  write E X g v a f k view (Some sn) s = (s', Ok x) ->
  exists w d, writes_with X v a view w /\ encode X w a v = Ok d /\ snd (read E X g a None (Some w') (Some sn) None s') = decode X w' a [d].
Proof. exact @write_read_snapshot. Qed.
Print Assumptions C62_written_snapshot.
Example C62_written_nonvacuous :
  (let '(s', r) := write demo plain g1 $"new" (raw "a") None [] None None ex1 in read demo plain g1 (raw "a") None (Some 1) None None s' = (s', Ok $"wen")) /\
  (let '(s', r) := write demo plain g2 $"z" (raw_parts "a") None $"2" None None (start [file "a" "1" "x"; file "a" "2" "y"]) in
   read demo plain g2 (raw_parts "a") None (Some 0) None None s' = (s', Ok $"xz")) /\
  (forall key y, last_key (g_arts g1) b1 key -> ~ linked (fst (snap g1 ex1)) sn1 key y) /\
  (let '(s', r) := write demo plain g1 $"new" b1 (Some 5%Z) [] None (Some sn1) (fst (snap g1 ex1)) in snd (snapshot_read demo plain sn1 b1 None (Some 1) None s') = Ok $"wen").
Proof.
  split; [vm_compute; reflexivity|]. split; [vm_compute; reflexivity|]. split; [|vm_compute; reflexivity].
  intros key y K. apply Executor_Build_Proofs.key_of_last in K. assert (Q : key_of g1 b1 = Ok $"b") by (vm_compute; reflexivity).
  unfold key_of in *. rewrite Q in K. injection K as <-. intro L. vm_compute in L. exact L.
Qed.
(** A finding: what is written to a raw literal cannot be read back. *)
Theorem C62_literal_refuted : exists s, let '(s', r) := write demo plain (g15 None) $"new" (literal15 None) None [] None None s in
  (exists x, r = Ok x /\ recorded s' (a_storage (literal15 None)) x /\ holds_data s' x $"new") /\
  read demo plain (g15 None) (literal15 None) None (Some 0) None None s' = (s', Err FileNotFoundError).
Proof. exists ex1. vm_compute. split; [|reflexivity]. eexists. split; [reflexivity|]. split; [eexists; split; [reflexivity|]; now left|reflexivity]. Qed.
Print Assumptions C62_literal_refuted.
(** A finding: the contents recorded are not compared with what is read. The snapshot of a raw
    file gives whatever the file has now. *)
Theorem C62_changed_refuted : exists s s' sn, from_graph demo g1 ex1 = (s, Ok sn) /\ s' = with_raw s [file "a" "" "2"] /\
  snd (snapshot_read demo plain sn (raw "a") None (Some 0) None s) = Ok $"1" /\ snd (snapshot_read demo plain sn (raw "a") None (Some 0) None s') = Ok $"2" /\
  forall x, linked s' sn $"a" x -> ps_content x = file_fp demo $"1".
Proof.
  eexists _, _, _. split; [vm_compute; reflexivity|]. split; [reflexivity|]. split; [vm_compute; reflexivity|]. split; [vm_compute; reflexivity|].
  intros x L. vm_compute in L. destruct L as [<-|[]]. reflexivity.
Qed.
Print Assumptions C62_changed_refuted.

(** * What has been written is used *)
(** C62. A recorded partition with the fingerprint a producer asks for, written by hand or not,
    is linked by the build of the producer, which does not build that partition. *)
Theorem C62_written_used : forall V (E : env V), iterates E -> forall sn p i a key x d s s' r, in_order E (g_arts (s_graph sn)) -> produces (g_arts (s_graph sn)) p i a ->
  last_key (g_arts (s_graph sn)) a key -> recorded s (a_storage a) x -> asks E s sn p (ps_key x) d -> ps_fp x = Some (fingerprint_for E p d) ->
  build_producer E sn p s = (s', Ok r) ->
  linked s' sn key x /\ exists new, log s' = new ++ log s /\ forall args, ~ In (Built p (ps_key x) args) new.
Proof. exact @recorded_used. Qed.
Print Assumptions C62_written_used.
(** The texts built and read differ: "mine" has been written by hand with the fingerprint asked for. *)
Example C62_written_used_nonvacuous :
  texts (built (fst (snap g2 one2)) sn16) sn16 "b" = [Some $"x!"] /\ texts (built mine16 sn16) sn16 "b" = [Some $"mine"] /\
  recorded mine16 (a_storage (out_parts "b" each 0)) x16 /\ asks demo mine16 sn16 each (ps_key x16) d16 /\ ps_fp x16 = Some (fingerprint_for demo each d16).
Proof.
  split; [vm_compute; reflexivity|]. split; [vm_compute; reflexivity|]. split; [eexists; split; [vm_compute; reflexivity|vm_compute; now left]|].
  split; [exact asks16|vm_compute; reflexivity].
Qed.
(** A finding: a partition written by hand hides the files of a storage nothing is recorded of. A
    new process that builds uses both files; if it first writes one of the two partitions, with
    the same data, it builds the other one again. *)
Theorem C62_hidden_refuted : let '(s, sn) := snap g2 later2 in
  log (built s sn) = log s /\
  let '(s', r) := write demo plain g2 $"x!" (out_parts "b" each 0) (Some (fingerprint_of "x")) $"1" None None s in
  files s' = files s /\ exists new, log (built s' sn) = new ++ log s' /\ In (Built each $"2" [($"x", $"y")]) new.
Proof. vm_compute. split; [reflexivity|]. split; [reflexivity|]. eexists [_; _; _]. split; [reflexivity|]. right. right. now left. Qed.
Print Assumptions C62_hidden_refuted.

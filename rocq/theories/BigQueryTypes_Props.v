(** C28: BigQuery types round trip. *)
From Coq Require Import ZArith List Ascii String Bool Lia.
From Verif Require Import Base Str Str_Proofs Types_Model Types_Spec ArrowTypes_Model ArrowTypes_Spec BigQueryTypes_Model BigQueryTypes_Spec BigQueryTypes_Proofs.
Import ListNotations.
Open Scope list_scope.

(** Names of tables split at their dots. *)
Definition ex_parse (name : str) : option (str * str * str) :=
  match split_char "."%char name with [p; d; t] => Some (p, d, t) | _ => None end.
Lemma ex_splits : splits ex_parse.
Proof.
  split; [reflexivity|]. intros name p d t H. unfold ex_parse in H. rewrite <- (join_split "."%char name) at 1.
  destruct (split_char "."%char name) as [|a [|b [|c [|]]]]; try discriminate H. injection H as <- <- <-. reflexivity.
Qed.
(** Sales by day and shop: a described column, an array of records, small numbers. *)
Definition ex_columns : list (str * ty) :=
  [($"day", Scalar Date plain);
   ($"shop", Scalar (Int B16) (Meta (Some $"where") true));
   ($"items", List (Struct $"item" [($"price", Scalar (Float F32) plain); ($"at", Time Second (Meta None true))] (Meta (Some $"sold") true)) (Meta (Some $"a basket") true))].
Definition ex_sales : ty := Collection $"a.b.sales" (Struct $"row" ex_columns plain) [$"day"; $"shop"] [$"items"] (Meta (Some $"all") true).
Definition ex_schema : list bq :=
  [SchemaField $"day" $"DATE" REQUIRED None [];
   SchemaField $"shop" $"INTEGER" NULLABLE (Some $"where") [];
   SchemaField $"items" $"RECORD" REPEATED (Some $"sold")
     [SchemaField $"price" $"FLOAT" REQUIRED None []; SchemaField $"at" $"TIME" NULLABLE None []]].
Definition ex_table : bq := Table $"a" $"b" $"sales" ex_schema (Some ($"DAY", Some $"day")) false (Some [$"shop"; $"items"]).
Definition ex_sales_back : ty :=
  Collection $"a.b.sales" (Struct anon
    [($"day", Scalar Date plain);
     ($"shop", Scalar (Int B64) (Meta (Some $"where") true));
     ($"items", List (Struct anon [($"price", Scalar (Float F64) plain); ($"at", Time Microsecond (Meta None true))] (Meta (Some $"sold") false)) (Meta (Some $"sold") false))]
    plain) [$"day"] [$"shop"; $"items"] plain.
Lemma ex_sales_constructed : constructed ex_sales.
Proof.
  apply con_collection.
  - apply con_struct.
    + repeat (constructor; [cbn; intuition discriminate|]). constructor.
    + repeat (first [apply Forall_nil|apply Forall_cons|constructor]); cbn; intuition discriminate.
  - exists $"row", ex_columns, plain. split; [reflexivity|]. repeat split.
    + intros n [<-|[<-|[]]]; cbn; tauto.
    + intros n [<-|[]]; cbn; tauto.
    + intros n [<-|[<-|[]]] [E|[]]; discriminate E.
Qed.
Lemma ex_sales_tidy : tidy ex_sales.
Proof.
  apply tidy_collection.
  - repeat (first [apply Forall_nil|apply Forall_cons|constructor]).
  - intros head tail E. injection E as <- <-. intros [E|[]]. discriminate E.
Qed.

(** A type is accepted exactly if it is [convertible]; otherwise one of the reasons listed in
    [refused_bq] is given. [n] is the stack that is left, [h] the name asked for. *)
Theorem C28_accepted : forall parse n t h, constructed t -> nesting t <= n ->
  (convertible parse t /\ exists x, bq_of parse n h t = Ok x) \/ (~ convertible parse t /\ exists e, refused_bq parse t e /\ bq_of parse n h t = Err e).
Proof. intros parse n t h C L. exact (bq_exists parse n t C L h). Qed.
Print Assumptions C28_accepted.
Example C28_accepted_nonvacuous :
  constructed ex_sales /\ nesting ex_sales <= 5 /\ bq_of ex_parse 5 None ex_sales = Ok ex_table /\
  bq_of ex_parse 5 None (Scalar (UInt B8) plain) = Err NotImplementedError /\
  bq_of ex_parse 5 None (Collection $"sales" (Struct anon [] plain) [] [] plain) = Err ValueError.
Proof. split; [exact ex_sales_constructed|]. split; [vm_compute; lia|]. repeat split; reflexivity. Qed.

(** Nested arrays are always refused, however deep they are. *)
Theorem C28_nested_arrays : forall parse n t m m' h, bq_of parse (S n) h (List (List t m) m') = Err ValueError.
Proof. intros parse n t m m' h. exact (bq_of_S parse n h (List (List t m) m')). Qed.
Print Assumptions C28_nested_arrays.

(** C28, in part. What is made of [tidy] types comes back, up to the losses spelled out in [bq_stored]. Missing:
    Collections within other types and repeated partition columns. *)
Theorem C28_round_trip_partial : forall parse n t h x, splits parse -> constructed t -> tidy t -> bq_of parse n h t = Ok x ->
  forall m h', n <= m -> of_bq parse m h' x = Ok (bq_stored t).
Proof. intros parse n t h x S. exact (bq_round_trip parse S n t h x). Qed.
Print Assumptions C28_round_trip_partial.
Example C28_round_trip_nonvacuous :
  splits ex_parse /\ constructed ex_sales /\ tidy ex_sales /\ bq_of ex_parse 5 None ex_sales = Ok ex_table /\
  of_bq ex_parse 5 None ex_table = Ok ex_sales_back /\ bq_stored ex_sales = ex_sales_back.
Proof. split; [exact ex_splits|]. split; [exact ex_sales_constructed|]. split; [exact ex_sales_tidy|]. repeat split; reflexivity. Qed.

(** The other types that are accepted never come back. *)
Theorem C28_untidy : forall parse n t h x m h', splits parse -> constructed t -> bq_of parse n h t = Ok x -> ~ tidy t ->
  forall u, of_bq parse m h' x <> Ok u.
Proof. intros parse n t h x m h' S C B NT u U. exact (NT (bq_readable parse n t h x m h' u C B U)). Qed.
Print Assumptions C28_untidy.

(** Nothing is lost exactly of the types that are [bq_kept]. *)
Theorem C28_lossless : forall parse t, convertible parse t -> (bq_stored t = t <-> bq_kept t).
Proof. exact bq_stored_kept. Qed.
Print Assumptions C28_lossless.
Lemma ex_back_convertible : convertible ex_parse ex_sales_back.
Proof.
  apply cv_collection.
  - apply cv_struct. apply Forall_cons; [apply cv_scalar; discriminate|]. apply Forall_cons; [apply cv_scalar; discriminate|]. apply Forall_cons; [|apply Forall_nil].
    apply cv_list; [|split; discriminate]. apply cv_struct. apply Forall_cons; [apply cv_scalar; discriminate|]. apply Forall_cons; [constructor|apply Forall_nil].
  - repeat (apply Forall_cons; [intros ? ? ? ? ? E; discriminate E|]). apply Forall_nil.
  - discriminate.
  - intros head tail E. injection E as <- <-. exists (Scalar Date plain). split; [left; reflexivity|constructor].
Qed.
Example C28_lossless_nonvacuous : convertible ex_parse ex_sales_back /\ bq_stored ex_sales_back = ex_sales_back /\ bq_stored ex_sales <> ex_sales.
Proof. split; [exact ex_back_convertible|]. split; [reflexivity|discriminate]. Qed.

(** What came back is converted to the same table or field, and comes back unchanged. *)
Theorem C28_stable : forall parse t, constructed t -> convertible parse t ->
  bq_stored (bq_stored t) = bq_stored t /\ forall n h, bq_of parse n h (bq_stored t) = bq_of parse n h t.
Proof. intros parse t C V. exact (conj (bq_stored_idem parse t V) (fun n h => bq_stored_same parse n t h C V)). Qed.
Print Assumptions C28_stable.

(** The other way around: a field or table is understood exactly if it is [readable_bq]. *)
Theorem C28_readable : forall parse n x h, wf_bq parse x -> bq_nesting x <= n -> ((exists t, of_bq parse n h x = Ok t) <-> readable_bq x).
Proof. exact bq_readable_iff. Qed.
Print Assumptions C28_readable.

(** It becomes a valid type, and is converted back under its name, up to the case of names of types and what
    BigQuery ignores. *)
Theorem C28_back : forall parse n h x t, wf_bq parse x -> of_bq parse n h x = Ok t ->
  constructed t /\ bq_of parse n (Some (field_name x)) t = Ok (canonical_bq x).
Proof. exact bq_back. Qed.
Print Assumptions C28_back.
Definition ex_other : bq :=
  Table $"p" $"d" $"t" [SchemaField $"a" $"timestamp" NULLABLE None []; SchemaField $"b" $"Record" REPEATED (Some $"x") [SchemaField $"c" $"bytes" NULLABLE None []]]
    (Some ($"DAY", Some $"a")) false (Some []).
Example C28_back_nonvacuous :
  wf_bq ex_parse ex_table /\ readable_bq ex_table /\ bq_nesting ex_table = 6 /\ canonical_bq ex_table = ex_table /\ wf_bq ex_parse ex_other /\
  of_bq ex_parse 6 None ex_other = Ok (Collection $"p.d.t" (Struct anon [($"a", Timestamp Microsecond (Meta None true));
     ($"b", List (Struct anon [($"c", Binary None (Meta None true))] (Meta (Some $"x") false)) (Meta (Some $"x") false))] plain) [$"a"] [] plain) /\
  of_bq ex_parse 6 None (SchemaField $"n" $"NUMERIC" REQUIRED None []) = Err NotImplementedError.
Proof.
  split; [|split; [|split; [reflexivity|split; [reflexivity|split; [|split; reflexivity]]]]].
  - split; [repeat (constructor; [cbn; intuition discriminate|]); constructor|]. split.
    { repeat (first [apply Forall_nil|apply Forall_cons|constructor]); cbn; intuition discriminate. }
    split; [reflexivity|]. intros ty f E. injection E as <- <-. exists $"DATE", REQUIRED, None, []. split; [left; reflexivity|]. split; [left; reflexivity|discriminate].
  - apply rq_partitioned.
    + apply Forall_cons; [apply rf_leaf; cbn; tauto|]. apply Forall_cons; [apply rf_leaf; cbn; tauto|]. apply Forall_cons; [|apply Forall_nil].
      apply rf_record; [reflexivity|]. repeat (apply Forall_cons; [apply rf_leaf; cbn; tauto|]). apply Forall_nil.
    + cbn. tauto.
    + intros c [<-|[<-|[]]]; (split; [cbn; tauto|discriminate]).
  - split; [repeat (constructor; [cbn; intuition discriminate|]); constructor|]. split.
    { repeat (first [apply Forall_nil|apply Forall_cons|constructor]); cbn; intuition discriminate. }
    split; [reflexivity|]. intros ty f E. injection E as <- <-. exists $"timestamp", NULLABLE, None, []. split; [left; reflexivity|]. split; [right; right; left; reflexivity|discriminate].
Qed.

(** False: the description of an array comes back. It is replaced by the one of its element. *)
Theorem C28_list_description_refuted : forall parse n h, exists x,
  bq_of parse (S (S n)) h (List (Scalar String (Meta (Some $"a word") false)) (Meta (Some $"a text") false)) = Ok x /\
  of_bq parse (S (S n)) h x = Ok (List (Scalar String (Meta (Some $"a word") false)) (Meta (Some $"a word") false)).
Proof. intros parse n h. exists (SchemaField (hinted_name h) $"STRING" REPEATED (Some $"a word") []). split; reflexivity. Qed.
Print Assumptions C28_list_description_refuted.

(** False: what is accepted comes back. A table within a record is accepted, but not when read. *)
Definition ex_nested : ty := Struct anon [($"rows", Collection $"a.b.c" (Struct anon [] plain) [] [] plain)] plain.
Theorem C28_nested_collection_refuted : constructed ex_nested /\ exists x, bq_of ex_parse 5 None ex_nested = Ok x /\ of_bq ex_parse 5 None x = Err AttributeError.
Proof.
  split.
  - repeat (first [apply Forall_nil|apply Forall_cons|constructor]); cbn; try tauto. exists anon, [], plain. repeat split; intros n [].
  - eexists. split; reflexivity.
Qed.
Print Assumptions C28_nested_collection_refuted.

(** False as well when the first of the partition columns is repeated, which Collections allow. *)
Definition ex_repeated : ty := Collection $"a.b.c" (Struct anon [($"day", Scalar Date plain)] plain) [$"day"; $"day"] [] plain.
Theorem C28_repeated_partition_refuted : constructed ex_repeated /\ exists x, bq_of ex_parse 5 None ex_repeated = Ok x /\ of_bq ex_parse 5 None x = Err ValueError.
Proof.
  split.
  - apply con_collection; [repeat (first [apply Forall_nil|apply Forall_cons|constructor]); cbn; tauto|]. exists anon, [($"day", Scalar Date plain)], plain.
    split; [reflexivity|]. split; [intros n [<-|[<-|[]]]; left; reflexivity|]. split; [intros n []|intros n _ []].
  - eexists. split; reflexivity.
Qed.
Print Assumptions C28_repeated_partition_refuted.

(** False: BigQuery's own names of the types are understood. INT64, FLOAT64, BOOL and STRUCT, which
    BigQuery accepts in schemas too, are not. *)
Theorem C28_standard_names_refuted : forall parse n h name d fs mode ft, mode <> REPEATED ->
  In ft [$"INT64"; $"FLOAT64"; $"BOOL"; $"STRUCT"] -> of_bq parse (S n) h (SchemaField name ft mode d fs) = Err NotImplementedError.
Proof.
  intros parse n h name d fs mode ft NR I. rewrite of_field. destruct (str_eqb mode REPEATED) eqn:E; [apply str_eqb_spec in E; contradiction|].
  destruct I as [<-|[<-|[<-|[<-|[]]]]]; reflexivity.
Qed.
Print Assumptions C28_standard_names_refuted.

(** False: tables partitioned by day are understood. Those partitioned by the time of ingestion are not. *)
Theorem C28_ingestion_time_refuted : exists x, bq_nesting x <= 3 /\ wf_bq ex_parse x /\ of_bq ex_parse 5 None x = Err ValueError.
Proof.
  exists (Table $"a" $"b" $"c" [] (Some ($"DAY", None)) false None). split; [cbn; lia|]. split; [|reflexivity].
  split; [constructor|]. split; [constructor|]. split; [reflexivity|]. intros ty f E. discriminate E.
Qed.
Print Assumptions C28_ingestion_time_refuted.

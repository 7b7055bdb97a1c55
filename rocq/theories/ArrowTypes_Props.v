(** C27: PyArrow types round trip. *)
From Coq Require Import ZArith List Ascii String Bool Lia.
From Verif Require Import Base Str Types_Model Types_Spec ArrowTypes_Model ArrowTypes_Spec ArrowTypes_Proofs.
Import ListNotations.
Open Scope list_scope.

(** A partitioned Collection with a nullable list of times, a place and a Map, described. *)
Definition ex_columns : list (str * ty) :=
  [($"day", Scalar Date plain);
   ($"at", List (Time Millisecond (Meta None true)) (Meta (Some $"when it happened") true));
   ($"place", Geography (Some $"WKB") None plain);
   ($"counts", Map (Scalar String plain) (Struct $"inner" [($"x", Scalar (UInt B16) (Meta None true))] plain) plain);
   ($"seen", Timestamp Nanosecond plain)].
Definition ex_rows : ty := Collection $"rows" (Struct $"row" ex_columns plain) [$"day"] [$"seen"] (Meta None true).
Definition ex_schema : arrow :=
  PaSchema
    [($"day", PaDate64, false);
     ($"at", PaList (PaTime32 U_ms), true);
     ($"place", PaBinary, false);
     ($"counts", PaMap PaString (PaStruct [($"x", PaUInt B16, true)]), false);
     ($"seen", PaTimestamp U_ns (Some $"UTC"), false)]
    (Some (Entry (Some $"rows") (Some [$"day"]) (Some [$"seen"]))).
Definition ex_rows_back : ty :=
  Collection $"rows"
    (Struct anon
       [($"day", Scalar Date plain);
        ($"at", List (Time Millisecond plain) (Meta None true));
        ($"place", Binary None plain);
        ($"counts", Map (Scalar String plain) (Struct anon [($"x", Scalar (UInt B16) (Meta None true))] plain) plain);
        ($"seen", Timestamp Nanosecond plain)] plain)
    [$"day"] [$"seen"] plain.
Ltac members := cbn; tauto.
Ltac columns :=
  cbn [snd];
  lazymatch goal with
  | |- column (Struct _ _ _) => apply col_struct; columns
  | |- column (List _ _) => apply col_list; columns
  | |- column (Map _ _ _) => apply col_map; columns
  | |- column (Binary _ _) => apply col_binary; intros ? E; discriminate E
  | |- column _ => constructor
  | |- Forall _ [] => apply Forall_nil
  | |- Forall _ (_ :: _) => apply Forall_cons; columns
  | |- _ /\ _ => split; columns
  | |- nullable_null _ => let E := fresh in intros ? E; (discriminate E)
  | |- _ => try unfold ex_columns; columns
  end.
Lemma ex_rows_constructed : constructed ex_rows.
Proof.
  apply con_collection.
  - apply con_struct.
    + repeat (constructor; [cbn; intuition discriminate|]). constructor.
    + repeat (apply Forall_cons; [repeat (first [apply Forall_nil|apply Forall_cons|constructor])|]); try apply Forall_nil.
      cbn. intuition.
  - exists $"row", ex_columns, plain. split; [reflexivity|]. repeat split.
    + intros n [<-|[]]. members.
    + intros n [<-|[]]. members.
    + intros n [<-|[]] [E|[]]. discriminate E.
Qed.

(** There is a PyArrow type for a type exactly if it is [storable]; otherwise one of the reasons
    listed in [refused] is given. [n] is the stack that is left. *)
Theorem C27_accepted : forall n t, constructed t -> nesting t <= n ->
  (storable t /\ exists x, arrow_of n t = Ok x) \/ (~ storable t /\ exists e, refused t e /\ arrow_of n t = Err e).
Proof. exact arrow_exists. Qed.
Print Assumptions C27_accepted.
Example C27_accepted_nonvacuous :
  constructed ex_rows /\ nesting ex_rows <= 5 /\ arrow_of 5 ex_rows = Ok ex_schema /\
  arrow_of 9 (List ex_rows plain) = Err TypeError /\
  arrow_of 9 (Struct anon [($"a", Scalar Null plain)] plain) = Err ValueError /\
  arrow_of 9 (Map (Scalar String plain) (Set_ (Scalar String plain) plain) plain) = Err NotImplementedError.
Proof. split; [exact ex_rows_constructed|]. split; [vm_compute; lia|]. repeat split; reflexivity. Qed.

(** C27. What is converted comes back, up to the losses spelled out in [stored]. *)
Theorem C27_round_trip : forall n t x, constructed t -> arrow_of n t = Ok x ->
  forall m, n <= m -> of_arrow m x = Ok (stored t).
Proof. intros n t x C. exact (arrow_round_trip n t C x). Qed.
Print Assumptions C27_round_trip.
Example C27_round_trip_nonvacuous :
  constructed ex_rows /\ arrow_of 5 ex_rows = Ok ex_schema /\ of_arrow 5 ex_schema = Ok ex_rows_back /\ stored ex_rows = ex_rows_back.
Proof. split; [exact ex_rows_constructed|]. repeat split; reflexivity. Qed.

(** Nothing is lost exactly of the types [kept] that are not nullable. *)
Theorem C27_lossless : forall t, storable t -> (stored t = t <-> kept t /\ is_nullable t = false).
Proof. exact stored_kept. Qed.
Print Assumptions C27_lossless.
Example C27_lossless_nonvacuous : storable ex_rows_back /\ stored ex_rows_back = ex_rows_back /\ storable ex_rows /\ stored ex_rows <> ex_rows.
Proof.
  repeat split; try reflexivity; try discriminate; apply sto_collection; columns.
Qed.

(** What came back is converted to the same PyArrow type and comes back unchanged. *)
Theorem C27_stable : forall t, stored (stored t) = stored t /\ forall n, arrow_of n (stored t) = arrow_of n t.
Proof. intro t. exact (conj (stored_idem t) (fun n => stored_same n t)). Qed.
Print Assumptions C27_stable.

(** The other way around: a PyArrow type or schema is understood exactly if it is [readable]. *)
Theorem C27_readable : forall n x, wf_arrow x -> arrow_nesting x <= n -> ((exists t, of_arrow n x = Ok t) <-> readable x).
Proof. exact arrow_readable. Qed.
Print Assumptions C27_readable.

(** It becomes a valid type, and is converted back, up to the width of dates, the spelling of UTC
    and the metadata that Artigraph adds. *)
Theorem C27_back : forall n x t, wf_arrow x -> of_arrow n x = Ok t -> constructed t /\ arrow_of n t = Ok (canonical x).
Proof. exact arrow_back. Qed.
Print Assumptions C27_back.
Definition ex_arrow : arrow :=
  PaSchema [($"a", PaList PaDate32, true); ($"b", PaTimestamp U_us (Some $"utc"), false)] None.
Example C27_back_nonvacuous :
  wf_arrow ex_arrow /\ arrow_nesting ex_arrow = 3 /\ readable ex_arrow /\
  of_arrow 3 ex_arrow = Ok (Collection anon (Struct anon [($"a", List (Scalar Date plain) (Meta None true)); ($"b", Timestamp Microsecond plain)] plain) [] [] plain) /\
  of_arrow 3 (PaTimestamp U_s (Some $"CET")) = Err ValueError /\
  of_arrow 3 (PaList (PaOtherType $"large_string")) = Err NotImplementedError /\
  of_arrow 3 (PaSchema [] (Some (Entry None (Some [$"a"]) None))) = Err ValueError.
Proof.
  split; [|split; [reflexivity|split; [|repeat split; reflexivity]]].
  - apply wa_schema; [repeat (constructor; [cbn; intuition discriminate|]); constructor|].
    apply Forall_cons; [split; [apply wt_list, wt_simple; members|discriminate]|].
    apply Forall_cons; [split; [constructor|discriminate]|apply Forall_nil].
  - apply rd_schema; [|intros n [[]|[]]|intros n []].
    apply Forall_cons; [apply rd_list, rd_simple; members|]. apply Forall_cons; [apply rd_timestamp; do 7 right; now left|apply Forall_nil].
Qed.

(** False: every object PyArrow does not know as a type is left to other type systems by a
    NotImplementedError. [is_fixed_size_binary] asks it for an attribute it does not have. *)
Theorem C27_foreign_refuted : forall n s, of_arrow (S n) (PaObject s) = Err AttributeError.
Proof. intros n s. exact (of_arrow_S n (PaObject s)). Qed.
Print Assumptions C27_foreign_refuted.

(** False: each field of a PyArrow struct becomes a field. Of those with the same name the last
    one stays. *)
Theorem C27_repeated_refuted :
  of_arrow 2 (PaStruct [($"a", PaString, false); ($"a", PaBool, false)]) = Ok (Struct anon [($"a", Scalar Boolean plain)] plain).
Proof. exact (of_arrow_S 1 _). Qed.
Print Assumptions C27_repeated_refuted.

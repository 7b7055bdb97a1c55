(** C29: NumPy and pandas types round trip. *)
From Coq Require Import ZArith List Ascii String Bool Lia.
From Verif Require Import Base Str Types_Model Types_Spec PyTypes_Model ArrowTypes_Spec FrameTypes_Model FrameTypes_Spec FrameTypes_Proofs.
Import ListNotations.
Open Scope list_scope.

(** A matrix of described numbers, and a table of prices per shop. *)
Definition ex_matrix : ty := List (List (Scalar (Float F32) (Meta (Some $"a weight") true)) plain) (Meta None true).
Definition ex_prices : ty :=
  Collection $"prices" (Struct $"price" [($"shop", Scalar String plain); ($"price", Scalar (Float F64) (Meta None true))] plain) [$"shop"] [] plain.
Definition ex_frame : obj := DataFrame [(Name $"shop", ColObjects (Some true)); (Name $"price", ColOf (NpFloat F64) false)].
Definition ex_prices_back : ty := List (Struct anon [($"shop", Scalar String plain); ($"price", Scalar (Float F64) plain)] plain) plain.
Definition ex_files : ty := List (Struct $"file" [($"name", Scalar String plain); ($"content", Binary None plain)] plain) plain.
Lemma ex_matrix_constructed : constructed ex_matrix.
Proof. repeat constructor. Qed.
Lemma ex_prices_constructed : constructed ex_prices.
Proof.
  apply con_collection.
  - apply con_struct; [repeat (constructor; [cbn; intuition discriminate|]); constructor|repeat constructor].
  - eexists _, _, _. split; [reflexivity|]. repeat split.
    + intros n [<-|[]]; cbn; tauto.
    + intros n [].
    + intros n _ [].
Qed.
Lemma ex_files_constructed : constructed ex_files.
Proof. apply con_list. apply con_struct; [repeat (constructor; [cbn; intuition discriminate|]); constructor|repeat constructor]. Qed.
Lemma ex_prices_restorable : pd_restorable ex_prices.
Proof. eapply pb_frame; [right; repeat eexists|]. repeat constructor; try (intros ? ?; discriminate); eexists; constructor. Qed.

(** NumPy accepts exactly Lists (of Lists ...) of scalars, up to 64 dimensions, and gives an example
    with one row in each dimension; otherwise one of the reasons in [np_refused] is given. *)
Theorem C29_arrays : forall n t, constructed t -> nesting t <= n ->
  (exists k c, arrayable k t c /\ k <= 64 /\ np_of n t = Ok (np_example k c)) \/
  (~ np_storable t /\ exists e, np_refused t e /\ np_of n t = Err e).
Proof. exact np_exists. Qed.
Print Assumptions C29_arrays.
Example C29_arrays_nonvacuous :
  constructed ex_matrix /\ nesting ex_matrix <= 3 /\ np_of 3 ex_matrix = Ok (Array [1; 1] (NpFloat F32)) /\
  np_of 3 ex_prices = Err NotImplementedError.
Proof. split; [exact ex_matrix_constructed|]. split; [cbn; lia|]. split; reflexivity. Qed.

(** What NumPy is given comes back, without nullability, descriptions and sizes of bytes. *)
Theorem C29_array_round_trip : forall n t x, constructed t -> np_of n t = Ok x -> forall m, n <= m -> of_np m x = Ok (np_stored t).
Proof. exact np_round_trip. Qed.
Print Assumptions C29_array_round_trip.
Example C29_array_round_trip_nonvacuous :
  constructed ex_matrix /\ np_of 3 ex_matrix = Ok (Array [1; 1] (NpFloat F32)) /\
  of_np 3 (Array [1; 1] (NpFloat F32)) = Ok (List (List (Scalar (Float F32) plain) plain) plain).
Proof. split; [exact ex_matrix_constructed|]. split; reflexivity. Qed.

(** Nothing at all is lost exactly if nothing is nullable, described or has a size. *)
Theorem C29_array_lossless : forall t, np_storable t -> (np_stored t = t <-> np_kept t).
Proof. exact np_lossless. Qed.
Print Assumptions C29_array_lossless.
Example C29_array_lossless_nonvacuous : np_storable ex_matrix /\ np_stored ex_matrix <> ex_matrix /\ np_kept (np_stored ex_matrix).
Proof. split; [exists 2, (NpFloat F32); split; [repeat constructor|lia]|]. split; [discriminate|repeat constructor]. Qed.

(** The other way around: arrays of known scalars with at least one row in each dimension, also
    arrays of arrays, can be read, and nothing else ... *)
Theorem C29_array_readable : forall x n, np_depth x <= n -> ((exists t, of_np n x = Ok t) <-> np_readable x).
Proof. exact np_readable_iff. Qed.
Print Assumptions C29_array_readable.
Example C29_array_readable_nonvacuous :
  np_readable (Objects [2] (Array [3; 4] (NpInt B8))) /\ np_depth (Objects [2] (Array [3; 4] (NpInt B8))) <= 4 /\
  of_np 4 (Array [3; 0] (NpInt B8)) = Err IndexError.
Proof. split; [repeat constructor; try discriminate; exists (Scalar (Int B8) plain); constructor|]. split; [cbn; lia|reflexivity]. Qed.

(** ... and the type read has as many Lists as there are dimensions around the same scalar, and
    gives the example of that type again unless there are too many. *)
Theorem C29_array_back : forall n x t, of_np n x = Ok t -> exists k c, dims x k c /\ arrayable k t c /\ np_kept t /\
  forall m, n <= m -> np_of m t = if Nat.leb k 64 then Ok (np_example k c) else Err ValueError.
Proof. exact np_back. Qed.
Print Assumptions C29_array_back.
Example C29_array_back_nonvacuous :
  of_np 4 (Objects [2] (Array [3; 4] (NpInt B8))) = Ok (List (List (List (Scalar (Int B8) plain) plain) plain) plain) /\
  np_of 4 (List (List (List (Scalar (Int B8) plain) plain) plain) plain) = Ok (Array [1; 1; 1] (NpInt B8)).
Proof. split; reflexivity. Qed.

(** pandas accepts exactly scalars, Lists of scalars and Lists or Collections of Structs of
    scalars, and gives an example with a column for each field; otherwise one of the reasons in
    [pd_refused] is given. *)
Theorem C29_frames : forall n t, constructed t -> nesting t <= n ->
  (pd_storable t /\ exists x, pd_example t x /\ pd_of n t = Ok x) \/ (~ pd_storable t /\ exists e, pd_refused t e /\ pd_of n t = Err e).
Proof. exact pd_exists. Qed.
Print Assumptions C29_frames.
Example C29_frames_nonvacuous :
  constructed ex_prices /\ nesting ex_prices <= 3 /\ pd_of 3 ex_prices = Ok ex_frame /\ pd_of 3 ex_matrix = Err TypeError /\
  pd_of 4 (List (Struct anon [($"place", Struct anon [] plain)] plain) plain) = Err ValueError.
Proof. split; [exact ex_prices_constructed|]. split; [cbn; lia|]. split; [reflexivity|]. split; reflexivity. Qed.

(** Missing: Lists and columns of bytes, which do not come back ([C29_bytes_refuted]). All other
    types that are accepted do; Collections come back as Lists. *)
Theorem C29_frame_round_trip_partial : forall n m t x, constructed t -> pd_restorable t -> n <= m -> pd_of n t = Ok x -> of_pd m x = Ok (pd_stored t).
Proof. exact pd_round_trip. Qed.
Print Assumptions C29_frame_round_trip_partial.
Example C29_frame_round_trip_nonvacuous :
  constructed ex_prices /\ pd_restorable ex_prices /\ pd_of 3 ex_prices = Ok ex_frame /\ of_pd 3 ex_frame = Ok ex_prices_back.
Proof. split; [exact ex_prices_constructed|]. split; [exact ex_prices_restorable|]. split; reflexivity. Qed.

(** Nothing at all is lost exactly of the [pd_kept] types. *)
Theorem C29_frame_lossless : forall t, pd_restorable t -> (pd_stored t = t <-> pd_kept t).
Proof. exact pd_lossless. Qed.
Print Assumptions C29_frame_lossless.
Example C29_frame_lossless_nonvacuous : pd_restorable ex_prices /\ pd_stored ex_prices = ex_prices_back /\ pd_kept ex_prices_back /\ pd_stored ex_prices_back = ex_prices_back.
Proof. split; [exact ex_prices_restorable|]. split; [reflexivity|]. split; [apply pk_frame; repeat constructor|reflexivity]. Qed.

(** The types with Lists of bytes are accepted, and what they are converted to is never read. *)
Theorem C29_lost : forall n t x, constructed t -> ~ pd_restorable t -> pd_of n t = Ok x -> forall m u, of_pd m x <> Ok u.
Proof. exact pd_lost. Qed.
Print Assumptions C29_lost.
Example C29_lost_nonvacuous :
  constructed ex_files /\ ~ pd_restorable ex_files /\ pd_of 3 ex_files = Ok (DataFrame [(Name $"name", ColObjects (Some true)); (Name $"content", ColOf NpBytes true)]).
Proof.
  split; [exact ex_files_constructed|]. split; [|reflexivity]. intro R. inversion R as [? c S|e me c S NB|? fields CO F]; subst.
  - inversion S.
  - inversion S.
  - destruct CO as [(? & ? & ? & E)|(? & ? & ? & ? & ? & ? & E)]; [|discriminate E]. injection E as <- <- <- <-. inversion F as [|? ? _ F']; subst. inversion F' as [|? ? [_ NB] _]; subst.
    exact (NB None plain eq_refl).
Qed.
Theorem C29_bytes_refuted : exists t x, constructed t /\ pd_of 3 t = Ok x /\ forall m u, of_pd m x <> Ok u.
Proof.
  exists ex_files. eexists. split; [exact (proj1 C29_lost_nonvacuous)|]. split; [exact (proj2 (proj2 C29_lost_nonvacuous))|].
  exact (pd_lost 3 ex_files _ (proj1 C29_lost_nonvacuous) (proj1 (proj2 C29_lost_nonvacuous)) (proj2 (proj2 C29_lost_nonvacuous))).
Qed.
Print Assumptions C29_bytes_refuted.

(** Reading: a Series has the type of its dtype, or of strings if its first object is one ... *)
Theorem C29_series_readable : forall n c u, of_pd (S (S n)) (Series c) = Ok u <-> exists t, column_type c t /\ u = List t plain.
Proof. exact series_readable. Qed.
Print Assumptions C29_series_readable.
Example C29_series_readable_nonvacuous :
  of_pd 2 (Series (ColOf (NpInt B16) false)) = Ok (List (Scalar (Int B16) plain) plain) /\
  of_pd 2 (Series (ColObjects (Some true))) = Ok (List (Scalar String plain) plain) /\ of_pd 2 (Series (ColObjects None)) = Err IndexError /\
  of_pd 2 (Series (ColObjects (Some false))) = Err NotImplementedError.
Proof. repeat split. Qed.

(** ... and a DataFrame with distinct labels those of its columns, under their names. *)
Theorem C29_frame_readable : forall n cols u, NoDup (map fst cols) -> (of_pd (S (S (S n))) (DataFrame cols) = Ok u <->
  exists fields, Forall2 (fun lc nf => fst lc = Name (fst nf) /\ column_type (snd lc) (snd nf)) cols fields /\ u = List (Struct anon fields plain) plain).
Proof. exact frame_readable. Qed.
Print Assumptions C29_frame_readable.
Example C29_frame_readable_nonvacuous :
  of_pd 3 ex_frame = Ok ex_prices_back /\ of_pd 3 (DataFrame [(OtherLabel $"0", ColOf (NpInt B16) false)]) = Err ValueError.
Proof. split; reflexivity. Qed.

(** A frame in which a label is repeated is never read, however deep the stack. *)
Theorem C29_repeated_labels_refuted : forall n cols u, ~ NoDup (map fst cols) -> of_pd n (DataFrame cols) <> Ok u.
Proof. exact frame_repeated. Qed.
Print Assumptions C29_repeated_labels_refuted.
Example C29_repeated_labels_nonvacuous :
  let cols := [(Name $"a", ColOf (NpInt B8) false); (Name $"b", ColOf (NpInt B8) false); (Name $"a", ColOf (NpInt B8) false)] in
  ~ NoDup (map fst cols) /\ of_pd 50 (DataFrame cols) = Err RecursionError.
Proof. split; [|vm_compute; reflexivity]. intro N. inversion N as [|? ? NI _]; subst. apply NI. cbn. tauto. Qed.

(** NumPy's own system does not say that it has no conversion for pandas' objects, but fails. *)
Theorem C29_array_system_on_frames_refuted : forall n c cols, of_np (S n) (Series c) = Err ValueError /\ of_np (S n) (DataFrame cols) = Err ValueError.
Proof. exact np_frames. Qed.
Print Assumptions C29_array_system_on_frames_refuted.

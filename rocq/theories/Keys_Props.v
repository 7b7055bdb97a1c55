(** The keys of boxes: C11. *)
From Coq Require Import ZArith List Bool Ascii String.
From Verif Require Import Base Str TypedBox_Model TypedBox_Spec TypedBox_Props Keys_Spec Keys_Proofs.
Import ListNotations.
Open Scope list_scope.

(** A dotted key stands for exactly one path: the names between its dots. *)
Theorem C11_dotted : forall key path, parts key = path <-> path <> [] /\ key = dotted path /\ forall p, In p path -> ~ In "."%char p.
Proof. exact parts_dotted. Qed.
Print Assumptions C11_dotted.
Example C11_dotted_nonvacuous : parts $"a.b..c" = [$"a"; $"b"; []; $"c"] /\ parts [] = [[]].
Proof. split; reflexivity. Qed.

(** Nothing in a box has a name with a dot or a leading underscore. *)
Theorem C11_stored_keys : forall V R (cast : list str -> str -> R -> result V) s path n, reachable cast s -> find (Sub (st_data s)) path = Some n ->
  forall p, In p path -> ~ In "."%char p /\ ~ hidden p.
Proof. exact @stored_keys. Qed.
Print Assumptions C11_stored_keys.
Example C11_stored_keys_nonvacuous : exists d, reachable small_cast {| st_status := Open; st_data := d |} /\ find (Sub d) [$"a"; $"b_"] = Some (Leaf 1).
Proof. eexists. split; [exists [($"a.b_", IVal 1)]; eexists; exists []; split; reflexivity|reflexivity]. Qed.

(** Keys with such a part are never found or assigned, on their own they are refused before anything else. *)
Theorem C11_hidden : forall V R (cast : list str -> str -> R -> result V) st (d : list (str * node V)) key, (exists p, In p (parts key) /\ hidden p) ->
  (forall n, snd (getitem st d key) <> Ok n) /\ (forall i, snd (setitem cast st i [] d key) <> Ok tt) /\ snd (contains st d key) <> Ok true.
Proof. exact @hidden_keys. Qed.
Print Assumptions C11_hidden.
Example C11_hidden_nonvacuous : exists p, In p (parts $"a._b") /\ hidden p.
Proof. exists $"_b". split; [right; now left|]. now exists $"b". Qed.
Theorem C11_hidden_name : forall V R (cast : list str -> str -> R -> result V) st (d : list (str * node V)) key, ~ In "."%char key -> hidden key ->
  getitem st d key = (d, Err InvalidKeyError) /\ (forall i, setitem cast st i [] d key = (d, Err InvalidKeyError)) /\
  contains st d key = (d, Err InvalidKeyError).
Proof. exact @hidden_name. Qed.
Print Assumptions C11_hidden_name.
Example C11_hidden_name_nonvacuous : hidden $"_b" /\ ~ In "."%char $"_b".
Proof. split; [now exists $"b"|]. cbn. intuition discriminate. Qed.

(** The keys of [C10_open_lookup_creates] and [C11_membership_iff_stored]: all others. *)
Theorem C11_public : forall key, public key <-> forall p, In p (parts key) -> ~ hidden p.
Proof. exact public_iff. Qed.
Print Assumptions C11_public.
Example C11_public_nonvacuous : public $"a.b" /\ ~ public $"a._b".
Proof.
  split; [intros p [<-|[<-|[]]]; reflexivity|]. intro H. discriminate (H $"_b" (or_intror (or_introl eq_refl))).
Qed.
